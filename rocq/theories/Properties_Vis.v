(** C67: the visuals of the links of a chain. *)
From Coq Require Import Reals Lra String Ascii Bool Arith ZArith Lia List Permutation.
From Verif Require Import Prelude ExtF Tree ChainModel SpecFK ChainProofs Lin Trig RotModel RotBasic ChainInst
  T3dModel LoaderModel LoaderTree MjcfModel RobotModel RobotProofs LoaderProofs LoaderMore SdfProofs MjcfProofs Examples LoaderExamples
  XmlModel XmlSchema XmlProofs XmlWrite XmlRead XmlCheck SpecXml XmlMore XmlNum SpecLoad XmlLoad XmlLoadProofs XmlExamples VisModel SpecVis VisProofs VisExamples.
From Verif Require Import VisFinal.
Import ListNotations.
Local Open Scope nat_scope.
Local Open Scope string_scope.
Local Open Scope list_scope.


(** C67.  Every frame of the chain of a URDF document gets one visual: the first that the link declares, at the pose of its origin
    with roll, pitch and yaw about fixed axes, with the name of its shape and its parameters.  A capsule keeps only the pose, and
    a link without visuals gets an empty one. *)
Theorem C67_urdf_visuals : forall (pf : string -> option R) limit n c, wf_doc n -> snd (load_urdf pf limit n) = inl c ->
  exists vis, snd (load_urdf_visuals pf limit n) = inl vis /\ map fst vis = map f_name (preorder (c_root c)) /\
    forall x w, In (x, w) vis -> exists vs, link_declares (uvisual_says pf) n x vs /\
      match vs with
      | [] => w = [mkVisual None NoType NoParam]
      | v :: _ => exists g ty p, uv_geometry v = Some g /\
          w = [mkVisual (Some (match uv_origin v with
                               | None => I4
                               | Some o => aff (m3mul (rotz (vz (p_rpy o))) (m3mul (roty (vy (p_rpy o))) (rotx (vx (p_rpy o))))) (p_xyz o)
                               end)) ty p] /\
          match g with GCapsule _ _ => ty = NoType /\ p = NoParam | _ => stands_for g ty p end
      end.
Proof. exact l67_urdf_visuals. Qed.
Print Assumptions C67_urdf_visuals.

Example C67_urdf_example : exists vis w, snd (load_urdf_visuals rf 5 vis_urdf_doc) = inl vis /\ map fst vis = ["base"; "arm"; "tip"] /\ In ("tip", w) vis /\
  w = [mkVisual None NoType NoParam].
Proof.
  destruct vis_urdf_loads as (c & Hc & Hn). destruct (C67_urdf_visuals rf 5 vis_urdf_doc c vis_urdf_wf Hc) as (vis & A & B & C). rewrite Hn in B.
  assert (I : In "tip" (map fst vis)) by (rewrite B; simpl; tauto). apply in_map_iff in I as ([x w] & Ex & I). cbn [fst] in Ex. subst x.
  exists vis, w. split; [exact A|]. split; [exact B|]. split; [exact I|]. destruct (C "tip" w I) as (vs & (l1 & k & l2 & E & N & _ & F) & W).
  assert (K : In k (children "link" (kids vis_urdf_doc))) by (rewrite E; apply in_elt). simpl in K.
  destruct K as [<-|[<-|[<-|[]]]]; try discriminate N. inversion F; subst. exact W.
Qed.

(** C67.  So a link with two visuals shows only the first. *)
Theorem C67_first_only_refuted : exists n c vis x vs w, wf_doc n /\ snd (load_urdf rf 5 n) = inl c /\ snd (load_urdf_visuals rf 5 n) = inl vis /\
  link_declares (uvisual_says rf) n x vs /\ length vs = 2 /\ In (x, w) vis /\ length w = 1.
Proof. exact l67_first_only_refuted. Qed.
Print Assumptions C67_first_only_refuted.

(** C67.  The shape of a capsule is lost. *)
Theorem C67_capsule_refuted : exists n c vis x w r l v, wf_doc n /\ snd (load_urdf rf 5 n) = inl c /\ snd (load_urdf_visuals rf 5 n) = inl vis /\
  link_declares (uvisual_says rf) n x [v] /\ uv_geometry v = Some (GCapsule r l) /\ In (x, [w]) vis /\ ~ stands_for (GCapsule r l) (vs_type w) (vs_param w).
Proof. exact l67_capsule_refuted. Qed.
Print Assumptions C67_capsule_refuted.

(** C67.  The type and the parameters determine the shape. *)
Theorem C67_faithful : forall g g' ty p, stands_for g ty p -> stands_for g' ty p -> g = g'.
Proof. exact l67_faithful. Qed.
Print Assumptions C67_faithful.

(** C67.  Every frame of the chain of an SDF document whose links and joints have names gets all visuals of its link, in order.  The
    pose is that of the document with roll and yaw exchanged, as for links (C54), followed by a quarter turn about z for a cylinder; the scale of a
    mesh is lost. *)
Theorem C67_sdf_visuals : forall (pf : string -> option R) limit n m c, wf_doc n -> child "model" n = Some m -> all_named m -> snd (load_sdf pf limit n) = inl c ->
  exists vis, snd (load_sdf_visuals pf limit n) = inl vis /\ map fst vis = map f_name (preorder (c_root c)) /\
    forall x w, In (x, w) vis -> exists vs, link_declares (svisual_says pf) m x vs /\
      Forall2 (fun v u => exists g M, sv_geometry v = Some g /\
        M = match sv_pose v with
            | None => I4
            | Some o => aff (m3mul (rotz (vx (sp_rpy o))) (m3mul (roty (vy (sp_rpy o))) (rotx (vz (sp_rpy o))))) (sp_xyz o)
            end /\
        match g with
        | GMesh f s => u = mkVisual (Some M) (TypeName "mesh") (MeshFile f)
        | GCylinder r l => u = mkVisual (Some (m4mul M (aff (rotz (PI / 2)) vzero))) (TypeName "cylinder") (RadiusLength r l)
        | GCapsule _ _ => False
        | _ => exists ty p, stands_for g ty p /\ u = mkVisual (Some M) ty p
        end) vs w.
Proof. exact l67_sdf_visuals. Qed.
Print Assumptions C67_sdf_visuals.

(** C67.  The quarter turn does not matter: the cylinder occupies the same points. *)
Theorem C67_sdf_cylinder : forall (A : M3) (t : V3) r l p, occupies (m4mul (aff A t) (aff (rotz (PI / 2)) vzero)) (GCylinder r l) p <-> occupies (aff A t) (GCylinder r l) p.
Proof. exact l67_sdf_cylinder. Qed.
Print Assumptions C67_sdf_cylinder.

(** C67.  A mesh shown at twice its size is held like one at its own size. *)
Theorem C67_sdf_scale_refuted : exists n m c vis x v1 v2 w u f s, wf_doc n /\ child "model" n = Some m /\ snd (load_sdf rf 5 n) = inl c /\
  snd (load_sdf_visuals rf 5 n) = inl vis /\ link_declares (svisual_says rf) m x [v1; v2] /\ sv_geometry v2 = Some (GMesh f (Some s)) /\ In (x, [w; u]) vis /\
  ~ stands_for (GMesh f (Some s)) (vs_type u) (vs_param u) /\ sdf_visual (mkSVisual (sv_pose v2) (Some (GMesh f None))) = Ok u.
Proof. exact l67_sdf_scale_refuted. Qed.
Print Assumptions C67_sdf_scale_refuted.

(** C67.  Meshes as SDF writes them, with a [<uri>], and planes are refused. *)
Theorem C67_sdf_shapes_refuted : exists v1 v2, v1 = E "visual" [("name", "v")] [geom (E "mesh" [] [T "uri" "m.stl"])] /\
  v2 = E "visual" [("name", "v")] [geom (E "plane" [] [T "normal" "0 0 1"])] /\
  snd (from_doc zf (classes 0%Z) "sdf.Visual" v1) = inr XParse /\ snd (from_doc zf (classes 0%Z) "sdf.Visual" v2) = inr XExc.
Proof. exact l67_sdf_shapes_refuted. Qed.
Print Assumptions C67_sdf_shapes_refuted.

(** C67.  In a chain made from a MuJoCo model the frame of every body holds the geoms of that body in the order of their ids, each at its position and
    quaternion with its type number and sizes; the frame of a site holds none. *)
Theorem C67_mjcf_visuals : forall (m : mjmodel) (gs : list mgeom) limit a c, build_chain_from_mjcf limit m a = Ok c ->
  exists vis, mjcf_visuals limit m gs a = Ok vis /\
    Forall2 (fun f e =>
      (exists i b, nth_error (mm_bodies m) i = Some b /\ f_name f = mb_name b /\ l_off (f_link f) = Some (aff (quaternion_to_matrix (mb_quat b)) (mb_pos b)) /\
         fst e = mb_name b /\
         snd e = map (fun g => mkVisual (Some (aff (quaternion_to_matrix (mg_quat g)) (mg_pos g))) (TypeCode (mg_type g)) (Sizes (mg_size g)))
                   (filter (fun g => Nat.eqb (mg_bodyid g) i) gs)) \/
      (exists s, In s (mm_sites m) /\ f_name f = ms_name s /\ l_off (f_link f) = Some (aff (quaternion_to_matrix (ms_quat s)) (ms_pos s)) /\ f_children f = [] /\
         e = (ms_name s, []))) (preorder (c_root c)) vis.
Proof. exact l67_mjcf_visuals. Qed.
Print Assumptions C67_mjcf_visuals.

Example C67_mjcf_example : exists vis w, mjcf_visuals 5 vis_mj vis_mj_geoms BodyNone = Ok vis /\ nth_error vis 1 = Some ("arm", w) /\ map vs_type w = [TypeCode 2; TypeCode 6].
Proof.
  destruct vis_mj_loads as (c & Hc & Hn). destruct (C67_mjcf_visuals vis_mj vis_mj_geoms 5 BodyNone c Hc) as (vis & E & F). exists vis.
  destruct (preorder (c_root c)) as [|f0 [|f1 fs]]; try discriminate Hn. inversion F as [|? e0 ? es _ F1]; subst. inversion F1 as [|? e1 ? es1 X F2]; subst.
  cbn [map] in Hn. assert (N : f_name f1 = "arm") by congruence. destruct X as [([|[|i]] & b & X1 & X2 & _ & X3 & X4)|(s & X1 & X2 & _)].
  - cbn in X1. inversion X1; subst b. cbn in X2. congruence.
  - cbn in X1. inversion X1; subst b. exists (snd e1). split; [exact E|]. destruct e1 as [n w]. cbn [fst snd] in *. subst n w. split; reflexivity.
  - cbn in X1. rewrite nth_error_nil in X1 || destruct i; discriminate.
  - cbn in X1. destruct X1 as [<-|[]]. cbn in X2. congruence.
Qed.
