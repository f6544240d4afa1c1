(** Last steps of the proofs quoted in Properties_Vis.v. *)
From Coq Require Import Reals Lra String Ascii Bool Arith ZArith Lia List Permutation.
From Verif Require Import Prelude ExtF Tree ChainModel SpecFK ChainProofs Lin Trig RotModel RotBasic ChainInst
  T3dModel LoaderModel LoaderTree MjcfModel RobotModel RobotProofs LoaderProofs LoaderMore SdfProofs MjcfProofs Examples LoaderExamples
  XmlModel XmlSchema XmlProofs XmlWrite XmlRead XmlCheck SpecXml XmlMore XmlNum SpecLoad XmlLoad XmlLoadProofs XmlExamples VisModel SpecVis VisProofs VisExamples.
Import ListNotations.
Local Open Scope nat_scope.
Local Open Scope string_scope.
Local Open Scope list_scope.

Lemma l67_urdf_visuals : forall (pf : string -> option R) limit n c, wf_doc n -> snd (load_urdf pf limit n) = inl c ->
  exists vis, snd (load_urdf_visuals pf limit n) = inl vis /\ map fst vis = map f_name (preorder (c_root c)) /\
    forall x w, In (x, w) vis -> exists vs, link_declares (uvisual_says pf) n x vs /\
      match vs with
      | [] => w = [mkVisual None NoType NoParam]
      | v :: _ => exists g ty p, uv_geometry v = Some g /\
          w = [mkVisual (Some (match uv_origin v with
                               | None => I4
                               | Some o => aff (m3mul (rotz (vz (p_rpy o))) (m3mul (roty (vy (p_rpy o))) (rotx (vx (p_rpy o))))) (p_xyz o)
                               end)) ty p] /\
          match g with GCapsule _ _ => ty = NoType /\ p = NoParam | _ => stands_for g ty p end
      end.
Proof.
  intros pf limit n c WD H. destruct (urdf_visuals pf limit n c WD H) as (vis & A & B & C). exists vis. split; [exact A|]. split; [exact B|].
  intros x w Hx. destruct (C x w Hx) as (vs & D & W). exists vs. split; [exact D|]. unfold urdf_link_visuals in W. destruct vs as [|[o g] vs].
  - cbn [hd_error urdf_visual rbind] in W. inversion W. reflexivity.
  - destruct D as (l1 & k & l2 & _ & _ & _ & F). inversion F as [|? ? ? ? [_ (x1 & x2 & g' & _ & _ & _ & G)] _]; subst. cbn [uv_geometry] in G. subst g.
    cbn [hd_error] in W. rewrite urdf_visual_some in W. cbn [rbind] in W. cbn [uv_geometry uv_origin].
    assert (EM : urdf_origin o = match o with
                               | None => I4
                               | Some o => aff (m3mul (rotz (vz (p_rpy o))) (m3mul (roty (vy (p_rpy o))) (rotx (vx (p_rpy o))))) (p_xyz o)
                               end) by (destruct o; reflexivity).
    rewrite <- EM. exists g'. destruct g'; (eexists; eexists; split; [reflexivity|]; split; [inversion W as [W']; reflexivity|]); try constructor; reflexivity.
Qed.

Lemma l67_first_only_refuted : exists n c vis x vs w, wf_doc n /\ snd (load_urdf rf 5 n) = inl c /\ snd (load_urdf_visuals rf 5 n) = inl vis /\
  link_declares (uvisual_says rf) n x vs /\ length vs = 2 /\ In (x, w) vis /\ length w = 1.
Proof.
  destruct vis_urdf_loads as (c & Hc & Hn). destruct (l67_urdf_visuals rf 5 vis_urdf_doc c vis_urdf_wf Hc) as (vis & A & B & C). rewrite Hn in B.
  assert (I : In "base" (map fst vis)) by (rewrite B; simpl; tauto). apply in_map_iff in I as ([x w] & Ex & I). cbn [fst] in Ex. subst x.
  destruct (C "base" w I) as (vs & D & W).
  exists vis_urdf_doc, c, vis, "base", vs, w. split; [exact vis_urdf_wf|]. split; [exact Hc|]. split; [exact A|]. split; [exact D|].
  destruct D as (l1 & k & l2 & E & N & _ & F). assert (K : In k (children "link" (kids vis_urdf_doc))) by (rewrite E; apply in_elt). simpl in K.
  destruct K as [<-|[<-|[<-|[]]]]; try discriminate N. apply Forall2_len in F. cbn in F. split; [congruence|]. split; [exact I|].
  destruct vs as [|v vs]; [discriminate F|]. destruct W as (g & ty & p & _ & -> & _). reflexivity.
Qed.

Lemma l67_capsule_refuted : exists n c vis x w r l v, wf_doc n /\ snd (load_urdf rf 5 n) = inl c /\ snd (load_urdf_visuals rf 5 n) = inl vis /\
  link_declares (uvisual_says rf) n x [v] /\ uv_geometry v = Some (GCapsule r l) /\ In (x, [w]) vis /\ ~ stands_for (GCapsule r l) (vs_type w) (vs_param w).
Proof.
  destruct vis_urdf_loads as (c & Hc & Hn). destruct (l67_urdf_visuals rf 5 vis_urdf_doc c vis_urdf_wf Hc) as (vis & A & B & C). rewrite Hn in B.
  assert (I : In "arm" (map fst vis)) by (rewrite B; simpl; tauto). apply in_map_iff in I as ([x w] & Ex & I). cbn [fst] in Ex. subst x.
  destruct (C "arm" w I) as (vs & D & W). pose proof D as D'.
  destruct D' as (l1 & k & l2 & E & N & _ & F). assert (K : In k (children "link" (kids vis_urdf_doc))) by (rewrite E; apply in_elt). simpl in K.
  destruct K as [<-|[<-|[<-|[]]]]; try discriminate N. pose proof (Forall2_len _ _ _ F) as FL. cbn in FL. destruct vs as [|v [|v2 vs]]; try discriminate FL.
  inversion F as [|? ? ? ? [_ (g1 & k1 & g & G1 & G2 & G3 & G4)] _]; subst. cbn in G1. inversion G1; subst g1. cbn in G2. inversion G2; subst k1. clear G1 G2.
  assert (X : exists r l, g = GCapsule r l) by (destruct g; try (destruct G3 as [G3 _]; discriminate G3); eauto). destruct X as (r & l & ->).
  destruct W as (g & ty & p & Hg & -> & Hs). rewrite G4 in Hg. inversion Hg; subst g. destruct Hs as [-> ->].
  exists vis_urdf_doc, c, vis, "arm". eexists. exists r, l, v. split; [exact vis_urdf_wf|]. split; [exact Hc|]. split; [exact A|]. split; [exact D|].
  split; [exact G4|]. split; [exact I|]. cbn [vs_type vs_param]. intros X. inversion X.
Qed.

Lemma l67_faithful : forall g g' ty p, stands_for g ty p -> stands_for g' ty p -> g = g'.
Proof. intros g g' ty p H H'. inversion H; subst; inversion H'; subst; try reflexivity; try discriminate. Qed.

Lemma l67_sdf_visuals : forall (pf : string -> option R) limit n m c, wf_doc n -> child "model" n = Some m -> all_named m -> snd (load_sdf pf limit n) = inl c ->
  exists vis, snd (load_sdf_visuals pf limit n) = inl vis /\ map fst vis = map f_name (preorder (c_root c)) /\
    forall x w, In (x, w) vis -> exists vs, link_declares (svisual_says pf) m x vs /\
      Forall2 (fun v u => exists g M, sv_geometry v = Some g /\
        M = match sv_pose v with
            | None => I4
            | Some o => aff (m3mul (rotz (vx (sp_rpy o))) (m3mul (roty (vy (sp_rpy o))) (rotx (vz (sp_rpy o))))) (sp_xyz o)
            end /\
        match g with
        | GMesh f s => u = mkVisual (Some M) (TypeName "mesh") (MeshFile f)
        | GCylinder r l => u = mkVisual (Some (m4mul M (aff (rotz (PI / 2)) vzero))) (TypeName "cylinder") (RadiusLength r l)
        | GCapsule _ _ => False
        | _ => exists ty p, stands_for g ty p /\ u = mkVisual (Some M) ty p
        end) vs w.
Proof.
  intros pf limit n m c WD Hm AN H. destruct (sdf_visuals pf limit n m c WD Hm AN H) as (vis & A & B & C). exists vis. split; [exact A|]. split; [exact B|].
  intros x w Hx. destruct (C x w Hx) as (vs & D & W). exists vs. split; [exact D|]. destruct D as (l1 & k & l2 & _ & _ & _ & F). apply rmap_forall2 in W.
  assert (HG : forall v, In v vs -> exists g, sv_geometry v = Some g /\ match g with GCapsule _ _ => False | _ => True end).
  { intros v Hv. destruct (forall2_in_r _ _ _ _ F Hv) as (kv & _ & _ & (x1 & x2 & g & _ & _ & G & E)). exists g. split; [exact E|]. destruct g; try exact I. exact G. }
  clear - W HG. induction W as [|v u vs w Hu W IH]; [constructor|]. constructor; [|apply IH; intros; apply HG; right; assumption].
  destruct (HG v (or_introl eq_refl)) as (g & Eg & Hg). rewrite sdf_visual_ok, Eg in Hu. exists g. eexists. split; [exact Eg|]. split; [reflexivity|].
  assert (EM : swapped_pose (sv_pose v) = match sv_pose v with
            | None => I4
            | Some o => aff (m3mul (rotz (vx (sp_rpy o))) (m3mul (roty (vy (sp_rpy o))) (rotx (vz (sp_rpy o))))) (sp_xyz o)
            end) by (destruct (sv_pose v); reflexivity).
  assert (EZ : zturn = aff (rotz (PI / 2)) vzero) by (unfold zturn, rotz; rewrite cos_PI2, sin_PI2; reflexivity).
  rewrite <- EM. destruct g; try contradiction; try rewrite EZ in Hu; assert (Eu := f_equal (fun r => match r with Ok a => a | Err _ => u end) Hu); cbn beta iota in Eu;
    try (symmetry; exact Eu); eexists; eexists; (split; [constructor | symmetry; exact Eu]).
Qed.

Lemma l67_sdf_cylinder : forall (A : M3) (t : V3) r l p, occupies (m4mul (aff A t) (aff (rotz (PI / 2)) vzero)) (GCylinder r l) p <-> occupies (aff A t) (GCylinder r l) p.
Proof.
  intros A t r l p. assert (EZ : zturn = aff (rotz (PI / 2)) vzero) by (unfold zturn, rotz; rewrite cos_PI2, sin_PI2; reflexivity). rewrite <- EZ.
  assert (HM : forall q, vadd (m3vec (rotp (m4mul (aff A t) zturn)) q) (trp (m4mul (aff A t) zturn)) =
    vadd (m3vec A (vadd (m3vec (rotp zturn) q) (trp zturn))) t).
  { intros q. unfold zturn. rewrite aff_mul, !rotp_aff, !trp_aff. unfold m3vec, vadd, m3mul, vzero. cbn [m00 m01 m02 m10 m11 m12 m20 m21 m22 vx vy vz].
    apply mkV3_eq; ring. }
  unfold occupies. split.
  - intros (q & I & ->). exists (vadd (m3vec (rotp zturn) q) (trp zturn)). split; [apply zturn_inside; exists q; auto|]. rewrite HM, rotp_aff, trp_aff. reflexivity.
  - intros (q & I & ->). apply zturn_inside in I as (q' & I & ->). exists q'. split; [exact I|]. rewrite HM, rotp_aff, trp_aff. reflexivity.
Qed.

Lemma l67_sdf_scale_refuted : exists n m c vis x v1 v2 w u f s, wf_doc n /\ child "model" n = Some m /\ snd (load_sdf rf 5 n) = inl c /\
  snd (load_sdf_visuals rf 5 n) = inl vis /\ link_declares (svisual_says rf) m x [v1; v2] /\ sv_geometry v2 = Some (GMesh f (Some s)) /\ In (x, [w; u]) vis /\
  ~ stands_for (GMesh f (Some s)) (vs_type u) (vs_param u) /\ sdf_visual (mkSVisual (sv_pose v2) (Some (GMesh f None))) = Ok u.
Proof.
  destruct vis_sdf_loads as (c & Hc & Hn). destruct vis_sdf_model as (m & Hm & AN).
  destruct (l67_sdf_visuals rf 5 vis_sdf_doc m c vis_sdf_wf Hm AN Hc) as (vis & A & B & C). rewrite Hn in B.
  assert (I : In "a" (map fst vis)) by (rewrite B; simpl; tauto). apply in_map_iff in I as ([x w] & Ex & I). cbn [fst] in Ex. subst x.
  destruct (C "a" w I) as (vs & D & W). pose proof D as D'. pose proof Hm as Hm'. cbn in Hm'. inversion Hm'; subst m. clear Hm'.
  destruct D' as (l1 & k & l2 & E & N & _ & F).
  match type of E with children "link" (kids ?m) = _ => assert (K : In k (children "link" (kids m))) by (rewrite E; apply in_elt) end. simpl in K.
  destruct K as [<-|[<-|[]]]; try discriminate N. pose proof (Forall2_len _ _ _ F) as FL. cbn in FL. destruct vs as [|v1 [|v2 [|]]]; try discriminate FL.
  inversion F as [|? ? ? ? _ F2]; subst. inversion F2 as [|? ? ? ? [_ (g1 & k1 & g & G1 & G2 & G3 & G4)] _]; subst. cbn in G1. inversion G1; subst g1. cbn in G2. inversion G2; subst k1. clear G1 G2.
  assert (X : exists f s, g = GMesh f (Some s)).
  { destruct g as [| | |f s|]; try (destruct G3 as [G3 _]; discriminate G3); try contradiction. destruct G3 as (_ & _ & G3). cbn in G3. destruct s; [eauto | contradiction]. }
  destruct X as (f & s & ->). inversion W as [|? w1 ? ws W1 W2]; subst. inversion W2 as [|? u ? ws' (g & M & Hg & HM & Hu) W3]; subst. inversion W3; subst.
  rewrite G4 in Hg. inversion Hg; subst g. cbn beta iota in Hu.
  exists vis_sdf_doc. eexists. exists c, vis, "a", v1, v2, w1, u, f, s. split; [exact vis_sdf_wf|]. split; [exact Hm|]. split; [exact Hc|]. split; [exact A|]. split; [exact D|].
  split; [exact G4|]. split; [exact I|]. rewrite Hu. split; [cbn [vs_type vs_param]; intros X; inversion X|]. rewrite sdf_visual_ok. cbn [sv_geometry sv_pose]. destruct (sv_pose v2); reflexivity.
Qed.

Lemma l67_sdf_shapes_refuted : exists v1 v2, v1 = E "visual" [("name", "v")] [geom (E "mesh" [] [T "uri" "m.stl"])] /\
  v2 = E "visual" [("name", "v")] [geom (E "plane" [] [T "normal" "0 0 1"])] /\
  snd (from_doc zf (classes 0%Z) "sdf.Visual" v1) = inr XParse /\ snd (from_doc zf (classes 0%Z) "sdf.Visual" v2) = inr XExc.
Proof. eexists. eexists. split; [reflexivity|]. split; [reflexivity|]. split; reflexivity. Qed.

Lemma l67_mjcf_visuals : forall (m : mjmodel) (gs : list mgeom) limit a c, build_chain_from_mjcf limit m a = Ok c ->
  exists vis, mjcf_visuals limit m gs a = Ok vis /\
    Forall2 (fun f e =>
      (exists i b, nth_error (mm_bodies m) i = Some b /\ f_name f = mb_name b /\ l_off (f_link f) = Some (aff (quaternion_to_matrix (mb_quat b)) (mb_pos b)) /\
         fst e = mb_name b /\
         snd e = map (fun g => mkVisual (Some (aff (quaternion_to_matrix (mg_quat g)) (mg_pos g))) (TypeCode (mg_type g)) (Sizes (mg_size g)))
                   (filter (fun g => Nat.eqb (mg_bodyid g) i) gs)) \/
      (exists s, In s (mm_sites m) /\ f_name f = ms_name s /\ l_off (f_link f) = Some (aff (quaternion_to_matrix (ms_quat s)) (ms_pos s)) /\ f_children f = [] /\
         e = (ms_name s, []))) (preorder (c_root c)) vis.
Proof.
  intros m gs limit a c H. destruct (mj_visuals m gs limit a c H) as (vis & E & F). exists vis. split; [exact E|]. eapply Forall2_impl; [|exact F]. cbn beta.
  intros f e [(i & b & X1 & X2 & X3 & X4)|(s & X1 & X2 & X3 & X4 & X5)].
  - left. exists i, b. subst e. cbn [fst snd]. auto.
  - right. exists s. auto.
Qed.
