(** The visuals of the frames are those the links declare. *)
From Coq Require Import Reals Lra String Ascii Bool Arith Lia List.
From Verif Require Import Prelude ExtF Tree SpecFK ChainModel ChainProofs Lin Trig RotModel RotBasic RotFinal T3dModel T3dProofs ChainInst LoaderModel LoaderTree
  LoaderProofs LoaderMore SdfProofs MjcfModel MjcfProofs RobotModel RobotProofs XmlModel XmlSchema XmlProofs XmlWrite XmlRead XmlCheck SpecXml XmlMore SpecLoad XmlLoad
  XmlLoadProofs VisModel SpecVis.
Import ListNotations.
Local Open Scope nat_scope.
Local Open Scope string_scope.
Local Open Scope list_scope.

(** ** Single visuals *)
Lemma urdf_visual_some o g : urdf_visual (Some (mkUVisual o (Some g))) =
  Ok (match g with
      | GMesh f s => mkVisual (Some (urdf_origin o)) (TypeName "mesh") (MeshScaled f s)
      | GCylinder r l => mkVisual (Some (urdf_origin o)) (TypeName "cylinder") (RadiusLength r l)
      | GBox s => mkVisual (Some (urdf_origin o)) (TypeName "box") (Size s)
      | GSphere r => mkVisual (Some (urdf_origin o)) (TypeName "sphere") (Radius r)
      | GCapsule _ _ => mkVisual (Some (urdf_origin o)) NoType NoParam
      end).
Proof. unfold urdf_visual. rewrite urdf_transform_ok. reflexivity. Qed.
Lemma urdf_visual_total v : exists u, urdf_visual v = Ok u.
Proof. destruct v as [[o [g|]]|]; [rewrite urdf_visual_some|..]; eexists; reflexivity. Qed.

(** a quarter turn about z *)
Definition zturn : M4 := aff (mkM3 0 (-1) 0 1 0 0 0 0 1) vzero.
Lemma quarter : (do A <- euler_angles_to_matrix (mkV3 (PI / 2) 0 0) "ZYX"; transform3d_init (MNone 1) PosNone (RotM A)) = Ok (mkT KBase [zturn]).
Proof.
  assert (HA : euler_angles_to_matrix (mkV3 (PI / 2) 0 0) "ZYX" = Ok (m3mul (m3mul (rotz (PI / 2)) (roty 0)) (rotx 0))) by reflexivity.
  rewrite HA. assert (HR : m3mul (m3mul (rotz (PI / 2)) (roty 0)) (rotx 0) = mkM3 0 (-1) 0 1 0 0 0 0 1).
  { unfold rotz, roty, rotx. rewrite cos_PI2, sin_PI2, cos_0, sin_0. unfold m3mul. cbn [m00 m01 m02 m10 m11 m12 m20 m21 m22]. apply mkM3_eq; ring. }
  rewrite HR. reflexivity.
Qed.
Lemma sdf_visual_ok v : sdf_visual v = Ok (match sv_geometry v with
  | Some (GMesh f _) => mkVisual (Some (swapped_pose (sv_pose v))) (TypeName "mesh") (MeshFile f)
  | Some (GCylinder r l) => mkVisual (Some (m4mul (swapped_pose (sv_pose v)) zturn)) (TypeName "cylinder") (RadiusLength r l)
  | Some (GBox s) => mkVisual (Some (swapped_pose (sv_pose v))) (TypeName "box") (Size s)
  | Some (GSphere r) => mkVisual (Some (swapped_pose (sv_pose v))) (TypeName "sphere") (Radius r)
  | _ => mkVisual (Some (swapped_pose (sv_pose v))) NoType NoParam
  end).
Proof.
  unfold sdf_visual. rewrite sdf_transform_ok. cbn [rbind]. destruct (sv_geometry v) as [[| | | |]|]; try reflexivity.
  pose proof quarter as Hq. apply rbind_ok in Hq as (A & HA & Hq). rewrite HA. cbn [rbind]. rewrite Hq. cbn [rbind]. reflexivity.
Qed.
(** the quarter turn does not move a cylinder *)
Lemma zturn_inside r l p : inside (GCylinder r l) p <-> exists q, inside (GCylinder r l) q /\ p = vadd (m3vec (rotp zturn) q) (trp zturn).
Proof.
  unfold zturn. rewrite rotp_aff, trp_aff. destruct p as [x y z]. split.
  - intros [H1 H2]. cbn [vx vy vz] in *. exists (mkV3 y (- x) z). split.
    + split; cbn [vx vy vz]; [lra | exact H2].
    + unfold m3vec, vadd, vzero. cbn [m00 m01 m02 m10 m11 m12 m20 m21 m22 vx vy vz]. apply mkV3_eq; ring.
  - intros ([a b c] & [H1 H2] & E). cbn [vx vy vz] in *. unfold m3vec, vadd, vzero in E. cbn [m00 m01 m02 m10 m11 m12 m20 m21 m22 vx vy vz] in E.
    pose proof (f_equal vx E) as E1. pose proof (f_equal vy E) as E2. pose proof (f_equal vz E) as E3. cbn [vx vy vz] in *.
    split; cbn [vx vy vz].
    + replace x with (- b)%R by lra. replace y with a by lra. lra.
    + replace z with c by lra. exact H2.
Qed.

(** ** Names of built frames are in the link map *)
Lemma build_names {J} (par chi : J -> string) mk joints (P : string -> Prop) limit : forall name cs,
  (forall j lj, In j joints -> mk j = Ok lj -> P (chi j)) -> build_rec par chi mk joints limit name = Ok cs ->
  forall f, In f (flat_map preorder cs) -> P (f_name f).
Proof.
  induction limit as [|n IH]; intros name cs HP H f Hf; [discriminate|]. cbn [build_rec] in H. apply rmap_forall2 in H.
  apply in_flat_map in Hf as (c & Hc & Hf). destruct (forall2_in_r _ _ _ _ H Hc) as (j & Hj & Hm).
  apply rbind_ok in Hm as (lj & Hlj & Hm). apply rbind_ok in Hm as (ccs & Hcs & Hm). inversion Hm; subst c. apply filter_In in Hj as [Hj _].
  destruct Hf as [<-|Hf]; [eapply HP; eassumption|]. eapply IH; [exact HP | exact Hcs | exact Hf].
Qed.

(** ** Reading geometry *)
Section Docs.
Variable pf : string -> option R.
Notation cls := (classes 0%R).
Notation read := (from_xml pf cls).
Notation vector3 := (TVec (Some 3)).

Lemma obj_class cname c n v : cls cname = Some c -> wf_doc n -> ok (read n (TObj cname)) v -> exists fs o, v = VObj cname fs o.
Proof.
  intros Hc WD H. destruct n as [tag attrs text ks|]; [|apply ok_fail1 in H; contradiction].
  apply (object_spec pf cls nice_all cname c) in H; [|exact Hc | apply WD]. destruct H as (fs & order & -> & _). eauto.
Qed.
Lemma agg_field cname c n v t ty : cls cname = Some c -> wf_doc n -> In (aggr t ty) (cl_params c) -> ok (read n (TObj cname)) v ->
  exists l, fld v (t ++ "s")%string = Some (VList l) /\ Forall2 (fun k w => ok (read k ty) w) (children t (kids n)) l.
Proof.
  intros Hc WD Hp H. destruct n as [tag attrs text ks|]; [|apply ok_fail1 in H; contradiction].
  apply (object_spec pf cls nice_all cname c) in H; [|exact Hc | apply WD]. destruct H as (fs & order & -> & O1 & _).
  destruct (O1 _ Hp) as (w & Hw & (l & -> & F)). exists l. split; [exact Hw | exact F].
Qed.
Section One.
Variables (cname : string) (c : class R) (n : node) (v : value R).
Hypotheses (Hc : cls cname = Some c) (WD : wf_doc n) (H : ok (read n (TObj cname)) v).
Lemma f_vec a : In (attr a vector3 true VNone) (cl_params c) -> exists s x, attribute a n = Some s /\ vec3 pf s x /\ fld v a = Some (VVec [vx x; vy x; vz x]).
Proof.
  intros Hp. destruct (field_of pf _ _ _ _ _ Hc WD Hp H) as (w & Hw & F). cbn [pr_kind pr_xml pr_type pr_req pr_var attr] in *.
  destruct (attribute a n) as [s|]; [|destruct F; discriminate]. apply text_vec3_inv in F as (x & -> & X). eauto.
Qed.
Lemma f_vec_maybe a : In (attr a vector3 false VNone) (cl_params c) -> exists o, vec3_maybe pf a n o /\ obind (fld v a) (optional as_vec3) = Some o.
Proof.
  intros Hp. destruct (field_of pf _ _ _ _ _ Hc WD Hp H) as (w & Hw & F). cbn [pr_kind pr_xml pr_type pr_req pr_var pr_default attr] in *.
  rewrite Hw. unfold vec3_maybe. destruct (attribute a n) as [s|].
  - apply text_vec3_inv in F as (x & -> & X). exists (Some x). split; [exact X|]. destruct x; reflexivity.
  - destruct F as [_ ->]. exists None. split; [exact I | reflexivity].
Qed.
Lemma f_text_num t : In (elem t TFloat true) (cl_params c) -> exists x, num_child pf t n x /\ fld v t = Some (VNum x).
Proof.
  intros Hp. destruct (f_elem pf _ _ _ _ Hc WD H _ _ Hp) as (k & w & A & B & C). destruct (num_leaf pf k w B) as (x & D & X).
  exists x. split; [exists k; auto|]. rewrite C. destruct w; try discriminate. cbn [as_num] in D. congruence.
Qed.
Lemma f_text_vec t : In (elem t vector3 true) (cl_params c) -> exists k x, child t n = Some k /\ text_vec3 pf k x /\ fld v t = Some (VVec [vx x; vy x; vz x]).
Proof.
  intros Hp. destruct (f_elem pf _ _ _ _ Hc WD H _ _ Hp) as (k & w & A & B & C). apply leaf_read in B; [|reflexivity].
  apply vec3_inv in B as (s & x & E & X & ->). exists k, x. split; [exact A|]. split; [exists s; auto | exact C].
Qed.
Lemma f_text_str t : In (elem t TStr true) (cl_params c) -> exists s, text_named t n s /\ fld v t = Some (VStr s).
Proof.
  intros Hp. destruct (f_elem pf _ _ _ _ Hc WD H _ _ Hp) as (k & w & A & B & C). apply leaf_read in B; [|reflexivity]. apply str_inv in B.
  subst w. eexists. split; [exists k; split; [exact A | reflexivity] | exact C].
Qed.
End One.

Lemma elements_in x k : elements (kids x) = [k] -> In k (kids x).
Proof. intros H. assert (I : In k (elements (kids x))) by (rewrite H; left; reflexivity). apply filter_In in I. apply I. Qed.
Lemma kid_wf x k : wf_doc x -> In k (kids x) -> wf_doc k.
Proof. intros W H. destruct x; [eapply wf_doc_kids; eassumption | contradiction]. Qed.
(** the class of the element inside a geometry *)
Lemma geom_split tab x w : wf_doc x -> ok (read x (TGeom tab)) w ->
  exists k t c, elements (kids x) = [k] /\ has_tag t k = true /\ dget String.eqb t tab = Some c /\ wf_doc k /\ ok (read k (TObj c)) w.
Proof.
  intros WD H. destruct x as [tag attrs text ks|]; [|apply ok_fail1 in H; contradiction]. apply (geometry_spec pf cls) in H as (t & a & y & l & c & E & T & R).
  exists (Node t a y l), t, c. cbn [kids has_tag]. split; [exact E|]. split; [apply String.eqb_refl|]. split; [exact T|]. split; [|exact R].
  eapply kid_wf; [exact WD | apply elements_in, E].
Qed.
Ltac use_class nm := assert (X : exists d, cls nm = Some d) by (eexists; reflexivity); destruct X as [d Hd].
Lemma ugeom_read x w : wf_doc x -> ok (read x urdf_geometric) w ->
  exists k g, elements (kids x) = [k] /\ ushape_says pf k g /\ as_geometry "urdf." w = Some g.
Proof.
  intros WD H. apply geom_split in H as (k & t & c & E & T & D & WK & R); [|exact WD]. exists k. cbn [dget] in D.
  destruct (String.eqb_spec t "box") as [->|N1].
  { inversion D; subst c. assert (Y : exists d, cls "urdf.Box" = Some d /\ In (attr "size" vector3 true VNone) (cl_params d)) by (eexists; split; [reflexivity | simpl; tauto]).
    destruct Y as (d & Hd & P). destruct (f_vec _ _ _ _ Hd WK R _ P) as (s & x3 & A & V & F).
    destruct (obj_class _ _ _ _ Hd WK R) as (fs & o & ->). exists (GBox x3). split; [exact E|]. split; [split; [exact T | eauto]|].
    unfold as_geometry. cbn [append String.eqb Ascii.eqb Bool.eqb]. rewrite F. destruct x3; reflexivity. }
  destruct (String.eqb_spec t "cylinder") as [->|N2].
  { inversion D; subst c. assert (Y : exists d, cls "urdf.Cylinder" = Some d /\ In (attr "radius" TFloat true VNone) (cl_params d) /\ In (attr "length" TFloat true VNone) (cl_params d)) by (eexists; split; [reflexivity | simpl; tauto]).
    destruct Y as (d & Hd & P & Q). destruct (f_num pf _ _ _ _ Hd WK R _ P) as (s1 & x1 & A1 & V1 & F1), (f_num pf _ _ _ _ Hd WK R _ Q) as (s2 & x2 & A2 & V2 & F2).
    destruct (obj_class _ _ _ _ Hd WK R) as (fs & o & ->). exists (GCylinder x1 x2). split; [exact E|].
    split; [split; [exact T | split; [exists s1 | exists s2]; auto]|].
    unfold as_geometry. cbn [append String.eqb Ascii.eqb Bool.eqb]. rewrite F1, F2. reflexivity. }
  destruct (String.eqb_spec t "sphere") as [->|N3].
  { inversion D; subst c. assert (Y : exists d, cls "urdf.Sphere" = Some d /\ In (attr "radius" TFloat true VNone) (cl_params d)) by (eexists; split; [reflexivity | simpl; tauto]).
    destruct Y as (d & Hd & P). destruct (f_num pf _ _ _ _ Hd WK R _ P) as (s1 & x1 & A1 & V1 & F1).
    destruct (obj_class _ _ _ _ Hd WK R) as (fs & o & ->). exists (GSphere x1). split; [exact E|].
    split; [split; [exact T | exists s1; auto]|].
    unfold as_geometry. cbn [append String.eqb Ascii.eqb Bool.eqb]. rewrite F1. reflexivity. }
  destruct (String.eqb_spec t "mesh") as [->|N4].
  { inversion D; subst c. assert (Y : exists d, cls "urdf.Mesh" = Some d /\ In (attr "filename" TStr true VNone) (cl_params d) /\ In (attr "scale" vector3 false VNone) (cl_params d)) by (eexists; split; [reflexivity | simpl; tauto]).
    destruct Y as (d & Hd & P & Q). destruct (f_str pf _ _ _ _ Hd WK R _ P) as (s1 & A1 & F1), (f_vec_maybe _ _ _ _ Hd WK R _ Q) as (o2 & V2 & F2).
    destruct (obj_class _ _ _ _ Hd WK R) as (fs & o & ->). exists (GMesh s1 o2). split; [exact E|].
    split; [split; [exact T | auto]|].
    unfold as_geometry. cbn [append String.eqb Ascii.eqb Bool.eqb]. rewrite F1. cbn [obind as_str]. rewrite F2. reflexivity. }
  destruct (String.eqb_spec t "capsule") as [->|N5]; [|discriminate].
  inversion D; subst c. assert (Y : exists d, cls "urdf.Capsule" = Some d /\ In (attr "radius" TFloat true VNone) (cl_params d) /\ In (attr "length" TFloat true VNone) (cl_params d)) by (eexists; split; [reflexivity | simpl; tauto]).
  destruct Y as (d & Hd & P & Q). destruct (f_num pf _ _ _ _ Hd WK R _ P) as (s1 & x1 & A1 & V1 & F1), (f_num pf _ _ _ _ Hd WK R _ Q) as (s2 & x2 & A2 & V2 & F2).
  destruct (obj_class _ _ _ _ Hd WK R) as (fs & o & ->). exists (GCapsule x1 x2). split; [exact E|].
  split; [split; [exact T | split; [exists s1 | exists s2]; auto]|].
  unfold as_geometry. cbn [append String.eqb Ascii.eqb Bool.eqb]. rewrite F1, F2. reflexivity.
Qed.
Lemma sgeom_read x w : wf_doc x -> ok (read x sdf_geometric) w ->
  exists k g, elements (kids x) = [k] /\ sshape_says pf k g /\ as_geometry "sdf." w = Some g.
Proof.
  intros WD H. apply geom_split in H as (k & t & c & E & T & D & WK & R); [|exact WD]. exists k. cbn [dget] in D.
  destruct (String.eqb_spec t "box") as [->|N1].
  { inversion D; subst c. assert (Y : exists d, cls "sdf.Box" = Some d /\ In (elem "size" vector3 true) (cl_params d)) by (eexists; split; [reflexivity | simpl; tauto]).
    destruct Y as (d & Hd & P). destruct (f_text_vec _ _ _ _ Hd WK R _ P) as (s & x3 & A & V & F).
    destruct (obj_class _ _ _ _ Hd WK R) as (fs & o & ->). exists (GBox x3). split; [exact E|]. split; [split; [exact T | eauto]|].
    unfold as_geometry. cbn [append String.eqb Ascii.eqb Bool.eqb]. rewrite F. destruct x3; reflexivity. }
  destruct (String.eqb_spec t "cylinder") as [->|N2].
  { inversion D; subst c. assert (Y : exists d, cls "sdf.Cylinder" = Some d /\ In (elem "radius" TFloat true) (cl_params d) /\ In (elem "length" TFloat true) (cl_params d)) by (eexists; split; [reflexivity | simpl; tauto]).
    destruct Y as (d & Hd & P & Q). destruct (f_text_num _ _ _ _ Hd WK R _ P) as (x1 & V1 & F1), (f_text_num _ _ _ _ Hd WK R _ Q) as (x2 & V2 & F2).
    destruct (obj_class _ _ _ _ Hd WK R) as (fs & o & ->). exists (GCylinder x1 x2). split; [exact E|].
    split; [split; [exact T | split; assumption]|].
    unfold as_geometry. cbn [append String.eqb Ascii.eqb Bool.eqb]. rewrite F1, F2. reflexivity. }
  destruct (String.eqb_spec t "sphere") as [->|N3].
  { inversion D; subst c. assert (Y : exists d, cls "sdf.Sphere" = Some d /\ In (elem "radius" TFloat true) (cl_params d)) by (eexists; split; [reflexivity | simpl; tauto]).
    destruct Y as (d & Hd & P). destruct (f_text_num _ _ _ _ Hd WK R _ P) as (x1 & V1 & F1).
    destruct (obj_class _ _ _ _ Hd WK R) as (fs & o & ->). exists (GSphere x1). split; [exact E|].
    split; [split; [exact T | exact V1]|].
    unfold as_geometry. cbn [append String.eqb Ascii.eqb Bool.eqb]. rewrite F1. reflexivity. }
  destruct (String.eqb_spec t "mesh") as [->|N4]; [|discriminate].
  inversion D; subst c. assert (Y : exists d, cls "sdf.Mesh" = Some d /\ In (elem "filename" TStr true) (cl_params d) /\ In (elem "scale" vector3 false) (cl_params d)) by (eexists; split; [reflexivity | simpl; tauto]).
  destruct Y as (d & Hd & P & Q). destruct (f_text_str _ _ _ _ Hd WK R _ P) as (s1 & A1 & F1).
  destruct (maybe_read pf as_vec3 (text_vec3 pf) vector3 k "scale" w WK) as (o2 & F2 & V2).
  { intros q u _ Hu. apply leaf_read in Hu; [|reflexivity]. apply vec3_inv in Hu as (s & y & Es & Ey & ->). exists y. split; [destruct y; reflexivity | exists s; auto]. }
  { apply (f_elem_opt pf _ _ _ _ Hd WK R _ _ Q). }
  destruct (obj_class _ _ _ _ Hd WK R) as (fs & o & ->). exists (GMesh s1 o2). split; [exact E|].
  split; [split; [exact T | auto]|].
  unfold as_geometry. cbn [append String.eqb Ascii.eqb Bool.eqb]. rewrite F1. cbn [obind as_str]. rewrite F2. reflexivity.
Qed.

(** ** Reading visuals *)
Lemma geometry_field (rd : vtype) as_g shape n v : wf_doc n ->
  (forall x w, wf_doc x -> ok (read x rd) w -> exists k g, elements (kids x) = [k] /\ shape k g /\ as_g w = Some g) ->
  (exists k w, child "geometry" n = Some k /\ ok (read k rd) w /\ fld v "geometry" = Some w) ->
  exists o, obind (fld v "geometry") (optional as_g) = Some o /\ geometry_says shape n o.
Proof.
  intros WD HR (x & w & A & B & C). destruct (child_wf _ _ _ WD A) as [WX _]. destruct (HR x w WX B) as (k & g & E & S1 & G).
  exists (Some g). split; [rewrite C; apply optional_some; [eapply not_none; exact B | exact G]|]. exists x, k, g. auto.
Qed.
Lemma uvisual_read n v : wf_doc n -> ok (read n (TObj "urdf.Visual")) v -> exists u, as_uvisual v = Some u /\ uvisual_says pf n u.
Proof.
  intros WD H. assert (X : exists c, cls "urdf.Visual" = Some c /\ In (elem "origin" (TObj "urdf.Pose") false) (cl_params c) /\
    In (elem "geometry" urdf_geometric true) (cl_params c)) by (eexists; split; [reflexivity | simpl; tauto]).
  destruct X as (c & Hc & P1 & P2).
  destruct (maybe_read pf _ _ _ n "origin" v WD (pose_read pf) (f_elem_opt pf _ _ _ _ Hc WD H _ _ P1)) as (o & C & D).
  destruct (geometry_field urdf_geometric (as_geometry "urdf.") (ushape_says pf) n v WD ugeom_read (f_elem pf _ _ _ _ Hc WD H _ _ P2)) as (g & G1 & G2).
  exists (mkUVisual o g). unfold as_uvisual. rewrite C, G1. split; [reflexivity | split; assumption].
Qed.
Lemma svisual_read n v : wf_doc n -> ok (read n (TObj "sdf.Visual")) v -> exists u, as_svisual v = Some u /\ svisual_says pf n u.
Proof.
  intros WD H. assert (X : exists c, cls "sdf.Visual" = Some c /\ In (elem "pose" (TVec (Some 6)) false) (cl_params c) /\
    In (elem "geometry" sdf_geometric true) (cl_params c)) by (eexists; split; [reflexivity | simpl; tauto]).
  destruct X as (c & Hc & P1 & P2).
  destruct (maybe_read pf _ _ _ n "pose" v WD (fun k w _ => pose6 pf k w) (f_elem_opt pf _ _ _ _ Hc WD H _ _ P1)) as (o & C & D).
  destruct (geometry_field sdf_geometric (as_geometry "sdf.") (sshape_says pf) n v WD sgeom_read (f_elem pf _ _ _ _ Hc WD H _ _ P2)) as (g & G1 & G2).
  exists (mkSVisual o g). unfold as_svisual. rewrite C, G1. split; [reflexivity | split; assumption].
Qed.
Lemma omap_forall2 {A B} (f : A -> option B) l m : omap f l = Some m <-> Forall2 (fun a b => f a = Some b) l m.
Proof.
  revert m. induction l as [|a l IH]; intros m; simpl.
  - split; [intros H; inversion H; constructor | intros H; inversion H; reflexivity].
  - split.
    + intros H. destruct (f a) as [b|] eqn:E; [|discriminate]. cbn [obind] in H. destruct (omap f l) as [r|] eqn:E2; [|discriminate]. cbn [obind] in H.
      inversion H; subst. constructor; [exact E | apply IH; reflexivity].
    + intros H. inversion H as [|? b ? r H1 H2]; subst. rewrite H1. cbn [obind]. apply IH in H2. rewrite H2. reflexivity.
Qed.
Lemma forall2_exists {A B C} (P : A -> B -> Prop) (R : A -> C -> Prop) (f : B -> option C) l m : (forall a b, In a l -> P a b -> exists c, f b = Some c /\ R a c) ->
  Forall2 P l m -> exists r, omap f m = Some r /\ Forall2 R l r.
Proof.
  intros H F. induction F as [|a b l m H1 F IH]; [exists []; split; [reflexivity | constructor]|].
  destruct (H a b (or_introl eq_refl) H1) as (c & E & Rc). destruct IH as (r & Er & Fr); [intros; eapply H; [right|]; eassumption|].
  exists (c :: r). split; [|constructor; assumption]. simpl. rewrite E. cbn [obind]. rewrite Er. reflexivity.
Qed.
(** all links of a robot or model *)
Lemma links_read {V} (f : rvalue -> option V) says cname lname vname c d n v :
  cls cname = Some c -> cls lname = Some d -> In (aggr "link" (TObj lname)) (cl_params c) -> In (aggr "visual" (TObj vname)) (cl_params d) ->
  (forall k w, In k (children "link" (kids n)) -> wf_doc k -> ok (read k (TObj lname)) w -> exists s, attribute "name" k = Some s /\ fld w "name" = Some (VStr s)) ->
  (forall k w, wf_doc k -> ok (read k (TObj vname)) w -> exists u, f w = Some u /\ says k u) ->
  wf_doc n -> ok (read n (TObj cname)) v ->
  exists ls, links_visuals f v = Some ls /\
    Forall2 (fun k l => attribute "name" k = Some (fst l) /\ Forall2 says (children "visual" (kids k)) (snd l)) (children "link" (kids n)) ls.
Proof.
  intros Hc Hd Pc Pd HN HV WD H. destruct (agg_field _ _ _ _ _ _ Hc WD Pc H) as (l & Fl & F). unfold links_visuals.
  change ("link" ++ "s")%string with "links" in Fl. rewrite Fl. cbn [obind as_list].
  eapply forall2_exists; [|exact F]. cbn beta. intros k w Hk Hr. assert (WK : wf_doc k) by (apply filter_In in Hk as [Hk _]; eapply kid_wf; eassumption).
  destruct (HN k w Hk WK Hr) as (s & S1 & S2). destruct (agg_field _ _ _ _ _ _ Hd WK Pd Hr) as (vl & Fv & F2).
  change ("visual" ++ "s")%string with "visuals" in Fv. rewrite S2, Fv. cbn [obind as_str as_list].
  destruct (forall2_exists (fun k w => ok (read k (TObj vname)) w) says f (children "visual" (kids k)) vl) as (r & Er & Fr); [|exact F2|].
  { intros a b Ha Hb. apply HV; [|exact Hb]. apply filter_In in Ha as [Ha _]. eapply kid_wf; eassumption. }
  rewrite Er. cbn [obind]. exists (s, r). split; [reflexivity|]. split; [exact S1 | exact Fr].
Qed.
End Docs.

(** ** Link maps *)
Lemma map_of_spec {V} (ls : list (string * V)) x : dget String.eqb x (map_of ls) = option_map snd (last_with (fun l => String.eqb (fst l) x) ls).
Proof.
  unfold map_of. induction ls as [|l ls IH] using rev_ind; [reflexivity|]. rewrite fold_left_app, last_with_snoc. cbn [fold_left].
  rewrite dget_dset, IH. destruct (String.eqb (fst l) x); reflexivity.
Qed.
Lemma last_with_split {A} (p : A -> bool) l x : last_with p l = Some x -> exists l1 l2, l = l1 ++ x :: l2 /\ p x = true /\ forall y, In y l2 -> p y = false.
Proof.
  induction l as [|y l IH] using rev_ind; [discriminate|]. rewrite last_with_snoc. destruct (p y) eqn:E.
  - intros H. inversion H; subst. exists l, []. split; [reflexivity|]. split; [exact E | intros ? []].
  - intros H. destruct (IH H) as (l1 & l2 & -> & P1 & P2). exists l1, (l2 ++ [y]). split; [rewrite <- app_assoc; reflexivity|]. split; [exact P1|].
    intros z Hz. apply in_app_iff in Hz as [Hz|[<-|[]]]; auto.
Qed.
Lemma declared_links {V} (says : node -> V -> Prop) n (ls : list (string * list V)) x vs :
  Forall2 (fun k l => attribute "name" k = Some (fst l) /\ Forall2 says (children "visual" (kids k)) (snd l)) (children "link" (kids n)) ls ->
  dget String.eqb x (map_of ls) = Some vs -> link_declares says n x vs.
Proof.
  intros F H. rewrite map_of_spec in H. destruct (last_with _ ls) as [[s l]|] eqn:E; [|discriminate]. cbn [option_map snd] in H. inversion H; subst l.
  apply last_with_split in E as (l1 & l2 & -> & P1 & P2). cbn [fst] in P1. apply String.eqb_eq in P1. subst s.
  apply Forall2_app_inv_r in F as (m1 & m2 & F1 & F2 & Em). inversion F2 as [|k ? m2' ? [N1 N2] F3]; subst. cbn [fst snd] in *.
  exists m1, k, m2'. split; [exact Em|]. split; [exact N1|]. split; [|exact N2].
  intros k' Hk'. destruct (forall2_in_l _ _ _ _ F3 Hk') as (y & Hy & Hn & _). rewrite Hn. intros C. inversion C as [C']. specialize (P2 y Hy).
  rewrite C', String.eqb_refl in P2. discriminate.
Qed.
(** the names of links described by an element list and listed with visuals *)
Lemma links_names {J L V} (PJ : node -> J -> Prop) (PL : node -> L -> Prop) (nm : L -> string) (says : node -> V -> Prop) n es (ls : list (string * list V)) x :
  (forall k j, PJ k j -> has_tag "joint" k = true) -> (forall k l, PL k l -> has_tag "link" k = true /\ attribute "name" k = Some (nm l)) ->
  elems_say PJ PL n es ->
  Forall2 (fun k l => attribute "name" k = Some (fst l) /\ Forall2 says (children "visual" (kids k)) (snd l)) (children "link" (kids n)) ls ->
  In x (map nm (links_of es)) -> exists vs, dget String.eqb x (map_of ls) = Some vs.
Proof.
  intros TJ TL E F H. rewrite map_of_spec. destruct (last_with _ ls) as [[s l]|] eqn:Q; [eexists; reflexivity|]. exfalso.
  pose proof (proj1 (last_with_none _ _) Q) as Z. apply in_map_iff in H as (l & El & Hl).
  unfold links_of in Hl. apply in_flat_map in Hl as (e & He & Hl). destruct e as [j|l']; [contradiction|]. destruct Hl as [<-|[]].
  unfold elems_say in E. destruct (forall2_in_r _ _ _ _ E He) as (k & Hk & Pk). apply filter_In in Hk as [Hk _]. destruct (TL k l' Pk) as [T1 T2].
  assert (Hc : In k (children "link" (kids n))) by (apply filter_In; auto). destruct (forall2_in_l _ _ _ _ F Hc) as (y & Hy & Hn & _).
  specialize (Z y Hy). rewrite T2 in Hn. inversion Hn as [Hn']. rewrite <- El, Hn', String.eqb_refl in Z. discriminate.
Qed.
(** reading the visuals of a built tree *)
Lemma chain_visuals_ok {V} (conv : V -> res (list visual)) lmap root : (forall v, exists w, conv v = Ok w) ->
  (forall f, In f (preorder root) -> exists v, dget String.eqb (f_name f) lmap = Some v) ->
  exists vis, chain_visuals conv lmap root = Ok vis /\ map fst vis = map f_name (preorder root) /\
    forall x w, In (x, w) vis -> exists v, dget String.eqb x lmap = Some v /\ conv v = Ok w.
Proof.
  intros HC HL. unfold chain_visuals. induction (preorder root) as [|f l IH].
  - exists []. split; [reflexivity|]. split; [reflexivity | intros x w []].
  - destruct (HL f (or_introl eq_refl)) as [v Hv]. destruct (HC v) as [w Hw]. destruct IH as (vis & E & M & X); [intros; apply HL; right; assumption|].
    exists ((f_name f, w) :: vis). cbn [rmap]. rewrite Hv. cbn [of_opt rbind]. rewrite Hw. cbn [rbind]. rewrite E. cbn [rbind]. split; [reflexivity|].
    split; [cbn [map fst]; rewrite M; reflexivity|]. intros x u [H|H]; [inversion H; subst; eauto | auto].
Qed.
Lemma in_dget_links {L} (nm : L -> string) (ls : list L) x l : last_with (fun l => String.eqb (nm l) x) ls = Some l -> In x (map nm ls).
Proof. intros H. apply last_with_some in H as [A B]. apply String.eqb_eq in B. subst. apply in_map, A. Qed.

(** ** Chains of documents with their visuals *)
Section Chains.
Variable pf : string -> option R.
Notation cls := (classes 0%R).
Notation read := (from_xml pf cls).

Lemma chain_root root c : chain_init mops root = Ok c -> c_root c = root.
Proof. intros H. destruct (chain_init_ok mops root) as (c' & Hc & HC). rewrite H in Hc. inversion Hc; subst c'. apply (ct_root _ _ _ HC). Qed.
Lemma urdf_names limit lmap joints c : build_chain_from_urdf limit lmap joints = Ok c ->
  forall f, In f (preorder (c_root c)) -> exists x l, dget String.eqb x lmap = Some l /\ (f_name f = x \/ f_name f = uk_name l).
Proof.
  intros H f Hf. unfold build_chain_from_urdf in H. apply rbind_ok in H as (root & HT & H). apply chain_root in H. rewrite H in Hf. clear H.
  unfold urdf_tree in HT. apply rbind_ok in HT as (rn & _ & HT). apply rbind_ok in HT as (rl & Hrl & HT). apply rbind_ok in HT as (rj & _ & HT).
  apply rbind_ok in HT as (loff & _ & HT). apply rbind_ok in HT as (cs & Hcs & HT). inversion HT; subst root. clear HT.
  destruct (dget String.eqb rn lmap) as [rl'|] eqn:E; [|discriminate]. cbn [of_opt] in Hrl. inversion Hrl; subst rl'.
  destruct Hf as [<-|Hf]; [exists rn, rl; cbn [f_name]; auto|].
  eapply (build_names uj_parent uj_child (urdf_mk lmap) joints (fun s => exists x l, dget String.eqb x lmap = Some l /\ (s = x \/ s = uk_name l))); [|exact Hcs | exact Hf].
  intros j lj _ Hm. unfold urdf_mk in Hm. apply rbind_ok in Hm as (? & _ & Hm). apply rbind_ok in Hm as (? & _ & Hm). apply rbind_ok in Hm as (? & _ & Hm).
  apply rbind_ok in Hm as (l & Hl & _). destruct (dget String.eqb (uj_child j) lmap) as [l'|] eqn:E'; [|discriminate]. eauto.
Qed.
Lemma sdf_names limit lmap joints c : build_chain_from_sdf limit lmap joints = Ok c ->
  forall f, In f (preorder (c_root c)) -> exists x l, dget String.eqb x lmap = Some l /\ (f_name f = x \/ f_name f = sk_name l).
Proof.
  intros H f Hf. unfold build_chain_from_sdf in H. apply rbind_ok in H as (root & HT & H). apply chain_root in H. rewrite H in Hf. clear H.
  unfold sdf_tree in HT. apply rbind_ok in HT as (rn & _ & HT). apply rbind_ok in HT as (rl & Hrl & HT). apply rbind_ok in HT as (? & _ & HT).
  apply rbind_ok in HT as (? & _ & HT). apply rbind_ok in HT as (? & _ & HT). apply rbind_ok in HT as (? & _ & HT). apply rbind_ok in HT as (? & _ & HT).
  apply rbind_ok in HT as (cs & Hcs & HT). inversion HT; subst root. clear HT.
  destruct (dget String.eqb rn lmap) as [rl'|] eqn:E; [|discriminate]. cbn [of_opt] in Hrl. inversion Hrl; subst rl'.
  destruct Hf as [<-|Hf]; [exists rn, rl; cbn [f_name]; auto|].
  eapply (build_names sj_parent sj_child (sdf_mk lmap) joints (fun s => exists x l, dget String.eqb x lmap = Some l /\ (s = x \/ s = sk_name l))); [|exact Hcs | exact Hf].
  intros j lj _ Hm. unfold sdf_mk in Hm. apply rbind_ok in Hm as (? & _ & Hm). apply rbind_ok in Hm as (l & Hl & _).
  destruct (dget String.eqb (sj_child j) lmap) as [l'|] eqn:E'; [|discriminate]. eauto.
Qed.
Lemma ulinks_read n v : wf_doc n -> ok (read n (TObj "urdf.Robot")) v -> exists ls, links_visuals as_uvisual v = Some ls /\
  Forall2 (fun k l => attribute "name" k = Some (fst l) /\ Forall2 (uvisual_says pf) (children "visual" (kids k)) (snd l)) (children "link" (kids n)) ls.
Proof.
  intros WD H. assert (X : exists c d, cls "urdf.Robot" = Some c /\ cls "urdf.Link" = Some d /\ In (aggr "link" (TObj "urdf.Link")) (cl_params c) /\
    In (aggr "visual" (TObj "urdf.Visual")) (cl_params d) /\ In (attr "name" TStr true VNone) (cl_params d))
    by (eexists; eexists; split; [reflexivity|]; split; [reflexivity|]; simpl; tauto).
  destruct X as (c & d & Hc & Hd & P1 & P2 & P3).
  eapply links_read with (cname := "urdf.Robot") (lname := "urdf.Link") (vname := "urdf.Visual"); try eassumption.
  - intros k w _ WK Hr. destruct (f_str pf _ _ _ _ Hd WK Hr _ P3) as (s & A & B). eauto.
  - intros k w. apply uvisual_read.
Qed.
Lemma slinks_read n v : wf_doc n -> all_named n -> ok (read n (TObj "sdf.Model")) v -> exists ls, links_visuals as_svisual v = Some ls /\
  Forall2 (fun k l => attribute "name" k = Some (fst l) /\ Forall2 (svisual_says pf) (children "visual" (kids k)) (snd l)) (children "link" (kids n)) ls.
Proof.
  intros WD AN H. assert (X : exists c d, cls "sdf.Model" = Some c /\ cls "sdf.Link" = Some d /\ In (aggr "link" (TObj "sdf.Link")) (cl_params c) /\
    In (aggr "visual" (TObj "sdf.Visual")) (cl_params d) /\ In (attr "name" TStr false VNone) (cl_params d))
    by (eexists; eexists; split; [reflexivity|]; split; [reflexivity|]; simpl; tauto).
  destruct X as (c & d & Hc & Hd & P1 & P2 & P3).
  eapply links_read with (cname := "sdf.Model") (lname := "sdf.Link") (vname := "sdf.Visual"); try eassumption.
  - intros k w Hk WK Hr. apply filter_In in Hk as [Hk Tk]. destruct (AN k Hk (or_introl Tk)) as [s Hs].
    destruct (field_of pf _ _ _ _ _ Hd WK P3 Hr) as (u & Hu & F). cbn [pr_kind pr_xml pr_type pr_req pr_var attr] in *. rewrite Hs in F.
    apply str_inv in F. subst u. exists s. split; [exact Hs | exact Hu].
  - intros k w. apply svisual_read.
Qed.

Theorem urdf_visuals limit n c : wf_doc n -> snd (load_urdf pf limit n) = inl c ->
  exists vis, snd (load_urdf_visuals pf limit n) = inl vis /\ map fst vis = map f_name (preorder (c_root c)) /\
    forall x w, In (x, w) vis -> exists vs, link_declares (uvisual_says pf) n x vs /\ urdf_link_visuals vs = Ok w.
Proof.
  intros WD H. unfold load_urdf in H. apply ok_bind1 in H as (v & Hv & H). apply ok_bind1 in H as (es & He & H). apply ok_xopt1 in He. apply ok_lift1 in H.
  destruct (urdf_read pf n v WD Hv) as (es1 & E1 & E2). rewrite He in E1. inversion E1; subst es1. clear E1.
  destruct (ulinks_read n v WD Hv) as (ls & L1 & L2).
  destruct (chain_visuals_ok urdf_link_visuals (map_of ls) (c_root c)) as (vis & V1 & V2 & V3).
  { intros vs. unfold urdf_link_visuals. destruct (urdf_visual_total (hd_error vs)) as [u Hu]. rewrite Hu. eexists. reflexivity. }
  { intros f Hf. destruct (urdf_names _ _ _ _ H f Hf) as (x & l & Hl & Hx).
    assert (Hin : In (f_name f) (map uk_name (links_of es))).
    { unfold urobot_of in Hl. rewrite link_map_spec in Hl. apply last_with_some in Hl as [A B]. apply String.eqb_eq in B.
      destruct Hx as [-> | ->]; [rewrite <- B|]; apply in_map, A. }
    eapply (links_names (ujoint_says pf) (ulink_says pf) uk_name); [| | exact E2 | exact L2 | exact Hin].
    - intros k j Hj. apply Hj.
    - intros k l' Hl'. split; apply Hl'. }
  exists vis. split; [|split; [exact V2|]].
  - unfold load_urdf_visuals. rewrite (ok_step _ _ _ Hv). rewrite He, L1. unfold xopt. unfold xbind. cbn [fst snd ret]. rewrite H. cbn [lift ret fst snd]. rewrite V1. reflexivity.
  - intros x w Hxw. destruct (V3 x w Hxw) as (vs & D & C). exists vs. split; [|exact C]. eapply declared_links; eassumption.
Qed.
Theorem sdf_visuals limit n m c : wf_doc n -> child "model" n = Some m -> all_named m -> snd (load_sdf pf limit n) = inl c ->
  exists vis, snd (load_sdf_visuals pf limit n) = inl vis /\ map fst vis = map f_name (preorder (c_root c)) /\
    forall x w, In (x, w) vis -> exists vs, link_declares (svisual_says pf) m x vs /\ sdf_link_visuals vs = Ok w.
Proof.
  intros WD Hm AN H. unfold load_sdf in H. apply ok_bind1 in H as (v & Hv & H). apply ok_bind1 in H as (w & Hw & H). apply ok_xopt1 in Hw.
  pose proof (sdf_read pf n v WD Hv) as E. rewrite Hm in E. destruct E as (w' & W1 & W2 & W3). rewrite Hw in W1. inversion W1; subst w'. clear W1.
  destruct (W3 AN) as (es & E1 & E2).
  assert (X : exists c, cls "sdf.SDF" = Some c /\ In (elem "model" (TObj "sdf.Model") false) (cl_params c)) by (eexists; split; [reflexivity|]; simpl; tauto).
  destruct X as (d & Hd & P). pose proof (f_elem_opt pf _ _ _ _ Hd WD Hv _ _ P) as F. rewrite Hm in F. destruct F as (w' & F1 & F2).
  assert (w' = w) by congruence. subst w'. destruct (child_wf _ _ _ WD Hm) as [WM _].
  destruct (slinks_read m w WM AN F1) as (ls & L1 & L2).
  assert (H' : sdf_chain limit (srobot_of es) = Ok c).
  { destruct w; try contradiction; apply ok_bind1 in H as (es' & He & H); apply ok_xopt1 in He; apply ok_lift1 in H; rewrite E1 in He; inversion He; subst es'; exact H. }
  destruct (chain_visuals_ok sdf_link_visuals (map_of ls) (c_root c)) as (vis & V1 & V2 & V3).
  { intros vs. unfold sdf_link_visuals. apply rmap_total. intros a _. rewrite sdf_visual_ok. eexists. reflexivity. }
  { intros f Hf. destruct (sdf_names _ _ _ _ H' f Hf) as (x & l & Hl & Hx).
    assert (Hin : In (f_name f) (map sk_name (links_of es))).
    { unfold srobot_of in Hl. rewrite link_map_spec in Hl. apply last_with_some in Hl as [A B]. apply String.eqb_eq in B.
      destruct Hx as [-> | ->]; [rewrite <- B|]; apply in_map, A. }
    eapply (links_names (sjoint_says pf) (slink_says pf) sk_name); [| | exact E2 | exact L2 | exact Hin].
    - intros k j Hj. apply Hj.
    - intros k l' Hl'. split; apply Hl'. }
  exists vis. split; [|split; [exact V2|]].
  - unfold load_sdf_visuals. rewrite (ok_step _ _ _ Hv). rewrite Hw. unfold xopt at 1. unfold xbind at 1. cbn [fst snd ret].
    destruct w; try contradiction; rewrite E1, L1; unfold xopt, xbind; cbn [fst snd ret]; rewrite H'; cbn [lift ret fst snd]; rewrite V1; reflexivity.
  - intros x u Hxu. destruct (V3 x u Hxu) as (vs & D & C). exists vs. split; [|exact C]. eapply declared_links; eassumption.
Qed.
End Chains.

(** ** MJCF *)
Definition geom_visual (g : mgeom) : visual :=
  mkVisual (Some (aff (quaternion_to_matrix (mg_quat g)) (mg_pos g))) (TypeCode (mg_type g)) (Sizes (mg_size g)).
Lemma body_to_geoms_ok gs i : body_to_geoms gs i = Ok (map geom_visual (filter (fun g => Nat.eqb (mg_bodyid g) i) gs)).
Proof. unfold body_to_geoms. induction (filter _ gs) as [|g l IH]; [reflexivity|]. cbn [rmap map]. rewrite placed_ok. cbn [rbind]. rewrite IH. reflexivity. Qed.
Lemma rmap_both {A B C} (f : A -> res B) (g : A -> res C) (Q : B -> C -> Prop) l cs : rmap f l = Ok cs ->
  (forall a c, In a l -> f a = Ok c -> exists v, g a = Ok v /\ Q c v) -> exists vs, rmap g l = Ok vs /\ Forall2 Q cs vs.
Proof.
  revert cs. induction l as [|a l IH]; intros cs H HQ; cbn [rmap] in H.
  - inversion H; subst. exists []. split; [reflexivity | constructor].
  - apply rbind_ok in H as (c & Hc & H). apply rbind_ok in H as (r & Hr & H). inversion H; subst cs.
    destruct (HQ a c (or_introl eq_refl) Hc) as (v & Hv & Q1). destruct (IH r Hr) as (vs & E & F); [intros; apply HQ; [right|]; assumption|].
    exists (v :: vs). cbn [rmap]. rewrite Hv. cbn [rbind]. rewrite E. split; [reflexivity | constructor; assumption].
Qed.
Lemma forall2_concat {A B} (P : A -> B -> Prop) l m : Forall2 (Forall2 P) l m -> Forall2 P (concat l) (concat m).
Proof. induction 1; cbn [concat]; [constructor | apply Forall2_app; assumption]. Qed.

Section Mj.
Variables (m : mjmodel) (gs : list mgeom).
(** the frame of a body with the geoms of the body, or the frame of a site without any *)
Definition body_entry (i : nat) (f : mframe) (e : string * list visual) : Prop := exists b, nth_error (mm_bodies m) i = Some b /\
  f_name f = mb_name b /\ e = (mb_name b, map geom_visual (filter (fun g => Nat.eqb (mg_bodyid g) i) gs)) /\
  l_off (f_link f) = Some (aff (quaternion_to_matrix (mb_quat b)) (mb_pos b)).
Definition site_entry (f : mframe) (e : string * list visual) : Prop := exists s, In s (mm_sites m) /\ f_name f = ms_name s /\ e = (ms_name s, []) /\
  l_off (f_link f) = Some (aff (quaternion_to_matrix (ms_quat s)) (ms_pos s)) /\ f_children f = [].
Definition mj_entry f e : Prop := (exists i, body_entry i f e) \/ site_entry f e.
Lemma mj_rec limit : forall pid cs, mjcf_rec m limit pid = Ok cs ->
  exists vis, mjcf_visuals_rec m gs limit pid = Ok vis /\ Forall2 mj_entry (flat_map preorder cs) vis.
Proof.
  induction limit as [|n IH]; intros pid cs H; [discriminate|]. cbn [mjcf_rec] in H. apply rbind_ok in H as (bs & Hb & H). apply rbind_ok in H as (ss & Hs & H).
  inversion H; subst cs. clear H. cbn [mjcf_visuals_rec].
  destruct (rmap_both _ (fun i => do b <- get (mm_bodies m) i; do j <- mjcf_body_frame m b; do vs <- body_to_geoms gs i; do cs <- mjcf_visuals_rec m gs n i;
    Ok ((mb_name b, vs) :: cs)) (fun f v => Forall2 mj_entry (preorder f) v) _ _ Hb) as (vs & E & F).
  { intros i f _ Hf. apply rbind_ok in Hf as (b & Gb & Hf). apply rbind_ok in Hf as (lj & Hlj & Hf). apply rbind_ok in Hf as (cs & Hcs & Hf). inversion Hf; subst f. clear Hf.
    destruct (IH i cs Hcs) as (v & Ev & Fv). rewrite Gb. cbn [rbind]. rewrite Hlj. cbn [rbind]. rewrite body_to_geoms_ok. cbn [rbind]. rewrite Ev. cbn [rbind].
    eexists. split; [reflexivity|]. cbn [preorder]. constructor; [|exact Fv]. left. exists i, b. cbn [f_name f_link].
    split; [|split; [reflexivity|split; [reflexivity|]]].
    - unfold get in Gb. destruct (nth_error (mm_bodies m) i); inversion Gb; reflexivity.
    - unfold mjcf_body_frame in Hlj. apply rbind_ok in Hlj as (j & _ & Hlj). rewrite placed_ok in Hlj. cbn [rbind] in Hlj. inversion Hlj; reflexivity. }
  rewrite E. cbn [rbind]. rewrite Hs. cbn [rbind]. eexists. split; [reflexivity|]. rewrite flat_map_app. apply Forall2_app.
  - rewrite flat_map_concat_map. apply forall2_concat. clear - F. induction F; cbn [map]; constructor; assumption.
  - apply rmap_forall2 in Hs. assert (HI : forall s, In s (filter (fun s => Nat.eqb (ms_bodyid s) pid) (mm_sites m)) -> In s (mm_sites m)) by (intros s X; apply filter_In in X; apply X).
    revert HI Hs. generalize (filter (fun s => Nat.eqb (ms_bodyid s) pid) (mm_sites m)) as l. clear. intros l HI F. induction F as [|s f l ss Hf F IH]; [constructor|].
    unfold mjcf_site_frame in Hf. rewrite placed_ok in Hf. cbn [rbind] in Hf. apply rbind_ok in Hf as (j & _ & Hf). inversion Hf; subst f.
    cbn [flat_map preorder map app f_name]. constructor; [|apply IH; intros; apply HI; right; assumption].
    right. exists s. split; [apply HI; left; reflexivity|]. repeat split.
Qed.
Lemma mj_visuals limit a c : build_chain_from_mjcf limit m a = Ok c ->
  exists vis, mjcf_visuals limit m gs a = Ok vis /\ Forall2 mj_entry (preorder (c_root c)) vis.
Proof.
  intros H. unfold build_chain_from_mjcf in H. apply rbind_ok in H as (root & HT & H). apply chain_root in H. rewrite H. clear H.
  unfold mjcf_tree in HT. apply rbind_ok in HT as (r & Hr & HT). apply rbind_ok in HT as (b & Hb & HT). rewrite placed_ok in HT. cbn [rbind] in HT.
  apply rbind_ok in HT as (j & _ & HT). apply rbind_ok in HT as (cs & Hcs & HT). inversion HT; subst root. clear HT.
  destruct (mj_rec limit r cs Hcs) as (vis & E & F). unfold mjcf_visuals. rewrite Hr. cbn [rbind]. rewrite Hb. cbn [rbind]. rewrite body_to_geoms_ok. cbn [rbind].
  rewrite E. eexists. split; [reflexivity|]. cbn [preorder]. constructor; [|exact F]. left. exists r, b. cbn [f_name f_link l_off].
  unfold get in Hb. destruct (nth_error (mm_bodies m) r); inversion Hb; subst. repeat split.
Qed.
End Mj.
