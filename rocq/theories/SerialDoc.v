(** Serial chains built from URDF and SDF documents. *)
From Coq Require Import Reals Lra String Bool Arith Lia List Permutation.
From Verif Require Import Prelude ExtF Tree ChainModel SpecFK ChainProofs Input Lin Trig RotModel RotBasic ChainInst SerialModel SerialFinal Examples
  LoaderModel LoaderTree RobotModel RobotProofs LoaderProofs LoaderMore SdfProofs MjcfModel MjcfProofs LoaderExamples
  XmlModel XmlSchema XmlProofs XmlWrite XmlRead XmlCheck SpecXml XmlMore SpecLoad XmlLoad XmlLoadProofs XmlFinal SpecSerialLoad SerialLoad.
Import ListNotations.
Local Open Scope nat_scope.
Local Open Scope string_scope.
Local Open Scope list_scope.

(** urdf.py:127-146 [build_serial_chain_from_urdf] on the element tree of its argument *)
Definition load_urdf_serial (pf : string -> option R) (limit : nat) (doc : node) (e rn : string) : xr (schain M4 V3) :=
  let! c := load_urdf pf limit doc in lift (serial_init mops zax c e rn).
(** sdf.py:105-108 [build_serial_chain_from_sdf] *)
Definition load_sdf_serial (pf : string -> option R) (limit : nat) (doc : node) (e rn : string) : xr (schain M4 V3) :=
  let! c := load_sdf pf limit doc in lift (serial_init mops zax c e rn).

Definition outcome {A} (r : res A) : A + xexn := match r with Ok a => inl a | Err e => inr (XPy e) end.

Lemma serial_of_chain (x : xr (@chain M4 V3)) (r : res (@chain M4 V3)) e rn :
  snd x = outcome r -> snd (let! c := x in lift (serial_init mops zax c e rn)) = outcome (do c <- r; serial_init mops zax c e rn).
Proof.
  destruct x as [w o]. cbn [snd]. intros ->. destruct r as [c|err]; [|reflexivity]. cbn [rbind outcome].
  unfold xbind, lift. cbn [snd fst]. destruct (serial_init mops zax c e rn); reflexivity.
Qed.

Lemma urdf_document pf limit n es e rn : wf_doc n -> n <> Comment -> urdf_says pf n es -> plain_urdf n ->
  (forall j, In (EJoint j) es -> In (uj_type j) ["unknown"; "revolute"; "continuous"; "prismatic"; "floating"; "planar"; "fixed"]) ->
  snd (load_urdf_serial pf limit n e rn) = outcome (urdf_serial limit (urobot_of es) e rn).
Proof. intros. apply serial_of_chain. apply l64_urdf_accepted; auto. Qed.
Lemma sdf_document pf limit n es e rn : wf_doc n -> sdf_says pf n es -> plain_sdf pf n ->
  snd (load_sdf_serial pf limit n e rn) = outcome (sdf_serial limit (srobot_of es) e rn).
Proof. intros. apply serial_of_chain. apply l65_sdf_accepted; auto. Qed.

(** what the whole chain and the serial chain from its root say about the same link *)
Lemma urdf_agree es top limit l x (v : config) :
  tree_shaped uj_parent uj_child (joints_of es) top ->
  (forall x, x = top \/ In x (map uj_child (joints_of es)) -> In x (map uk_name (links_of es))) ->
  (forall l, In l (links_of es) -> uk_origin l = None) ->
  (forall j, In j (joints_of es) -> exists k, urdf_kind (uj_type j) = Some k /\ (k <> Fixed -> exists a, uj_axis j = Some a /\ a <> vzero)) ->
  NoDup (map uj_name (filter urdf_moves (joints_of es))) ->
  (forall x, x = top \/ In x (map uj_child (joints_of es)) -> strip_nl x = x) ->
  length (joints_of es) < limit -> jpath uj_parent uj_child (joints_of es) top l x ->
  exists c d s M, urdf_chain limit (urobot_of es) = Ok c /\ urdf_serial limit (urobot_of es) x "" = Ok s /\
    forward_kinematics mops c (config_tensor (c_root c) [v]) None = Ok d /\ dget String.eqb x d = Some [M] /\
    forall nan is_nan, serial_fk_end mops nan is_nan s (InTensor (T1 (map v (c_names (s_chain s))))) = Ok [M].
Proof.
  intros HT Hl Ho Hk Hdj Hcl Hlim Hp.
  destruct (urdf_fk es top limit [v] HT Hl Ho Hk Hdj Hcl Hlim) as (c & d & jl & H1 & _ & _ & _ & H2 & _ & H3).
  destruct (urdf_serial_ok es top limit HT Hl Ho Hk Hdj Hcl Hlim) as (G & _).
  destruct (G [] top "" (jp_here _ _ _ _) (or_introl (conj eq_refl eq_refl))) as (A & _).
  destruct (A l x Hp) as (s & S1 & S2 & S3). exists c, d, s. eexists. split; [exact H1|]. split; [exact S1|]. split; [exact H2|].
  split; [rewrite (H3 l x Hp); cbn [map]; reflexivity|]. intros nan is_nan. rewrite S2. rewrite (S3 nan is_nan [v] _ (g_vector is_nan _ v)). reflexivity.
Qed.

Lemma sdf_root_pose : exists es c d s M N,
  sdf_chain 5 (srobot_of es) = Ok c /\ sdf_serial 5 (srobot_of es) "tip" "" = Ok s /\
  forward_kinematics mops c (config_tensor (c_root c) [fun _ => 0%R]) None = Ok d /\ dget String.eqb "tip" d = Some [M] /\
  (forall nan is_nan, serial_fk_end mops nan is_nan s (InTensor (T1 (map (fun _ => 0%R) (c_names (s_chain s))))) = Ok [N]) /\ M <> N.
Proof.
  destruct (sdf_fk ex_sdf "base" 5 [fun _ => 0%R] (ex_sdf_tree _) (ex_sdf_links _) (ex_sdf_kinds _) (ex_sdf_names _) (ex_sdf_clean _))
    as (c & d & jl & H1 & _ & _ & _ & H2 & _ & H3); [simpl; lia|].
  destruct (sdf_serial_ok ex_sdf "base" 5 (ex_sdf_tree _) (ex_sdf_links _) (ex_sdf_kinds _) (ex_sdf_names _) (ex_sdf_clean _))
    as (G & _); [simpl; lia|].
  set (j := mkSJoint "j" (Some "revolute") "base" "tip" (mkV3 0 0 1) (Some (Some (-1)%R, Some 1%R))).
  assert (Hp : jpath sj_parent sj_child (joints_of ex_sdf) "base" [j] "tip").
  { eapply jp_step; [left; reflexivity | reflexivity | constructor]. }
  destruct (G [] "base" "" (jp_here _ _ _ _) (or_introl (conj eq_refl eq_refl))) as (A & _).
  destruct (A _ _ Hp) as (s & S1 & S2 & S3). exists ex_sdf, c, d, s.
  set (N := fold_left m4mul (map (sdf_rel ex_sdf (fun _ => 0%R)) [j]) I4) in *.
  exists (m4mul (swapped_pose (declared ex_sdf "base")) N), N.
  split; [exact H1|]. split; [exact S1|]. split; [exact H2|]. split; [rewrite (H3 _ _ Hp); reflexivity|]. split.
  { intros nan is_nan. rewrite S2. rewrite (S3 nan is_nan [fun _ => 0%R] _ (g_vector is_nan _ _)). reflexivity. }
  intros E.
  assert (EN : exists R0 t, N = aff R0 t).
  { unfold N. cbn [map fold_left]. rewrite m4mul_1_l. unfold sdf_rel. rewrite sdf_motion_0, m4mul_1_r.
    pose proof (swapped_rigid (declared ex_sdf (sj_parent j))) as R1. pose proof (swapped_rigid (declared ex_sdf (sj_child j))) as R2.
    do 2 eexists. symmetry. apply aff_eta, proj1 with (B := is_rot (rotp (m4mul (rigid_inv (swapped_pose (declared ex_sdf (sj_parent j)))) (swapped_pose (declared ex_sdf (sj_child j)))))). apply is_rigid_mul; [apply is_rigid_inv|]; assumption. }
  destruct EN as (R0 & t & EN). rewrite EN in E. clear - E.
  assert (EB : swapped_pose (declared ex_sdf "base") = aff (roty 2) (mkV3 5 5 5)).
  { change (declared ex_sdf "base") with (Some (mkSPose (mkV3 5 5 5) (mkV3 0 2 0))). cbn [swapped_pose sp_rpy sp_xyz vx vy vz].
    unfold rpy_matrix. cbn [vx vy vz]. f_equal. unfold rotx, rotz. rewrite cos_0, sin_0. unfold m3mul, roty.
    cbn [m00 m01 m02 m10 m11 m12 m20 m21 m22]. apply mkM3_eq; ring. }
  rewrite EB, aff_mul in E. apply (f_equal trp) in E. rewrite !trp_aff in E. apply (f_equal vy) in E.
  unfold m3vec, vadd, roty in E. cbn [m00 m01 m02 m10 m11 m12 m20 m21 m22 vx vy vz] in E. lra.
Qed.
