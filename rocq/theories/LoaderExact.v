(** Exactly when the SDF and MJCF loaders place links and bodies as they should. *)
From Coq Require Import Reals Lra String Bool Arith Lia List Permutation.
From Verif Require Import Prelude ExtF Tree ChainModel SpecFK ChainProofs Lin Trig RotModel RotBasic QuatProofs RotFinal EulerProofs
  T3dModel T3dProofs T3dMore ChainInst LoaderModel LoaderTree RobotModel RobotProofs LoaderProofs LoaderMore SdfProofs MjcfModel MjcfProofs LoaderExamples.
Import ListNotations.
Local Open Scope R_scope.

(** ** Roll and yaw exchanged *)
(** the angles whose rotation does not change when roll and yaw are exchanged: equal up to full turns, or with a pitch of
    minus a quarter turn, or with a pitch of a quarter turn and a difference of half turns *)
Definition symmetric_rpy (e : V3) : Prop :=
  (cos (vx e) = cos (vz e) /\ sin (vx e) = sin (vz e)) \/ sin (vy e) = -1 \/ (sin (vy e) = 1 /\ sin (vx e - vz e) = 0).

Lemma rpy_entries r p y : rpy_matrix (mkV3 r p y) =
  mkM3 (cos y * cos p) (cos y * (sin p * sin r) - sin y * cos r) (cos y * (sin p * cos r) + sin y * sin r)
       (sin y * cos p) (sin y * (sin p * sin r) + cos y * cos r) (sin y * (sin p * cos r) - cos y * sin r)
       (- sin p) (cos p * sin r) (cos p * cos r).
Proof.
  unfold rpy_matrix, rotx, roty, rotz. cbn [vx vy vz]. unfold m3mul. cbn [m00 m01 m02 m10 m11 m12 m20 m21 m22]. apply mkM3_eq; ring.
Qed.

Lemma rpy_swap r p y : rpy_matrix (mkV3 y p r) = rpy_matrix (mkV3 r p y) <-> symmetric_rpy (mkV3 r p y).
Proof.
  rewrite !rpy_entries. unfold symmetric_rpy. cbn [vx vy vz]. rewrite sin_minus.
  pose proof (sin2_cos2 p) as Hp. unfold Rsqr in Hp. pose proof (sin2_cos2 r) as Hr. unfold Rsqr in Hr. pose proof (sin2_cos2 y) as Hy. unfold Rsqr in Hy.
  set (cr := cos r) in *. set (sr := sin r) in *. set (cy := cos y) in *. set (sy := sin y) in *. set (cp := cos p) in *. set (sp := sin p) in *.
  clearbody cr sr cy sy cp sp. split.
  - intros E. pose proof (f_equal m00 E) as E0. pose proof (f_equal m10 E) as E1. pose proof (f_equal m01 E) as E2. cbn [m00 m01 m10] in E0, E1, E2. clear E.
    destruct (Req_dec cp 0) as [H0|H0].
    + assert (Hs : (sp - 1) * (sp + 1) = 0) by (rewrite H0 in Hp; lra).
      apply Rmult_integral in Hs as [Hs|Hs]; [|right; left; lra]. right. right. split; [lra|].
      assert (sp = 1) by lra. subst sp. lra.
    + left. split; apply (Rmult_eq_reg_r cp); auto.
  - intros [[-> ->]|[Hs|[Hs Hd]]]; [reflexivity | |].
    + assert (H0 : cp = 0) by (rewrite Hs in Hp; nra). rewrite H0, Hs. apply mkM3_eq; ring.
    + assert (H0 : cp = 0) by (rewrite Hs in Hp; nra). rewrite H0, Hs. apply mkM3_eq; try ring; lra.
Qed.

Lemma swapped_declared o : swapped_pose o = sdf_pose o <-> match o with Some p => symmetric_rpy (sp_rpy p) | None => True end.
Proof.
  destruct o as [[xyz [r p y]]|]; [|split; auto]. cbn [swapped_pose sdf_pose sp_rpy sp_xyz vx vy vz]. rewrite <- rpy_swap. split.
  - intros E. apply (f_equal rotp) in E. rewrite !rotp_aff in E. exact E.
  - intros ->. reflexivity.
Qed.

Lemma sdf_zero_exact (es : list selem) (top : string) (limit : nat) :
  tree_shaped sj_parent sj_child (joints_of es) top ->
  (forall x, x = top \/ In x (map sj_child (joints_of es)) -> In x (map sk_name (links_of es))) ->
  (forall j, In j (joints_of es) -> complete j /\ exists k, sdf_kind (sj_type j) = Some k /\ (k <> Fixed -> sj_axis j <> vzero)) ->
  NoDup (map sj_name (filter sdf_moves (joints_of es))) ->
  (forall x, x = top \/ In x (map sj_child (joints_of es)) -> strip_nl x = x) ->
  (length (joints_of es) < limit)%nat ->
  NoDup (map sk_name (links_of es)) ->
  exists c d, sdf_chain limit (srobot_of es) = Ok c /\
    forward_kinematics mops c (config_tensor (c_root c) [fun _ => 0]) None = Ok d /\
    forall l, In l (links_of es) -> sk_name l = top \/ In (sk_name l) (map sj_child (joints_of es)) ->
      exists M, dget String.eqb (sk_name l) d = Some [M] /\
        (M = sdf_pose (sk_pose l) <-> match sk_pose l with Some p => symmetric_rpy (sp_rpy p) | None => True end).
Proof.
  intros HT Hl Hk Hn Hc Hlim Hnd.
  destruct (sdf_fk es top limit [fun _ => 0] HT Hl Hk Hn Hc Hlim) as (c & d & jl & H1 & _ & _ & _ & H2 & _ & H3).
  exists c, d. split; [exact H1|]. split; [exact H2|]. intros l Hin Hx.
  assert (Hp : exists p, jpath sj_parent sj_child (joints_of es) top p (sk_name l)).
  { destruct Hx as [->|Hx]; [exists []; constructor|]. apply in_map_iff in Hx as (j & <- & Hj).
    destruct HT as (_ & _ & _ & Hr). destruct (Hr j Hj) as (p & Hp). exists (p ++ [j]). apply jpath_snoc. auto. }
  destruct Hp as (p & Hp). exists (swapped_pose (sk_pose l)). split; [|apply swapped_declared].
  rewrite (H3 p _ Hp). cbn [map]. f_equal. f_equal. rewrite (telescope es top p _ Hp).
  unfold declared. rewrite (last_with_key sk_name) by auto. reflexivity.
Qed.

(** ** Joints of MJCF models *)
(** the joints whose motion the loader gets right: a hinge through the origin of its body whose reference is a number of full
    turns; a slide whose anchor makes up for its reference *)
Definition exact_joint (j : mjnt) : Prop :=
  match mn_type j with
  | mjHinge => mn_pos j = vzero /\ cos (mn_qpos0 j) = 1
  | _ => mn_pos j = vscale (- mn_qpos0 j) (unit_of (mn_axis j))
  end.

Lemma unit_of_unit3 a : a <> vzero -> unit3 (unit_of a).
Proof.
  intros H. assert (Hn : vnorm2 a <> 0).
  { intros E. apply H. destruct a as [x y z]. unfold vnorm2, vdot in E. cbn [vx vy vz] in E. unfold vzero. apply mkV3_eq; nra. }
  unfold unit3. unfold unit_of, vnorm. destruct a as [x y z]. unfold vnorm2, vdot, vscale in *. cbn [vx vy vz] in *.
  assert (Hp : 0 < x * x + y * y + z * z) by nra.
  pose proof (sqrt_lt_R0 _ Hp) as Hs. pose proof (sqrt_sqrt _ (Rlt_le _ _ Hp)) as Hq. set (s := sqrt _) in *. clearbody s.
  replace (/ s * x * (/ s * x) + / s * y * (/ s * y) + / s * z * (/ s * z)) with ((x * x + y * y + z * z) / (s * s)) by (field; lra).
  rewrite Hq. field. lra.
Qed.
Lemma rot_rod u q : unit3 u -> is_rot (rodrigues u q).
Proof. intros H. rewrite <- rodrigues_eq. apply rot33_rot, H. Qed.
Lemma rod_id u q : unit3 u -> rodrigues u q = I3 -> cos q = 1.
Proof.
  intros Hu E. apply (f_equal trace3) in E. unfold rodrigues, trace3, m3add, m3scale, I3 in E. cbn [m00 m01 m02 m10 m11 m12 m20 m21 m22] in E.
  unfold unit3 in Hu. destruct u as [x y z]. unfold vnorm2, vdot in Hu. cbn [vx vy vz] in *.
  assert (Ex : x * x = 1 - y * y - z * z) by lra. rewrite Ex in E. lra.
Qed.

Lemma motion_exact j : (mn_type j = mjHinge \/ mn_type j = mjSlide) -> mn_axis j <> vzero ->
  ((forall v, code_motion v j = mj_joint_motion v j) <-> exact_joint j).
Proof.
  intros Ht Ha. pose proof (unit_of_unit3 _ Ha) as Hu. unfold code_motion, mj_joint_motion, exact_joint, turn, slide.
  set (u := unit_of (mn_axis j)) in *. set (p := mn_pos j). set (q0 := mn_qpos0 j). clearbody u p q0.
  destruct Ht as [Ht|Ht]; rewrite Ht.
  - split.
    + intros H. specialize (H (fun _ => q0)). cbn beta in H. rewrite !aff_mul in H. rewrite Rminus_diag_eq in H by reflexivity.
      pose proof (f_equal rotp H) as Hr. pose proof (f_equal trp H) as Htr. rewrite !rotp_aff in Hr. rewrite !trp_aff in Htr.
      assert (E0 : rodrigues u 0 = I3) by (rewrite <- rodrigues_eq; apply rot33_0).
      rewrite E0, !m3mul_1_l in Hr. rewrite E0, !m3mul_1_l, !m3vec_1 in Htr. split.
      * destruct p as [x y z]. unfold opp, vscale, vadd, vzero in Htr. cbn [vx vy vz] in Htr.
        pose proof (f_equal vx Htr) as X. pose proof (f_equal vy Htr) as Y. pose proof (f_equal vz Htr) as Z. cbn [vx vy vz] in X, Y, Z.
        unfold vzero. apply mkV3_eq; lra.
      * apply (rod_id u q0 Hu). exact Hr.
    + intros [-> Hc] v. assert (Hs : sin q0 = 0).
      { pose proof (sin2_cos2 q0) as E. rewrite Hc in E. unfold Rsqr in E. nra. }
      assert (E : rodrigues u (v (Some (mn_name j)) - q0) = rodrigues u (v (Some (mn_name j)))).
      { unfold rodrigues. rewrite cos_minus, sin_minus, Hc, Hs. rewrite !Rmult_1_r, !Rmult_0_r, Rplus_0_r, Rminus_0_r. reflexivity. }
      rewrite E, !aff_mul, !m3mul_1_l, m3mul_1_r, !m3vec_1. f_equal.
      set (M := rodrigues u _). clearbody M. unfold opp, vscale, vadd, vzero, m3vec. cbn [m00 m01 m02 m10 m11 m12 m20 m21 m22 vx vy vz].
      apply mkV3_eq; ring.
  - split.
    + intros H. specialize (H (fun _ => 0)). cbn beta in H. rewrite aff_mul in H.
      apply (f_equal trp) in H. rewrite !trp_aff, m3vec_1 in H.
      pose proof (f_equal vx H) as X. pose proof (f_equal vy H) as Y. pose proof (f_equal vz H) as Z. destruct p as [x y z], u as [a b c].
      unfold vadd, vscale in *. cbn [vx vy vz] in *. apply mkV3_eq; lra.
    + intros -> v. rewrite aff_mul, m3mul_1_l, m3vec_1. f_equal. unfold vadd, vscale. cbn [vx vy vz]. apply mkV3_eq; ring.
Qed.

Lemma rigid_cancel A B C : is_rigid A -> m4mul A B = m4mul A C -> B = C.
Proof.
  intros H E. apply (f_equal (m4mul (rigid_inv A))) in E. rewrite !m4mul_assoc, (rigid_inv_l A H), !m4mul_1_l in E. exact E.
Qed.
Lemma qrot_rot q : qnorm2 q = 1 -> is_rot (qrot q).
Proof. intros H. rewrite <- qrot_eq by exact H. apply q2m_rot. lra. Qed.

Section Mj.
Variable m : mjmodel.
Notation body i := (nth_error (mm_bodies m) i).
Hypothesis Hwf : wf_model m.
Variable r : nat.
Hypothesis Hrn : (r < length (mm_bodies m))%nat.
Hypothesis Hsup : forall i b, body i = Some b -> (r < i)%nat -> supported m b.

Lemma joint_supported i b j : body i = Some b -> (r < i)%nat -> joint_of m b = Some j ->
  (mn_type j = mjHinge \/ mn_type j = mjSlide) /\ mn_axis j <> vzero.
Proof.
  intros Hb Hi Hj. unfold joint_of in Hj. destruct (Hsup i b Hb Hi) as [H|(H & j' & Hj' & Ht & Ha)]; rewrite H in Hj; cbn [Nat.eqb] in Hj; [discriminate|].
  assert (j = j') by congruence. subst j'. auto.
Qed.
Lemma pose_rigid v i W : pose_below m (code_local m v) r i W -> descends m r i /\ is_rigid W.
Proof.
  induction 1 as [b Hb|i b W Hb Hi H [ID IH]].
  - split; [constructor|]. apply is_rigid_aff, qrot_rot. eapply wf_quat; eauto.
  - assert (Hd : descends m r i) by (econstructor; eauto). split; [exact Hd|]. apply is_rigid_mul; [exact IH|]. unfold code_local. apply is_rigid_mul.
    + apply is_rigid_aff, qrot_rot. eapply wf_quat; eauto.
    + destruct (joint_of m b) as [j|] eqn:Ej; [|apply is_rigid_I].
      assert (Hlt : (r < i)%nat) by (apply (descends_ge m Hwf) in Hd; lia).
      destruct (joint_supported i b j Hb Hlt Ej) as [Ht Ha]. unfold code_motion. apply is_rigid_mul; [apply is_rigid_aff, is_rot_I|].
      unfold turn, slide. destruct Ht as [Ht|Ht]; rewrite Ht; apply is_rigid_aff; [|apply is_rot_I]. apply rot_rod, unit_of_unit3, Ha.
Qed.

(** the poses of the code are those of MuJoCo exactly if every joint is exact *)
Lemma mj_poses_exact :
  (forall v i W, descends m r i -> pose_below m (code_local m v) r i W -> pose_below m (mj_local m v) r i W) <->
  (forall i b j, descends m r i -> (r < i)%nat -> body i = Some b -> joint_of m b = Some j -> exact_joint j).
Proof.
  split.
  - intros H i b j Hd Hi Hb Hj. destruct (joint_supported i b j Hb Hi Hj) as [Ht Ha]. apply (motion_exact j Ht Ha). intros v.
    assert (Hdp : descends m r (mb_parentid b)).
    { inversion Hd as [|i' b' Hb' Hne Hd']; subst; [lia|]. assert (b' = b) by congruence. subst b'. exact Hd'. }
    assert (Hpb : exists pb, body (mb_parentid b) = Some pb).
    { inversion Hdp as [|i' b' Hb' Hne Hd']; [destruct (body (mb_parentid b)) eqn:E; eauto; apply nth_error_None in E; lia|eauto]. }
    destruct Hpb as (pb & Hpb).
    destruct (pose_unique m (code_local m v) r _ pb Hwf Hrn Hdp Hpb) as (P & HP & _).
    assert (Hne : i <> r) by lia.
    pose proof (pb_body m (code_local m v) r i b P Hb Hne HP) as Hci.
    pose proof (H v i _ Hd Hci) as Hmi. pose proof (H v _ _ Hdp HP) as Hmp.
    pose proof (pb_body m (mj_local m v) r i b P Hb Hne Hmp) as Hmi'.
    destruct (pose_unique m (mj_local m v) r i b Hwf Hrn Hd Hb) as (X & _ & HU).
    pose proof (HU _ Hmi) as E1. pose proof (HU _ Hmi') as E2. rewrite E1 in E2.
    apply rigid_cancel in E2; [|apply (pose_rigid v _ _ HP)]. unfold code_local, mj_local in E2. rewrite Hj in E2.
    apply rigid_cancel in E2; [exact E2|]. apply is_rigid_aff, qrot_rot. eapply wf_quat; eauto.
  - intros H v i W Hd HW. revert Hd. induction HW as [b Hb|i b W Hb Hi HW IH]; intros Hd; [constructor; exact Hb|].
    assert (Hdp : descends m r (mb_parentid b)).
    { inversion Hd as [|i' b' Hb' Hne Hd']; subst; [congruence|]. assert (b' = b) by congruence. subst b'. exact Hd'. }
    assert (Hlt : (r < i)%nat) by (apply (descends_ge m Hwf) in Hd; lia).
    assert (E : code_local m v b = mj_local m v b).
    { unfold code_local, mj_local. destruct (joint_of m b) as [j|] eqn:Ej; [|reflexivity]. f_equal.
      destruct (joint_supported i b j Hb Hlt Ej) as [Ht Ha]. apply (motion_exact j Ht Ha). apply (H i b j); auto. }
    rewrite E. apply pb_body; auto.
Qed.

Theorem mjcf_exact a limit : root_body m a = Ok r ->
  NoDup (map mb_name (mm_bodies m) ++ map ms_name (mm_sites m)) ->
  (forall i i' b b' j j', body i = Some b -> body i' = Some b' -> (r < i)%nat -> (r < i')%nat ->
     joint_of m b = Some j -> joint_of m b' = Some j' -> mn_name j = mn_name j' -> i = i') ->
  (forall x, In x (map mb_name (mm_bodies m) ++ map ms_name (mm_sites m)) -> strip_nl x = x) ->
  (length (mm_bodies m) < limit)%nat ->
  exists c, build_chain_from_mjcf limit m a = Ok c /\
    (forall v, exists d, forward_kinematics mops c (config_tensor (c_root c) [v]) None = Ok d /\
       forall i b, descends m r i -> body i = Some b -> exists M, dget String.eqb (mb_name b) d = Some [M]) /\
    ((forall v d i b M W, forward_kinematics mops c (config_tensor (c_root c) [v]) None = Ok d -> descends m r i -> body i = Some b ->
        dget String.eqb (mb_name b) d = Some [M] -> pose_below m (mj_local m v) r i W -> M = W) <->
     (forall i b j, descends m r i -> (r < i)%nat -> body i = Some b -> joint_of m b = Some j -> exact_joint j)).
Proof.
  intros Ha Hn Hj Hc Hl.
  destruct (mjcf_fk m Hwf r Hrn Hsup a limit [] Ha Hn Hj Hc Hl) as (c & _ & H1 & _). exists c. split; [exact H1|].
  assert (F : forall v, exists d, forward_kinematics mops c (config_tensor (c_root c) [v]) None = Ok d /\
    forall i b, descends m r i -> body i = Some b -> exists M, dget String.eqb (mb_name b) d = Some [M] /\ pose_below m (code_local m v) r i M).
  { intros v. destruct (mjcf_fk m Hwf r Hrn Hsup a limit [v] Ha Hn Hj Hc Hl) as (c' & d & H1' & H2 & _ & _ & _ & _ & H6 & _).
    assert (HX : forall X (a b : X), Ok a = Ok b -> a = b) by (intros; congruence). rewrite H1 in H1'. apply HX in H1'. subst c'.
    exists d. split; [exact H2|]. intros i b Hd Hb. destruct (H6 i b Hd Hb) as (Ms & HM & HF). inversion HF as [|? M ? l HM1 Hnil]; subst.
    inversion Hnil; subst. eauto. }
  split.
  { intros v. destruct (F v) as (d & Hd & HF). exists d. split; [exact Hd|]. intros i b Hdi Hb. destruct (HF i b Hdi Hb) as (M & HM & _). eauto. }
  rewrite <- mj_poses_exact. split.
  - intros H v i W Hd HW. destruct (F v) as (d & Hfk & HF).
    assert (Hb : exists b, body i = Some b).
    { inversion Hd as [|i' b' Hb' Hne Hd']; [destruct (body i) eqn:E; eauto; apply nth_error_None in E; lia|eauto]. }
    destruct Hb as (b & Hb). destruct (HF i b Hd Hb) as (M & HM & HMc).
    destruct (pose_unique m (code_local m v) r i b Hwf Hrn Hd Hb) as (X & _ & HU). assert (E : M = W) by (rewrite <- (HU _ HMc); apply HU, HW). subst W.
    destruct (pose_unique m (mj_local m v) r i b Hwf Hrn Hd Hb) as (Y & HY & _). rewrite (H v d i b M Y Hfk Hd Hb HM HY). exact HY.
  - intros H v d i b M W Hfk Hd Hb HM HW. destruct (F v) as (d' & Hfk' & HF).
    assert (HX : forall X (a b : X), Ok a = Ok b -> a = b) by (intros; congruence). rewrite Hfk in Hfk'. apply HX in Hfk'. subst d'.
    destruct (HF i b Hd Hb) as (M' & HM' & HMc). rewrite HM in HM'. assert (HY : forall X (a b : X), Some [a] = Some [b] -> a = b) by (intros; congruence).
    apply HY in HM'. subst M'. specialize (H v i M Hd HMc).
    destruct (pose_unique m (mj_local m v) r i b Hwf Hrn Hd Hb) as (Y & _ & HU). rewrite <- (HU _ H). apply HU, HW.
Qed.
End Mj.
