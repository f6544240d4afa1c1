(** Last steps of the proofs quoted in Properties_Desc.v. *)
From Coq Require Import Reals Lra String Bool Arith Lia List ZArith FunctionalExtensionality.
From Coquelicot Require Import Coquelicot.
From Verif Require Import Prelude ExtF Tree ChainModel SpecFK ChainProofs ChainTables TreeQueries Input Widths Lin Trig RotModel RotBasic QuatProofs AxisAngle ChainInst
  FKMore ChainClamp Examples SerialModel SerialProofs SerialMore Deriv JacModel JacProofs JacMore IKModel IKProofs IKMore IKLimits IKKernel KernelProofs DeltaPose IKSolve SolveProofs
  SpecDescent PathDeriv AngleDeriv DescentProofs.
Import ListNotations.
Local Open Scope string_scope.
Local Open Scope list_scope.
Local Open Scope R_scope.

Lemma zip_map {X} (g : R -> R -> R) (a b : X -> R) l : zip_with g (map a l) (map b l) = map (fun x => g (a x) (b x)) l.
Proof. induction l as [|x l IH]; cbn [map zip_with]; [reflexivity|]. rewrite IH. reflexivity. Qed.
Lemma zip_still (row : list R) : forall dir, length dir = length row -> zip_with (fun x d => x + 0 * d) row dir = row.
Proof.
  induction row as [|x row IH]; intros [|d dir] H; try discriminate H; [reflexivity|]. cbn [zip_with]. cbn [length] in H. rewrite IH by congruence. f_equal. ring.
Qed.
Lemma angle_unique target T a b : angle_between target T a -> angle_between target T b -> a = b.
Proof.
  intros [A1 A2] [B1 B2]. assert (E : cos a = cos b) by lra. rewrite <- (acos_cos a A1), <- (acos_cos b B1), E. reflexivity.
Qed.
Lemma nth_in_all (l : list R) : (forall x, In x l -> x = 0) <-> (forall j, (j < length l)%nat -> nth j l 0 = 0).
Proof.
  split; intros H.
  - intros j Hj. apply H. apply nth_In. exact Hj.
  - intros x Hx. destruct (In_nth l x 0 Hx) as (j & Hj & <-). apply H. exact Hj.
Qed.
Lemma vnorm_sq u : vnorm u ^ 2 = vnorm2 u.
Proof. unfold vnorm. rewrite <- Rsqr_pow2. apply Rsqr_sqrt. apply vnorm2_nonneg. Qed.

(** everything about one row in terms of the path *)
Lemma row_step root (r : mframe) fs s target v reg lm wp wr :
  In r (preorder root) -> distinct_joints root -> distinct_frames root -> clean_names root -> root_path r (r :: fs) -> serial_tables mops zax s r fs -> rigid_tree root ->
  is_rot (rotp target) -> 0 < reg -> 0 <= lm ->
  let n := length (path_names fs) in
  let A := jac_w (Some (row_weights wp wr)) (map (col_of v (pose v fs)) (mov [] fs)) in
  exists dr x, let dx := (vsub (trp target) (trp (pose v fs)), dr) in let d := weigh (Some (row_weights wp wr)) dx in
  solves 6 (gram n A (damping reg lm d)) d x /\
  pik_row s target reg lm (Some (row_weights wp wr)) (map v (path_names fs)) = Ok (map (jt 6 A x) (seq 0 n), map (six dx) (seq 0 6)) /\
  (forall a, angle_between target (pose v fs) a -> a = 0 \/ eps6 <= a -> vnorm dr = a /\ axis_angle_to_matrix dr = m3mul (rotp target) (m3tr (rotp (pose v fs)))).
Proof.
  intros Hin Hdj Hdf Hcl Hp Ht Hrig Hr Hreg Hlm n A. destruct (m2q_spec _ Hr) as [N E].
  destruct (delta_spec (pose v fs) (trp target) _ (pose_rot root r fs Hin Hp Hrig v) N) as (dr & a & Hd & Ha & Htr & _ & Hx & _). rewrite E in Htr, Hx.
  destruct (ik_step_eq (map (col_of v (pose v fs)) (mov [] fs)) (vsub (trp target) (trp (pose v fs)), dr) reg lm (Some (row_weights wp wr)) Hreg Hlm) as (x & Hs & Hk).
  assert (L : length (map (col_of v (pose v fs)) (mov [] fs)) = n) by (unfold n; rewrite map_length, <- (map_length snd), mov_snd; unfold path_names; rewrite map_length; reflexivity).
  rewrite L in Hs, Hk. exists dr, x. cbn zeta. split; [exact Hs|]. split.
  - unfold pik_row. rewrite map_length. change (mkTh (length (path_names fs)) [map v (path_names fs)]) with (path_tensor fs [v]).
    rewrite (jacobian_tensor_eq root r fs s [v] Hin Hdj Hdf Hcl Hp Ht). cbn [rbind map]. rewrite Hd. rewrite fin3_of_fin. cbn [of_opt rbind]. rewrite Hk. reflexivity.
  - intros b Hb Hc. assert (Eb : b = a) by (eapply angle_unique; [exact Hb|split; [exact Ha|exact Htr]]). subst b. apply Hx. exact Hc.
Qed.
Lemma angle_exists target T : is_rot (rotp target) -> is_rot (rotp T) -> exists a, angle_between target T a.
Proof.
  intros H1 H2. destruct (m2q_spec _ H1) as [N E]. destruct (delta_spec T vzero _ H2 N) as (dr & a & _ & Ha & Htr & _). rewrite E in Htr. exists a. split; [exact Ha|exact Htr].
Qed.

(** a turning arm of length 1: a joint about z at the origin, a hand one unit along x *)
Definition arm_hand : mframe := Frame "hand" (mkLink (Some "hand") (Some (trans 1 0 0))) fixed_joint [].
Definition arm_turn : mframe := Frame "turn" (mkLink (Some "upper") None) (mkJoint (Some "j") None Revolute zax None None None) [arm_hand].
Definition arm : mframe := Frame "base" (mkLink (Some "base") None) fixed_joint [arm_turn].
Lemma arm_distinct_joints : distinct_joints arm. Proof. unfold distinct_joints, moving_names; simpl. nodup. Qed.
Lemma arm_distinct_frames : distinct_frames arm. Proof. unfold distinct_frames; simpl. nodup. Qed.
Lemma arm_clean : clean_names arm. Proof. intros f H; simpl in H. repeat (destruct H as [<-|H]; [reflexivity|]). contradiction. Qed.
Lemma arm_rigid : rigid_tree arm.
Proof.
  intros f H; simpl in H. repeat (destruct H as [<-|H]; [repeat split; simpl; auto using trans_rigid, zax_unit; try apply trans_rigid; try discriminate|]). contradiction.
Qed.
Lemma arm_path : root_path arm (arm :: [arm_turn; arm_hand]).
Proof. apply rp_child with (c := arm_turn); [simpl; auto|]. apply rp_child with (c := arm_hand); [simpl; auto|]. apply rp_here. Qed.
Lemma arm_pose v : pose v [arm_turn; arm_hand] = aff (axis_and_angle_to_matrix_33 zax (v (Some "j"))) (m3vec (axis_and_angle_to_matrix_33 zax (v (Some "j"))) (mkV3 1 0 0)).
Proof.
  rewrite !pose_cons, pose_nil, m4mul_1_r. unfold rel_pose, joint_motion, arm_turn, arm_hand, trans, fixed_joint.
  cbn -[cos sin PI Rdiv m4mul I4 axis_and_angle_to_matrix_44 aff zax m3vec axis_and_angle_to_matrix_33]. rewrite !m4mul_1_l, !m4mul_1_r, rot44_aff, aff_mul, m3mul_1_r. f_equal. lin.
Qed.
Lemma rot33_zax q : axis_and_angle_to_matrix_33 zax q = mkM3 (cos q) (- sin q) 0 (sin q) (cos q) 0 0 0 1.
Proof. unfold axis_and_angle_to_matrix_33, zax. set (c := cos q). set (s := sin q). lin_simpl. apply mkM3_eq; ring. Qed.
Lemma arm_cols v : v (Some "j") = 0 -> map (col_of v (pose v [arm_turn; arm_hand])) (mov [] [arm_turn; arm_hand]) = [(mkV3 0 1 0, zax)].
Proof.
  intros Hv. cbn [mov map]. change (moving arm_turn) with true. change (moving arm_hand) with false. cbn [map]. f_equal. unfold col_of. cbn [fst snd app].
  change (j_type (f_joint arm_turn)) with Revolute. cbn [jtype_eqb]. change (j_axis (f_joint arm_turn)) with zax.
  assert (E1 : pose v [arm_turn] = aff (axis_and_angle_to_matrix_33 zax (v (Some "j"))) vzero).
  { rewrite pose_cons, pose_nil, m4mul_1_r. unfold rel_pose, joint_motion, arm_turn. cbn -[cos sin PI Rdiv m4mul I4 axis_and_angle_to_matrix_44 aff zax m3vec axis_and_angle_to_matrix_33]. rewrite !m4mul_1_l, rot44_aff. reflexivity. }
  rewrite E1, arm_pose, rotp_aff, !trp_aff, Hv, rot33_zax, cos_0, sin_0. unfold m3vec, vcross, vsub, vzero, zax. cbn [m00 m01 m02 m10 m11 m12 m20 m21 m22 vx vy vz].
  assert (HX : forall a b c d : V3, a = c -> b = d -> (a, b) = (c, d)) by (intros; congruence). apply HX; apply mkV3_eq; ring.
Qed.

Lemma l74_descent : forall (nan : R) is_nan (root r : mframe) c rn p fs target reg lm wp wr,
  chain_init mops root = Ok c -> distinct_joints root -> distinct_frames root -> clean_names root -> rigid_tree root ->
  root_path root (p ++ [r]) -> ((rn = "" /\ r = root) \/ (rn <> "" /\ rn = f_name r)) -> root_path r (r :: fs) ->
  is_rigid target -> 0 < reg -> 0 <= lm ->
  exists s, serial_init mops zax c (f_name (last (r :: fs) r)) rn = Ok s /\
  forall row, length row = length (c_names (s_chain s)) ->
  exists dq dx, pik_row s target reg lm (Some (row_weights wp wr)) row = Ok (dq, dx) /\
  (forall dir, length dir = length row -> exists T ang, moves nan is_nan s target row dir T ang) /\
  forall T0 a, serial_fk_end mops nan is_nan s (InTensor (T1 row)) = Ok [T0] -> angle_between target T0 a -> (a = 0 \/ eps6 <= a < PI) ->
  (forall T ang, moves nan is_nan s target row dq T ang ->
    (exists g, is_derive (true_error wp wr target T ang) 0 (- 2 * g) /\ reg * rsum (length dq) (fun j => nth j dq 0 ^ 2) <= g) /\
    ((exists x, In x dq /\ x <> 0) -> exists dl, 0 < dl /\ forall t, 0 < t < dl -> true_error wp wr target T ang t < true_error wp wr target T ang 0)) /\
  ((forall x, In x dq -> x = 0) <-> (forall dir T ang, moves nan is_nan s target row dir T ang -> is_derive (true_error wp wr target T ang) 0 0)).
Proof.
  intros nan is_nan root r c rn p fs target reg lm wp wr Hc Hdj Hdf Hcl Hrt Hpr Hrn Hp Htg Hreg Hlm.
  assert (Hin : In r (preorder root)) by (eapply root_path_in; exact Hpr).
  assert (Hch : root_choice root r rn) by (destruct Hrn as [?|[? ?]]; [left | right]; auto).
  destruct (serial_ok mops zax root c rn r fs Hc Hdf Hcl Hch Hp) as (s & Hs & Ht). exists s. split; [exact Hs|]. intros row Hl.
  assert (En := path_chain_names r fs s Ht). rewrite En in Hl. destruct (row_config root r fs Hin Hdj Hp row Hl) as (v & ->).
  assert (Hr := rigid_path root r fs Hrt Hin Hp). assert (Rt : is_rot (rotp target)) by apply Htg.
  destruct (row_step root r fs s target v reg lm wp wr Hin Hdj Hdf Hcl Hp Ht Hrt Rt Hreg Hlm) as (dr & x & Hx & Hk & Ha). cbn zeta in Hx, Hk.
  set (n := length (path_names fs)) in *. set (A := jac_w (Some (row_weights wp wr)) (map (col_of v (pose v fs)) (mov [] fs))) in *.
  set (dxx := (vsub (trp target) (trp (pose v fs)), dr)) in *. set (d := weigh (Some (row_weights wp wr)) dxx) in *.
  pose proof (damping_pos reg lm d Hreg Hlm) as HK. set (K := damping reg lm d) in *.
  set (dq := map (jt 6 A x) (seq 0 n)) in *. assert (Ldq : length dq = n) by (unfold dq; rewrite map_length, seq_length; reflexivity).
  assert (Ndq : forall j, (j < n)%nat -> nth j dq 0 = jt 6 A x j).
  { intros j Hj. unfold dq. rewrite (nth_indep _ 0 (jt 6 A x 0%nat)) by (fold dq; lia). rewrite (map_nth (jt 6 A x)), seq_nth by exact Hj. reflexivity. }
  exists dq, (map (six dxx) (seq 0 6)). split; [exact Hk|].
  assert (FK : forall w : config (S := R), serial_fk_end mops nan is_nan s (InTensor (T1 (map w (path_names fs)))) = Ok [pose w fs]).
  { intros w. rewrite <- En. apply (serial_pose nan is_nan root r c rn fs s w); assumption. }
  assert (ZD : forall e : config (S := R), forall t, zip_with (fun x0 d0 => x0 + t * d0) (map v (path_names fs)) (map e (path_names fs)) = map (drive v e t) (path_names fs)).
  { intros e t. rewrite zip_map. reflexivity. }
  split.
  { intros dir Hd. rewrite map_length in Hd. destruct (row_config root r fs Hin Hdj Hp dir Hd) as (e & ->). exists (fun t => pose (drive v e t) fs).
    exists (fun t => acos ((trace3 (m3mul (rotp target) (m3tr (rotp (pose (drive v e t) fs)))) - 1) / 2)). split; [rewrite !map_length; reflexivity|].
    intros t. rewrite ZD, FK. split; [reflexivity|].
    destruct (angle_exists target (pose (drive v e t) fs) Rt (pose_rot root r fs Hin Hp Hrt _)) as (b & B1 & B2).
    assert (Eb : (trace3 (m3mul (rotp target) (m3tr (rotp (pose (drive v e t) fs)))) - 1) / 2 = cos b) by (rewrite B2; field).
    rewrite Eb, (acos_cos b B1). split; [exact B1|exact B2]. }
  intros T0 a HT0 Hang0 Hwin. rewrite FK in HT0. assert (HX : forall X (y z : X), Ok [y] = Ok [z] -> y = z) by (intros; congruence). apply HX in HT0. subst T0.
  assert (DER : forall e T ang, moves nan is_nan s target (map v (path_names fs)) (map e (path_names fs)) T ang ->
     is_derive (true_error wp wr target T ang) 0 (- 2 * dot 6 d (jv n A (fun j => nth j (map e (path_names fs)) 0)))).
  { intros e T ang (_ & Hm).
    assert (ET : forall t, T t = pose (drive v e t) fs) by (intros t; destruct (Hm t) as [E _]; rewrite ZD, FK in E; symmetry; apply HX; exact E).
    assert (Hm2 : forall t, angle_between target (pose (drive v e t) fs) (ang t)) by (intros t; rewrite <- ET; apply Hm).
    assert (E0 : pose (drive v e 0) fs = pose v fs) by (apply pose_ext; intros; apply drive_0).
    assert (EA : ang 0 = a) by (eapply angle_unique; [apply Hm2|rewrite E0; exact Hang0]).
    eapply is_derive_ext; [|apply (err_derive v e fs target dr wp wr ang Hr)].
    - intros t. unfold pose_err, true_error. rewrite ET, vnorm_sq. req. ring.
    - exact Hm2.
    - intros Hc'. rewrite EA in Hc' |- *. apply Ha; assumption.
    - rewrite EA. exact Hwin. }
  destruct (row_config root r fs Hin Hdj Hp dq Ldq) as (e & Ee).
  assert (EV : jv n A (fun j => nth j dq 0) = jv n A (jt 6 A x)).
  { apply functional_extensionality. intros i. unfold jv. apply rsum_ext. intros j Hj. rewrite (Ndq j Hj). reflexivity. }
  assert (DD := step_descends 6 n A d K x Hx). assert (Q1 := dot_self_nonneg 6 (jv n A (jt 6 A x))). assert (Q2 := dot_self_nonneg n (jt 6 A x)).
  assert (SQ : rsum (length dq) (fun j => nth j dq 0 ^ 2) = dot n (jt 6 A x) (jt 6 A x)).
  { rewrite Ldq. unfold dot. apply rsum_ext. intros j Hj. rewrite (Ndq j Hj). ring. }
  assert (KR : reg <= K).
  { unfold K, damping. destruct (Rltb 0 lm); [|lra]. assert (0 <= rsum 6 (fun i => d i * d i)) by (apply rsum_nonneg; intros; apply Rle_0_sqr).
    assert (0 <= lm * rsum 6 (fun i => d i * d i)) by (apply Rmult_le_pos; assumption). lra. }
  split.
  - intros T ang Hm. assert (D : is_derive (true_error wp wr target T ang) 0 (- 2 * dot 6 d (jv n A (jt 6 A x)))).
    { rewrite <- EV. rewrite Ee in Hm |- *. apply DER. exact Hm. }
    assert (G : reg * rsum (length dq) (fun j => nth j dq 0 ^ 2) <= dot 6 d (jv n A (jt 6 A x))).
    { rewrite SQ, DD. assert (reg * dot n (jt 6 A x) (jt 6 A x) <= K * dot n (jt 6 A x) (jt 6 A x)) by (apply Rmult_le_compat_r; assumption). lra. }
    split; [exists (dot 6 d (jv n A (jt 6 A x))); split; [exact D|exact G]|].
    intros (y & Hy & Ny). apply (derive_neg_down _ _ D). destruct (In_nth dq y 0 Hy) as (j & Hj & Ej).
    assert (P : 0 < rsum (length dq) (fun j => nth j dq 0 ^ 2)).
    { apply (rsum_pos _ _ j); [intros i _; apply pow2_ge_0 | exact Hj |]. rewrite Ej. apply pow2_gt_0. exact Ny. }
    assert (0 < reg * rsum (length dq) (fun j => nth j dq 0 ^ 2)) by (apply Rmult_lt_0_compat; assumption). lra.
  - rewrite nth_in_all, Ldq. assert (ZI := step_zero_iff 6 n A d K HK x Hx). split.
    + intros Z dir T ang Hm. destruct Hm as (Ld & Hm). rewrite map_length in Ld. destruct (row_config root r fs Hin Hdj Hp dir Ld) as (f & Ef). subst dir.
      eapply is_derive_eq; [apply (DER f T ang); split; [rewrite !map_length; reflexivity|exact Hm]|]. rewrite adjoint. unfold dot.
      rewrite (rsum_ext n _ (fun _ => 0)); [rewrite rsum_0; req; ring|]. intros j Hj.
      assert (Zj : jt 6 A d j = 0) by (apply (proj1 ZI); [intros i Hi; rewrite <- (Ndq i Hi); apply Z; exact Hi | exact Hj]). rewrite Zj. ring.
    + intros H j Hj. rewrite (Ndq j Hj). 
      assert (Hex : exists T ang, moves nan is_nan s target (map v (path_names fs)) (map e (path_names fs)) T ang).
      { exists (fun t => pose (drive v e t) fs), (fun t => acos ((trace3 (m3mul (rotp target) (m3tr (rotp (pose (drive v e t) fs)))) - 1) / 2)). split; [rewrite !map_length; reflexivity|].
        intros t. rewrite ZD, FK. split; [reflexivity|].
        destruct (angle_exists target (pose (drive v e t) fs) Rt (pose_rot root r fs Hin Hp Hrt _)) as (b & B1 & B2).
        assert (Eb : (trace3 (m3mul (rotp target) (m3tr (rotp (pose (drive v e t) fs)))) - 1) / 2 = cos b) by (rewrite B2; field).
        rewrite Eb, (acos_cos b B1). split; [exact B1|exact B2]. }
      destruct Hex as (T & ang & Hm). pose proof (H _ _ _ Hm) as D0. pose proof (DER _ _ _ Hm) as D1. rewrite <- Ee, EV in D1.
      assert (E2 : - 2 * dot 6 d (jv n A (jt 6 A x)) = 0).
      { apply is_derive_unique in D0. apply is_derive_unique in D1. rewrite D0 in D1. symmetry. exact D1. }
      rewrite DD in E2. assert (0 <= K * dot n (jt 6 A x) (jt 6 A x)) by (apply Rmult_le_pos; lra).
      assert (E3 : K * dot n (jt 6 A x) (jt 6 A x) = 0) by lra. apply Rmult_integral in E3. destruct E3 as [E3|E3]; [lra|]. exact (dot_self_zero n A d _ _ E3 j Hj).
Qed.

Lemma l74_whole_step_refuted : forall lr reg, 0 < lr -> 0 < reg -> exists c s target dq dx T0 Te,
  chain_init mops arm = Ok c /\ serial_init mops zax c "hand" "" = Ok s /\ is_rigid target /\
  pik_row s target reg 0 (Some (row_weights 1 1)) [0] = Ok (dq, dx) /\
  serial_fk_end mops 0 (fun _ => false) s (InTensor (T1 [0])) = Ok [T0] /\
  serial_fk_end mops 0 (fun _ => false) s (InTensor (T1 (map (fun d => lr * d) dq))) = Ok [Te] /\
  angle_between target T0 0 /\ angle_between target Te PI /\ vnorm (vsub (trp target) (trp T0)) < vnorm (vsub (trp target) (trp Te)).
Proof.
  intros lr reg Hlr Hreg. pose proof PI_RGT_0 as HPI. set (ey := (2 + reg) * (PI / lr)). assert (Hq : 0 < PI / lr) by (apply Rdiv_lt_0_compat; lra). assert (Hey : 0 < ey) by (apply Rmult_lt_0_compat; lra).
  destruct (chain_init_ok mops arm) as (c & Hc & _).
  assert (Hin : In arm (preorder arm)) by (rewrite preorder_unfold; left; reflexivity).
  destruct (serial_ok mops zax arm c "" arm [arm_turn; arm_hand] Hc arm_distinct_frames arm_clean (or_introl (conj eq_refl eq_refl)) arm_path) as (s & Hs & Ht).
  set (fs := [arm_turn; arm_hand]) in *. set (target := aff I3 (mkV3 1 ey 0)). set (v := fun _ : option string => 0%R).
  assert (Rt : is_rigid target) by (apply is_rigid_aff; apply is_rot_I).
  destruct (row_step arm arm fs s target v reg 0 1 1 Hin arm_distinct_joints arm_distinct_frames arm_clean arm_path Ht arm_rigid ltac:(apply Rt) ltac:(lra) ltac:(lra)) as (dr & x & Hx & Hk & Ha).
  cbn zeta in Hx, Hk. unfold fs in Hx, Hk. rewrite (arm_cols v eq_refl) in Hx, Hk. fold fs in Hx, Hk. change (path_names fs) with [Some "j"] in Hx, Hk. cbn [length map seq] in Hx, Hk.
  assert (EP : forall q : config (S := R), pose q fs = aff (mkM3 (cos (q (Some "j"))) (- sin (q (Some "j"))) 0 (sin (q (Some "j"))) (cos (q (Some "j"))) 0 0 0 1) (mkV3 (cos (q (Some "j"))) (sin (q (Some "j"))) 0)).
  { intros q. unfold fs. rewrite arm_pose, rot33_zax. f_equal. unfold m3vec. cbn [m00 m01 m02 m10 m11 m12 m20 m21 m22 vx vy vz]. apply mkV3_eq; ring. }
  assert (P0 : pose v fs = aff I3 (mkV3 1 0 0)) by (rewrite EP; unfold v; rewrite cos_0, sin_0, Ropp_0; reflexivity).
  assert (A0 : angle_between target (pose v fs) 0).
  { split; [lra|]. rewrite P0. unfold target. rewrite !rotp_aff, cos_0. unfold trace3, m3mul, m3tr, I3. cbn [m00 m01 m02 m10 m11 m12 m20 m21 m22]. ring. }
  destruct (Ha 0 A0 (or_introl eq_refl)) as [D0 _]. apply vnorm_zero_iff in D0. subst dr. rewrite P0 in Hx, Hk. unfold target in Hx, Hk. rewrite !trp_aff in Hx, Hk.
  set (dq := jt 6 (jac_w (Some (row_weights 1 1)) [(mkV3 0 1 0, zax)]) x 0%nat) in *.
  assert (Q : dq = PI / lr).
  { pose proof (Hx 0%nat ltac:(lia)) as H0. pose proof (Hx 1%nat ltac:(lia)) as H1. pose proof (Hx 5%nat ltac:(lia)) as H5. unfold dq.
    unfold gram, damping, jt, jac_w, weigh, row_weights, vzero, vsub, zax in *. cbn [rsum length Nat.eqb Nat.ltb Nat.leb nth six fst snd vx vy vz] in *.
    replace (Rltb 0 0) with false in * by (symmetry; apply Rltb_false; lra). assert (E : (2 + reg) * (x 1%nat + x 5%nat) = (2 + reg) * (PI / lr)) by (fold ey; lra).
    apply Rmult_eq_reg_l in E; lra. }
  set (w := fun _ : option string => PI).
  assert (P1 : pose w fs = aff (mkM3 (-1) 0 0 0 (-1) 0 0 0 1) (mkV3 (-1) 0 0)) by (rewrite EP; unfold w; rewrite cos_PI, sin_PI, Ropp_0; reflexivity).
  assert (FK : forall q : config (S := R), serial_fk_end mops 0 (fun _ => false) s (InTensor (T1 (map q [Some "j"]))) = Ok [pose q fs]).
  { intros q. assert (E := serial_pose 0 (fun _ => false) arm arm c "" fs s q Hin arm_distinct_joints arm_distinct_frames arm_clean arm_path Hs Ht).
    rewrite (path_chain_names arm fs s Ht) in E. exact E. }
  exists c, s, target. eexists. eexists. exists (pose v fs), (pose w fs).
  split; [exact Hc|]. split; [exact Hs|]. split; [exact Rt|]. split; [exact Hk|]. split; [exact (FK v)|]. split.
  { rewrite <- (FK w). cbn [map]. unfold w. rewrite Q. replace (lr * (PI / lr)) with PI by (field; lra). reflexivity. }
  split; [exact A0|]. split.
  { split; [lra|]. rewrite P1. unfold target. rewrite !rotp_aff, cos_PI. unfold trace3, m3mul, m3tr, I3. cbn [m00 m01 m02 m10 m11 m12 m20 m21 m22]. ring. }
  rewrite P0, P1. unfold target. rewrite !trp_aff. unfold vnorm. apply sqrt_lt_1_alt. unfold vnorm2, vdot, vsub. cbn [vx vy vz]. split; nra.
Qed.
