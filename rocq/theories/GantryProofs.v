(** One step of the solver on a gantry. *)
From Coq Require Import Reals Lra String Bool Arith Lia List ZArith.
From Verif Require Import Prelude ExtF Tree ChainModel SpecFK ChainProofs ChainTables TreeQueries Input Widths Lin Trig RotModel RotBasic QuatProofs AxisAngle ChainInst
  FKMore ChainClamp Examples SerialModel SerialProofs SerialMore Deriv JacModel JacProofs JacMore IKModel IKProofs IKMore IKLimits IKKernel KernelProofs DeltaPose IKSolve SolveProofs
  SpecDescent PathDeriv DescentProofs DescFinal RoundNorm SpecGantry.
Import ListNotations.
Local Open Scope list_scope.
Local Open Scope R_scope.

(** ** poses of a gantry *)
Lemma rel_slide v d t f : rigid_frame f -> j_type (f_joint f) <> Revolute ->
  rel_pose mops (drive v d t) f = aff (rotp (rel_pose mops v f))
    (vadd (trp (rel_pose mops v f)) (vscale t (if moving f then vscale (d (j_name (f_joint f))) (m3vec (rotp (rel_pose mops v f)) (j_axis (f_joint f))) else vzero))) /\
  rotp (rel_pose mops v f) = rotp (rel_pose mops (fun _ => 0) f).
Proof.
  intros (R1 & R2 & R3) Hty. set (Q := m4mul (or_one mops (l_off (f_link f))) (or_one mops (j_off (f_joint f)))).
  assert (RQ : is_rigid Q) by (unfold Q; apply is_rigid_mul; apply or_one_rigid; assumption).
  assert (E : forall w, rel_pose mops w f = m4mul Q (joint_motion mops w (f_joint f))) by (intros w; unfold rel_pose, Q; cbn [t_mul mops]; reflexivity).
  rewrite !E. destruct RQ as [AQ RQ]. rewrite <- (aff_eta Q AQ). set (A := rotp Q). set (a := trp Q). unfold joint_motion, moving.
  destruct (j_type (f_joint f)) eqn:Ety; cbn [jtype_eqb negb].
  - cbn [t_one mops]. rewrite !m4mul_1_r, !rotp_aff, !trp_aff, vscale_z, vadd_z_r. auto.
  - contradiction.
  - cbn [t_pris mops]. rewrite !pris_aff, !aff_mul, !rotp_aff, !trp_aff, !m3mul_1_r. split; [|reflexivity]. f_equal. unfold drive. generalize (j_axis (f_joint f)) (d (j_name (f_joint f))) (v (j_name (f_joint f))).
    intros k c q. rewrite !m3vec_scale. generalize (m3vec A k). intros z. lin.
Qed.
Lemma twist_gantry v d fs : gantry fs -> snd (twist v d fs) = vzero.
Proof.
  induction fs as [|f s IH]; intros H; [reflexivity|]. cbn [twist]. assert (Hs : gantry s) by (intros g Hg; apply H; right; exact Hg). rewrite (IH Hs).
  pose proof (H f (or_introl eq_refl)) as N. destruct (j_type (f_joint f)); [| contradiction |]; cbn [snd]; apply m3vec_0.
Qed.
Lemma pose_slide v d t fs : (forall f, In f fs -> rigid_frame f) -> gantry fs ->
  pose (drive v d t) fs = aff (rotp (pose v fs)) (vadd (trp (pose v fs)) (vscale t (fst (twist v d fs)))) /\ rotp (pose v fs) = rotp (pose (fun _ => 0) fs).
Proof.
  intros Hr Hg. induction fs as [|f s IH].
  - rewrite !pose_nil. cbn [twist fst]. rewrite vscale_z, vadd_z_r. split; [|reflexivity]. symmetry. apply aff_eta. unfold affine, I4. cbn. auto.
  - assert (Hs : forall g, In g s -> rigid_frame g) by (intros g Hi; apply Hr; right; exact Hi). assert (Gs : gantry s) by (intros g Hi; apply Hg; right; exact Hi).
    destruct (IH Hs Gs) as [I1 I2]. destruct (rel_slide v d t f (Hr f (or_introl eq_refl)) (Hg f (or_introl eq_refl))) as [E1 E2].
    pose proof (rel_rigid v f (Hr f (or_introl eq_refl))) as RM. pose proof (rigid_frames_pose v s Hs) as RF.
    pose proof (rel_rigid (fun _ => 0) f (Hr f (or_introl eq_refl))) as RM0. pose proof (rigid_frames_pose (fun _ => 0) s Hs) as RF0.
    rewrite !pose_cons, E1, I1, !rotp_mul, trp_mul by (apply RM || apply RF || apply RM0 || apply RF0). split; [|rewrite <- E2, <- I2; reflexivity].
    rewrite aff_mul. f_equal. rewrite m3vec_add, m3vec_scale. cbn [twist]. unfold moving. pose proof (Hg f (or_introl eq_refl)) as N.
    set (M := rotp (rel_pose mops v f)). set (u := m3vec M (fst (twist v d s))). set (z := m3vec M (j_axis (f_joint f))). set (x := m3vec M (trp (pose v s))). set (y := trp (rel_pose mops v f)).
    destruct (j_type (f_joint f)); [| contradiction |]; cbn [jtype_eqb negb fst]; fold M u z; generalize x y z u (d (j_name (f_joint f))); clear; intros x y z u c; lin.
Qed.
Lemma cols_slide v T fs : (forall f, In f fs -> rigid_frame f) -> gantry fs -> forall p, (forall f, In f p -> rigid_frame f) ->
  map (col_of v T) (mov p fs) = map (fun z => (z, vzero)) (slide_axes (rotp (pose v p)) fs).
Proof.
  induction fs as [|g s IH]; intros Hr Hg p Hp; [reflexivity|]. cbn [mov slide_axes].
  assert (Hs : forall g, In g s -> rigid_frame g) by (intros h Hi; apply Hr; right; exact Hi). assert (Gs : gantry s) by (intros h Hi; apply Hg; right; exact Hi).
  assert (Hp' : forall f, In f (p ++ [g]) -> rigid_frame f) by (intros f Hf; apply in_app_or in Hf; destruct Hf as [Hf|[<-|[]]]; [apply Hp; exact Hf | apply Hr; left; reflexivity]).
  destruct (rel_slide v v 0 g (Hr g (or_introl eq_refl)) (Hg g (or_introl eq_refl))) as [_ E2].
  assert (ER : rotp (pose v (p ++ [g])) = m3mul (rotp (pose v p)) (rotp (rel_pose mops (fun _ => 0) g))).
  { rewrite pose_app, pose_cons, pose_nil, m4mul_1_r, rotp_mul; [rewrite E2; reflexivity | apply rigid_frames_pose; exact Hp | apply rel_rigid; apply Hr; left; reflexivity]. }
  pose proof (IH Hs Gs (p ++ [g]) Hp') as I1. rewrite ER in I1. destruct (moving g); [|exact I1]. cbn [map]. rewrite I1. f_equal. unfold col_of. cbn [fst snd]. rewrite ER.
  pose proof (Hg g (or_introl eq_refl)) as N. destruct (j_type (f_joint g)); [reflexivity | contradiction | reflexivity].
Qed.

(** ** the damped step on sliding columns *)
Lemma rate_mono lr mu reg lm wp e e' : 0 < lr -> 0 < mu -> 0 < reg -> 0 <= lm -> 0 < wp -> 0 <= e' <= e -> rate lr mu reg lm wp e' <= rate lr mu reg lm wp e.
Proof.
  intros Hlr Hmu Hreg Hlm Hwp He. unfold rate. assert (Hm : 0 < wp ^ 2 * mu) by (apply Rmult_lt_0_compat; [apply pow_lt; exact Hwp | exact Hmu]).
  assert (He2 : e' ^ 2 <= e ^ 2) by (apply pow_incr; lra). assert (Hw : 0 <= lm * wp ^ 2) by (apply Rmult_le_pos; [exact Hlm | apply pow2_ge_0]).
  assert (H1 : lm * wp ^ 2 * e' ^ 2 <= lm * wp ^ 2 * e ^ 2) by (apply Rmult_le_compat_l; assumption).
  assert (H2 : 0 <= lm * wp ^ 2 * e' ^ 2) by (apply Rmult_le_pos; [exact Hw | apply pow2_ge_0]).
  set (m := wp ^ 2 * mu) in *. set (a := lm * wp ^ 2 * e' ^ 2) in *. set (b := lm * wp ^ 2 * e ^ 2) in *.
  assert (/ (m + reg + b) <= / (m + reg + a)) by (apply Rinv_le_contravar; lra). unfold Rdiv.
  assert (lr * m * / (m + reg + b) <= lr * m * / (m + reg + a)) by (apply Rmult_le_compat_l; [apply Rmult_le_pos; lra | assumption]). lra.
Qed.
Lemma rate_bounds lr mu reg lm wp e : 0 < lr <= 1 -> 0 < mu -> 0 < reg -> 0 <= lm -> 0 < wp -> 0 < rate lr mu reg lm wp e < 1.
Proof.
  intros Hlr Hmu Hreg Hlm Hwp. unfold rate. assert (Hm : 0 < wp ^ 2 * mu) by (apply Rmult_lt_0_compat; [apply pow_lt; exact Hwp | exact Hmu]).
  assert (Hw : 0 <= lm * wp ^ 2 * e ^ 2) by (apply Rmult_le_pos; [apply Rmult_le_pos; [exact Hlm | apply pow2_ge_0] | apply pow2_ge_0]).
  set (m := wp ^ 2 * mu) in *. set (a := lm * wp ^ 2 * e ^ 2) in *. assert (Hi : 0 < / (m + reg + a)) by (apply Rinv_0_lt_compat; lra).
  assert (E : m * / (m + reg + a) = 1 - (reg + a) * / (m + reg + a)) by (field; lra). assert (P : 0 < (reg + a) * / (m + reg + a)) by (apply Rmult_lt_0_compat; lra).
  assert (0 < m * / (m + reg + a)) by (apply Rmult_lt_0_compat; lra). unfold Rdiv. rewrite Rmult_assoc.
  assert (0 < lr * (m * / (m + reg + a))) by (apply Rmult_lt_0_compat; lra).
  assert (lr * (m * / (m + reg + a)) <= 1 * (m * / (m + reg + a))) by (apply Rmult_le_compat_r; lra). lra.
Qed.

(** [J]: six rows, the last three zero *)
Lemma contraction (zs : list V3) (e X : V3) (wp wr K lr mu : R) (x : nat -> R) :
  let n := length zs in let A := jac_w (Some (row_weights wp wr)) (map (fun z => (z, vzero)) zs) in let d := weigh (Some (row_weights wp wr)) (e, vzero) in
  0 < K -> 0 < mu -> 0 < wp -> 0 < lr <= 1 -> spread mu zs -> solves 6 (gram n A K) d x ->
  forall u, (forall i, (i < 3)%nat -> jv n A (jt 6 A x) i = wp * six (u, vzero) i) ->
  vnorm (vsub e (vscale lr u)) <= (1 - lr * (wp ^ 2 * mu) / (wp ^ 2 * mu + K)) * vnorm e.
Proof.
  intros n A d HK Hmu Hwp Hlr Hsp Hx u Hu. clear X.
  assert (Hm : 0 < wp ^ 2 * mu) by (apply Rmult_lt_0_compat; [apply pow_lt; exact Hwp | exact Hmu]).
  pose proof (residual 6 n A d K x Hx) as Res.
  assert (A0 : forall i j, (3 <= i)%nat -> A i j = 0).
  { intros i j Hi. unfold A, jac_w. change (vzero, vzero) with ((fun z : V3 => (z, vzero)) vzero). rewrite map_nth. unfold weigh, six, vzero. cbn [fst snd vx vy vz].
    do 3 (destruct i as [|i]; [lia|]). do 3 (destruct i as [|i]; [ring|]). ring. }
  assert (X0 : forall i, (3 <= i < 6)%nat -> x i = 0).
  { intros i Hi. pose proof (Res i ltac:(lia)) as R0. assert (J0 : jv n A (jt 6 A x) i = 0).
    { unfold jv. rewrite (rsum_ext n _ (fun _ => 0)) by (intros; rewrite A0 by lia; ring). apply rsum_0. }
    assert (D0 : d i = 0). { unfold d, weigh, six, vzero. cbn [fst snd vx vy vz]. do 3 (destruct i as [|i]; [lia|]). do 3 (destruct i as [|i]; [ring|]). lia. }
    rewrite J0, D0 in R0. assert (K * x i = 0) by lra. apply Rmult_integral in H. lra. }
  set (X := mkV3 (x 0%nat) (x 1%nat) (x 2%nat)).
  (* the new error *)
  assert (EN : vscale wp (vsub e (vscale lr u)) = vadd (vscale ((1 - lr) * wp) e) (vscale (lr * K) X)).
  { pose proof (Res 0%nat ltac:(lia)) as R0. pose proof (Res 1%nat ltac:(lia)) as R1. pose proof (Res 2%nat ltac:(lia)) as R2.
    rewrite Hu in R0, R1, R2 by lia. unfold d, weigh, row_weights, six in R0, R1, R2. cbn [Nat.ltb Nat.leb fst] in R0, R1, R2.
    unfold X, vscale, vsub, vadd. cbn [vx vy vz]. apply mkV3_eq.
    - replace (lr * K * x 0%nat) with (lr * (K * x 0%nat)) by ring. replace (K * x 0%nat) with (wp * vx e - wp * vx u) by lra. ring.
    - replace (lr * K * x 1%nat) with (lr * (K * x 1%nat)) by ring. replace (K * x 1%nat) with (wp * vy e - wp * vy u) by lra. ring.
    - replace (lr * K * x 2%nat) with (lr * (K * x 2%nat)) by ring. replace (K * x 2%nat) with (wp * vz e - wp * vz u) by lra. ring. }
  (* the multiplier is small *)
  assert (EJ : forall j, jt 6 A x j = wp * vdot (nth j zs vzero) X).
  { intros j. unfold jt. cbn [rsum]. rewrite (X0 3%nat), (X0 4%nat), (X0 5%nat) by lia. unfold A, jac_w. change (vzero, vzero) with ((fun z : V3 => (z, vzero)) vzero). rewrite map_nth.
    unfold weigh, row_weights, six, vdot, X. cbn [Nat.ltb Nat.leb fst vx vy vz]. ring. }
  assert (EX : wp * vdot X e = dot n (jt 6 A x) (jt 6 A x) + K * vnorm2 X).
  { assert (E1 : wp * vdot X e = dot 6 x d).
    { unfold dot, d. cbn [rsum]. rewrite (X0 3%nat), (X0 4%nat), (X0 5%nat) by lia. unfold weigh, row_weights, six, vdot, X. cbn [Nat.ltb Nat.leb fst vx vy vz]. ring. }
    assert (E2 : vnorm2 X = dot 6 x x).
    { unfold dot. cbn [rsum]. rewrite (X0 3%nat), (X0 4%nat), (X0 5%nat) by lia. unfold vnorm2, vdot, X. cbn [vx vy vz]. ring. }
    rewrite E1, E2, <- adjoint. unfold dot. rewrite <- rsum_scal, <- rsum_plus. apply rsum_ext. intros i Hi. pose proof (Res i Hi) as R0.
    replace (d i) with (jv n A (jt 6 A x) i + K * x i) by lra. ring. }
  assert (ES : dot n (jt 6 A x) (jt 6 A x) = wp ^ 2 * fold_right (fun z acc => vdot z X ^ 2 + acc) 0 zs).
  { unfold dot. rewrite (rsum_ext n _ (fun j => wp ^ 2 * vdot (nth j zs vzero) X ^ 2)) by (intros; rewrite EJ; ring). rewrite rsum_scal. f_equal. unfold n. clear.
    induction zs as [|z zs IH]; [reflexivity|]. cbn [length rsum nth fold_right]. rewrite IH. reflexivity. }
  assert (HS : (wp ^ 2 * mu + K) * vnorm2 X <= wp * vdot X e).
  { rewrite EX, ES. pose proof (Hsp X) as P. assert (wp ^ 2 * (mu * vnorm2 X) <= wp ^ 2 * fold_right (fun z acc => vdot z X ^ 2 + acc) 0 zs) by (apply Rmult_le_compat_l; [apply pow2_ge_0 | exact P]). lra. }
  pose proof (vdot_le X e) as HC. pose proof (vnorm_nonneg X) as NX. pose proof (vnorm_nonneg e) as Ne.
  assert (HX : (wp ^ 2 * mu + K) * vnorm X <= wp * vnorm e).
  { destruct (Req_dec (vnorm X) 0) as [Z|Z]; [rewrite Z, Rmult_0_r; apply Rmult_le_pos; lra|].
    apply Rmult_le_reg_r with (vnorm X); [lra|]. rewrite Rmult_assoc. replace (vnorm X * vnorm X) with (vnorm2 X) by (rewrite <- vnorm_sq; ring).
    apply Rle_trans with (wp * vdot X e); [exact HS|]. rewrite Rmult_assoc. apply Rmult_le_compat_l; lra. }
  set (m := wp ^ 2 * mu) in *.
  assert (NV : forall c v, 0 <= c -> vnorm (vscale c v) = c * vnorm v).
  { intros c v Hc. unfold vnorm. replace (vnorm2 (vscale c v)) with ((c * c) * vnorm2 v) by (unfold vnorm2, vdot, vscale; cbn [vx vy vz]; ring).
    rewrite sqrt_mult; [rewrite (sqrt_square c Hc); reflexivity | apply Rmult_le_pos; exact Hc | apply vnorm2_nonneg]. }
  assert (HN : wp * vnorm (vsub e (vscale lr u)) <= (1 - lr) * wp * vnorm e + lr * K * vnorm X).
  { rewrite <- NV by lra. rewrite EN. eapply Rle_trans; [apply vnorm_triangle|]. rewrite !NV by (apply Rmult_le_pos; lra). lra. }
  assert (HX2 : vnorm X <= wp * vnorm e / (m + K)).
  { apply Rmult_le_reg_r with (m + K); [lra|]. unfold Rdiv. rewrite Rmult_assoc, Rinv_l by lra. lra. }
  apply Rmult_le_reg_l with wp; [exact Hwp|]. eapply Rle_trans; [exact HN|].
  apply Rle_trans with ((1 - lr) * wp * vnorm e + lr * K * (wp * vnorm e / (m + K))).
  - apply Rplus_le_compat_l. apply Rmult_le_compat_l; [apply Rmult_le_pos; lra | exact HX2].
  - right. field. lra.
Qed.

Lemma dr_zero target v fs : rotp target = rotp (pose v fs) -> is_rot (rotp target) -> angle_between target (pose v fs) 0.
Proof.
  intros E H. split; [pose proof PI_RGT_0; lra|]. rewrite <- E. destruct H as [H _]. rewrite H, cos_0. unfold trace3, I3. cbn [m00 m11 m22]. ring.
Qed.
Lemma vnorm_zero_eq v : vnorm v = 0 -> v = vzero.
Proof.
  intros H. assert (N : vnorm2 v = 0) by (rewrite <- vnorm_sq, H; ring). unfold vnorm2, vdot in N. destruct v as [a b c]. cbn [vx vy vz] in N. unfold vzero.
  assert (a = 0 /\ b = 0 /\ c = 0) as (-> & -> & ->); [|reflexivity]. pose proof (Rle_0_sqr a). pose proof (Rle_0_sqr b). pose proof (Rle_0_sqr c). unfold Rsqr in *.
  assert (a * a = 0) by lra. assert (b * b = 0) by lra. assert (c * c = 0) by lra. split; [|split]; apply Rsqr_0_uniq; assumption.
Qed.

(** one row of the batch: what the step is and how much closer it gets *)
Lemma gantry_step root (r : mframe) fs s target v reg lm wp wr lr mu :
  In r (preorder root) -> distinct_joints root -> distinct_frames root -> clean_names root -> root_path r (r :: fs) -> serial_tables mops zax s r fs -> rigid_tree root ->
  is_rot (rotp target) -> rotp target = rotp (pose (fun _ => 0) fs) -> gantry fs -> spread mu (slide_axes I3 fs) -> 0 < mu -> 0 < reg -> 0 <= lm -> 0 < wp -> 0 < lr <= 1 ->
  let e0 := vnorm (vsub (trp target) (trp (pose v fs))) in
  exists d, pik_row s target reg lm (Some (row_weights wp wr)) (map v (path_names fs)) = Ok (map d (path_names fs), map (six (vsub (trp target) (trp (pose v fs)), vzero)) (seq 0 6)) /\
  vnorm (vsub (trp target) (trp (pose (drive v d lr) fs))) <= rate lr mu reg lm wp e0 * e0.
Proof.
  intros Hin Hdj Hdf Hcl Hp Ht Hrig Hrt Horient Hg Hsp Hmu Hreg Hlm Hwp Hlr e0.
  assert (Hr := rigid_path root r fs Hrig Hin Hp).
  destruct (row_step root r fs s target v reg lm wp wr Hin Hdj Hdf Hcl Hp Ht Hrig Hrt Hreg Hlm) as (dr & x & Hx & Hk & Ha). cbn zeta in Hx, Hk.
  assert (EO : rotp target = rotp (pose v fs)) by (destruct (pose_slide v v 0 fs Hr Hg) as [_ ->]; exact Horient).
  destruct (Ha 0 (dr_zero target v fs EO Hrt) (or_introl eq_refl)) as [Hn _]. apply vnorm_zero_eq in Hn. subst dr.
  pose proof (cols_slide v (pose v fs) fs Hr Hg [] ltac:(intros f [])) as EC. rewrite pose_nil in EC. change (rotp I4) with I3 in EC.
  set (n := length (path_names fs)) in *. set (A := jac_w (Some (row_weights wp wr)) (map (col_of v (pose v fs)) (mov [] fs))) in *.
  assert (Ln : length (slide_axes I3 fs) = n).
  { rewrite <- (map_length (fun z : V3 => (z, vzero))), <- EC, map_length, <- (map_length snd), mov_snd. unfold n, path_names. rewrite map_length. reflexivity. }
  destruct (row_config root r fs Hin Hdj Hp (map (jt 6 A x) (seq 0 n))) as (d & Ed); [rewrite map_length, seq_length; reflexivity|].
  exists d. rewrite Hk, Ed. split; [reflexivity|].
  destruct (pose_slide v d lr fs Hr Hg) as [EP _]. rewrite EP, trp_aff.
  set (ev := vsub (trp target) (trp (pose v fs))) in *. set (u := fst (twist v d fs)).
  assert (EV : vsub (trp target) (vadd (trp (pose v fs)) (vscale lr u)) = vsub ev (vscale lr u)).
  { unfold ev. generalize (trp target) (trp (pose v fs)) u. intros a b c. lin. }
  rewrite EV. set (dw := weigh (Some (row_weights wp wr)) (ev, vzero)) in *. pose proof (damping_pos reg lm dw Hreg Hlm) as HK.
  assert (EK : damping reg lm dw = reg + lm * wp ^ 2 * e0 ^ 2).
  { unfold damping. unfold e0. rewrite vnorm_sq. fold ev. assert (ER : rsum 6 (fun i => dw i * dw i) = wp ^ 2 * vnorm2 ev).
    { unfold dw. cbn [rsum]. unfold weigh, row_weights, six, vnorm2, vdot, vzero. cbn [Nat.ltb Nat.leb fst snd vx vy vz]. ring. }
    rewrite ER. unfold Rltb. destruct (Rlt_dec 0 lm) as [L|L]; [ring|]. assert (lm = 0) by lra. subst lm. ring. }
  assert (ER : rate lr mu reg lm wp e0 = 1 - lr * (wp ^ 2 * mu) / (wp ^ 2 * mu + damping reg lm dw)).
  { unfold rate. rewrite EK, Rplus_assoc. reflexivity. }
  rewrite ER. unfold e0. fold ev.
  assert (EA : A = jac_w (Some (row_weights wp wr)) (map (fun z => (z, vzero)) (slide_axes I3 fs))) by (unfold A; rewrite EC; reflexivity).
  apply (contraction (slide_axes I3 fs) ev vzero wp wr (damping reg lm dw) lr mu x HK Hmu Hwp Hlr Hsp).
  - rewrite Ln, <- EA. exact Hx.
  - intros i Hi. rewrite Ln, <- EA.
    pose proof (col_sum_path v d fs (row_weights wp wr) i Hr) as CS. fold A n in CS. rewrite <- Ed in CS.
    transitivity (row_weights wp wr i * six (twist v d fs) i).
    + rewrite <- CS. unfold jv. apply rsum_ext. intros j Hj. f_equal. rewrite (nth_indep _ 0 (jt 6 A x 0%nat)) by (rewrite map_length, seq_length; exact Hj).
      rewrite map_nth, seq_nth by exact Hj. reflexivity.
    + unfold row_weights. destruct (Nat.ltb_spec i 3) as [L|L]; [|lia]. f_equal. unfold six, u. do 3 (destruct i as [|i]; [reflexivity|]). lia.
Qed.
