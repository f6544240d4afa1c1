(** Rounding errors of quaternion_to_axis_angle. *)
From Coq Require Import Reals Lra Psatz Bool Arith Lia List Permutation.
From Coquelicot Require Import Rcomplements.
From Verif Require Import Prelude ExtF Lin Trig RotModel RotBasic QuatProofs SlerpProofs MathModel SpecRound RoundNorm RoundModel RoundProofs RoundFloat RoundJacModel RoundJacProofs RoundErrModel AxisAngle DeltaPose
  SpecRoundErr RoundErrQuat.
Local Open Scope R_scope.

(** ** relative errors *)
Definition rel (d x y : R) : Prop := 0 <= y /\ Rabs (x - y) <= d * y.
Lemma rel_le d f x y : rel d x y -> d <= f -> rel f x y.
Proof. intros [H1 H2] H. split; [exact H1|]. assert (d * y <= f * y) by (apply Rmult_le_compat_r; assumption). lra. Qed.
Lemma rel_bounds d x y : rel d x y -> (1 - d) * y <= x <= (1 + d) * y.
Proof. intros [H1 H2]. apply Rabs_le_between' in H2. lra. Qed.
Lemma rel_pos d x y : rel d x y -> d <= 1 -> 0 <= x.
Proof. intros H Hd. pose proof (rel_bounds _ _ _ H) as [B _]. destruct H as [H _]. assert (0 <= (1 - d) * y) by (apply Rmult_le_pos; lra). lra. Qed.
Lemma rel_mul d f x y z w : rel d x y -> rel f z w -> 0 <= d -> 0 <= f -> rel (d + f + d * f) (x * z) (y * w).
Proof.
  intros [H1 H2] [H3 H4] Hd Hf. split; [apply Rmult_le_pos; assumption|].
  replace (x * z - y * w) with ((x - y) * w + y * (z - w) + (x - y) * (z - w)) by ring.
  eapply Rle_trans; [apply Rabs_triang|]. rewrite Rabs_mult. assert (K1 : Rabs ((x - y) * w + y * (z - w)) <= d * y * w + y * (f * w)).
  { eapply Rle_trans; [apply Rabs_triang|]. rewrite !Rabs_mult, (Rabs_pos_eq w), (Rabs_pos_eq y) by assumption.
    assert (Rabs (x - y) * w <= d * y * w) by (apply Rmult_le_compat_r; assumption). assert (y * Rabs (z - w) <= y * (f * w)) by (apply Rmult_le_compat_l; assumption). lra. }
  assert (K2 : Rabs (x - y) * Rabs (z - w) <= d * y * (f * w)) by (apply Rmult_le_compat; try apply Rabs_pos; assumption). lra.
Qed.
Lemma rel_trans d f x y z : rel d x y -> rel f y z -> 0 <= d -> 0 <= f -> rel (d + f + d * f) x z.
Proof.
  intros [H1 H2] H Hd Hf. pose proof (rel_bounds _ _ _ H) as [_ B]. destruct H as [H3 H4]. split; [exact H3|].
  replace (x - z) with ((x - y) + (y - z)) by ring. eapply Rle_trans; [apply Rabs_triang|].
  assert (d * y <= d * ((1 + f) * z)) by (apply Rmult_le_compat_l; assumption). lra.
Qed.
Lemma rel_inv d x y : 0 <= d <= / 10 -> 0 < y -> rel d x y -> rel (d * (112 / 100)) (/ x) (/ y).
Proof.
  intros Hd Hy H. pose proof (rel_bounds _ _ _ H) as [B _]. destruct H as [_ H]. assert (X : 9 / 10 * y <= x).
  { assert (d * y <= / 10 * y) by (apply Rmult_le_compat_r; lra). lra. }
  split; [left; apply Rinv_0_lt_compat, Hy|]. replace (/ x - / y) with ((y - x) * (/ x * / y)) by (field; lra).
  rewrite Rabs_mult, Rabs_minus_sym, (Rabs_pos_eq (/ x * / y)) by (apply Rmult_le_pos; left; apply Rinv_0_lt_compat; lra).
  assert (0 < / x) by (apply Rinv_0_lt_compat; lra). assert (0 < / y) by (apply Rinv_0_lt_compat; lra).
  rewrite <- Rmult_assoc. apply Rmult_le_compat_r; [lra|]. apply Rle_trans with (d * y * / x); [apply Rmult_le_compat_r; lra|].
  rewrite Rmult_assoc. apply Rmult_le_compat_l; [lra|]. apply Rmult_le_reg_r with x; [lra|]. rewrite Rmult_assoc, Rinv_l by lra. lra.
Qed.
Lemma rel_refl x : 0 <= x -> rel 0 x x.
Proof. intros H. split; [exact H|]. replace (x - x) with 0 by ring. rewrite Rabs_R0. lra. Qed.

(** ** angles *)
Lemma sin_low x : 0 <= x <= 1 -> x - x * x * x / 6 <= sin x.
Proof.
  intros H. pose proof PI2_3_2 as P. unfold PI2 in P. destruct (SIN x ltac:(lra) ltac:(lra)) as [L _].
  unfold sin_lb, sin_approx, sin_term in L. cbn [sum_f_R0 Nat.mul Nat.add] in L. 
  eapply Rle_trans; [|exact L].
  assert (E : forall n, INR n = INR n) by reflexivity.
  replace (INR (fact 1)) with 1 by (simpl; ring). replace (INR (fact 3)) with 6 by (simpl; ring). replace (INR (fact 5)) with 120 by (simpl; ring). replace (INR (fact 7)) with 5040 by (simpl; ring).
  cbn [pow].
  assert (X5 : 0 <= x * (x * (x * (x * x)))) by (repeat apply Rmult_le_pos; lra).
  assert (X7 : x * (x * (x * (x * (x * (x * x))))) <= x * (x * (x * (x * x)))).
  { replace (x * (x * (x * (x * (x * (x * x)))))) with (x * (x * (x * (x * x))) * (x * x)) by ring. rewrite <- (Rmult_1_r (x * (x * (x * (x * x))))) at 2.
    apply Rmult_le_compat_l; [exact X5|]. replace 1 with (1 * 1) by ring. apply Rmult_le_compat; lra. }
  lra.
Qed.
(** a small sine belongs to a small angle *)
Lemma asin_small x s : 0 <= x <= PI / 2 -> sin x <= s -> s <= 54 / 1000 -> x <= 1002 / 1000 * s.
Proof.
  intros Hx Hs S1. destruct (Rle_lt_dec x (/ 10)) as [L|L].
  - pose proof (sin_low x ltac:(lra)) as H. assert (x * x * x <= / 10 * / 10 * x).
    { apply Rmult_le_compat_r; [lra|]. apply Rmult_le_compat; lra. }
    lra.
  - exfalso. pose proof (sin_low (/ 10) ltac:(lra)) as H. assert (sin (/ 10) < sin x) by (apply sin_increasing_1; lra). lra.
Qed.
Lemma PI_up : PI <= 32 / 10.
Proof.
  destruct (Rle_lt_dec PI (32 / 10)) as [L|L]; [exact L|]. exfalso. pose proof PI_RGT_0.
  assert (N : 0 <= cos (16 / 10)) by (apply cos_ge_0; lra). destruct (COS (16 / 10) ltac:(lra) ltac:(lra)) as [_ C].
  unfold cos_ub, cos_approx, cos_term in C. cbn [sum_f_R0 Nat.mul Nat.add pow] in C.
  replace (INR (fact 0)) with 1 in C by (simpl; ring). replace (INR (fact 2)) with 2 in C by (simpl; ring). replace (INR (fact 4)) with 24 in C by (simpl; ring). replace (INR (fact 6)) with 720 in C by (simpl; ring).
  assert (F8 : INR (fact 8) = 40320) by (replace (fact 8) with (56 * fact 6)%nat by reflexivity; rewrite mult_INR; replace (INR (fact 6)) with 720 by (simpl; ring); replace (INR 56) with 56 by (simpl; ring); ring).
  rewrite F8 in C. lra.
Qed.
Lemma jordan x : 0 <= x <= PI / 2 -> x <= 16 / 10 * sin x.
Proof.
  intros Hx. pose proof PI_RGT_0 as P0. pose proof PI_up as P4.
  destruct (Rle_lt_dec x 1) as [L|L].
  - pose proof (sin_low x ltac:(lra)) as H. assert (x * x * x <= 1 * 1 * x) by (apply Rmult_le_compat_r; [lra|]; apply Rmult_le_compat; lra). lra.
  - assert (E : sin x = cos (PI / 2 - x)) by (rewrite cos_shift; reflexivity).
    destruct (COS (PI / 2 - x) ltac:(lra) ltac:(lra)) as [C _]. rewrite <- E in C. unfold cos_lb, cos_approx, cos_term in C. cbn [sum_f_R0 Nat.mul Nat.add pow] in C.
    replace (INR (fact 0)) with 1 in C by (simpl; ring). replace (INR (fact 2)) with 2 in C by (simpl; ring). replace (INR (fact 4)) with 24 in C by (simpl; ring). replace (INR (fact 6)) with 720 in C by (simpl; ring).
    assert (X : x = PI / 2 - (PI / 2 - x)) by ring. set (y := PI / 2 - x) in *. assert (Y : 0 <= y <= 6 / 10) by lra. clearbody y.
    assert (0 <= y * y) by (apply Rmult_le_pos; lra). assert (y * y <= 6 / 10 * y) by (apply Rmult_le_compat_r; lra).
    assert (0 <= y * (y * (y * y))) by (repeat apply Rmult_le_pos; lra).
    assert (y * (y * (y * (y * (y * y)))) <= y * (y * (y * y))).
    { replace (y * (y * (y * (y * (y * y))))) with (y * (y * (y * y)) * (y * y)) by ring. rewrite <- (Rmult_1_r (y * (y * (y * y)))) at 2. apply Rmult_le_compat_l; [assumption|lra]. }
    lra.
Qed.

(** ** from components to angles *)
Lemma sin_le_abs x : Rabs (sin x) <= Rabs x.
Proof.
  assert (K : forall y, 0 <= y -> Rabs (sin y) <= y).
  { intros y Hy. destruct (Rle_lt_dec y 1) as [L|L].
    - pose proof PI2_3_2 as P. unfold PI2 in P. rewrite Rabs_pos_eq by (apply sin_ge_0; lra). destruct (Req_dec y 0) as [->|N]; [rewrite sin_0; lra | left; apply sin_lt_x; lra].
    - pose proof (sin_abs y). lra. }
  destruct (Rle_lt_dec 0 x) as [L|L]; [rewrite (Rabs_pos_eq x) by exact L; apply K, L|]. rewrite (Rabs_left x) by exact L. rewrite <- Rabs_Ropp, <- sin_neg. apply K. lra.
Qed.
Lemma sin_lip x y : Rabs (sin x - sin y) <= Rabs (x - y).
Proof.
  rewrite form4. rewrite !Rabs_mult, (Rabs_pos_eq 2) by lra. pose proof (sin_le_abs ((x - y) / 2)) as H. pose proof (cos_abs ((x + y) / 2)) as C.
  unfold Rdiv in H at 2. rewrite Rabs_mult, (Rabs_pos_eq (/ 2)) in H by lra. pose proof (Rabs_pos (sin ((x - y) / 2))) as S0.
  assert (Rabs (cos ((x + y) / 2)) * Rabs (sin ((x - y) / 2)) <= 1 * Rabs (sin ((x - y) / 2))) by (apply Rmult_le_compat_r; assumption). lra.
Qed.
Lemma abs_inv x k : Rabs x <= k -> - k <= x <= k.
Proof. intros H. replace x with (x - 0) in H by ring. apply Rabs_le_between' in H. lra. Qed.
Lemma polar_near w n W V k : 0 <= w -> 0 <= n -> 0 <= V -> W * W + V * V = 1 -> 0 <= k <= 507 / 10000 -> (w - W) * (w - W) + (n - V) * (n - V) <= k * k ->
  exists r, 0 < r /\ w = r * cos (atan2 n w) /\ n = r * sin (atan2 n w) /\ 0 <= atan2 n w <= PI / 2 /\ Rabs (r - 1) <= 106 / 100 * k /\
    Rabs (atan2 n w - atan2 V W) <= 107 / 100 * k.
Proof.
  intros Hw Hn HV HU Hk HD. pose proof PI_RGT_0 as P0. destruct (atan2_unit V W HU) as [C1 C2]. pose proof (atan2_nonneg V W HV) as R1. set (g := atan2 V W) in *.
  assert (DOT : - k <= (w - W) * cos g + (n - V) * sin g <= k).
  { assert (Q : ((w - W) * cos g + (n - V) * sin g) * ((w - W) * cos g + (n - V) * sin g) + ((w - W) * sin g - (n - V) * cos g) * ((w - W) * sin g - (n - V) * cos g) <= k * k).
    { eapply Rle_trans; [|exact HD]. pose proof (sin2_cos2 g) as E. unfold Rsqr in E. right.
      replace (((w - W) * cos g + (n - V) * sin g) * ((w - W) * cos g + (n - V) * sin g) + ((w - W) * sin g - (n - V) * cos g) * ((w - W) * sin g - (n - V) * cos g))
        with (((w - W) * (w - W) + (n - V) * (n - V)) * (sin g * sin g + cos g * cos g)) by ring. rewrite E. ring. }
    pose proof (Rle_0_sqr ((w - W) * sin g - (n - V) * cos g)) as Q2. unfold Rsqr in Q2. apply abs_inv. apply Rsqr_incr_0; [|apply Rabs_pos|lra]. rewrite <- Rsqr_abs. unfold Rsqr. lra. }
  assert (CRO : - k <= (w - W) * sin g - (n - V) * cos g <= k).
  { assert (Q : ((w - W) * cos g + (n - V) * sin g) * ((w - W) * cos g + (n - V) * sin g) + ((w - W) * sin g - (n - V) * cos g) * ((w - W) * sin g - (n - V) * cos g) <= k * k).
    { eapply Rle_trans; [|exact HD]. pose proof (sin2_cos2 g) as E. unfold Rsqr in E. right.
      replace (((w - W) * cos g + (n - V) * sin g) * ((w - W) * cos g + (n - V) * sin g) + ((w - W) * sin g - (n - V) * cos g) * ((w - W) * sin g - (n - V) * cos g))
        with (((w - W) * (w - W) + (n - V) * (n - V)) * (sin g * sin g + cos g * cos g)) by ring. rewrite E. ring. }
    pose proof (Rle_0_sqr ((w - W) * cos g + (n - V) * sin g)) as Q2. unfold Rsqr in Q2. apply abs_inv. apply Rsqr_incr_0; [|apply Rabs_pos|lra]. rewrite <- Rsqr_abs. unfold Rsqr. lra. }
  rewrite C1, C2 in DOT, CRO.
  assert (NZ : w <> 0 \/ n <> 0).
  { destruct (Req_dec w 0) as [A|A]; [|left; exact A]. destruct (Req_dec n 0) as [B|B]; [|right; exact B]. exfalso. subst w n. lra. }
  pose proof (atan2_cos n w NZ) as F1. pose proof (atan2_sin n w NZ) as F2. set (r := sqrt (w * w + n * n)) in *. pose proof (atan2_nonneg n w Hn) as R2. set (f := atan2 n w) in *.
  assert (r0 : 0 < r).
  { apply sqrt_lt_R0. destruct NZ as [N|N]; pose proof (Rle_0_sqr w) as S1; pose proof (Rle_0_sqr n) as S2; pose proof (Rsqr_pos_lt _ N); unfold Rsqr in *; lra. }
  assert (fr : f <= PI / 2).
  { destruct (Rle_lt_dec f (PI / 2)) as [|L]; [assumption|]. exfalso. assert (cos f < 0) by (apply cos_lt_0; lra). assert (0 < r * - cos f) by (apply Rmult_lt_0_compat; lra). lra. }
  assert (EC : r * cos (g - f) = 1 + ((w - W) * W + (n - V) * V)).
  { rewrite cos_minus. replace (r * (cos g * cos f + sin g * sin f)) with (cos g * (r * cos f) + sin g * (r * sin f)) by ring. rewrite F1, F2, C1, C2. lra. }
  assert (ES : r * sin (g - f) = (w - W) * V - (n - V) * W).
  { rewrite sin_minus. replace (r * (sin g * cos f - cos g * sin f)) with (sin g * (r * cos f) - cos g * (r * sin f)) by ring. rewrite F1, F2, C1, C2. lra. }
  assert (RR : r * r = (r * cos (g - f)) * (r * cos (g - f)) + (r * sin (g - f)) * (r * sin (g - f))).
  { pose proof (sin2_cos2 (g - f)) as E. unfold Rsqr in E. replace (r * cos (g - f) * (r * cos (g - f)) + r * sin (g - f) * (r * sin (g - f))) with (r * r * (sin (g - f) * sin (g - f) + cos (g - f) * cos (g - f))) by ring. rewrite E. ring. }
  assert (Cp : 1 - k <= r * cos (g - f) <= 1 + k) by lra. assert (Sp : - k <= r * sin (g - f) <= k) by lra.
  assert (rl : 1 - k <= r).
  { pose proof (COS_bound (g - f)) as [_ B]. assert (r * cos (g - f) <= r * 1) by (apply Rmult_le_compat_l; lra). lra. }
  assert (ru : r <= 1 + 106 / 100 * k).
  { apply Rsqr_incr_0; [|lra|lra]. unfold Rsqr. rewrite RR.
    assert ((r * cos (g - f)) * (r * cos (g - f)) <= (1 + k) * (1 + k)) by (apply Rmult_le_compat; lra).
    assert ((r * sin (g - f)) * (r * sin (g - f)) <= k * k) by (apply Rsqr_le_abs_1; rewrite (Rabs_pos_eq k) by lra; apply Rabs_le; lra).
    assert (k * k <= 507 / 10000 * k) by (apply Rmult_le_compat_r; lra). assert (0 <= k * k) by (apply Rmult_le_pos; lra). lra. }
  exists r. split; [exact r0|]. split; [symmetry; exact F1|]. split; [symmetry; exact F2|]. split; [lra|]. split; [apply Rabs_le; lra|].
  assert (cp : 0 < cos (g - f)).
  { destruct (Rlt_le_dec 0 (cos (g - f))) as [|L]; [assumption|]. exfalso. assert (0 <= r * - cos (g - f)) by (apply Rmult_le_pos; lra). lra. }
  assert (gf : - (PI / 2) <= g - f <= PI / 2).
  { split; [lra|]. destruct (Rle_lt_dec (g - f) (PI / 2)) as [|L]; [assumption|]. exfalso. assert (cos (g - f) < 0) by (apply cos_lt_0; lra). lra. }
  assert (B : forall x, - (PI / 2) <= x <= PI / 2 -> r * sin x <= k -> x <= 107 / 100 * k).
  { intros x Hx L. destruct (Rle_lt_dec x 0) as [|x0]; [lra|]. assert (Sx : 0 <= sin x) by (apply sin_ge_0; lra).
    assert (Sk : sin x <= 10535 / 10000 * k).
    { assert (9493 / 10000 * sin x <= r * sin x) by (apply Rmult_le_compat_r; lra). lra. }
    pose proof (asin_small x _ ltac:(lra) Sk ltac:(lra)). lra. }
  apply Rabs_le. split.
  - pose proof (B (g - f) gf ltac:(lra)). lra.
  - pose proof (B (- (g - f)) ltac:(lra)) as Q. rewrite sin_neg in Q. specialize (Q ltac:(lra)). lra.
Qed.
(** the angle of a rotation is twice the nearer of the two half angles of its quaternions *)
Lemma half_near f g a : 0 <= f <= PI / 2 -> 0 <= g <= PI -> 0 <= a <= PI -> cos a = 2 * (cos g * cos g) - 1 -> Rabs (2 * f - a) <= 2 * Rabs (f - g).
Proof.
  intros Hf Hg Ha H. pose proof PI_RGT_0 as P0.
  assert (E : a = 2 * g \/ a = 2 * PI - 2 * g).
  { destruct (Rle_lt_dec g (PI / 2)) as [L|L]; [left | right].
    - apply cos_inj; [lra | lra |]. rewrite cos_2a_cos. lra.
    - apply cos_inj; [lra | lra |]. replace (2 * PI - 2 * g) with (- (2 * g - 2 * PI)) by ring. rewrite cos_neg, cos_minus, cos_2PI, sin_2PI, cos_2a_cos. lra. }
  apply Rabs_le. destruct E as [->| ->]; unfold Rabs; destruct (Rcase_abs (f - g)); lra.
Qed.

Section Axis.
Variables (u t e : R) (rnd fsin : R -> R) (fatan2 : R -> R -> R) (sn : stree).
Hypothesis (Hr : rounding u rnd) (Hh : half_within t fsin fatan2) (Hsn : s_full3 sn).
Hypothesis (Hu : u <= e) (Ht : 0 <= t <= e) (He : e <= / 100000).
Lemma un : 0 <= u. Proof. exact (u_nonneg u rnd Hr). Qed.
Lemma en : 0 <= e. Proof. pose proof un. lra. Qed.
Lemma rnd_rel x : 0 <= x -> rel e (rnd x) x.
Proof.
  intros H. split; [exact H|]. pose proof (proj2 Hr x) as K. rewrite (Rabs_pos_eq x) in K by exact H. assert (u * x <= e * x) by (apply Rmult_le_compat_r; assumption). lra.
Qed.
Lemma norm_rel v : rel (42 / 10 * e) (fl_norm rnd sn v) (vnorm v).
Proof.
  pose proof un as U0. pose proof en as E0. unfold fl_norm. pose proof (s_full3_err u rnd Hr (fun k => vcomp v k * vcomp v k) sn Hsn) as H. cbv beta in H. cbn [vcomp] in H.
  set (s := s_eval rnd (fun k : nat => vcomp v k * vcomp v k) sn) in *. rewrite !(Rabs_pos_eq (_ * _)) in H by apply Rle_0_sqr. change (vx v * vx v + vy v * vy v + vz v * vz v) with (vnorm2 v) in H.
  assert (H3 : (1 + u) ^ 3 - 1 <= 304 / 100 * e).
  { assert (u * u <= / 100000 * u) by (apply Rmult_le_compat_r; lra). assert (u * u * u <= / 100000 * u).
    { apply Rmult_le_compat_r; [lra|]. assert (u * u <= 1 * u) by (apply Rmult_le_compat_r; lra). lra. }
    cbn [pow]. lra. }
  assert (H4 : Rabs (s - vnorm2 v) <= 304 / 100 * e * vnorm2 v) by (eapply Rle_trans; [exact H|]; apply Rmult_le_compat_r; [apply vnorm2_nonneg | exact H3]).
  assert (H5 : rel (304 / 100 * e) (sqrt s) (vnorm v)).
  { split; [apply vnorm_nonneg|]. destruct (Rle_lt_or_eq_dec 0 _ (vnorm2_nonneg v)) as [L|L].
    - apply sqrt_rel; lra.
    - assert (Z : vnorm v = 0) by (unfold vnorm; rewrite <- L; apply sqrt_0). rewrite <- L in H4. rewrite Z. rewrite Rmult_0_r in *.
      assert (Rabs (s - 0) = 0) by (pose proof (Rabs_pos (s - 0)); lra). assert (s = 0) by (destruct (Req_dec (s - 0) 0) as [Q|Q]; [lra | apply Rabs_no_R0 in Q; contradiction]).
      subst s. rewrite H1, sqrt_0. replace (0 - 0) with 0 by ring. rewrite Rabs_R0. lra. }
  pose proof (rnd_rel (sqrt s) (sqrt_pos s)) as H6. pose proof (rel_trans e (304 / 100 * e) _ _ _ H6 H5 E0 ltac:(lra)) as H7. eapply rel_le; [exact H7|].
  assert (e * e <= / 100000 * e) by (apply Rmult_le_compat_r; lra). lra.
Qed.

Lemma two_half h : 0 <= h -> rel e (fmul rnd 2 h) (2 * h).
Proof. intros H. apply rnd_rel. lra. Qed.
Lemma atan_rel n w : 0 <= n -> 0 <= w -> 0 <= atan2 n w -> rel e (fatan2 n w) (atan2 n w).
Proof. intros H1 H2 H3. split; [exact H3|]. pose proof (proj2 Hh n w H1 H2) as H. assert (t * atan2 n w <= e * atan2 n w) by (apply Rmult_le_compat_r; lra). lra. Qed.

(** the divisor is positive, and turns the sine of the half angle into the angle *)
Lemma fl_divisor_pos f h : 0 <= f <= PI / 2 -> rel e h f -> 0 < fl_divisor rnd fsin h (fmul rnd 2 h) /\ rel (7 * e + 3 / 10 ^ 25) (sin f * / fl_divisor rnd fsin h (fmul rnd 2 h)) (2 * f).
Proof.
  intros Hf Rh. pose proof en as E0. pose proof un as U0. assert (E2 : e * e <= / 100000 * e) by (apply Rmult_le_compat_r; lra). assert (E20 : 0 <= e * e) by (apply Rmult_le_pos; lra).
  pose proof PI_up as PU. pose proof PI_RGT_0 as P0. pose proof (rel_bounds _ _ _ Rh) as [h1 h2]. assert (h0 : 0 <= h) by (apply (rel_pos _ _ _ Rh); lra).
  pose proof (two_half h h0) as Ra. set (al := fmul rnd 2 h) in *. pose proof (rel_bounds _ _ _ Ra) as [a1 a2]. assert (a0 : 0 <= al) by (apply (rel_pos _ _ _ Ra); lra).
  assert (R6 : rel e (rnd eps6) eps6) by (apply rnd_rel; unfold eps6; lra). pose proof (rel_bounds _ _ _ R6) as [t1 t2].
  assert (ef : e * f <= / 100000 * f) by (apply Rmult_le_compat_r; lra). assert (ef0 : 0 <= e * f) by (apply Rmult_le_pos; lra).
  assert (eh : e * h <= / 100000 * h) by (apply Rmult_le_compat_r; lra). assert (eh0 : 0 <= e * h) by (apply Rmult_le_pos; lra).
  assert (D25 : 10 ^ 25 = 10000000000000000000000000) by (cbn [pow]; ring).
  unfold fl_divisor. rewrite (Rabs_pos_eq al a0). destruct (Rltb al (rnd eps6)) eqn:B.
  - apply Rltb_true in B. unfold eps6 in *. assert (al6 : al <= 101 / 100000000) by lra. assert (f6 : f <= 6 / 10000000) by lra.
    assert (RA : rel (2001 / 1000 * e) al (2 * f)).
    { assert (rel e (2 * h) (2 * f)). { destruct Rh as [_ Q]. split; [lra|]. replace (2 * h - 2 * f) with (2 * (h - f)) by ring. rewrite Rabs_mult, (Rabs_pos_eq 2) by lra. lra. }
      pose proof (rel_trans _ _ _ _ _ Ra H E0 E0) as Q. eapply rel_le; [exact Q|]. lra. }
    assert (RAA : rel (401 / 100 * e) (al * al) (2 * f * (2 * f))).
    { pose proof (rel_mul _ _ _ _ _ _ RA RA ltac:(lra) ltac:(lra)) as Q. eapply rel_le; [exact Q|]. lra. }
    pose proof (rel_trans _ _ _ _ _ (rnd_rel (al * al) ltac:(apply Rmult_le_pos; lra)) RAA ltac:(lra) ltac:(lra)) as RY. apply rel_le with (f := 502 / 100 * e) in RY; [|lra]. change (rnd (al * al)) with (fmul rnd al al) in *.
    set (y := fmul rnd al al) in *. assert (RY8 : rel (502 / 100 * e) (y / 48) (f * f / 12)).
    { destruct RY as [Y1 Y2]. split; [lra|]. replace (y / 48 - f * f / 12) with (/ 48 * (y - 2 * f * (2 * f))) by field. rewrite Rabs_mult, (Rabs_pos_eq (/ 48)) by lra. lra. }
    assert (y0 : 0 <= y / 48) by (apply (rel_pos _ _ _ RY8); lra).
    pose proof (rel_trans _ _ _ _ _ (rnd_rel _ y0) RY8 ltac:(lra) ltac:(lra)) as RZ. apply rel_le with (f := 603 / 100 * e) in RZ; [|lra].
    set (z := rnd (y / 48)) in *. assert (FF : f * f <= 6 / 10000000 * (6 / 10000000)) by (apply Rmult_le_compat; lra). assert (FF0 : 0 <= f * f) by (apply Rmult_le_pos; lra).
    assert (z0 : 0 <= z) by (apply (rel_pos _ _ _ RZ); lra). pose proof (rel_bounds _ _ _ RZ) as [_ z1]. destruct RZ as [_ RZ].
    assert (eff : e * (f * f) <= / 100000 * (f * f)) by (apply Rmult_le_compat_r; lra). assert (eff0 : e * (f * f) <= e * (6 / 10000000 * (6 / 10000000))) by (apply Rmult_le_compat_l; lra).
    assert (RS : rel (101 / 100 * e) (fsub rnd (/ 2) z) (/ 2 - f * f / 12)).
    { split; [lra|]. unfold fsub. pose proof (rnd_rel (/ 2 - z) ltac:(lra)) as [_ K]. replace (rnd (/ 2 - z) - (/ 2 - f * f / 12)) with ((rnd (/ 2 - z) - (/ 2 - z)) + - (z - f * f / 12)) by ring. eapply Rle_trans; [apply Rabs_triang|].
      rewrite Rabs_Ropp. assert (0 <= e * z) by (apply Rmult_le_pos; lra). lra. }
    set (s := fsub rnd (/ 2) z) in *. pose proof (rel_bounds _ _ _ RS) as [s1 _]. rewrite D25 in *. split; [lra|].
    assert (IRS : 0 <= 101 / 100 * e <= / 10) by lra. assert (IpRS : 0 < / 2 - f * f / 12) by lra. pose proof (rel_inv _ _ _ IRS IpRS RS) as RI.
    assert (SF : rel (1 / 10000000000000000000000000) (sin f) (2 * f * (/ 2 - f * f / 12))).
    { split; [apply Rmult_le_pos; lra|]. pose proof (sin_taylor f ltac:(lra)) as [L U].
      assert (f * f * (f * f) <= 6 / 10000000 * (6 / 10000000) * (6 / 10000000 * (6 / 10000000))) by (apply Rmult_le_compat; lra).
      assert (f * f * (f * f) * f <= 6 / 10000000 * (6 / 10000000) * (6 / 10000000 * (6 / 10000000)) * f) by (apply Rmult_le_compat_r; lra).
      assert (f * f * f <= 6 / 10000000 * (6 / 10000000) * f) by (apply Rmult_le_compat_r; lra).
      cbn [pow] in L, U. apply Rabs_le. lra. }
    pose proof (rel_mul _ _ _ _ _ _ SF RI ltac:(lra) ltac:(lra)) as M. replace (2 * f * (/ 2 - f * f / 12) * / (/ 2 - f * f / 12)) with (2 * f) in M by (field; lra). eapply rel_le; [exact M|]. lra.
  - apply Rltb_false in B. unfold eps6 in *. assert (alp : 0 < al) by lra. assert (hp : 0 < h) by (destruct (Req_dec h 0); lra). assert (fp : 0 < f) by (destruct (Req_dec f 0) as [Q|Q]; [rewrite Q in *; lra | lra]).
    assert (sf : 0 < sin f) by (apply sin_gt_0; lra). pose proof (jordan f Hf) as J.
    assert (RA : rel (2001 / 1000 * e) al (2 * f)).
    { assert (rel e (2 * h) (2 * f)). { destruct Rh as [_ Q]. split; [lra|]. replace (2 * h - 2 * f) with (2 * (h - f)) by ring. rewrite Rabs_mult, (Rabs_pos_eq 2) by lra. lra. }
      pose proof (rel_trans _ _ _ _ _ Ra H E0 E0) as Q. eapply rel_le; [exact Q|]. lra. }
    assert (RSH : rel (16 / 10 * e) (sin h) (sin f)).
    { split; [lra|]. destruct Rh as [_ Q]. apply Rle_trans with (Rabs (h - f)).
      - apply sin_lip.
      - eapply Rle_trans; [exact Q|]. replace (16 / 10 * e * sin f) with (e * (16 / 10 * sin f)) by ring. apply Rmult_le_compat_l; lra. }
    assert (RF : rel e (fsin h) (sin h)).
    { assert (0 <= sin h) by (apply (rel_pos _ _ _ RSH); lra). split; [assumption|]. pose proof (proj1 Hh h ltac:(lra)) as Q. assert (t * sin h <= e * sin h) by (apply Rmult_le_compat_r; lra). lra. }
    pose proof (rel_trans _ _ _ _ _ RF RSH E0 ltac:(lra)) as RFS. apply rel_le with (f := 2601 / 1000 * e) in RFS; [|lra].
    assert (IRA : 0 <= 2001 / 1000 * e <= / 10) by lra. assert (IpRA : 0 < 2 * f) by lra. pose proof (rel_inv _ _ _ IRA IpRA RA) as RAI.
    pose proof (rel_mul _ _ _ _ _ _ RFS RAI ltac:(lra) ltac:(lra)) as RQ. apply rel_le with (f := 485 / 100 * e) in RQ; [|lra]. change (fsin h * / al) with (fsin h / al) in RQ.
    assert (Q0 : 0 <= fsin h / al) by (apply (rel_pos _ _ _ RQ); lra).
    pose proof (rel_trans _ _ _ _ _ (rnd_rel _ Q0) RQ E0 ltac:(lra)) as RS. apply rel_le with (f := 586 / 100 * e) in RS; [|lra]. set (s := rnd (fsin h / al)) in *.
    assert (G : 0 < sin f * / (2 * f)) by (apply Rmult_lt_0_compat; [exact sf | apply Rinv_0_lt_compat; lra]).
    assert (IRS : 0 <= 586 / 100 * e <= / 10) by lra. pose proof G as IpRS. pose proof (rel_inv _ _ _ IRS IpRS RS) as RI.
    split.
    + pose proof (rel_bounds _ _ _ RS) as [s1 _]. assert (0 < (1 - 586 / 100 * e) * (sin f * / (2 * f))) by (apply Rmult_lt_0_compat; lra). lra.
    + pose proof (rel_mul 0 _ _ _ _ _ (rel_refl (sin f) ltac:(lra)) RI ltac:(lra) ltac:(lra)) as M. replace (sin f * / (sin f * / (2 * f))) with (2 * f) in M by (field; lra).
      eapply rel_le; [exact M|]. rewrite D25. lra.
Qed.
Lemma part_norm q : vnorm2 (qvec q) + qw q * qw q = qnorm2 q.
Proof. unfold vnorm2, vdot, qnorm2, qvec. cbn [vx vy vz]. ring. Qed.
Lemma vec_diff a b : (vnorm (qvec a) - vnorm (qvec b)) * (vnorm (qvec a) - vnorm (qvec b)) + (qw a - qw b) * (qw a - qw b) <= qlen (qsub a b) * qlen (qsub a b).
Proof.
  rewrite qlen_sqr, <- part_norm. assert (E : qvec (qsub a b) = vsub (qvec a) (qvec b)) by reflexivity. rewrite E. change (qw (qsub a b)) with (qw a - qw b).
  apply Rplus_le_compat_r. rewrite <- vnorm_sqr. apply Rsqr_le_abs_1. rewrite (Rabs_pos_eq (vnorm (vsub _ _))) by apply vnorm_nonneg. apply Rabs_le. split.
  - pose proof (vnorm_split (qvec b) (qvec a) _ _ (Rle_refl _) (Rle_refl _)) as H. rewrite vnorm_sub_comm in H. lra.
  - pose proof (vnorm_split (qvec a) (qvec b) _ _ (Rle_refl _) (Rle_refl _)) as H. lra.
Qed.
Lemma div_norm s v : 0 < s -> rel e (vnorm (mkV3 (rnd (vx v / s)) (rnd (vy v / s)) (rnd (vz v / s)))) (vnorm v * / s).
Proof.
  intros Hs. assert (is : 0 <= / s) by (left; apply Rinv_0_lt_compat, Hs). assert (E : vnorm (vscale (/ s) v) = vnorm v * / s) by (rewrite vscale_norm by exact is; ring).
  set (r := mkV3 (rnd (vx v / s)) (rnd (vy v / s)) (rnd (vz v / s))). set (x := vscale (/ s) v) in *. rewrite <- E. split; [apply vnorm_nonneg|].
  assert (C : forall y, Rabs (rnd (y / s) - / s * y) <= e * Rabs (/ s * y)).
  { intros y. replace (/ s * y) with (y / s) by (unfold Rdiv; ring). pose proof (proj2 Hr (y / s)) as H. assert (u * Rabs (y / s) <= e * Rabs (y / s)) by (apply Rmult_le_compat_r; [apply Rabs_pos | exact Hu]). lra. }
  assert (L : vnorm (vsub r x) <= e * vnorm x).
  { rewrite <- (vabs_norm x), <- (vscale_norm e) by exact en. apply vle_norm. unfold r, x, vle, vabs, vsub, vscale. cbn [vx vy vz]. split; [apply C | split; apply C]. }
  apply Rabs_le. split.
  - pose proof (vnorm_split x r _ _ (Rle_refl _) (Rle_refl _)) as H. rewrite vnorm_sub_comm in H. lra.
  - pose proof (vnorm_split r x _ _ (Rle_refl _) (Rle_refl _)) as H. lra.
Qed.

Lemma axis_near q D kap a : 0 <= qw q -> qnorm2 D = 1 -> qlen (qsub q D) <= kap -> kap <= / 20 -> 0 <= a <= PI -> trace3 (quaternion_to_matrix D) = 1 + 2 * cos a ->
  let k := kap + 45 / 10 * e in
  forall N, N = fl_norm rnd sn (fl_axis_angle rnd fsin fatan2 sn q) \/ N = vnorm (fl_axis_angle rnd fsin fatan2 sn q) ->
  Rabs (N - a) <= 226 / 100 * k + (106 / 100 * k + 20 * e + 2 / 10 ^ 24) * a.
Proof.
  intros Hw HD Hk Hk2 Ha HT k N HN. pose proof en as E0. assert (E2 : e * e <= / 100000 * e) by (apply Rmult_le_compat_r; lra). assert (E20 : 0 <= e * e) by (apply Rmult_le_pos; lra).
  assert (K0 : 0 <= kap) by (pose proof (qlen_nonneg (qsub q D)); lra). pose proof (qlen_near q D) as LN. rewrite (qlen_unit D HD) in LN.
  rewrite q2m_trace in HT by exact HD.
  pose proof (norm_rel (qvec q)) as Rn. pose proof (rel_bounds _ _ _ Rn) as [_ nu]. destruct Rn as [nv Rn]. set (v := qvec q) in *. set (n := fl_norm rnd sn v) in *.
  assert (n0 : 0 <= n) by (apply (rel_pos (42 / 10 * e) n (vnorm v)); [split; assumption | lra]).
  assert (vq : vnorm v <= qlen q).
  { apply vnorm_le_sqr; [apply qlen_nonneg|]. rewrite qlen_sqr, <- part_norm. unfold v. pose proof (Rle_0_sqr (qw q)) as Q. unfold Rsqr in Q. lra. }
  pose proof (unit_q_polar D HD) as (Hg & Cg & Sg). set (V := vnorm (qvec D)) in *. set (g := atan2 V (qw D)) in *.
  assert (DD : (qw q - qw D) * (qw q - qw D) + (n - V) * (n - V) <= k * k).
  { pose proof (vec_diff q D) as H. fold v V in H. pose proof (qlen_nonneg (qsub q D)) as L0.
    assert (H2 : qlen (qsub q D) * qlen (qsub q D) <= kap * kap) by (apply Rmult_le_compat; lra).
    set (x := qw q - qw D) in *. set (y := vnorm v - V) in *. assert (En : n - V = y + (n - vnorm v)) by (unfold y; ring). rewrite En. set (z := n - vnorm v) in *.
    assert (z1 : Rabs z <= 45 / 10 * e).
    { eapply Rle_trans; [exact Rn|]. assert (42 / 10 * e * vnorm v <= 42 / 10 * e * (105 / 100)) by (apply Rmult_le_compat_l; lra). lra. }
    assert (y1 : Rabs y <= kap).
    { apply Rsqr_incr_0; [|apply Rabs_pos|exact K0]. rewrite <- Rsqr_abs. unfold Rsqr. pose proof (Rle_0_sqr x) as Q. unfold Rsqr in Q. lra. }
    assert (y * z <= kap * (45 / 10 * e)).
    { eapply Rle_trans; [apply Rle_abs|]. rewrite Rabs_mult. apply Rmult_le_compat; try apply Rabs_pos; assumption. }
    assert (z * z <= 45 / 10 * e * (45 / 10 * e)).
    { eapply Rle_trans; [apply Rle_abs|]. rewrite Rabs_mult. apply Rmult_le_compat; try apply Rabs_pos; assumption. }
    unfold k. replace ((y + z) * (y + z)) with (y * y + 2 * (y * z) + z * z) by ring. replace ((kap + 45 / 10 * e) * (kap + 45 / 10 * e)) with (kap * kap + 2 * (kap * (45 / 10 * e)) + 45 / 10 * e * (45 / 10 * e)) by ring. lra. }
  assert (UD : qw D * qw D + V * V = 1) by (unfold V; rewrite vnorm_sqr, <- HD, <- part_norm; ring).
  assert (kb : 0 <= k <= 507 / 10000) by (unfold k; lra).
  destruct (polar_near (qw q) n (qw D) V k Hw n0 (vnorm_nonneg _) UD kb DD) as (r & r0 & P1 & P2 & Hf & Rr & Ff). fold g in Ff. set (f := atan2 n (qw q)) in *.
  assert (AH : Rabs (2 * f - a) <= 214 / 100 * k).
  { pose proof (half_near f g a Hf Hg Ha) as H. rewrite Cg in H. specialize (H ltac:(lra)). lra. }
  assert (RH : rel e (fatan2 n (qw q)) f) by (apply atan_rel; [exact n0 | exact Hw | exact (proj1 Hf)]).
  destruct (fl_divisor_pos f _ Hf RH) as [sp RD]. unfold fl_axis_angle in HN. fold v n in HN. set (s := fl_divisor rnd fsin (fatan2 n (qw q)) (fmul rnd 2 (fatan2 n (qw q)))) in *.
  pose proof (norm_rel (mkV3 (rnd (qx q / s)) (rnd (qy q / s)) (rnd (qz q / s)))) as RN. pose proof (div_norm s v sp) as RV. change (vx v) with (qx q) in RV. change (vy v) with (qy q) in RV. change (vz v) with (qz q) in RV.
  set (res := mkV3 _ _ _) in *.
  assert (R1 : rel (521 / 100 * e) N (vnorm v * / s)).
  { destruct HN as [HN|HN]; rewrite HN; [pose proof (rel_trans _ _ _ _ _ RN RV ltac:(lra) E0) as R1; eapply rel_le; [exact R1 | lra] | eapply rel_le; [exact RV | lra]]. }
  clear HN.
  assert (RVN : rel (48 / 10 * e) (vnorm v) n).
  { split; [exact n0|]. rewrite Rabs_minus_sym. eapply Rle_trans; [exact Rn|]. assert (9 / 10 * vnorm v <= n).
    { pose proof (rel_bounds (42 / 10 * e) n (vnorm v) (conj nv Rn)) as [L _]. assert (42 / 10 * e * vnorm v <= / 10 * vnorm v) by (apply Rmult_le_compat_r; lra). lra. }
    assert (e * (9 / 10 * vnorm v) <= e * n) by (apply Rmult_le_compat_l; lra). assert (0 <= e * n) by (apply Rmult_le_pos; lra). lra. }
  assert (RM : rel (48 / 10 * e) (vnorm v * / s) (n * / s)).
  { pose proof (rel_mul _ 0 _ _ _ _ RVN (rel_refl (/ s) ltac:(left; apply Rinv_0_lt_compat, sp)) ltac:(lra) ltac:(lra)) as Q. eapply rel_le; [exact Q|]. lra. }
  assert (D24 : 10 ^ 24 = 1000000000000000000000000) by (cbn [pow]; ring). assert (D25 : 10 ^ 25 = 10000000000000000000000000) by (cbn [pow]; ring). rewrite D25 in RD. rewrite D24.
  assert (RX : rel (7 * e + 3 / 10000000000000000000000000) (n * / s) (r * (2 * f))).
  { rewrite P2. rewrite Rmult_assoc. pose proof (rel_mul 0 _ _ _ _ _ (rel_refl r ltac:(lra)) RD ltac:(lra) ltac:(lra)) as Q. eapply rel_le; [exact Q|]. lra. }
  pose proof (rel_trans _ _ _ _ _ RM RX ltac:(lra) ltac:(lra)) as R2. apply rel_le with (f := 12 * e + 4 / 10000000000000000000000000) in R2; [|lra].
  pose proof (rel_trans _ _ _ _ _ R1 R2 ltac:(lra) ltac:(lra)) as R3. apply rel_le with (f := 18 * e + 5 / 10000000000000000000000000) in R3; [|lra].
  assert (Rr1 : rel (106 / 100 * k) r 1) by (split; lra).
  pose proof (rel_mul _ 0 _ _ _ _ Rr1 (rel_refl (2 * f) ltac:(lra)) ltac:(lra) ltac:(lra)) as Q. rewrite Rmult_1_l in Q. apply rel_le with (f := 106 / 100 * k) in Q; [|lra].
  pose proof (rel_trans _ _ _ _ _ R3 Q ltac:(lra) ltac:(lra)) as R4. set (B := 106 / 100 * k + 20 * e + 2 / 1000000000000000000000000).
  assert (ek : 0 <= e * k <= 507 / 10000 * e) by (split; [apply Rmult_le_pos; lra | rewrite Rmult_comm; apply Rmult_le_compat_r; lra]).
  apply rel_le with (f := B) in R4; [|unfold B; lra]. destruct R4 as [_ R4]. assert (B1 : 0 <= B <= 55 / 1000) by (unfold B; lra).
  replace (N - a) with ((N - 2 * f) + (2 * f - a)) by ring. eapply Rle_trans; [apply Rabs_triang|].
  assert (F2 : 2 * f <= a + 214 / 100 * k) by (pose proof (Rle_abs (2 * f - a)); lra). assert (B * (2 * f) <= B * (a + 214 / 100 * k)) by (apply Rmult_le_compat_l; lra).
  assert (B * (214 / 100 * k) <= 55 / 1000 * (214 / 100 * k)) by (apply Rmult_le_compat_r; lra). lra.
Qed.

(** the change of sign leaves the rotation as it is *)
Lemma stand_near q D kap : qnorm2 D = 1 -> qlen (qsub q D) <= kap -> exists D', qnorm2 D' = 1 /\ quaternion_to_matrix D' = quaternion_to_matrix D /\ qlen (qsub (standardize_quaternion q) D') <= kap /\ 0 <= qw (standardize_quaternion q).
Proof.
  intros HD H. unfold standardize_quaternion. destruct (Rltb (qw q) 0) eqn:E.
  - exists (qopp D). rewrite qnorm2_opp, qsub_opp. rewrite q2m_opp by lra. apply Rltb_true in E. split; [exact HD|]. split; [reflexivity|]. split; [exact H|]. unfold qopp. cbn [qw]. lra.
  - apply Rltb_false in E. exists D. split; [exact HD|]. split; [reflexivity|]. split; [exact H | lra].
Qed.
Variable sp : nat -> stree.
Hypothesis Hsp : forall i, s_full (sp i).
Lemma rotation_close M' M T' T b c a : is_rot M -> is_rot T -> entries_within b M' M -> entries_within c T' T -> 0 <= b -> 0 <= c -> b + c <= / 120 -> turn M T a ->
  let dr := fl_axis_angle rnd fsin fatan2 sn (fl_multiply rnd sp (fl_m2q rnd T') (quaternion_invert (fl_m2q rnd M'))) in
  forall N, N = fl_norm rnd sn dr \/ N = vnorm dr -> Rabs (N - a) <= 13 * (b + c) + 142 * e + (6 * (b + c) + 87 * e + 2 / 10 ^ 24) * a.
Proof.
  intros HM HT EM ET Hb Hc Hbc [Ha Tr] dr N HN. pose proof un as U0. pose proof en as E0.
  destruct (m2q_close u rnd Hr ltac:(lra) b M' M ltac:(lra) HM EM) as (qm & Nm & Qm & Lm).
  destruct (m2q_close u rnd Hr ltac:(lra) c T' T ltac:(lra) HT ET) as (qt & Nt & Qt & Lt).
  assert (Ni : qnorm2 (quaternion_invert qm) = 1) by (rewrite <- Nm; unfold quaternion_invert, qnorm2; cbn [qw qx qy qz]; ring).
  assert (Li : qlen (qsub (quaternion_invert (fl_m2q rnd M')) (quaternion_invert qm)) <= 51 / 10 * b + 23 * u) by (rewrite qsub_inv; exact Lm).
  pose proof (product_close u rnd Hr ltac:(lra) sp Hsp _ _ _ _ _ _ Nt Ni Lt Li ltac:(lra) ltac:(lra)) as PC.
  assert (ND : qnorm2 (quaternion_raw_multiply qt (quaternion_invert qm)) = 1) by (rewrite raw_norm, Nt, Ni; ring).
  destruct (stand_near _ _ _ ND PC) as (D & D1 & D2 & D3 & D4). change (standardize_quaternion (fl_raw_multiply rnd sp (fl_m2q rnd T') (quaternion_invert (fl_m2q rnd M')))) with (fl_multiply rnd sp (fl_m2q rnd T') (quaternion_invert (fl_m2q rnd M'))) in *.
  assert (TD : trace3 (quaternion_to_matrix D) = 1 + 2 * cos a).
  { rewrite D2, q2m_mul, q2m_inv, Qt, Qm by lra. exact Tr. }
  pose proof (axis_near _ D (11 / 10 * (51 / 10 * c + 23 * u) + (51 / 10 * b + 23 * u) + 10 * u) a D4 D1 D3 ltac:(lra) Ha TD) as F. cbv zeta in F. specialize (F N HN).
  eapply Rle_trans; [exact F|]. apply Rplus_le_compat; [lra|]. apply Rmult_le_compat_r; lra.
Qed.

Lemma position_close p' p q' q x y : vnorm (vsub p' p) <= x -> vnorm (vsub q' q) <= y -> let d := vnorm (vsub q p) in
  let dp := fl_vsub rnd q' p' in forall N, N = fl_norm rnd sn dp \/ N = vnorm dp -> Rabs (N - d) <= x + y + 53 / 10 * e * (d + x + y).
Proof.
  intros Hx Hy d dp N HN. pose proof en as E0. assert (E2 : e * e <= / 100000 * e) by (apply Rmult_le_compat_r; lra). set (w := vsub q' p').
  assert (RW : rel e (vnorm dp) (vnorm w)).
  { split; [apply vnorm_nonneg|].
    assert (C : forall y, Rabs (rnd y - y) <= e * Rabs y).
    { intros z. pose proof (proj2 Hr z) as H. assert (u * Rabs z <= e * Rabs z) by (apply Rmult_le_compat_r; [apply Rabs_pos | exact Hu]). lra. }
    assert (L : vnorm (vsub dp w) <= e * vnorm w).
    { rewrite <- (vabs_norm w), <- (vscale_norm e) by exact E0. apply vle_norm. unfold dp, w, fl_vsub, fsub, vle, vabs, vsub, vscale. cbn [vx vy vz]. split; [apply C | split; apply C]. }
    apply Rabs_le. split.
    - pose proof (vnorm_split w dp _ _ (Rle_refl _) (Rle_refl _)) as H. rewrite vnorm_sub_comm in H. lra.
    - pose proof (vnorm_split dp w _ _ (Rle_refl _) (Rle_refl _)) as H. lra. }
  assert (RN : rel (53 / 10 * e) N (vnorm w)).
  { destruct HN as [HN|HN]; rewrite HN; [pose proof (rel_trans _ _ _ _ _ (norm_rel dp) RW ltac:(lra) E0) as Q; eapply rel_le; [exact Q | lra] | eapply rel_le; [exact RW | lra]]. }
  destruct RN as [W0 RN].
  assert (D : Rabs (vnorm w - d) <= x + y).
  { assert (Z : vnorm (vsub w (vsub q p)) <= x + y).
    { replace (vsub w (vsub q p)) with (vadd (vsub q' q) (vopp (vsub p' p))) by (unfold w, vadd, vopp, vsub; cbn [vx vy vz]; apply mkV3_eq; ring).
      eapply Rle_trans; [apply vnorm_triangle|]. rewrite vnorm_opp. lra. }
    apply Rabs_le. unfold d. split.
    - pose proof (vnorm_split (vsub q p) w _ _ (Rle_refl _) (Rle_refl _)) as H. rewrite (vnorm_sub_comm (vsub q p) w) in H. lra.
    - pose proof (vnorm_split w (vsub q p) _ _ (Rle_refl _) (Rle_refl _)) as H. lra. }
  replace (N - d) with ((N - vnorm w) + (vnorm w - d)) by ring. eapply Rle_trans; [apply Rabs_triang|].
  assert (vnorm w <= d + x + y) by (pose proof (Rle_abs (vnorm w - d)); lra). assert (53 / 10 * e * vnorm w <= 53 / 10 * e * (d + x + y)) by (apply Rmult_le_compat_l; lra). lra.
Qed.
End Axis.
(** entries of a computed pose *)
Lemma close_entries x M' M P : close x M' M P -> entries_within (x - 1) (rotp M') (rotp M).
Proof.
  intros (_ & _ & H & _ & _). unfold entries_within, m3le, m3abs, m3sub, m3add, m3opp. cbn [m00 m01 m02 m10 m11 m12 m20 m21 m22].
  assert (N : vnorm (mkV3 1 0 0) = 1 /\ vnorm (mkV3 0 1 0) = 1 /\ vnorm (mkV3 0 0 1) = 1).
  { split; [|split]; unfold vnorm, vnorm2, vdot; cbn [vx vy vz]; match goal with |- sqrt ?x = _ => replace x with 1 by ring end; apply sqrt_1. }
  destruct N as (N1 & N2 & N3).
  assert (C : forall v c, vnorm v <= c -> Rabs (vx v) <= c /\ Rabs (vy v) <= c /\ Rabs (vz v) <= c).
  { intros v c Hv. pose proof (vnorm_nonneg v) as N0. pose proof (vnorm_sqr v) as S0. unfold vnorm2, vdot in S0. pose proof (Rle_0_sqr (vx v)) as Q1. pose proof (Rle_0_sqr (vy v)) as Q2. pose proof (Rle_0_sqr (vz v)) as Q3. unfold Rsqr in *.
    assert (Z : forall z, z * z <= vnorm v * vnorm v -> Rabs z <= c).
    { intros z Hz. apply Rle_trans with (vnorm v); [|exact Hv]. apply Rsqr_incr_0; [|apply Rabs_pos|exact N0]. rewrite <- Rsqr_abs. exact Hz. }
    split; [|split]; apply Z; lra. }
  pose proof (C _ _ (H (mkV3 1 0 0))) as K1. pose proof (C _ _ (H (mkV3 0 1 0))) as K2. pose proof (C _ _ (H (mkV3 0 0 1))) as K3. rewrite N1, N2, N3, Rmult_1_r in *.
  unfold m3vec, vsub in K1, K2, K3. cbn [vx vy vz] in K1, K2, K3.
  destruct K1 as (A1 & A2 & A3), K2 as (B1 & B2 & B3), K3 as (C1 & C2 & C3).
  assert (E : forall z y, Rabs z <= x - 1 -> z = y -> Rabs y <= x - 1) by (intros z y Hz ->; exact Hz).
  split; [split; [|split]|split; [split; [|split]|split; [|split]]];
    [(eapply E; [exact A1 | ring]) | (eapply E; [exact B1 | ring]) | (eapply E; [exact C1 | ring]) | (eapply E; [exact A2 | ring]) | (eapply E; [exact B2 | ring]) | (eapply E; [exact C2 | ring])
    | (eapply E; [exact A3 | ring]) | (eapply E; [exact B3 | ring]) | (eapply E; [exact C3 | ring])].
Qed.
