(** Axis-angle vectors, quaternions and matrices: C22, C23. *)
From Coq Require Import Reals Lra Psatz Bool Arith Lia List.
From Verif Require Import Prelude ExtF Lin Trig RotModel RotBasic QuatProofs.
Import ListNotations.
Local Open Scope R_scope.

(** ** Analysis *)
Lemma atan_lip a b : Rabs (atan a - atan b) <= Rabs (a - b).
Proof.
  assert (H : forall x y, x < y -> 0 <= atan y - atan x <= y - x).
  { intros x y L. destruct (MVT_cor2 atan (fun z => / (1 + z ^ 2)) x y L) as (c & E & _).
    - intros z _. apply derivable_pt_lim_atan.
    - rewrite E. assert (0 < 1 + c ^ 2) as P by nra.
      assert (0 < / (1 + c ^ 2)) by (apply Rinv_0_lt_compat, P).
      assert (/ (1 + c ^ 2) <= 1) by (rewrite <- Rinv_1; apply Rinv_le_contravar; nra).
      split; nra. }
  destruct (Rtotal_order a b) as [L|[->|L]].
  - specialize (H a b L). rewrite (Rabs_minus_sym (atan a)), (Rabs_minus_sym a), !Rabs_pos_eq by lra. lra.
  - rewrite !Rminus_eq_0, Rabs_R0. lra.
  - specialize (H b a L). rewrite !Rabs_pos_eq by lra. lra.
Qed.
Lemma cos_lip a b : Rabs (cos a - cos b) <= Rabs (a - b).
Proof.
  assert (H : forall x y, x < y -> Rabs (cos y - cos x) <= y - x).
  { intros x y L. destruct (MVT_cor2 cos (fun z => - sin z) x y L) as (c & E & _).
    - intros z _. apply derivable_pt_lim_cos.
    - rewrite E, Rabs_mult, (Rabs_pos_eq (y - x)) by lra. rewrite Rabs_Ropp.
      assert (Rabs (sin c) <= 1) by (apply Rabs_le; pose proof (SIN_bound c); lra). nra. }
  destruct (Rtotal_order a b) as [L|[->|L]].
  - rewrite (Rabs_minus_sym (cos a)), (Rabs_minus_sym a), (Rabs_pos_eq (b - a)) by lra. apply H, L.
  - rewrite !Rminus_eq_0, Rabs_R0. lra.
  - rewrite (Rabs_pos_eq (a - b)) by lra. apply H, L.
Qed.
(** Taylor bounds of the sine *)
Lemma sin_taylor x : 0 <= x <= 1 -> x - x ^ 3 / 6 <= sin x <= x - x ^ 3 / 6 + x ^ 5 / 120.
Proof.
  intros [H0 H1]. pose proof PI_4. pose proof PI2_3_2.
  split.
  - destruct (pre_sin_bound x 0 H0 ltac:(lra)) as [A _]. unfold sin_approx, sum_f_R0, sin_term in A. simpl in A. lra.
  - destruct (pre_sin_bound x 0 H0 ltac:(lra)) as [_ B]. unfold sin_approx, sum_f_R0, sin_term in B. simpl in B. lra.
Qed.
Lemma cos_ge_half x : 0 <= x <= 1 -> 1 / 2 <= cos x.
Proof.
  intros [H0 H1]. destruct (pre_cos_bound x 0 ltac:(lra) ltac:(lra)) as [A _].
  unfold cos_approx, sum_f_R0, cos_term in A. simpl in A. nra.
Qed.

(** [sin(a/2)/a] and its small-angle polynomial stay within 1e-12 of 1/2 for a <= 2e-6 *)
Lemma sho_bounds a : 0 <= a <= 2 * eps6 -> 1 / 2 - a * a / 48 <= sin_half_over (/ 2 * a) a <= 1 / 2.
Proof.
  intros [H0 H1]. unfold eps6 in *. unfold sin_half_over.
  destruct (Rltb (Rabs a) eps6) eqn:E; [nra|]. apply Rltb_false in E. rewrite Rabs_pos_eq in E by exact H0.
  unfold eps6 in E. assert (0 < a) by lra.
  destruct (sin_taylor (/ 2 * a) ltac:(lra)) as [L U].
  split; apply (Rmult_le_reg_r a); try assumption; unfold Rdiv; rewrite (Rmult_assoc (sin _)), Rinv_l, Rmult_1_r by lra.
  - nra.
  - assert ((/ 2 * a) ^ 5 / 120 <= (/ 2 * a) ^ 3 / 6); [|lra].
    replace ((/ 2 * a) ^ 5 / 120) with ((/ 2 * a) ^ 3 / 6 * ((/ 2 * a) ^ 2 / 20)) by field.
    assert (0 <= (/ 2 * a) ^ 3 / 6) by (apply Rmult_le_pos; [apply pow_le; lra | lra]).
    assert (0 <= (/ 2 * a) ^ 2 / 20 <= 1) by nra. nra.
Qed.
Lemma sho_exact a : eps6 <= Rabs a -> sin_half_over (/ 2 * a) a = sin (/ 2 * a) / a.
Proof. intros H. unfold sin_half_over. assert (Rltb (Rabs a) eps6 = false) as -> by (apply Rltb_false; exact H). reflexivity. Qed.
Lemma sho_window a : Rabs a < eps6 -> sin_half_over (/ 2 * a) a = / 2 - a * a / 48.
Proof. intros H. unfold sin_half_over. assert (Rltb (Rabs a) eps6 = true) as -> by (apply Rltb_true; exact H). reflexivity. Qed.
Lemma eps6_pos : 0 < eps6. Proof. unfold eps6. lra. Qed.

(** ** C22 *)
(** the matrix of the quaternion (c, s k) with c^2 + s^2 = r^2 > 0 *)
Lemma q2m_axis k c s phi : unit3 k -> 0 < c * c + s * s ->
  cos phi = c / sqrt (c * c + s * s) -> sin phi = s / sqrt (c * c + s * s) ->
  quaternion_to_matrix (mkQ c (s * vx k) (s * vy k) (s * vz k)) = axis_and_angle_to_matrix_33 k (2 * phi).
Proof.
  intros Hk Hp Hc Hs. set (r := sqrt (c * c + s * s)) in *.
  assert (Hr : r * r = c * c + s * s) by (apply sqrt_sqrt; lra).
  assert (Pr : 0 < r) by (apply sqrt_lt_R0, Hp).
  assert (E : mkQ c (s * vx k) (s * vy k) (s * vz k) =
    qscale r (mkQ (cos phi) (sin phi * vx k) (sin phi * vy k) (sin phi * vz k))).
  { unfold qscale; cbn [qw qx qy qz]. rewrite Hc, Hs. apply mkQ_eq; field; lra. }
  pose proof (sin_sqr phi) as Hsc. clear Hc Hs. rewrite E. unfold unit3 in Hk.
  assert (N : qnorm2 (mkQ (cos phi) (sin phi * vx k) (sin phi * vy k) (sin phi * vz k)) = 1).
  { destruct k as [x y z]. lin_simpl. unfold qnorm2; cbn [qw qx qy qz].
    transitivity (cos phi * cos phi + sin phi * sin phi * (x * x + y * y + z * z)); [ring|]. rewrite Hk, Hsc. ring. }
  rewrite q2m_scale by lra. rewrite q2m_unit by exact N. clear E N Hr Pr.
  apply unit_sqr in Hk. unfold qmat, axis_and_angle_to_matrix_33. cbn [qw qx qy qz].
  rewrite cos_2a, sin_2a. destruct k as [x y z]. cbn [vx vy vz] in *.
  set (cc := cos phi) in *. set (ss := sin phi) in *. clearbody cc ss. apply mkM3_eq; ring [Hk Hsc].
Qed.

Lemma vnorm_axis k t : unit3 k -> vnorm (vscale t k) = Rabs t.
Proof. intros H. rewrite vnorm_scale, unit3_norm by exact H. ring. Qed.

Lemma aa2q_axis k t : unit3 k -> 0 <= t -> axis_angle_to_quaternion (vscale t k) =
  mkQ (cos (/ 2 * t)) (t * sin_half_over (/ 2 * t) t * vx k) (t * sin_half_over (/ 2 * t) t * vy k)
      (t * sin_half_over (/ 2 * t) t * vz k).
Proof.
  intros Hk Ht. unfold axis_angle_to_quaternion. rewrite vnorm_axis, Rabs_pos_eq by assumption.
  unfold vscale; cbn [vx vy vz]. apply mkQ_eq; ring.
Qed.

Lemma half_dbl t : 2 * (/ 2 * t) = t. Proof. field. Qed.

Lemma aa_matrix_pos k t : unit3 k -> eps6 <= t \/ t = 0 ->
  axis_angle_to_matrix (vscale t k) = axis_and_angle_to_matrix_33 k t.
Proof.
  intros Hk H. pose proof eps6_pos. assert (Ht : 0 <= t) by (destruct H; lra).
  unfold axis_angle_to_matrix. rewrite aa2q_axis by assumption.
  assert (E : t * sin_half_over (/ 2 * t) t = sin (/ 2 * t)).
  { destruct H as [H| ->].
    - rewrite sho_exact by (rewrite Rabs_pos_eq by exact Ht; exact H). field; lra.
    - rewrite Rmult_0_l, Rmult_0_r, sin_0. reflexivity. }
  rewrite E. pose proof (sin2_cos2 (/ 2 * t)) as P. unfold Rsqr in P.
  assert (S : cos (/ 2 * t) * cos (/ 2 * t) + sin (/ 2 * t) * sin (/ 2 * t) = 1) by lra.
  rewrite (q2m_axis k _ _ (/ 2 * t) Hk); rewrite ?S, ?sqrt_1, ?half_dbl; try reflexivity; try lra; field.
Qed.
(** negative multiples of the axis *)
Lemma rot33_opp k t : axis_and_angle_to_matrix_33 (vopp k) (- t) = axis_and_angle_to_matrix_33 k t.
Proof.
  unfold axis_and_angle_to_matrix_33. rewrite cos_neg, sin_neg. destruct k. lin_simpl.
  set (c := cos t). set (s := sin t). clearbody c s. apply mkM3_eq; ring.
Qed.
Lemma vscale_opp t k : vscale t k = vscale (- t) (vopp k).
Proof. lin. Qed.
Lemma unit_opp k : unit3 k -> unit3 (vopp k).
Proof. destruct k; lin_simpl; intros; lra. Qed.
Lemma aa_matrix_exact k t : unit3 k -> eps6 <= Rabs t \/ t = 0 ->
  axis_angle_to_matrix (vscale t k) = axis_and_angle_to_matrix_33 k t.
Proof.
  intros Hk H. destruct (Rle_lt_dec 0 t) as [L|L].
  - apply aa_matrix_pos; [exact Hk|]. rewrite Rabs_pos_eq in H by exact L. exact H.
  - rewrite vscale_opp, <- rot33_opp. apply aa_matrix_pos; [apply unit_opp, Hk|].
    destruct H as [H|H]; [left; rewrite Rabs_left in H by lra; exact H | lra].
Qed.
(** inside the window the result is still a rotation about the same axis, by almost the same angle *)
Lemma aa_matrix_window_pos k t : unit3 k -> 0 <= t < eps6 ->
  exists phi, axis_angle_to_matrix (vscale t k) = axis_and_angle_to_matrix_33 k phi /\ Rabs (phi - t) <= t ^ 5 / 960.
Proof.
  intros Hk [H0 H1]. unfold axis_angle_to_matrix. rewrite aa2q_axis by assumption.
  rewrite sho_window by (rewrite Rabs_pos_eq by exact H0; exact H1).
  set (c := cos (/ 2 * t)). set (s := t * (/ 2 - t * t / 48)). unfold eps6 in *.
  assert (Hc : 1 / 2 <= c) by (apply cos_ge_half; lra).
  assert (Hn : c <> 0 \/ s <> 0) by (left; lra).
  pose proof (norm2_pos _ _ Hn) as P.
  assert (Q : 0 < sqrt (c * c + s * s)) by (apply sqrt_lt_R0, P).
  pose proof (atan2_cos s c Hn) as A. pose proof (atan2_sin s c Hn) as B.
  exists (2 * atan2 s c). split.
  - apply q2m_axis; [exact Hk | exact P | |].
    + apply (Rmult_eq_reg_l (sqrt (c * c + s * s))); [|lra]. rewrite A. field. lra.
    + apply (Rmult_eq_reg_l (sqrt (c * c + s * s))); [|lra]. rewrite B. field. lra.
  - unfold atan2. assert (Rltb 0 c = true) as -> by (apply Rltb_true; lra).
    assert (T : t = 2 * atan (tan (/ 2 * t))).
    { rewrite atan_tan; [field|]. pose proof PI2_3_2. lra. }
    replace (2 * atan (s / c) - t) with (2 * (atan (s / c) - atan (tan (/ 2 * t)))) by lra.
    rewrite Rabs_mult, (Rabs_pos_eq 2) by lra.
    pose proof (atan_lip (s / c) (tan (/ 2 * t))) as L.
    assert (D : Rabs (s / c - tan (/ 2 * t)) <= t ^ 5 / 1920).
    { unfold tan. fold c. replace (s / c - sin (/ 2 * t) / c) with ((s - sin (/ 2 * t)) * / c) by (field; lra).
      rewrite Rabs_mult. destruct (sin_taylor (/ 2 * t) ltac:(lra)) as [E F].
      assert (E1 : Rabs (s - sin (/ 2 * t)) <= t ^ 5 / 3840).
      { unfold s. rewrite Rabs_minus_sym. apply Rabs_le. simpl in *. lra. }
      assert (E2 : Rabs (/ c) <= 2).
      { rewrite Rabs_pos_eq by (left; apply Rinv_0_lt_compat; lra).
        replace 2 with (/ (1 / 2)) by field. apply Rinv_le_contravar; lra. }
      pose proof (Rabs_pos (s - sin (/ 2 * t))). pose proof (Rabs_pos (/ c)).
      apply Rle_trans with (t ^ 5 / 3840 * 2); [apply Rmult_le_compat; assumption | lra]. }
    lra.
Qed.
Lemma aa_matrix_window k t : unit3 k -> Rabs t < eps6 ->
  exists phi, axis_angle_to_matrix (vscale t k) = axis_and_angle_to_matrix_33 k phi /\
    Rabs (phi - t) <= Rabs t ^ 5 / 960.
Proof.
  intros Hk H. destruct (Rle_lt_dec 0 t) as [L|L].
  - rewrite Rabs_pos_eq in * by exact L. apply aa_matrix_window_pos; [exact Hk | split; assumption].
  - rewrite (Rabs_left t) in * by exact L.
    destruct (aa_matrix_window_pos (vopp k) (- t) (unit_opp k Hk) ltac:(split; lra)) as (phi & E & D).
    exists (- phi). rewrite vscale_opp, E. split.
    + rewrite <- (rot33_opp k). rewrite Ropp_involutive. reflexivity.
    + rewrite <- Rabs_Ropp. replace (- (- phi - t)) with (phi - - t) by ring. exact D.
Qed.
(** every vector is a non-negative multiple of a unit vector *)
Lemma axis_decomp v : exists k, unit3 k /\ v = vscale (vnorm v) k.
Proof.
  destruct (Req_dec (vnorm v) 0) as [E|E].
  - exists (mkV3 1 0 0). split; [lin_simpl; lra|]. apply vnorm_zero_iff in E as ->.
    unfold vnorm. replace (vnorm2 vzero) with 0 by (lin_simpl; ring). rewrite sqrt_0, vscale_0. reflexivity.
  - exists (vscale (/ vnorm v) v). split.
    + apply normalise_unit. intros ->. apply E. apply vnorm_zero_iff. reflexivity.
    + rewrite vscale_scale, Rinv_r, vscale_1 by exact E. reflexivity.
Qed.

(** ** C23 *)
Lemma fdivr_fin a s : s <> 0 -> fdivr (Fin a) s = Fin (a / s).
Proof. intros H. unfold fdivr. destruct (Reqb s 0) eqn:E; [apply Reqb_true in E; contradiction | reflexivity]. Qed.
Lemma q2aa_fin q : sin_half_over (/ 2 * (2 * atan2 (vnorm (qvec q)) (qw q))) (2 * atan2 (vnorm (qvec q)) (qw q)) <> 0 ->
  quaternion_to_axis_angle q =
  fin3 (vscale (/ sin_half_over (/ 2 * (2 * atan2 (vnorm (qvec q)) (qw q))) (2 * atan2 (vnorm (qvec q)) (qw q))) (qvec q)).
Proof.
  intros H. unfold quaternion_to_axis_angle.
  replace (/ 2 * (2 * atan2 (vnorm (qvec q)) (qw q))) with (atan2 (vnorm (qvec q)) (qw q)) in * by field.
  rewrite !fdivr_fin by exact H. unfold fin3, vscale, qvec. cbn [vx vy vz]. unfold Rdiv.
  rewrite (Rmult_comm (qx q)), (Rmult_comm (qy q)), (Rmult_comm (qz q)). reflexivity.
Qed.

(** the quaternion (cos h, (sin h) k) with h in [0, pi] *)
Lemma vnorm_qvec c s k : unit3 k -> 0 <= s -> vnorm (qvec (mkQ c (s * vx k) (s * vy k) (s * vz k))) = s.
Proof.
  intros Hk Hs. change (qvec _) with (vscale s k). rewrite vnorm_axis, Rabs_pos_eq by assumption. reflexivity.
Qed.
Lemma aa_q_aa v : (eps6 <= vnorm v < 2 * PI \/ v = vzero) ->
  quaternion_to_axis_angle (axis_angle_to_quaternion v) = fin3 v.
Proof.
  intros H. destruct (axis_decomp v) as (k & Hk & E). pose proof eps6_pos.
  assert (H' : eps6 <= vnorm v < 2 * PI \/ vnorm v = 0).
  { destruct H as [H|H]; [left; exact H | right; apply vnorm_zero_iff, H]. }
  rewrite E at 1. set (t := vnorm v) in *. assert (Ht : 0 <= t) by (destruct H'; lra).
  rewrite aa2q_axis by assumption.
  assert (S : t * sin_half_over (/ 2 * t) t = sin (/ 2 * t)).
  { destruct H' as [[L _]|L].
    - rewrite sho_exact by (rewrite Rabs_pos_eq by exact Ht; exact L). field; lra.
    - rewrite L, Rmult_0_l, Rmult_0_r, sin_0. reflexivity. }
  rewrite S. pose proof PI_RGT_0.
  assert (P : 0 <= sin (/ 2 * t)) by (apply sin_ge_0; destruct H'; lra).
  assert (A : atan2 (sin (/ 2 * t)) (cos (/ 2 * t)) = / 2 * t).
  { rewrite <- (Rmult_1_l (sin _)), <- (Rmult_1_l (cos _)). apply atan2_polar; [lra|]. destruct H'; lra. }
  assert (N : sin_half_over (/ 2 * t) t <> 0).
  { destruct H' as [[L U]|L].
    - intros Z. rewrite Z, Rmult_0_r in S. pose proof (sin_gt_0 (/ 2 * t) ltac:(lra) ltac:(lra)). lra.
    - rewrite L. rewrite sho_window by (rewrite Rabs_R0; lra). lra. }
  rewrite q2aa_fin; rewrite !vnorm_qvec by assumption; cbn [qw]; rewrite A, half_dbl; [|exact N].
  f_equal. rewrite E. rewrite <- S. destruct k as [x y z]. unfold vscale, qvec; cbn [vx vy vz qx qy qz].
  apply mkV3_eq; field; exact N.
Qed.
(** inside the window: a relative deviation below 1e-12 *)
Lemma ratio_bound s s' : 1 / 2 - / 10 ^ 13 <= s <= 1 / 2 -> 1 / 2 - / 10 ^ 13 <= s' <= 1 / 2 ->
  Rabs (s / s' - 1) <= / 10 ^ 12.
Proof.
  intros Hs Hs'. assert (E10 : / 10 ^ 12 = 10 * / 10 ^ 13) by (simpl; lra).
  assert (0 < / 10 ^ 13 < 1 / 100) by (simpl; lra). set (d := / 10 ^ 13) in *. rewrite E10. clearbody d.
  replace (s / s' - 1) with ((s - s') * / s') by (field; lra). rewrite Rabs_mult.
  assert (Rabs (s - s') <= d) by (apply Rabs_le; lra).
  assert (Rabs (/ s') <= 10).
  { rewrite Rabs_pos_eq by (left; apply Rinv_0_lt_compat; lra). replace 10 with (/ (/ 10)) by field.
    apply Rinv_le_contravar; lra. }
  pose proof (Rabs_pos (s - s')). pose proof (Rabs_pos (/ s')). nra.
Qed.
Lemma sho_near a : 0 <= a <= 2 * eps6 -> 1 / 2 - / 10 ^ 13 <= sin_half_over (/ 2 * a) a <= 1 / 2.
Proof.
  intros H. pose proof (sho_bounds a H) as [L U]. split; [|exact U].
  assert (a * a <= 4 * / 10 ^ 12).
  { unfold eps6 in H. replace (4 * / 10 ^ 12) with ((2 * / 1000000) * (2 * / 1000000)) by (simpl; field). nra. }
  simpl in *. lra.
Qed.
Lemma atan2_pos_bound y x : 0 < x -> 0 <= y -> 0 <= atan2 y x <= y / x.
Proof.
  intros Hx Hy. unfold atan2. assert (Rltb 0 x = true) as -> by (apply Rltb_true; exact Hx).
  pose proof (atan_lip (y / x) 0) as L. rewrite atan_0, !Rminus_0_r in L.
  assert (0 <= y / x) by (apply Rmult_le_pos; [exact Hy | left; apply Rinv_0_lt_compat, Hx]).
  assert (0 <= atan (y / x)).
  { rewrite <- atan_0. destruct (Req_dec (y / x) 0) as [->|N]; [lra|]. left. apply atan_increasing. lra. }
  rewrite !Rabs_pos_eq in L by assumption. lra.
Qed.
Lemma aa_q_aa_window v : vnorm v < eps6 ->
  exists r, quaternion_to_axis_angle (axis_angle_to_quaternion v) = fin3 (vscale r v) /\ Rabs (r - 1) <= / 10 ^ 12.
Proof.
  intros H. destruct (axis_decomp v) as (k & Hk & E). pose proof eps6_pos. pose proof (vnorm_nonneg v) as Ht.
  set (t := vnorm v) in *. clearbody t. subst v. rewrite aa2q_axis by assumption.
  set (s := sin_half_over (/ 2 * t) t).
  assert (Bs : 1 / 2 - / 10 ^ 13 <= s <= 1 / 2) by (apply sho_near; lra).
  assert (D13 : 0 < / 10 ^ 13 < 1 / 100) by (simpl; lra).
  assert (Ps : 0 <= t * s) by (apply Rmult_le_pos; lra).
  set (phi := 2 * atan2 (t * s) (cos (/ 2 * t))).
  assert (Bphi : 0 <= phi <= 2 * eps6).
  { assert (C : 1 / 2 <= cos (/ 2 * t)) by (apply cos_ge_half; unfold eps6 in *; lra).
    destruct (atan2_pos_bound (t * s) (cos (/ 2 * t)) ltac:(lra) Ps) as [L U]. unfold phi. split; [lra|].
    assert (t * s / cos (/ 2 * t) <= t).
    { apply (Rmult_le_reg_r (cos (/ 2 * t))); [lra|]. unfold Rdiv. rewrite Rmult_assoc, Rinv_l, Rmult_1_r by lra. nra. }
    lra. }
  pose proof (sho_near phi Bphi) as Bs'.
  exists (s / sin_half_over (/ 2 * phi) phi). split; [|apply ratio_bound; assumption].
  rewrite q2aa_fin; rewrite !vnorm_qvec by assumption; cbn [qw]; fold phi; [|lra].
  f_equal. destruct k as [x y z]. unfold vscale, qvec; cbn [vx vy vz qx qy qz].
  apply mkV3_eq; field; lra.
Qed.

(** the other direction *)
Lemma unit_q_polar q : qnorm2 q = 1 ->
  0 <= atan2 (vnorm (qvec q)) (qw q) <= PI /\ cos (atan2 (vnorm (qvec q)) (qw q)) = qw q /\
  sin (atan2 (vnorm (qvec q)) (qw q)) = vnorm (qvec q).
Proof.
  intros H. split; [apply atan2_nonneg, vnorm_nonneg|]. apply atan2_unit. rewrite vnorm_sqr, <- H.
  destruct q; unfold qnorm2, qvec; lin_simpl; ring.
Qed.
Lemma qw1_vec q : qnorm2 q = 1 -> qw q = 1 -> qvec q = vzero.
Proof.
  intros H W. apply vnorm2_zero. destruct q as [w x y z]; unfold qnorm2, qvec in *; cbn [qw qx qy qz] in *.
  subst w. lin_simpl. lra.
Qed.
Lemma q_aa_q q v : qnorm2 q = 1 -> qvec q <> vzero \/ qw q = 1 ->
  (eps6 <= 2 * atan2 (vnorm (qvec q)) (qw q) \/ qw q = 1) ->
  quaternion_to_axis_angle q = fin3 v -> axis_angle_to_quaternion v = q.
Proof.
  intros Hq Hv Hw E. destruct (unit_q_polar q Hq) as (Hh & Hc & Hs). set (h := atan2 (vnorm (qvec q)) (qw q)) in *.
  pose proof eps6_pos. pose proof PI_RGT_0.
  destruct (Req_dec (qw q) 1) as [W|W].
  - assert (V : qvec q = vzero).
    { apply qw1_vec; assumption. }
    assert (h = 0) as Hz0.
    { unfold h. rewrite V, W. unfold vnorm. replace (vnorm2 vzero) with 0 by (lin_simpl; ring). rewrite sqrt_0.
      unfold atan2. assert (Rltb 0 1 = true) as -> by (apply Rltb_true; lra). unfold Rdiv. rewrite Rmult_0_l. apply atan_0. }
    assert (SO : sin_half_over (/ 2 * (2 * h)) (2 * h) = / 2).
    { rewrite Hz0, Rmult_0_r, sho_window by (rewrite Rabs_R0; lra). lra. }
    rewrite q2aa_fin in E by (fold h; rewrite SO; lra). fold h in E. rewrite SO, V in E.
    assert (v = vzero) as ->.
    { unfold fin3, vscale, vzero in *; cbn [vx vy vz] in *. injection E as E1 E2 E3. destruct v as [a b c]; cbn in *.
      apply mkV3_eq; lra. }
    assert (NV : vnorm vzero = 0) by (apply vnorm_zero_iff; reflexivity).
    unfold axis_angle_to_quaternion. rewrite NV, Rmult_0_r, cos_0.
    destruct q as [w x y z]. unfold qvec, vzero in *. cbn [vx vy vz qw qx qy qz] in *. injection V as -> -> ->.
    rewrite W. apply mkQ_eq; ring.
  - destruct Hv as [Hv|]; [|contradiction]. destruct Hw as [Hw|]; [|contradiction].
    assert (Pn : 0 < vnorm (qvec q)).
    { destruct (Rle_lt_or_eq_dec 0 _ (vnorm_nonneg (qvec q))) as [L|L]; [exact L|].
      exfalso. apply Hv, vnorm_zero_iff. symmetry; exact L. }
    assert (SO : sin_half_over (/ 2 * (2 * h)) (2 * h) = vnorm (qvec q) / (2 * h)).
    { rewrite sho_exact by (rewrite Rabs_pos_eq by lra; exact Hw). replace (/ 2 * (2 * h)) with h by field. rewrite Hs. reflexivity. }
    assert (NZ : vnorm (qvec q) / (2 * h) <> 0).
    { apply Rmult_integral_contrapositive_currified; [lra | apply Rinv_neq_0_compat; lra]. }
    rewrite q2aa_fin in E by (fold h; rewrite SO; exact NZ). fold h in E. rewrite SO in E.
    assert (V : v = vscale (2 * h / vnorm (qvec q)) (qvec q)).
    { unfold fin3, vscale in *; cbn [vx vy vz] in *. injection E as E1 E2 E3. destruct v as [a b c]; cbn in *.
      rewrite <- E1, <- E2, <- E3. apply mkV3_eq; field; split; lra. }
    assert (NV : vnorm v = 2 * h).
    { rewrite V, vnorm_scale, Rabs_pos_eq; [field; lra|].
      apply Rmult_le_pos; [lra | left; apply Rinv_0_lt_compat; lra]. }
    unfold axis_angle_to_quaternion. rewrite NV, SO. replace (/ 2 * (2 * h)) with h by field. rewrite Hc, V.
    destruct q as [w x y z]. unfold vscale, qvec in *. cbn [vx vy vz qw qx qy qz] in *.
    apply mkQ_eq; try reflexivity; field; lra.
Qed.
Lemma q2aa_finite q : qnorm2 q = 1 -> qvec q <> vzero \/ qw q = 1 -> exists v, quaternion_to_axis_angle q = fin3 v.
Proof.
  intros Hq Hv. destruct (unit_q_polar q Hq) as (Hh & Hc & Hs). set (h := atan2 (vnorm (qvec q)) (qw q)) in *. pose proof eps6_pos. pose proof PI_RGT_0.
  assert (N : sin_half_over (/ 2 * (2 * h)) (2 * h) <> 0).
  { destruct (Rlt_le_dec (2 * h) eps6) as [L|L].
    - pose proof (sho_near (2 * h) ltac:(lra)) as B. simpl in B. lra.
    - rewrite sho_exact by (rewrite Rabs_pos_eq by lra; exact L). replace (/ 2 * (2 * h)) with h by field. rewrite Hs.
      apply Rmult_integral_contrapositive_currified; [|apply Rinv_neq_0_compat; lra].
      destruct Hv as [Hv|W]; [intros Z; apply Hv, vnorm_zero_iff, Z|].
      exfalso. assert (h = 0); [|lra]. apply angle_unique; rewrite ?cos_0, ?sin_0; try lra.
      rewrite Hs. apply vnorm_zero_iff, qw1_vec; assumption. }
  eexists. apply q2aa_fin. exact N.
Qed.
Lemma q_aa_q_window q : qnorm2 q = 1 -> 2 * atan2 (vnorm (qvec q)) (qw q) < eps6 ->
  exists v r, quaternion_to_axis_angle q = fin3 v /\ Rabs (r - 1) <= / 10 ^ 12 /\
    Rabs (qw (axis_angle_to_quaternion v) - qw q) <= / 10 ^ 30 /\
    qvec (axis_angle_to_quaternion v) = vscale r (qvec q).
Proof.
  intros Hq Hw. destruct (unit_q_polar q Hq) as (Hh & Hc & Hs). set (h := atan2 (vnorm (qvec q)) (qw q)) in *.
  pose proof eps6_pos. set (a := 2 * h) in *. assert (Ha : 0 <= a) by (unfold a; lra).
  assert (Eh : h = / 2 * a) by (unfold a; field).
  pose proof (sho_near a ltac:(lra)) as Bs. pose proof (sho_window a ltac:(rewrite Rabs_pos_eq; lra)) as Es.
  set (s := sin_half_over (/ 2 * a) a) in *. assert (D13 : 0 < / 10 ^ 13 < 1 / 100) by (simpl; lra).
  exists (vscale (/ s) (qvec q)).
  assert (NV : vnorm (vscale (/ s) (qvec q)) = sin (/ 2 * a) / s).
  { rewrite vnorm_scale, <- Hs, Eh, Rabs_pos_eq; [field; lra | left; apply Rinv_0_lt_compat; lra]. }
  assert (BV : a <= sin (/ 2 * a) / s <= a + a ^ 5 / 960).
  { destruct (sin_taylor (/ 2 * a)) as [L U]; [unfold eps6 in *; lra|].
    split; apply (Rmult_le_reg_r s); try lra; unfold Rdiv; rewrite (Rmult_assoc (sin _)), Rinv_l, Rmult_1_r by lra.
    - rewrite Es. simpl in *. lra.
    - assert (a * s + a ^ 5 / 3840 <= (a + a ^ 5 * / 960) * s).
      { assert (0 <= a ^ 5) by (apply pow_le; exact Ha). nra. }
      assert (sin (/ 2 * a) <= a * s + a ^ 5 / 3840); [|lra]. rewrite Es. simpl in *. lra. }
  assert (A5 : 0 <= a ^ 5 / 960 <= / 10 ^ 31).
  { split; [apply Rmult_le_pos; [apply pow_le; exact Ha | lra]|].
    assert (a ^ 5 <= eps6 ^ 5) by (apply pow_incr; lra). unfold eps6 in *. simpl in *. lra. }
  set (n := sin (/ 2 * a) / s) in *.
  assert (BN : 0 <= n <= 2 * eps6) by (split; [lra|]; unfold eps6 in *; simpl in *; lra).
  pose proof (sho_near n BN) as Bn.
  exists (sin_half_over (/ 2 * n) n / s). split; [|split; [apply ratio_bound; assumption|split]].
  - rewrite q2aa_fin; fold h; fold a; fold s; [reflexivity | lra].
  - unfold axis_angle_to_quaternion. rewrite NV. cbn [qw]. rewrite <- Hc, Eh.
    eapply Rle_trans; [apply cos_lip|]. apply Rabs_le. simpl in *. lra.
  - unfold axis_angle_to_quaternion. rewrite NV. unfold vscale, qvec. cbn [qw qx qy qz vx vy vz].
    apply mkV3_eq; field; lra.
Qed.

(** ** matrices *)
Lemma rot_quat_real A : is_rot A -> let q := matrix_to_quaternion A in
  trace3 A = 4 * (qw q * qw q) - 1 /\ (qvec q = vzero -> qw q = 1) /\ (qw q < 0 -> 1 / 2 <= vnorm (qvec q)).
Proof.
  intros H q. pose proof (m2q_products A H 0 0 ltac:(lia) ltac:(lia))%nat as K.
  destruct (m2q_spec A H) as [N _]. pose proof (m2q_positive A H) as P. destruct (argmax_K A) as [Hi _].
  fold q in K, N, P. set (i := argmax4 (q_abs A)) in *. clearbody i. clearbody q.
  cbn [qget Kmat] in K. split; [unfold trace3; lra|]. split.
  - intros V. unfold qvec, vzero in V. injection V as V1 V2 V3. unfold qnorm2 in N.
    rewrite V1, V2, V3 in N.
    destruct i as [|[|[|[|]]]]; try lia; cbn [qget] in P; [|rewrite V1 in P; lra|rewrite V2 in P; lra|rewrite V3 in P; lra].
    assert ((qw q - 1) * (qw q + 1) = 0) as M by lra. apply Rmult_integral in M as [M|M]; lra.
  - intros W. rewrite <- (sqrt_square (1 / 2)) by lra. apply sqrt_le_1_alt. unfold vnorm2, vdot, qvec; cbn [vx vy vz].
    destruct i as [|[|[|[|]]]]; try lia; cbn [qget] in P; [lra | nra | nra | nra].
Qed.
Lemma cos_decr_lt a b : 0 <= a -> b <= PI -> a < b -> cos b < cos a.
Proof. intros. apply cos_decreasing_1; lra. Qed.
Lemma m_aa_m A v : is_rot A -> A = I3 \/ trace3 A <= 1 + 2 * cos eps6 ->
  matrix_to_axis_angle A = fin3 v -> axis_angle_to_matrix v = A.
Proof.
  intros H Hw E. pose proof (rot_quat_real A H) as R. cbv zeta in R. destruct R as (T & V0 & WN).
  destruct (m2q_spec A H) as [N EA]. unfold matrix_to_axis_angle in E. set (q := matrix_to_quaternion A) in *.
  unfold axis_angle_to_matrix. rewrite <- EA. f_equal. apply q_aa_q; [exact N | | | exact E].
  - destruct (Req_dec (vnorm (qvec q)) 0) as [Z|Z]; [right; apply V0, vnorm_zero_iff, Z|].
    left. intros Z'. apply Z, vnorm_zero_iff, Z'.
  - destruct (unit_q_polar q N) as (Hh & Hc & Hs). set (h := atan2 (vnorm (qvec q)) (qw q)) in *.
    pose proof eps6_pos as He. pose proof PI_RGT_0. pose proof PI2_3_2.
    destruct (Req_dec (qw q) 1) as [W|W]; [right; exact W | left].
    destruct Hw as [->|Hw].
    { exfalso. assert (trace3 I3 = 3) as T3 by (lin_simpl; ring). rewrite T3 in T.
      assert ((qw q - 1) * (qw q + 1) = 0) as M by lra. apply Rmult_integral in M as [M|M]; [lra|].
      assert (qw q < 0) as L by lra. specialize (WN L). unfold qnorm2 in N. rewrite <- Hs in WN.
      pose proof (sin2_cos2 h) as SC. unfold Rsqr in SC. rewrite Hc in SC. nra. }
    destruct (Rle_lt_dec eps6 (2 * h)) as [L|L]; [exact L | exfalso].
    assert (cos (eps6 / 2) < cos h).
    { apply cos_decr_lt; unfold eps6 in *; lra. }
    assert (C0 : 1 / 2 <= cos (eps6 / 2)) by (apply cos_ge_half; unfold eps6; lra).
    assert (C2 : cos eps6 = 2 * (cos (eps6 / 2) * cos (eps6 / 2)) - 1).
    { replace eps6 with (2 * (eps6 / 2)) at 1 by field. rewrite cos_2a_cos. ring. }
    rewrite Hc in *. nra.
Qed.
Lemma m2aa_finite A : is_rot A -> exists v, matrix_to_axis_angle A = fin3 v.
Proof.
  intros H. pose proof (rot_quat_real A H) as R. cbv zeta in R. destruct R as (_ & V0 & _).
  destruct (m2q_spec A H) as [N _]. apply q2aa_finite; [exact N|].
  destruct (Req_dec (vnorm (qvec (matrix_to_quaternion A))) 0) as [Z|Z]; [right; apply V0, vnorm_zero_iff, Z|].
  left. intros Z'. apply Z, vnorm_zero_iff, Z'.
Qed.
