(** atan2 and trigonometric lemmas. *)
From Coq Require Import Reals Lra Lia Psatz.
From Verif Require Import ExtF.
Local Open Scope R_scope.

(** [torch.atan2] on finite values (signed zeros identified): the angle in (-pi, pi] of the point (x, y);
    [atan2 0 0 = 0] as in IEEE for positive zeros. *)
Definition atan2 (y x : R) : R :=
  if Rltb 0 x then atan (y / x)
  else if Rltb x 0 then (if Rleb 0 y then atan (y / x) + PI else atan (y / x) - PI)
  else if Rltb 0 y then PI / 2 else if Rltb y 0 then - (PI / 2) else 0.

Lemma sqrt_1_tan y x : x <> 0 -> sqrt (1 + (y / x)²) = sqrt (x * x + y * y) / Rabs x.
Proof.
  intros Hx. replace (1 + (y / x)²) with ((x * x + y * y) / (x * x)) by (unfold Rsqr; field; exact Hx).
  rewrite sqrt_div_alt by nra. f_equal. rewrite <- (sqrt_Rsqr_abs x). reflexivity.
Qed.

Lemma norm2_pos x y : x <> 0 \/ y <> 0 -> 0 < x * x + y * y.
Proof. intros [H|H]; pose proof (Rsqr_pos_lt _ H); unfold Rsqr in *; nra. Qed.

Lemma cos_atan_q y x : x <> 0 -> cos (atan (y / x)) = Rabs x / sqrt (x * x + y * y).
Proof.
  intros Hx. rewrite cos_atan, sqrt_1_tan by exact Hx.
  assert (0 < sqrt (x * x + y * y)) by (apply sqrt_lt_R0, norm2_pos; auto).
  assert (0 < Rabs x) by (apply Rabs_pos_lt; exact Hx). field; lra.
Qed.

Lemma sin_atan_q y x : x <> 0 -> sin (atan (y / x)) = (y / x) * Rabs x / sqrt (x * x + y * y).
Proof.
  intros Hx. rewrite sin_atan, sqrt_1_tan by exact Hx.
  assert (0 < sqrt (x * x + y * y)) by (apply sqrt_lt_R0, norm2_pos; auto).
  assert (0 < Rabs x) by (apply Rabs_pos_lt; exact Hx). field; repeat split; lra.
Qed.

Lemma atan2_cos y x : x <> 0 \/ y <> 0 -> sqrt (x * x + y * y) * cos (atan2 y x) = x.
Proof.
  intros H. assert (Hp : 0 < sqrt (x * x + y * y)) by (apply sqrt_lt_R0, norm2_pos; auto).
  unfold atan2. destruct (Rltb 0 x) eqn:E1; [apply Rltb_true in E1 | apply Rltb_false in E1].
  - rewrite cos_atan_q by lra. rewrite Rabs_pos_eq by lra. field; lra.
  - destruct (Rltb x 0) eqn:E2; [apply Rltb_true in E2 | apply Rltb_false in E2].
    + assert (E : cos (atan (y / x)) = - x / sqrt (x * x + y * y)).
      { rewrite cos_atan_q by lra. rewrite Rabs_left by lra. reflexivity. }
      destruct (Rleb 0 y); [rewrite neg_cos | replace (atan (y / x) - PI) with (- (PI - atan (y/x))) by ring;
        rewrite cos_neg, cos_minus, cos_PI, sin_PI]; rewrite E; field; lra.
    + assert (x = 0) by lra. subst x.
      destruct (Rltb 0 y) eqn:E3; [rewrite cos_PI2; ring|].
      destruct (Rltb y 0) eqn:E4; [rewrite cos_neg, cos_PI2; ring|].
      apply Rltb_false in E3, E4. exfalso; lra.
Qed.

Lemma atan2_sin y x : x <> 0 \/ y <> 0 -> sqrt (x * x + y * y) * sin (atan2 y x) = y.
Proof.
  intros H. assert (Hp : 0 < sqrt (x * x + y * y)) by (apply sqrt_lt_R0, norm2_pos; auto).
  unfold atan2. destruct (Rltb 0 x) eqn:E1; [apply Rltb_true in E1 | apply Rltb_false in E1].
  - rewrite sin_atan_q by lra. rewrite Rabs_pos_eq by lra. field; lra.
  - destruct (Rltb x 0) eqn:E2; [apply Rltb_true in E2 | apply Rltb_false in E2].
    + assert (E : sin (atan (y / x)) = - y / sqrt (x * x + y * y)).
      { rewrite sin_atan_q by lra. rewrite Rabs_left by lra. field; lra. }
      destruct (Rleb 0 y); [rewrite neg_sin | replace (atan (y / x) - PI) with (- (PI - atan (y/x))) by ring;
        rewrite sin_neg, sin_minus, cos_PI, sin_PI]; rewrite E; field; lra.
    + assert (x = 0) by lra. subst x. rewrite Rmult_0_l, Rplus_0_l in *.
      destruct (Rltb 0 y) eqn:E3; [apply Rltb_true in E3|].
      * rewrite sin_PI2, sqrt_square; lra.
      * destruct (Rltb y 0) eqn:E4; [apply Rltb_true in E4|].
        -- rewrite sin_neg, sin_PI2. replace (y * y) with ((- y) * (- y)) by ring. rewrite sqrt_square; lra.
        -- apply Rltb_false in E3, E4. exfalso; lra.
Qed.

Lemma atan2_range y x : - PI < atan2 y x <= PI.
Proof.
  pose proof PI_RGT_0. pose proof (atan_bound (y / x)) as [B1 B2]. unfold atan2.
  destruct (Rltb 0 x) eqn:E1; [lra|]. apply Rltb_false in E1.
  destruct (Rltb x 0) eqn:E2.
  - apply Rltb_true in E2. destruct (Rleb 0 y) eqn:E3; [apply Rleb_true in E3 | apply Rleb_false in E3].
    + assert (atan (y / x) <= 0); [|lra].
      rewrite <- atan_0. destruct (Req_dec (y / x) 0) as [->|Hn]; [lra|]. left. apply atan_increasing.
      assert (/ x < 0) by (apply Rinv_lt_0_compat; lra). unfold Rdiv in *. nra.
    + assert (0 < atan (y / x)); [|lra].
      rewrite <- atan_0. apply atan_increasing.
      assert (/ x < 0) by (apply Rinv_lt_0_compat; lra). unfold Rdiv in *. nra.
  - destruct (Rltb 0 y); [lra|]. destruct (Rltb y 0); lra.
Qed.

(** cosine and sine determine the angle in (-pi, pi] *)
Lemma angle_unique a b : - PI < a <= PI -> - PI < b <= PI -> cos a = cos b -> sin a = sin b -> a = b.
Proof.
  intros Ha Hb Hc Hs. pose proof PI_RGT_0.
  assert (S0 : sin (a - b) = 0) by (rewrite sin_minus, Hc, Hs; ring).
  assert (C1 : cos (a - b) = 1).
  { rewrite cos_minus, Hc, Hs. pose proof (sin2_cos2 b) as E. unfold Rsqr in E. lra. }
  apply sin_eq_0_0 in S0 as [k Hk].
  assert (-2 < IZR k < 2) as [K1 K2].
  { split; [apply Rmult_lt_reg_r with PI | apply Rmult_lt_reg_r with PI]; lra. }
  change (-2) with (IZR (-2)) in K1. change 2 with (IZR 2) in K2.
  apply lt_IZR in K1, K2. assert (k = -1 \/ k = 0 \/ k = 1)%Z as [-> | [-> | ->]] by lia.
  - replace (a - b) with (- PI) in C1 by (rewrite Hk; ring). rewrite cos_neg, cos_PI in C1. lra.
  - replace (IZR 0 * PI) with 0 in Hk by ring. lra.
  - replace (a - b) with PI in C1 by (rewrite Hk; ring). rewrite cos_PI in C1. lra.
Qed.

Lemma atan2_polar r t : 0 < r -> - PI < t <= PI -> atan2 (r * sin t) (r * cos t) = t.
Proof.
  intros Hr Ht. pose proof (sin2_cos2 t) as E. unfold Rsqr in E.
  assert (Hn : r * cos t <> 0 \/ r * sin t <> 0).
  { destruct (Req_dec (cos t) 0) as [H0|H0].
    - right. intros H1. apply Rmult_integral in H1 as [H1|H1]; [lra|]. rewrite H0, H1 in E. lra.
    - left. intros H1. apply Rmult_integral in H1 as [H1|H1]; lra. }
  assert (Hs : sqrt (r * cos t * (r * cos t) + r * sin t * (r * sin t)) = r).
  { replace (r * cos t * (r * cos t) + r * sin t * (r * sin t)) with (r * r) by nra.
    apply sqrt_square; lra. }
  apply angle_unique; [apply atan2_range | exact Ht | |].
  - pose proof (atan2_cos _ _ Hn) as C. rewrite Hs in C. nra.
  - pose proof (atan2_sin _ _ Hn) as C. rewrite Hs in C. nra.
Qed.

(** unit case *)
Lemma atan2_unit y x : x * x + y * y = 1 -> cos (atan2 y x) = x /\ sin (atan2 y x) = y.
Proof.
  intros E. assert (Hn : x <> 0 \/ y <> 0) by (destruct (Req_dec x 0); [right; intros ->; subst; lra | left; assumption]).
  pose proof (atan2_cos _ _ Hn) as C. pose proof (atan2_sin _ _ Hn) as S. rewrite E, sqrt_1 in *. lra.
Qed.

Lemma atan2_scale k y x : 0 < k -> atan2 (k * y) (k * x) = atan2 y x.
Proof.
  intros Hk.
  assert (D : (x = 0 /\ y = 0) \/ (x <> 0 \/ y <> 0)).
  { destruct (Req_dec x 0), (Req_dec y 0); auto. }
  destruct D as [[-> ->]|Hn]; [rewrite !Rmult_0_r; reflexivity|].
  set (t := atan2 y x).
  pose proof (atan2_cos _ _ Hn) as C. pose proof (atan2_sin _ _ Hn) as S.
  assert (0 < sqrt (x * x + y * y)) by (apply sqrt_lt_R0, norm2_pos; auto).
  fold t in C, S. set (r := sqrt (x * x + y * y)) in *.
  rewrite <- C, <- S. rewrite <- !Rmult_assoc. rewrite (atan2_polar (k * r) t).
  + reflexivity.
  + nra.
  + apply atan2_range.
Qed.

(** a point with non-negative ordinate has its angle in [0, pi] *)
Lemma atan2_nonneg y x : 0 <= y -> 0 <= atan2 y x <= PI.
Proof.
  intros Hy. split; [|apply atan2_range]. pose proof PI_RGT_0. unfold atan2.
  destruct (Rltb 0 x) eqn:E1; [apply Rltb_true in E1|].
  - rewrite <- atan_0. destruct (Req_dec (y / x) 0) as [->|Hn]; [lra|]. left; apply atan_increasing.
    assert (0 < / x) by (apply Rinv_0_lt_compat; lra). unfold Rdiv in *. nra.
  - destruct (Rltb x 0) eqn:E2.
    + apply Rltb_true in E2. assert (Rleb 0 y = true) as -> by (apply Rleb_true; lra).
      pose proof (atan_bound (y / x)). lra.
    + destruct (Rltb 0 y); [lra|]. assert (Rltb y 0 = false) as -> by (apply Rltb_false; lra). lra.
Qed.

Lemma sc1 a : cos a * cos a = 1 - sin a * sin a.
Proof. pose proof (sin2_cos2 a) as E. unfold Rsqr in E. lra. Qed.

(** half-angle forms *)
Lemma cos_half a : cos a = 1 - 2 * (sin (a / 2) * sin (a / 2)).
Proof. replace a with (2 * (a / 2)) at 1 by field. rewrite cos_2a_sin. ring. Qed.
Lemma sin_half a : sin a = 2 * sin (a / 2) * cos (a / 2).
Proof. replace a with (2 * (a / 2)) at 1 by field. apply sin_2a. Qed.
