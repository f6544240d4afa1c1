(** Derivative of the squared angle between a moving rotation and a fixed one. *)
From Coq Require Import Reals Lra Bool List.
From Coquelicot Require Import Coquelicot.
From Verif Require Import Prelude ExtF Lin Trig RotModel RotBasic AxisAngle Deriv.
Local Open Scope R_scope.

Lemma one_minus_cos a : 0 <= a <= PI -> a * a / 12 <= 1 - cos a.
Proof.
  intros [H0 H1]. pose proof PI_4. pose proof PI2_3_2 as HP. unfold PI2 in HP.
  assert (L : forall x, 0 <= x <= 2 -> x * x / 3 <= 1 - cos x).
  { intros x Hx. destruct (pre_cos_bound x 0 ltac:(lra) ltac:(lra)) as [_ U]. unfold cos_approx, sum_f_R0, cos_term in U. simpl in U.
    assert (E : 0 <= x * x <= 4) by nra. assert (U2 : cos x <= 1 - x * x / 2 + (x * x) * (x * x) / 24) by lra.
    assert (x * x * (x * x) <= 4 * (x * x)) by nra. lra. }
  destruct (Rle_lt_dec a 2) as [C|C].
  - specialize (L a (conj H0 C)). nra.
  - specialize (L 2 ltac:(lra)). pose proof (cos_decreasing_1 2 a ltac:(lra) ltac:(lra) ltac:(lra) ltac:(lra) C). nra.
Qed.

(** a function squeezed between zero and one with a flat zero is flat *)
Lemma derive_squeeze f g : (forall t, 0 <= f t <= g t) -> g 0 = 0 -> is_derive g 0 0 -> is_derive f 0 0.
Proof.
  intros B G0 D. apply is_derive_Reals. apply is_derive_Reals in D. intros eps He. destruct (D eps He) as (dl & H). exists dl. intros h Hh Hd. specialize (H h Hh Hd).
  assert (F0 : f 0 = 0) by (pose proof (B 0); lra). rewrite Rplus_0_l in H |- *. rewrite G0 in H. rewrite F0.
  rewrite Rminus_0_r in H |- *. unfold Rminus in H |- *. rewrite Ropp_0, Rplus_0_r in H |- *.
  eapply Rle_lt_trans; [|exact H]. unfold Rdiv. rewrite !Rabs_mult. apply Rmult_le_compat_r; [apply Rabs_pos|]. rewrite !Rabs_pos_eq; pose proof (B h); lra.
Qed.

Ltac req := match goal with |- @eq _ ?a ?b => change (@eq R a b) end.
Definition axial (A : M3) : V3 := mkV3 (m21 A - m12 A) (m02 A - m20 A) (m10 A - m01 A).

(** [M]: the moving rotation with angular velocity [w] *)
Definition is_derive3 (f : R -> M3) (x : R) (D : M3) : Prop :=
  (is_derive (fun t => m00 (f t)) x (m00 D) /\ is_derive (fun t => m01 (f t)) x (m01 D) /\ is_derive (fun t => m02 (f t)) x (m02 D)) /\
  (is_derive (fun t => m10 (f t)) x (m10 D) /\ is_derive (fun t => m11 (f t)) x (m11 D) /\ is_derive (fun t => m12 (f t)) x (m12 D)) /\
  (is_derive (fun t => m20 (f t)) x (m20 D) /\ is_derive (fun t => m21 (f t)) x (m21 D) /\ is_derive (fun t => m22 (f t)) x (m22 D)).
Lemma derive_lin9 (c0 c1 c2 c3 c4 c5 c6 c7 c8 : R) f0 f1 f2 f3 f4 f5 f6 f7 f8 (x d0 d1 d2 d3 d4 d5 d6 d7 d8 : R) :
  is_derive f0 x d0 -> is_derive f1 x d1 -> is_derive f2 x d2 -> is_derive f3 x d3 -> is_derive f4 x d4 -> is_derive f5 x d5 -> is_derive f6 x d6 -> is_derive f7 x d7 -> is_derive f8 x d8 ->
  is_derive (fun t : R => (c0 * f0 t + c1 * f1 t + c2 * f2 t) + (c3 * f3 t + c4 * f4 t + c5 * f5 t) + (c6 * f6 t + c7 * f7 t + c8 * f8 t)) x
    ((c0 * d0 + c1 * d1 + c2 * d2) + (c3 * d3 + c4 * d4 + c5 * d5) + (c6 * d6 + c7 * d7 + c8 * d8)).
Proof.
  intros H0 H1 H2 H3 H4 H5 H6 H7 H8.
  assert (P : forall f g (y a b : R), is_derive f y a -> is_derive g y b -> is_derive (fun t : R => f t + g t) y (a + b)) by (intros; apply (is_derive_plus f g y a b); assumption).
  assert (K : forall (c : R) f (y a : R), is_derive f y a -> is_derive (fun t : R => c * f t) y (c * a)) by (intros; apply (is_derive_scal f y c a); assumption).
  repeat apply P; apply K; assumption.
Qed.
Lemma trace_derive T M w : is_derive3 M 0 (m3mul (hatm w) (M 0)) ->
  is_derive (fun t => trace3 (m3mul T (m3tr (M t)))) 0 (vdot (axial (m3mul T (m3tr (M 0)))) w).
Proof.
  intros ((H0 & H1 & H2) & (H3 & H4 & H5) & (H6 & H7 & H8)).
  pose proof (derive_lin9 (m00 T) (m01 T) (m02 T) (m10 T) (m11 T) (m12 T) (m20 T) (m21 T) (m22 T) _ _ _ _ _ _ _ _ _ _ _ _ _ _ _ _ _ _ _ H0 H1 H2 H3 H4 H5 H6 H7 H8) as P.
  eapply is_derive_ext; [|eapply is_derive_eq; [exact P|]].
  - intros t. unfold trace3, m3mul, m3tr. cbn [m00 m01 m02 m10 m11 m12 m20 m21 m22]. reflexivity.
  - unfold axial, vdot, m3mul, m3tr, hatm. cbn [m00 m01 m02 m10 m11 m12 m20 m21 m22 vx vy vz]. req. ring.
Qed.
Lemma axial_rot33 k a : axial (axis_and_angle_to_matrix_33 k a) = vscale (2 * sin a) k.
Proof. unfold axial, axis_and_angle_to_matrix_33. set (c := cos a). set (s := sin a). destruct k. lin_simpl. apply mkV3_eq; ring. Qed.

Section Angle.
Variables (T : M3) (M : R -> M3) (w v : V3) (ang : R -> R).
Hypothesis (HM : is_derive3 M 0 (m3mul (hatm w) (M 0))).
Hypothesis (Hang : forall t, 0 <= ang t <= PI /\ trace3 (m3mul T (m3tr (M t))) = 1 + 2 * cos (ang t)).
Hypothesis (Hv : vnorm v = ang 0 /\ axis_angle_to_matrix v = m3mul T (m3tr (M 0))).

Lemma angle_flat : ang 0 = 0 -> is_derive (fun t => ang t * ang t) 0 0.
Proof.
  intros A0. assert (V0 : v = vzero) by (apply vnorm_zero_iff; rewrite (proj1 Hv); exact A0).
  assert (D := trace_derive T M w HM). rewrite <- (proj2 Hv) in D.
  assert (Ez : vdot (axial (axis_angle_to_matrix v)) w = 0).
  { destruct (axis_decomp v) as (k & Hk & E). rewrite (proj1 Hv), A0 in E. rewrite E, (aa_matrix_exact k 0 Hk (or_intror eq_refl)), axial_rot33, sin_0.
    unfold vdot, vscale. cbn [vx vy vz]. ring. }
  rewrite Ez in D. apply (derive_squeeze _ (fun t => 6 * (3 - trace3 (m3mul T (m3tr (M t)))))).
  - intros t. destruct (Hang t) as [B E]. pose proof (one_minus_cos _ B). rewrite E. split; [nra|lra].
  - destruct (Hang 0) as [_ E]. rewrite E, A0, cos_0. ring.
  - assert (K := is_derive_scal _ 0 6 _ (is_derive_minus (fun _ => 3) _ 0 0 _ (is_derive_const 3 0) D)).
    eapply is_derive_eq; [exact K|]. unfold minus, plus, opp, scal; simpl. unfold mult; simpl. ring.
Qed.
Lemma angle_slope : eps6 <= ang 0 < PI -> is_derive (fun t => ang t * ang t) 0 (- 2 * vdot v w).
Proof.
  intros [A0 A1]. pose proof eps6_pos as EP. assert (D := trace_derive T M w HM). rewrite <- (proj2 Hv) in D.
  destruct (axis_decomp v) as (k & Hk & E). rewrite (proj1 Hv) in E. set (a := ang 0) in *.
  assert (S0 : 0 < sin a) by (apply sin_gt_0; lra).
  rewrite E, (aa_matrix_exact k a Hk) in D by (left; rewrite Rabs_pos_eq; lra). rewrite axial_rot33 in D.
  assert (Eacos : forall t, ang t = acos ((trace3 (m3mul T (m3tr (M t))) - 1) / 2)).
  { intros t. destruct (Hang t) as [B E']. rewrite E'. replace ((1 + 2 * cos (ang t) - 1) / 2) with (cos (ang t)) by field. symmetry. apply acos_cos. exact B. }
  assert (Ec : (trace3 (m3mul T (m3tr (M 0))) - 1) / 2 = cos a) by (destruct (Hang 0) as [_ E']; rewrite E'; fold a; field).
  assert (Dc : is_derive (fun t => (trace3 (m3mul T (m3tr (M t))) - 1) / 2) 0 (sin a * vdot k w)).
  { assert (K := is_derive_scal _ 0 (/ 2) _ (is_derive_minus _ (fun _ => 1) 0 _ 0 D (is_derive_const 1 0))).
    eapply is_derive_ext; [|eapply is_derive_eq; [exact K|]].
    - intros t. unfold minus, plus, opp, scal; simpl. unfold mult; simpl. field.
    - unfold minus, plus, opp, scal, zero; simpl. unfold mult; simpl. unfold vdot, vscale. cbn [vx vy vz]. field. }
  assert (Bc : -1 < cos a < 1).
  { split; [rewrite <- cos_PI | rewrite <- cos_0]; apply cos_decreasing_1; lra. }
  assert (Da : is_derive acos (cos a) (- 1 / sin a)).
  { apply is_derive_Reals. pose proof (derive_pt_acos (cos a) Bc) as L. apply derive_pt_eq_1 in L.
    assert (ES : sqrt (1 - (cos a)²) = sin a) by (rewrite <- sin2; apply sqrt_Rsqr; lra). rewrite ES in L. exact L. }
  assert (Dang : is_derive ang 0 (- vdot k w)).
  { eapply is_derive_ext; [intros t; symmetry; apply Eacos|]. rewrite <- Ec in Da.
    eapply is_derive_eq; [exact (is_derive_comp acos _ 0 _ _ Da Dc)|]. unfold scal; simpl. unfold mult; simpl. field. lra. }
  eapply is_derive_eq; [exact (is_derive_mult ang ang 0 _ _ Dang Dang Rmult_comm)|].
  unfold plus, mult; simpl. fold a. rewrite E. unfold vdot, vscale. cbn [vx vy vz]. ring.
Qed.
Lemma angle_derive : ang 0 = 0 \/ eps6 <= ang 0 < PI -> is_derive (fun t => ang t * ang t) 0 (- 2 * vdot v w).
Proof.
  intros [A|A]; [|apply angle_slope; exact A]. assert (V0 : v = vzero) by (apply vnorm_zero_iff; rewrite (proj1 Hv); exact A).
  eapply is_derive_eq; [exact (angle_flat A)|]. rewrite V0. unfold vdot, vzero. cbn [vx vy vz]. req. ring.
Qed.
End Angle.
