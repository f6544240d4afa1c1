(** A nearly orthonormal matrix of positive determinant is near a rotation, and the other way round. *)
From Coq Require Import Reals Lra Lia Bool Arith List Psatz.
From Verif Require Import Prelude ExtF Lin ValidModel SpecValid.
Import ListNotations.
Local Open Scope R_scope.

Lemma lt3 i : (i < 3)%nat -> i = 0%nat \/ i = 1%nat \/ i = 2%nat. Proof. lia. Qed.
Lemma abs_le x d : Rabs x <= d <-> - d <= x <= d.
Proof. split; [intros H; pose proof (Rle_abs x); pose proof (Rle_abs (- x)); rewrite Rabs_Ropp in *; lra | intros H; apply Rabs_le; exact H]. Qed.
Lemma Rleb_iff a b : Rleb a b = true <-> a <= b.
Proof. unfold Rleb. destruct (Rle_dec a b); split; intros; auto; try discriminate; contradiction. Qed.
Lemma isclose_iff rt at_ a b : isclose rt at_ a b = true <-> exists x, a = Fin x /\ - (at_ + rt * Rabs b) <= x - b <= at_ + rt * Rabs b.
Proof.
  destruct a as [x| | |]; cbn [isclose]; try (split; [discriminate | intros (y & E & _); discriminate E]).
  rewrite Rleb_iff, abs_le. split; [intros H; exists x; split; [reflexivity | exact H] | intros (y & E & H)]. assert (x = y) by congruence. subst y. exact H.
Qed.

(** ** from nearly orthonormal to a rotation *)
Lemma sq_close n e : 0 < n -> 0 <= e <= / 100 -> Rabs (n * n - 1) <= e -> Rabs (n - 1) <= 503 / 1000 * e.
Proof.
  intros N E H. apply abs_le in H. apply abs_le. assert (L : 99 / 100 <= n) by nra. split; nra.
Qed.
Lemma prod_abs a b A B : Rabs a <= A -> Rabs b <= B -> Rabs (a * b) <= A * B.
Proof. intros H1 H2. rewrite Rabs_mult. apply Rmult_le_compat; try apply Rabs_pos; assumption. Qed.
Lemma unit_entries v : unit3 v -> Rabs (vx v) <= 1 /\ Rabs (vy v) <= 1 /\ Rabs (vz v) <= 1.
Proof. unfold unit3, vnorm2, vdot. intros H. rewrite !abs_le. repeat split; nra. Qed.
Definition mrows (u v w : V3) : M3 := mkM3 (vx u) (vy u) (vz u) (vx v) (vy v) (vz v) (vx w) (vy w) (vz w).
Lemma frame_rot q1 q2 : unit3 q1 -> unit3 q2 -> vdot q1 q2 = 0 -> is_rot (mrows q1 q2 (vcross q1 q2)).
Proof.
  intros U1 U2 O. unfold unit3, vnorm2 in *. assert (N : vdot (vcross q1 q2) (vcross q1 q2) = 1).
  { transitivity (vdot q1 q1 * vdot q2 q2 - vdot q1 q2 * vdot q1 q2); [lin_simpl; ring | rewrite U1, U2, O; ring]. }
  split.
  - unfold m3mul, m3tr, mrows, I3. cbn [m00 m01 m02 m10 m11 m12 m20 m21 m22]. unfold vdot in *. apply mkM3_eq; try (first [exact U1 | exact U2 | exact O | exact N]); try (rewrite <- O; ring); unfold vcross; cbn [vx vy vz]; ring.
  - rewrite <- N. unfold det3, mrows, vdot, vcross. cbn [m00 m01 m02 m10 m11 m12 m20 m21 m22 vx vy vz]. ring.
Qed.
Lemma scaled_unit v : 0 < vnorm2 v -> exists n q, 0 < n /\ unit3 q /\ v = vscale n q /\ n * n = vnorm2 v.
Proof.
  intros H. set (n := sqrt (vnorm2 v)). assert (N : 0 < n) by (apply sqrt_lt_R0, H). assert (S2 : n * n = vnorm2 v) by (apply sqrt_sqrt; lra).
  exists n, (vscale (/ n) v). split; [exact N|]. split; [|split; [|exact S2]].
  - unfold unit3. transitivity (vnorm2 v * (/ n * / n)); [lin_simpl; ring | rewrite <- S2; field; lra].
  - destruct v as [x y z]. unfold vscale. cbn [vx vy vz]. apply mkV3_eq; field; lra.
Qed.
Lemma quot_le x n y L k : 0 < n -> x * n = y -> Rabs y <= L -> L <= k * n -> 0 <= k -> Rabs x <= k.
Proof. intros N E Y K K0. apply abs_le in Y. apply abs_le. split; nra. Qed.
Lemma sq_small x a t : Rabs x <= a * t -> 0 <= a * t -> 0 <= x * x <= a * a * (t * t).
Proof. intros H P. apply abs_le in H. split; nra. Qed.
Lemma entry2 p n q1 q2 A B : Rabs p <= A -> Rabs (n - 1) <= B -> Rabs q1 <= 1 -> Rabs q2 <= 1 -> Rabs (p * q1 + n * q2 - q2) <= A + B.
Proof.
  intros H1 H2 H3 H4. replace (p * q1 + n * q2 - q2) with (p * q1 + (n - 1) * q2) by ring. eapply Rle_trans; [apply Rabs_triang|].
  pose proof (prod_abs p q1 A 1 H1 H3). pose proof (prod_abs (n - 1) q2 B 1 H2 H4). lra.
Qed.
Lemma entry3 a b c q1 q2 q3 A B C : Rabs a <= A -> Rabs b <= B -> Rabs (c - 1) <= C -> Rabs q1 <= 1 -> Rabs q2 <= 1 -> Rabs q3 <= 1 ->
  Rabs (a * q1 + b * q2 + c * q3 - q3) <= A + B + C.
Proof.
  intros H1 H2 H3 H4 H5 H6. replace (a * q1 + b * q2 + c * q3 - q3) with (a * q1 + (b * q2 + c * q3 - q3)) by ring. eapply Rle_trans; [apply Rabs_triang|].
  pose proof (prod_abs a q1 A 1 H1 H4). pose proof (entry2 b c q2 q3 B C H2 H3 H5 H6). lra.
Qed.
Lemma gram_schmidt r1 r2 r3 t : let D := t + / 100000 in 0 <= t <= / 1000 ->
  Rabs (vnorm2 r1 - 1) <= D -> Rabs (vnorm2 r2 - 1) <= D -> Rabs (vnorm2 r3 - 1) <= D ->
  Rabs (vdot r1 r2) <= t -> Rabs (vdot r1 r3) <= t -> Rabs (vdot r2 r3) <= t -> 0 < det3 (mrows r1 r2 r3) ->
  exists Q, is_rot Q /\ within (3 * t + / 100000) (mrows r1 r2 r3) Q.
Proof.
  intros D T H1 H2 H3 O12 O13 O23 Dp. assert (HD : 0 <= D <= 101 / 100000) by (unfold D; lra).
  assert (P1 : 0 < vnorm2 r1) by (apply abs_le in H1; lra).
  destruct (scaled_unit r1 P1) as (n1 & q1 & N1 & U1 & E1 & S1).
  assert (B1 : Rabs (n1 - 1) <= 503 / 1000 * D) by (apply sq_close; [exact N1 | lra | rewrite S1; exact H1]).
  assert (L1 : 999 / 1000 <= n1) by (apply abs_le in B1; lra). assert (L1' : 9994 / 10000 <= n1) by (apply abs_le in B1; lra).
  set (p := vdot q1 r2). assert (Bp : Rabs p <= 1001 / 1000 * t).
  { apply (quot_le p n1 (vdot r1 r2) t); [exact N1 | rewrite E1; unfold p; lin_simpl; ring | exact O12 | nra | nra]. }
  set (u := vsub r2 (vscale p q1)). pose proof (sq_small p _ t Bp ltac:(nra)) as Bp2.
  assert (Q1 : vdot q1 q1 = 1) by exact U1.
  assert (Nu : vnorm2 u = vnorm2 r2 - p * p).
  { transitivity (vnorm2 r2 - 2 * p * vdot q1 r2 + p * p * vdot q1 q1); [unfold u; lin_simpl; ring | rewrite Q1; fold p; ring]. }
  assert (T2 : t * t <= / 1000 * t) by nra.
  assert (Hu : Rabs (vnorm2 u - 1) <= D + 11 / 10000 * t) by (rewrite Nu; apply abs_le in H2; apply abs_le; lra).
  assert (Pu : 0 < vnorm2 u) by (apply abs_le in Hu; lra).
  destruct (scaled_unit u Pu) as (nu & q2 & N2 & U2 & E2 & S2).
  assert (B2 : Rabs (nu - 1) <= 503 / 1000 * (D + 11 / 10000 * t)) by (apply sq_close; [exact N2 | lra | rewrite S2; exact Hu]).
  assert (L2 : 9993 / 10000 <= nu) by (apply abs_le in B2; lra).
  assert (Q2 : vdot q2 q2 = 1) by exact U2.
  assert (Q12 : vdot q1 q2 = 0).
  { assert (E : nu * vdot q1 q2 = 0); [|nra]. transitivity (vdot q1 u); [rewrite E2 at 1; lin_simpl; ring|]. transitivity (vdot q1 r2 - p * vdot q1 q1); [unfold u; lin_simpl; ring | rewrite Q1; fold p; ring]. }
  assert (R2 : r2 = vadd (vscale p q1) (vscale nu q2)) by (rewrite <- E2; unfold u; destruct r2; lin_simpl; apply mkV3_eq; ring).
  pose proof (frame_rot q1 q2 U1 U2 Q12) as FR. set (q3 := vcross q1 q2) in *.
  set (a := vdot q1 r3). set (b := vdot q2 r3). set (c := vdot q3 r3).
  assert (R3 : r3 = vadd (vadd (vscale a q1) (vscale b q2)) (vscale c q3)).
  { pose proof (is_rot_l _ FR) as E. transitivity (m3vec (m3mul (m3tr (mrows q1 q2 q3)) (mrows q1 q2 q3)) r3); [rewrite E, m3vec_1; reflexivity|].
    clear. unfold a, b, c. generalize q3. intros w. unfold mrows. lin_simpl. apply mkV3_eq; ring. }
  assert (U3 : unit3 q3).
  { unfold unit3, vnorm2. transitivity (vdot q1 q1 * vdot q2 q2 - vdot q1 q2 * vdot q1 q2); [unfold q3; lin_simpl; ring | rewrite Q1, Q2, Q12; ring]. }
  assert (Q13 : vdot q1 q3 = 0) by (unfold q3; lin_simpl; ring). assert (Q23 : vdot q2 q3 = 0) by (unfold q3; lin_simpl; ring).
  assert (Q3 : vdot q3 q3 = 1) by exact U3.
  assert (Ba : Rabs a <= 1001 / 1000 * t).
  { apply (quot_le a n1 (vdot r1 r3) t); [exact N1 | rewrite E1; unfold a; lin_simpl; ring | exact O13 | nra | nra]. }
  pose proof (sq_small a _ t Ba ltac:(nra)) as Ba2.
  assert (Bpa : Rabs (p * a) <= 1001 / 1000 * t * (1001 / 1000 * t)) by (apply prod_abs; assumption).
  assert (Bb : Rabs b <= 10022 / 10000 * t).
  { apply (quot_le b nu (vdot r2 r3 - p * a) (t + 1001 / 1000 * t * (1001 / 1000 * t))); [exact N2 | | | nra | nra].
    - rewrite R2. unfold a, b. lin_simpl. ring.
    - unfold Rminus. eapply Rle_trans; [apply Rabs_triang|]. rewrite Rabs_Ropp. lra. }
  pose proof (sq_small b _ t Bb ltac:(nra)) as Bb2.
  assert (N3 : c * c = vnorm2 r3 - a * a - b * b).
  { assert (E : vnorm2 r3 = a * a * vdot q1 q1 + b * b * vdot q2 q2 + c * c * vdot q3 q3 + 2 * (a * b * vdot q1 q2 + a * c * vdot q1 q3 + b * c * vdot q2 q3)).
    { rewrite R3 at 1. generalize a b c. intros. lin_simpl. ring. } rewrite E, Q1, Q2, Q3, Q12, Q13, Q23. ring. }
  assert (Cp : 0 < c).
  { assert (E : det3 (mrows r1 r2 r3) = n1 * nu * c).
    { rewrite E1, R2. unfold c, q3. generalize p. intros. unfold mrows. lin_simpl. ring. }
    rewrite E in Dp. assert (0 < n1 * nu) by (apply Rmult_lt_0_compat; assumption). nra. }
  assert (B3 : Rabs (c - 1) <= 503 / 1000 * (D + 22 / 10000 * t)).
  { apply sq_close; [exact Cp | lra|]. rewrite N3. apply abs_le in H3. apply abs_le. lra. }
  destruct (unit_entries q1 U1) as (X1 & Y1 & Z1). destruct (unit_entries q2 U2) as (X2 & Y2 & Z2). destruct (unit_entries q3 U3) as (X3 & Y3 & Z3').
  exists (mrows q1 q2 q3). split; [exact FR|].
  assert (K1 : forall y, Rabs y <= 1 -> Rabs (n1 * y - y) <= 3 * t + / 100000).
  { intros y Hy. pose proof (entry2 0 n1 0 y 0 _ ltac:(rewrite Rabs_R0; lra) B1 ltac:(rewrite Rabs_R0; lra) Hy) as K. replace (n1 * y - y) with (0 * 0 + n1 * y - y) by ring. eapply Rle_trans; [exact K|]. unfold D. lra. }
  assert (K2 : forall y z, Rabs y <= 1 -> Rabs z <= 1 -> Rabs (p * y + nu * z - z) <= 3 * t + / 100000).
  { intros y z Hy Hz. eapply Rle_trans; [exact (entry2 p nu y z _ _ Bp B2 Hy Hz)|]. unfold D. lra. }
  assert (K3 : forall y z w, Rabs y <= 1 -> Rabs z <= 1 -> Rabs w <= 1 -> Rabs (a * y + b * z + c * w - w) <= 3 * t + / 100000).
  { intros y z w Hy Hz Hw. eapply Rle_trans; [exact (entry3 a b c y z w _ _ _ Ba Bb B3 Hy Hz Hw)|]. unfold D. lra. }
  clearbody p a b c q3. clear u Nu Hu Pu S2 E2. subst r1 r2 r3. intros i j Hi Hj.
  destruct (lt3 i Hi) as [-> | [-> | ->]]; destruct (lt3 j Hj) as [-> | [-> | ->]]; cbn [ent mrows m00 m01 m02 m10 m11 m12 m20 m21 m22 vscale vadd vx vy vz];
    first [apply K1; assumption | apply K2; assumption | apply K3; assumption].
Qed.
