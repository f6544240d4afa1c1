(** Last steps of the proofs quoted in Properties_RQuat.v. *)
From Coq Require Import Reals Lra Lia Bool Arith List Psatz Permutation.
From Verif Require Import Prelude ExtF Lin Trig RotModel RotBasic QuatProofs SlerpProofs AxisAngle MathModel ValidModel SpecValid ValidProofs ValidFinal SpecRound RoundNorm RoundProofs RoundFloat RoundFinal RoundJacModel RoundJacProofs RoundErrModel SpecRoundErr RoundErrQuat RoundErrAngle RoundModel RoundQuatModel RoundQuatProofs RoundQuatTwo RoundQuatAxis SpecRoundQuat.
Import ListNotations.
Local Open Scope R_scope.

Lemma ew_within d A B : entries_within d A B -> within d A B.
Proof.
  intros ((H1 & H2 & H3) & (H4 & H5 & H6) & H7 & H8 & H9) i j Hi Hj.
  destruct (lt3 i Hi) as [-> | [-> | ->]]; destruct (lt3 j Hj) as [-> | [-> | ->]]; cbn [ent]; assumption.
Qed.
Lemma within_ew d A B : within d A B -> entries_within d A B.
Proof.
  intros H. unfold entries_within, m3le. pose proof (H 0 0 ltac:(lia) ltac:(lia))%nat as A1. pose proof (H 0 1 ltac:(lia) ltac:(lia))%nat as A2. pose proof (H 0 2 ltac:(lia) ltac:(lia))%nat as A3.
  pose proof (H 1 0 ltac:(lia) ltac:(lia))%nat as A4. pose proof (H 1 1 ltac:(lia) ltac:(lia))%nat as A5. pose proof (H 1 2 ltac:(lia) ltac:(lia))%nat as A6.
  pose proof (H 2 0 ltac:(lia) ltac:(lia))%nat as A7. pose proof (H 2 1 ltac:(lia) ltac:(lia))%nat as A8. pose proof (H 2 2 ltac:(lia) ltac:(lia))%nat as A9.
  repeat split; assumption.
Qed.
Lemma qdist_qlen p q : qdist p q = qlen (qsub p q). Proof. reflexivity. Qed.
Lemma turn_half k th : turn_quat k th = half_turn k th.
Proof. unfold turn_quat, half_turn. replace (th / 2) with (/ 2 * th) by field. reflexivity. Qed.
Lemma q2m_opp q : qnorm2 q <> 0 -> quaternion_to_matrix (qopp q) = quaternion_to_matrix q.
Proof. intros H. assert (E : qopp q = qscale (-1) q) by (unfold qopp, qscale; apply mkQ_eq; ring). rewrite E. apply q2m_scale; [lra | exact H]. Qed.
Lemma q2m_stand q : qnorm2 q <> 0 -> qnorm2 (standardize_quaternion q) <> 0 /\ quaternion_to_matrix (standardize_quaternion q) = quaternion_to_matrix q.
Proof.
  intros H. unfold standardize_quaternion. destruct (Rltb (qw q) 0); [|split; [exact H | reflexivity]]. split; [rewrite qnorm2_opp; exact H | apply q2m_opp, H].
Qed.
(** a relative error of the quaternion *)
Lemma q2m_rel p q x : qnorm2 q <> 0 -> qlen (qsub p q) <= x * qlen q -> x <= / 2 -> qnorm2 p <> 0 /\ entries_within (4 * x) (quaternion_to_matrix p) (quaternion_to_matrix q).
Proof.
  intros N H Hx. assert (L : qlen q <> 0) by (apply sqrt_norm2_neq, N). pose proof (qlen_nonneg q) as L0. assert (Lp : 0 < qlen q) by lra.
  set (l := / qlen q). assert (l0 : 0 < l) by (apply Rinv_0_lt_compat, Lp).
  assert (U : qnorm2 (qscale l q) = 1) by (rewrite qnorm2_scale, <- qlen_sqr; unfold l; field; exact L).
  assert (D : qlen (qsub (qscale l p) (qscale l q)) <= x).
  { assert (E : qsub (qscale l p) (qscale l q) = qscale l (qsub p q)) by (unfold qsub, qscale; cbn [qw qx qy qz]; apply mkQ_eq; ring). rewrite E. unfold qlen. rewrite qnorm2_scale, sqrt_mult; [|nra | apply qnorm2_nonneg]. rewrite sqrt_square by lra.
    fold (qlen (qsub p q)). apply Rle_trans with (l * (x * qlen q)); [apply Rmult_le_compat_l; lra|]. right. unfold l. field. exact L. }
  destruct (q2m_lip _ _ x U D Hx) as [Np W]. rewrite qnorm2_scale in Np. assert (Np' : qnorm2 p <> 0) by (intros Z; apply Np; rewrite Z; ring). split; [exact Np'|].
  rewrite !q2m_scale in W by (assumption || lra). exact W.
Qed.
Definition two2 : stree := Plus (Prod 0) (Prod 1).
Definition three3 : stree := Plus (Plus (Prod 0) (Prod 1)) (Prod 2).
Lemma two2_full : s_full2 two2. Proof. apply Permutation_refl. Qed.
Lemma three3_full : s_full3 three3. Proof. apply Permutation_refl. Qed.
Lemma left_full : s_full s_left. Proof. apply Permutation_refl. Qed.

Lemma l86_quaternion_to_matrix : forall u rnd sq se q, rounding u rnd -> u <= / 10000 -> s_full sq -> (forall i, s_full2 (se i)) -> qnorm2 q <> 0 ->
  is_rot (quaternion_to_matrix q) /\ within (19 * u) (fl_q2m rnd sq se q) (quaternion_to_matrix q).
Proof. intros u rnd sq se q Hr Hu H1 H2 N. split; [apply q2m_rot, N | apply ew_within, (q2m_err u rnd Hr Hu sq se H1 H2 q N)]. Qed.

Lemma l86_quaternion_apply : forall u rnd s1 s2 q p, rounding u rnd -> u <= / 10000 -> (forall i, s_full (s1 i)) -> (forall i, s_full (s2 i)) -> qnorm2 q = 1 ->
  vnorm (vsub (fl_qapply rnd s1 s2 q p) (m3vec (quaternion_to_matrix q) p)) <= 17 * u * vnorm p.
Proof.
  intros u rnd s1 s2 q p Hr Hu H1 H2 N. rewrite <- (apply_unit q p N). pose proof (apply_err u rnd Hr Hu s1 s2 q p H1 H2) as H. rewrite N, Rmult_1_l in H. exact H.
Qed.

Lemma l86_multiply : forall u rnd sq se sp a b, rounding u rnd -> u <= / 10000 -> s_full sq -> (forall i, s_full2 (se i)) -> (forall i, s_full (sp i)) ->
  qnorm2 a <> 0 -> qnorm2 b <> 0 ->
  within (52 * u) (fl_q2m rnd sq se (fl_multiply rnd sp a b)) (m3mul (quaternion_to_matrix a) (quaternion_to_matrix b)).
Proof.
  intros u rnd sq se sp a b Hr Hu H1 H2 H3 Na Nb. pose proof (u_nonneg u rnd Hr) as u0. rewrite <- (q2m_mul a b Na Nb). set (P := quaternion_raw_multiply a b).
  assert (NP : qnorm2 P <> 0) by (unfold P; rewrite raw_norm; apply Rmult_integral_contrapositive_currified; assumption).
  pose proof (raw_err u rnd Hr Hu sp H3 a b) as E. assert (LP : qlen P = qlen a * qlen b) by (unfold P; apply qlen_mul). rewrite <- LP in E.
  destruct (q2m_rel _ P (82 / 10 * u) NP E ltac:(lra)) as [N1 W]. destruct (q2m_stand _ N1) as [N2 S]. unfold fl_multiply. apply ew_within.
  eapply ew_le; [eapply ew_trans; [apply (q2m_err u rnd Hr Hu sq se H1 H2 _ N2)|]; rewrite S; exact W|]. lra.
Qed.

Lemma l86_axis_angle_to_quaternion : forall u t e rnd fcos fsin sn k th, rounding u rnd -> trig_within t fcos fsin -> s_full3 sn ->
  u <= e -> 0 <= t <= e -> e <= / 100000 -> unit3 k -> 0 <= th ->
  qdist (fl_a2q rnd fcos fsin sn (vscale th k)) (turn_quat k th) <= e * (10 + 6 * th) + 2 / 10 ^ 30.
Proof. intros u t e rnd fcos fsin sn k th Hr Hh Hs Hu Ht He Hk T. rewrite turn_half, qdist_qlen. apply (a2q_err u t e rnd fcos fsin sn Hr Hh Hs Hu Ht He k th Hk T). Qed.

Lemma l86_axis_angle_to_matrix : forall u t e rnd fcos fsin sq se sn k th, rounding u rnd -> trig_within t fcos fsin -> s_full sq -> (forall i, s_full2 (se i)) -> s_full3 sn ->
  u <= e -> 0 <= t <= e -> e <= / 100000 -> unit3 k -> 0 <= th -> e * th <= / 20 ->
  within (e * (59 + 24 * th) + 8 / 10 ^ 30) (fl_a2m rnd fcos fsin sq se sn (vscale th k)) (axis_and_angle_to_matrix_33 k th).
Proof.
  intros u t e rnd fcos fsin sq se sn k th Hr Hh Hq Hse Hs Hu Ht He Hk T Te. pose proof (a2q_err u t e rnd fcos fsin sn Hr Hh Hs Hu Ht He k th Hk T) as H. pose proof (u_nonneg u rnd Hr) as u0.
  assert (tn : 0 < / 10 ^ 30 <= / 1000) by (split; [apply Rinv_0_lt_compat, pow_lt; lra|]; apply Rinv_le_contravar; [lra|]; cbn [pow]; lra).
  replace (2 / 10 ^ 30) with (2 * / 10 ^ 30) in H by reflexivity. replace (8 / 10 ^ 30) with (8 * / 10 ^ 30) by reflexivity. set (tnn := / 10 ^ 30) in *.
  destruct (q2m_lip _ (half_turn k th) _ (half_turn_unit k th Hk) H ltac:(lra)) as [N W]. rewrite (half_turn_matrix k th Hk) in W. apply ew_within.
  eapply ew_le; [eapply ew_trans; [apply (q2m_err u rnd Hr ltac:(lra) sq se Hq Hse _ N) | exact W]|]. lra.
Qed.

Lemma l86_round_trip : forall u rnd sq se q, rounding u rnd -> u <= / 10000 -> s_full sq -> (forall i, s_full2 (se i)) -> qnorm2 q <> 0 ->
  let q' := fl_m2q rnd (fl_q2m rnd sq se q) in
  qdist q' (unit_quat q) <= 120 * u \/ qdist q' (qopp (unit_quat q)) <= 120 * u.
Proof.
  intros u rnd sq se q Hr Hu H1 H2 N q'. pose proof (u_nonneg u rnd Hr) as u0.
  destruct (m2q_close u rnd Hr Hu (19 * u) (fl_q2m rnd sq se q) (quaternion_to_matrix q) ltac:(lra) (q2m_rot q N) (q2m_err u rnd Hr Hu sq se H1 H2 q N)) as (p & Np & Ep & D).
  fold q' in D. assert (Un : qnorm2 (unit_quat q) = 1) by (apply qnormalise, N). assert (Eu : quaternion_to_matrix (unit_quat q) = quaternion_to_matrix q) by (apply q2m_scale; [apply Rinv_neq_0_compat, sqrt_norm2_neq, N | exact N]).
  rewrite !qdist_qlen. destruct (q2m_inj p (unit_quat q) Np Un ltac:(rewrite Eu; exact Ep)) as [E|E]; rewrite E in D; [left | right]; lra.
Qed.

Lemma l86_round_trip_matrix : forall u rnd sq se A B b, rounding u rnd -> u <= / 10000 -> s_full sq -> (forall i, s_full2 (se i)) ->
  is_rot B -> within b A B -> 0 <= b <= / 100 -> within (22 * b + 111 * u) (fl_q2m rnd sq se (fl_m2q rnd A)) A.
Proof.
  intros u rnd sq se A B b Hr Hu H1 H2 HB HA Hb. pose proof (u_nonneg u rnd Hr) as u0. apply within_ew in HA.
  destruct (m2q_close u rnd Hr Hu b A B Hb HB HA) as (p & Np & Ep & D). destruct (q2m_lip _ p _ Np D ltac:(lra)) as [N W]. rewrite Ep in W.
  assert (HA' : entries_within b B A). { apply within_ew. apply ew_within in HA. intros i j Hi Hj. rewrite Rabs_minus_sym. apply HA; assumption. }
  apply ew_within. eapply ew_le; [eapply ew_trans; [apply (q2m_err u rnd Hr Hu sq se H1 H2 _ N)|]; eapply ew_trans; [exact W | exact HA']|]. lra.
Qed.
