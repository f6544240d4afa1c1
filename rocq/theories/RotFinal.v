(** Last steps of the proofs quoted in Properties_Rot.v. *)
From Coq Require Import Reals Lra Psatz Bool Arith Lia String Ascii List.
From Verif Require Import Prelude ExtF Lin Trig RotModel RotBasic QuatProofs AxisAngle EulerProofs EulerQuat SixD Examples.
Import ListNotations.
Local Open Scope R_scope.

Lemma l19_in_SO3 : forall q, q <> mkQ 0 0 0 0 -> is_rot (quaternion_to_matrix q).
Proof. intros q H. apply q2m_rot. intros Z. apply H, qnorm2_zero, Z. Qed.

Lemma l19_scale_invariant : forall q k, q <> mkQ 0 0 0 0 -> k <> 0 ->
  quaternion_to_matrix (qscale k q) = quaternion_to_matrix q.
Proof. intros q k H Hk. apply q2m_scale; [exact Hk|]. intros Z. apply H, qnorm2_zero, Z. Qed.

Lemma l20_every_branch : forall A i, is_rot A -> (i < 4)%nat -> 1 <= q_abs A i ->
  qnorm2 (quat_candidate A i) = 1 /\ quaternion_to_matrix (quat_candidate A i) = A.
Proof.
  intros A i H Hi H1. apply candidate_spec; [exact H | exact Hi|]. rewrite q_abs_K in H1 by exact Hi.
  destruct (Rle_lt_dec 1 (Kmat A i i)) as [L|L]; [exact L | exfalso].
  assert (S : 0 <= Rmax (Kmat A i i) 0) by apply Rmax_r.
  assert (sqrt (Rmax (Kmat A i i) 0) < 1); [|lra]. rewrite <- sqrt_1. apply sqrt_lt_1; [exact S | lra|].
  unfold Rmax. destruct (Rle_dec (Kmat A i i) 0); lra.
Qed.

Lemma l20_branch_choice : forall A, is_rot A -> exists i, (i < 4)%nat /\ matrix_to_quaternion A = quat_candidate A i /\
  1 <= q_abs A i /\ (forall j, (j < 4)%nat -> q_abs A j <= q_abs A i) /\ 1 / 2 <= qget i (matrix_to_quaternion A).
Proof.
  intros A H. exists (argmax4 (q_abs A)). destruct (argmax4_spec (q_abs A)) as [Hi Hm]. destruct (argmax_K A) as [_ H1].
  split; [exact Hi|]. split; [reflexivity|]. split.
  - rewrite q_abs_K by exact Hi. rewrite <- sqrt_1. apply sqrt_le_1_alt. rewrite Rmax_left; lra.
  - split; [exact Hm | apply m2q_positive, H].
Qed.

Lemma l21_invert : forall q, qnorm2 q = 1 ->
  quaternion_to_matrix (quaternion_invert q) = m3tr (quaternion_to_matrix q) /\
  m3mul (quaternion_to_matrix q) (quaternion_to_matrix (quaternion_invert q)) = I3 /\
  quaternion_raw_multiply q (quaternion_invert q) = qone /\ quaternion_raw_multiply (quaternion_invert q) q = qone.
Proof.
  intros q H. split; [apply q2m_inv; lra|]. split; [|apply raw_inv, H].
  rewrite q2m_inv by lra. apply q2m_rot. lra.
Qed.

Lemma l23_quaternion_round_trip : forall q, qnorm2 q = 1 -> qvec q <> vzero \/ qw q = 1 ->
  eps6 <= 2 * atan2 (vnorm (qvec q)) (qw q) \/ qw q = 1 ->
  exists v, quaternion_to_axis_angle q = fin3 v /\ axis_angle_to_quaternion v = q.
Proof.
  intros q Hq Hv Hw. destruct (q2aa_finite q Hq Hv) as [v E]. exists v. split; [exact E|]. eapply q_aa_q; eassumption.
Qed.

Lemma l23_matrix_round_trip : forall A, is_rot A -> A = I3 \/ trace3 A <= 1 + 2 * cos eps6 ->
  exists v, matrix_to_axis_angle A = fin3 v /\ axis_angle_to_matrix v = A.
Proof.
  intros A H Hw. destruct (m2aa_finite A H) as [v E]. exists v. split; [exact E|]. eapply m_aa_m; eassumption.
Qed.

Lemma l25_default : forall roll pitch yaw, exists q e',
  quaternion_from_euler (mkV3 roll pitch yaw) (AxStr "sxyz") = Ok (q, e') /\
  quaternion_to_matrix q = m3mul (axis_and_angle_to_matrix_33 (mkV3 0 0 1) yaw)
    (m3mul (axis_and_angle_to_matrix_33 (mkV3 0 1 0) pitch) (axis_and_angle_to_matrix_33 (mkV3 1 0 0) roll)).
Proof.
  intros r p y. destruct (from_euler_static _ "s" "x" "y" "z" (mkV3 r p y) eq_refl ltac:(simpl; auto)) as (q & e' & H1 & _ & H2).
  exists q, e'. split; [exact H1 | exact H2].
Qed.

Lemma l28_random : forall o, o <> mkQ 0 0 0 0 -> qnorm2 (random_quaternion o) = 1 /\ 0 <= qw (random_quaternion o) /\
  is_rot (random_rotation o) /\ quaternion_to_matrix (random_quaternion o) = quaternion_to_matrix o.
Proof.
  intros o H. assert (N : qnorm2 o <> 0) by (intros Z; apply H, qnorm2_zero, Z).
  destruct (random_spec o N) as (H1 & H2 & H3). split; [exact H1|]. split; [exact H2|]. split; [exact H3|].
  apply random_direction, N.
Qed.
