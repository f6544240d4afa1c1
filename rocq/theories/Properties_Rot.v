(** C19 - C28: rotation conversions. *)
From Coq Require Import Reals Lra Psatz Bool Arith Lia String Ascii List.
From Verif Require Import Prelude ExtF Lin Trig RotModel RotBasic QuatProofs AxisAngle EulerProofs EulerQuat SixD Examples.
From Verif Require Import RotFinal.
Import ListNotations.
Local Open Scope R_scope.

(** C19 *)
Theorem C19_in_SO3 : forall q, q <> mkQ 0 0 0 0 -> is_rot (quaternion_to_matrix q).
Proof. exact l19_in_SO3. Qed.
Print Assumptions C19_in_SO3.
Theorem C19_scale_invariant : forall q k, q <> mkQ 0 0 0 0 -> k <> 0 ->
  quaternion_to_matrix (qscale k q) = quaternion_to_matrix q.
Proof. exact l19_scale_invariant. Qed.
Print Assumptions C19_scale_invariant.
(** and the rotation is the right one: it turns about the vector part by twice the half angle *)
Theorem C19_geometry : forall k c s phi, unit3 k -> 0 < c * c + s * s ->
  cos phi = c / sqrt (c * c + s * s) -> sin phi = s / sqrt (c * c + s * s) ->
  quaternion_to_matrix (mkQ c (s * vx k) (s * vy k) (s * vz k)) = axis_and_angle_to_matrix_33 k (2 * phi).
Proof. exact q2m_axis. Qed.
Print Assumptions C19_geometry.
Example C19_example : mkQ 1 2 3 4 <> mkQ 0 0 0 0 /\ m01 (quaternion_to_matrix (mkQ 1 2 3 4)) = 2 / 15.
Proof. split; [intros H; inversion H; lra|]. unfold quaternion_to_matrix, qnorm2; simpl. field. Qed.

(** C20 *)
Theorem C20_matrix_to_quaternion : forall A, is_rot A ->
  qnorm2 (matrix_to_quaternion A) = 1 /\ quaternion_to_matrix (matrix_to_quaternion A) = A.
Proof. exact m2q_spec. Qed.
Print Assumptions C20_matrix_to_quaternion.
(** whichever branch is taken: any of the four candidates whose magnitude is at least one is right *)
Theorem C20_every_branch : forall A i, is_rot A -> (i < 4)%nat -> 1 <= q_abs A i ->
  qnorm2 (quat_candidate A i) = 1 /\ quaternion_to_matrix (quat_candidate A i) = A.
Proof. exact l20_every_branch. Qed.
Print Assumptions C20_every_branch.
(** the selected magnitude is at least one, so the 0.1 floor never matters, and the chosen component is positive *)
Theorem C20_branch_choice : forall A, is_rot A -> exists i, (i < 4)%nat /\ matrix_to_quaternion A = quat_candidate A i /\
  1 <= q_abs A i /\ (forall j, (j < 4)%nat -> q_abs A j <= q_abs A i) /\ 1 / 2 <= qget i (matrix_to_quaternion A).
Proof. exact l20_branch_choice. Qed.
Print Assumptions C20_branch_choice.
Theorem C20_back : forall q, qnorm2 q = 1 ->
  matrix_to_quaternion (quaternion_to_matrix q) = q \/ matrix_to_quaternion (quaternion_to_matrix q) = qopp q.
Proof. exact m2q_q2m. Qed.
Print Assumptions C20_back.
Example C20_example : is_rot (mkM3 (-1) 0 0 0 (-1) 0 0 0 1). (* half turn: branch z *)
Proof. split; lin_simpl; [apply mkM3_eq|]; ring. Qed.

(** C21 *)
Theorem C21_multiply_is_matrix_product : forall p q, qnorm2 p <> 0 -> qnorm2 q <> 0 ->
  quaternion_to_matrix (quaternion_multiply p q) = m3mul (quaternion_to_matrix p) (quaternion_to_matrix q) /\
  qnorm2 (quaternion_multiply p q) = qnorm2 p * qnorm2 q /\ 0 <= qw (quaternion_multiply p q).
Proof. exact multiply_q2m. Qed.
Print Assumptions C21_multiply_is_matrix_product.
Theorem C21_raw_multiply : forall p q r,
  quaternion_raw_multiply p (quaternion_raw_multiply q r) = quaternion_raw_multiply (quaternion_raw_multiply p q) r /\
  quaternion_raw_multiply qone q = q /\ quaternion_raw_multiply q qone = q /\
  qnorm2 (quaternion_raw_multiply p q) = qnorm2 p * qnorm2 q /\
  (qnorm2 p <> 0 -> qnorm2 q <> 0 ->
   quaternion_to_matrix (quaternion_raw_multiply p q) = m3mul (quaternion_to_matrix p) (quaternion_to_matrix q)).
Proof. exact (fun p q r => conj (raw_assoc p q r) (conj (raw_1_l q) (conj (raw_1_r q) (conj (raw_norm p q) (q2m_mul p q))))). Qed.
Print Assumptions C21_raw_multiply.
Theorem C21_associative_up_to_sign : forall p q r,
  same_or_opp (quaternion_multiply p (quaternion_multiply q r)) (quaternion_multiply (quaternion_multiply p q) r) /\
  (qw (quaternion_raw_multiply p (quaternion_raw_multiply q r)) <> 0 ->
   quaternion_multiply p (quaternion_multiply q r) = quaternion_multiply (quaternion_multiply p q) r).
Proof. exact multiply_assoc_pm. Qed.
Print Assumptions C21_associative_up_to_sign.
Theorem C21_unit_element : forall q, same_or_opp (quaternion_multiply qone q) q /\ same_or_opp (quaternion_multiply q qone) q /\
  (0 <= qw q -> quaternion_multiply qone q = q /\ quaternion_multiply q qone = q).
Proof. exact multiply_1. Qed.
Print Assumptions C21_unit_element.
(** exact associativity is false *)
Theorem C21_exact_associativity_refuted : exists p q r, qnorm2 p = 1 /\ qnorm2 q = 1 /\ qnorm2 r = 1 /\
  quaternion_multiply p (quaternion_multiply q r) <> quaternion_multiply (quaternion_multiply p q) r.
Proof. exact multiply_not_assoc. Qed.
Print Assumptions C21_exact_associativity_refuted.
Theorem C21_invert : forall q, qnorm2 q = 1 ->
  quaternion_to_matrix (quaternion_invert q) = m3tr (quaternion_to_matrix q) /\
  m3mul (quaternion_to_matrix q) (quaternion_to_matrix (quaternion_invert q)) = I3 /\
  quaternion_raw_multiply q (quaternion_invert q) = qone /\ quaternion_raw_multiply (quaternion_invert q) q = qone.
Proof. exact l21_invert. Qed.
Print Assumptions C21_invert.
Theorem C21_apply : forall q p, qnorm2 q = 1 -> quaternion_apply q p = m3vec (quaternion_to_matrix q) p.
Proof. exact apply_unit. Qed.
Print Assumptions C21_apply.
(** for other quaternions the result is scaled by the squared norm *)
Theorem C21_apply_scaled : forall q p, qnorm2 q <> 0 ->
  quaternion_apply q p = vscale (qnorm2 q) (m3vec (quaternion_to_matrix q) p).
Proof. exact apply_spec. Qed.
Print Assumptions C21_apply_scaled.
Example C21_example : qnorm2 (mkQ (3/5) 0 (4/5) 0) = 1.
Proof. unfold qnorm2; simpl; field. Qed.

(** C22 *)
Theorem C22_rotation : forall k t, unit3 k -> is_rot (axis_and_angle_to_matrix_33 k t) /\
  m3vec (axis_and_angle_to_matrix_33 k t) k = k /\ trace3 (axis_and_angle_to_matrix_33 k t) = 1 + 2 * cos t /\
  axis_and_angle_to_matrix_44 k t = aff (axis_and_angle_to_matrix_33 k t) vzero /\
  forall v, m3vec (axis_and_angle_to_matrix_33 k t) v =
    vadd (vadd (vscale (cos t) v) (vscale (sin t) (vcross k v))) (vscale ((1 - cos t) * vdot k v) k).
Proof.
  exact (fun k t H => conj (rot33_rot k t H) (conj (rot33_axis k t H) (conj (rot33_trace k t H)
    (conj (rot44_aff k t) (fun v => rot33_vec k t v H))))).
Qed.
Print Assumptions C22_rotation.
Theorem C22_routes_agree : forall k t, unit3 k -> eps6 <= Rabs t \/ t = 0 ->
  axis_angle_to_matrix (vscale t k) = axis_and_angle_to_matrix_33 k t.
Proof. exact aa_matrix_exact. Qed.
Print Assumptions C22_routes_agree.
(** below 1e-6: still a rotation about the same axis, the angle off by at most |t|^5/960 *)
Theorem C22_small_angles : forall k t, unit3 k -> Rabs t < eps6 ->
  exists phi, axis_angle_to_matrix (vscale t k) = axis_and_angle_to_matrix_33 k phi /\
    Rabs (phi - t) <= Rabs t ^ 5 / 960.
Proof. exact aa_matrix_window. Qed.
Print Assumptions C22_small_angles.
(** every axis-angle vector is such a multiple *)
Theorem C22_every_vector : forall v, exists k, unit3 k /\ v = vscale (vnorm v) k.
Proof. exact axis_decomp. Qed.
Print Assumptions C22_every_vector.
Example C22_example : unit3 tax /\ eps6 <= Rabs (-3).
Proof. split; [exact tax_unit|]. rewrite Rabs_left by lra. unfold eps6. lra. Qed.

(** C23 *)
Theorem C23_vector_round_trip : forall v, eps6 <= vnorm v < 2 * PI \/ v = vzero ->
  quaternion_to_axis_angle (axis_angle_to_quaternion v) = fin3 v.
Proof. exact aa_q_aa. Qed.
Print Assumptions C23_vector_round_trip.
Theorem C23_vector_small : forall v, vnorm v < eps6 ->
  exists r, quaternion_to_axis_angle (axis_angle_to_quaternion v) = fin3 (vscale r v) /\ Rabs (r - 1) <= / 10 ^ 12.
Proof. exact aa_q_aa_window. Qed.
Print Assumptions C23_vector_small.
Theorem C23_quaternion_round_trip : forall q, qnorm2 q = 1 -> qvec q <> vzero \/ qw q = 1 ->
  eps6 <= 2 * atan2 (vnorm (qvec q)) (qw q) \/ qw q = 1 ->
  exists v, quaternion_to_axis_angle q = fin3 v /\ axis_angle_to_quaternion v = q.
Proof. exact l23_quaternion_round_trip. Qed.
Print Assumptions C23_quaternion_round_trip.
Theorem C23_quaternion_small : forall q, qnorm2 q = 1 -> 2 * atan2 (vnorm (qvec q)) (qw q) < eps6 ->
  exists v r, quaternion_to_axis_angle q = fin3 v /\ Rabs (r - 1) <= / 10 ^ 12 /\
    Rabs (qw (axis_angle_to_quaternion v) - qw q) <= / 10 ^ 30 /\
    qvec (axis_angle_to_quaternion v) = vscale r (qvec q).
Proof. exact q_aa_q_window. Qed.
Print Assumptions C23_quaternion_small.
Theorem C23_matrix_round_trip : forall A, is_rot A -> A = I3 \/ trace3 A <= 1 + 2 * cos eps6 ->
  exists v, matrix_to_axis_angle A = fin3 v /\ axis_angle_to_matrix v = A.
Proof. exact l23_matrix_round_trip. Qed.
Print Assumptions C23_matrix_round_trip.
Example C23_example : eps6 <= vnorm (mkV3 0 3 4) < 2 * PI.
Proof.
  unfold vnorm. replace (vnorm2 (mkV3 0 3 4)) with (5 * 5) by (lin_simpl; ring). rewrite sqrt_square by lra.
  pose proof PI2_3_2. unfold eps6. lra.
Qed.

(** C24 *)
Theorem C24_matrix_round_trip : forall s A, In s conventions -> is_rot A -> gimbal_entry s A * gimbal_entry s A <> 1 ->
  exists e, matrix_to_euler_angles A s = Ok (fin3 e) /\ euler_angles_to_matrix e s = Ok A.
Proof. exact euler_matrix_back. Qed.
Print Assumptions C24_matrix_round_trip.
Theorem C24_angle_round_trip : forall s e, In s conventions -> principal s e ->
  exists A, euler_angles_to_matrix e s = Ok A /\ is_rot A /\ matrix_to_euler_angles A s = Ok (fin3 e).
Proof. exact euler_angles_back. Qed.
Print Assumptions C24_angle_round_trip.
Theorem C24_always_rotation : forall e s M, euler_angles_to_matrix e s = Ok M -> is_rot M.
Proof. exact euler_rot. Qed.
Print Assumptions C24_always_rotation.
Theorem C24_rejects : forall s, ~ In s ["XYZ"; "XZY"; "YXZ"; "YZX"; "ZXY"; "ZYX"; "XYX"; "XZX"; "YXY"; "YZY"; "ZXZ"; "ZYZ"]%string ->
  (forall e, euler_angles_to_matrix e s = Err ValueError) /\ (forall A, matrix_to_euler_angles A s = Err ValueError).
Proof. exact euler_rejects. Qed.
Print Assumptions C24_rejects.
(** at gimbal lock the round trip loses the rotation *)
Theorem C24_gimbal_lock_refuted : exists A, is_rot A /\
  forall e, matrix_to_euler_angles A "XYZ" = Ok (fin3 e) -> euler_angles_to_matrix e "XYZ" <> Ok A.
Proof. exact gimbal_refuted. Qed.
Print Assumptions C24_gimbal_lock_refuted.
Example C24_example : In "ZYX"%string conventions /\ principal "ZYX" (mkV3 3 (-1) 2) /\ principal "ZXZ" (mkV3 3 1 2) /\
  gimbal_entry "ZYX" I3 * gimbal_entry "ZYX" I3 <> 1.
Proof.
  pose proof PI2_3_2. pose proof PI_4. split; [simpl; tauto|].
  split; [repeat split; simpl; lra|]. split; [repeat split; simpl; lra|]. simpl. lra.
Qed.

(** C25 *)
Theorem C25_static : forall f a b c e, let s := String f (String a (String b (String c EmptyString))) in In s static_codes ->
  exists q e', quaternion_from_euler e (AxStr s) = Ok (q, e') /\ qnorm2 q = 1 /\
    quaternion_to_matrix q = m3mul (axis_and_angle_to_matrix_33 (axis_of c) (vz e))
      (m3mul (axis_and_angle_to_matrix_33 (axis_of b) (vy e)) (axis_and_angle_to_matrix_33 (axis_of a) (vx e))).
Proof. exact (fun f a b c e => from_euler_static _ f a b c e eq_refl). Qed.
Print Assumptions C25_static.
Theorem C25_rotating : forall f a b c e, let s := String f (String a (String b (String c EmptyString))) in In s rotating_codes ->
  exists q e', quaternion_from_euler e (AxStr s) = Ok (q, e') /\ qnorm2 q = 1 /\
    quaternion_to_matrix q = m3mul (m3mul (axis_and_angle_to_matrix_33 (axis_of a) (vx e))
      (axis_and_angle_to_matrix_33 (axis_of b) (vy e))) (axis_and_angle_to_matrix_33 (axis_of c) (vz e)).
Proof. exact (fun f a b c e => from_euler_rotating _ f a b c e eq_refl). Qed.
Print Assumptions C25_rotating.
(** the default: Rz(yaw) Ry(pitch) Rx(roll) *)
Theorem C25_default : forall roll pitch yaw, exists q e',
  quaternion_from_euler (mkV3 roll pitch yaw) (AxStr "sxyz") = Ok (q, e') /\
  quaternion_to_matrix q = m3mul (axis_and_angle_to_matrix_33 (mkV3 0 0 1) yaw)
    (m3mul (axis_and_angle_to_matrix_33 (mkV3 0 1 0) pitch) (axis_and_angle_to_matrix_33 (mkV3 1 0 0) roll)).
Proof. exact l25_default. Qed.
Print Assumptions C25_default.
Theorem C25_other_codes : forall e s, ~ In (lower s) (static_codes ++ rotating_codes) ->
  quaternion_from_euler e (AxStr s) = Err KeyError.
Proof. exact from_euler_bad. Qed.
Print Assumptions C25_other_codes.
(** the call overwrites its argument, and the same call again gives another rotation *)
Theorem C25_unchanged_argument_refuted : exists e q e' q' e'',
  quaternion_from_euler e (AxStr "sxyz") = Ok (q, e') /\ e' <> e /\
  quaternion_from_euler e' (AxStr "sxyz") = Ok (q', e'') /\ quaternion_to_matrix q' <> quaternion_to_matrix q.
Proof. exact from_euler_mutates. Qed.
Print Assumptions C25_unchanged_argument_refuted.
Example C25_example : In "syzx"%string static_codes /\ In "rzxz"%string rotating_codes /\ ~ In (lower "SXXZ") (static_codes ++ rotating_codes).
Proof. repeat split; simpl; try tauto. intuition discriminate. Qed.

(** C26 *)
Theorem C26_rotation : forall a1 a2, eps12 <= vnorm a1 ->
  eps12 <= vnorm (vsub a2 (vscale (vdot a1 a2 / vnorm2 a1) a1)) -> is_rot (rotation_6d_to_matrix a1 a2).
Proof. exact sixd_rot. Qed.
Print Assumptions C26_rotation.
Theorem C26_gram_schmidt : forall a1 a2, eps12 <= vnorm a1 ->
  eps12 <= vnorm (vsub a2 (vscale (vdot a1 a2 / vnorm2 a1) a1)) ->
  exists p q r, 0 < p /\ 0 < r /\ m3row (rotation_6d_to_matrix a1 a2) 0 = vscale p a1 /\
    m3row (rotation_6d_to_matrix a1 a2) 1 = vadd (vscale q a1) (vscale r a2).
Proof. exact sixd_geometry. Qed.
Print Assumptions C26_gram_schmidt.
Theorem C26_back : forall A, is_rot A ->
  rotation_6d_to_matrix (fst (matrix_to_rotation_6d A)) (snd (matrix_to_rotation_6d A)) = A.
Proof. exact sixd_back. Qed.
Print Assumptions C26_back.
Theorem C26_nine : (forall T, is_rigid T -> se3_9d_to_matrix44 (matrix44_to_se3_9d T) = T) /\
  forall a1 a2 t, eps12 <= vnorm a1 -> eps12 <= vnorm (vsub a2 (vscale (vdot a1 a2 / vnorm2 a1) a1)) ->
    is_rigid (se3_9d_to_matrix44 (a1, a2, t)).
Proof. exact (conj nined_back nined_rigid). Qed.
Print Assumptions C26_nine.
(** below the floor of [normalize] (1e-12) linearly independent vectors give no rotation *)
Theorem C26_tiny_vectors_refuted : exists a1 a2, vnorm2 (vcross a1 a2) <> 0 /\ ~ is_rot (rotation_6d_to_matrix a1 a2).
Proof. exact sixd_tiny. Qed.
Print Assumptions C26_tiny_vectors_refuted.
Example C26_example : eps12 <= vnorm (mkV3 1 0 0) /\
  vsub (mkV3 5 2 0) (vscale (vdot (mkV3 1 0 0) (mkV3 5 2 0) / vnorm2 (mkV3 1 0 0)) (mkV3 1 0 0)) = mkV3 0 2 0.
Proof.
  split.
  - unfold vnorm. replace (vnorm2 (mkV3 1 0 0)) with 1 by (lin_simpl; ring). rewrite sqrt_1. unfold eps12; lra.
  - lin_simpl. apply mkV3_eq; field; lra.
Qed.

(** C27 *)
Theorem C27_matrix_round_trip : forall T, is_rigid T -> let '(p, r) := matrix_to_pos_rot T in pos_rot_to_matrix p r = T.
Proof. exact pos_rot_round. Qed.
Print Assumptions C27_matrix_round_trip.
Theorem C27_pair_round_trip : forall p r, v0 r * v0 r + v1 r * v1 r + v2 r * v2 r + v3 r * v3 r = 1 ->
  is_rigid (pos_rot_to_matrix p r) /\
  (matrix_to_pos_rot (pos_rot_to_matrix p r) = (p, r) \/
   matrix_to_pos_rot (pos_rot_to_matrix p r) = (p, mkV4 (- v0 r) (- v1 r) (- v2 r) (- v3 r))).
Proof. exact pos_rot_round'. Qed.
Print Assumptions C27_pair_round_trip.
Theorem C27_orders : (forall v, wxyz_to_xyzw (xyzw_to_wxyz v) = v) /\ (forall q, xyzw_to_wxyz (wxyz_to_xyzw q) = q) /\
  (forall w x y z, wxyz_to_xyzw (mkQ w x y z) = mkV4 x y z w).
Proof. exact (conj (proj1 xyzw_inv) (conj (proj2 xyzw_inv) (fun w x y z => eq_refl))). Qed.
Print Assumptions C27_orders.
Example C27_example : is_rigid (trans 1 2 3) /\ (fun r => v0 r * v0 r + v1 r * v1 r + v2 r * v2 r + v3 r * v3 r) (mkV4 0 (3/5) 0 (4/5)) = 1.
Proof. split; [apply trans_rigid|]. simpl. field. Qed.

(** C28 *)
Theorem C28_random : forall o, o <> mkQ 0 0 0 0 -> qnorm2 (random_quaternion o) = 1 /\ 0 <= qw (random_quaternion o) /\
  is_rot (random_rotation o) /\ quaternion_to_matrix (random_quaternion o) = quaternion_to_matrix o.
Proof. exact l28_random. Qed.
Print Assumptions C28_random.
Theorem C28_standardize : forall q, 0 <= qw (standardize_quaternion q) /\
  standardize_quaternion (standardize_quaternion q) = standardize_quaternion q /\
  (standardize_quaternion q = q \/ standardize_quaternion q = qopp q) /\ (0 <= qw q -> standardize_quaternion q = q) /\
  (qnorm2 q <> 0 -> quaternion_to_matrix (standardize_quaternion q) = quaternion_to_matrix q).
Proof.
  exact (fun q => conj (standardize_nonneg q) (conj (standardize_idem q) (conj (standardize_pm q)
    (conj (standardize_id q) (standardize_q2m q))))).
Qed.
Print Assumptions C28_standardize.
Example C28_example : mkQ (-1) 2 0 0 <> mkQ 0 0 0 0 /\ standardize_quaternion (mkQ (-1) 2 0 0) <> mkQ (-1) 2 0 0.
Proof.
  split; [intros H; inversion H; lra|]. unfold standardize_quaternion; simpl.
  assert (Rltb (-1) 0 = true) as -> by (apply Rltb_true; lra). intros H; inversion H; lra.
Qed.
