(** C82: back-propagation through the rotation conversions: where it gives the gradient, and where it gives NaN although there is one. *)
From Coq Require Import Reals Lra Psatz Bool Arith Lia List.
From Coquelicot Require Import Coquelicot.
From Verif Require Import Prelude ExtF Trig Lin RotModel RotBasic MathModel QuatProofs AxisAngle DeltaPose GradModel SpecGrad GradProofs GradDeriv GradTapes GradLog GradQuat GradNan GradZero.
From Verif Require Import GradFinal.
Import ListNotations.
Local Open Scope R_scope.


(** ** Where back-propagation is right *)
(** quaternions of any length except zero *)
Theorem C82_quaternion_to_matrix : forall old q, qnorm2 q <> 0 -> differentiates old tape_quaternion_to_matrix q2m_list (q_list q).
Proof. exact l82_quaternion_to_matrix. Qed.
Print Assumptions C82_quaternion_to_matrix.
Example C82_quaternion_to_matrix_ex : differentiates false tape_quaternion_to_matrix q2m_list (q_list q_sample).
Proof. apply C82_quaternion_to_matrix. rewrite q_sample_norm. lra. Qed.

(** every vector but zero and those on the sphere where the two formulas meet *)
Theorem C82_axis_angle_to_quaternion : forall old v, v <> vzero -> vnorm v <> eps6 -> differentiates old tape_axis_angle_to_quaternion a2q_list (v_list v).
Proof. exact l82_axis_angle_to_quaternion. Qed.
Print Assumptions C82_axis_angle_to_quaternion.
Example C82_axis_angle_to_quaternion_ex : differentiates false tape_axis_angle_to_quaternion a2q_list (v_list (mkV3 0 1 0)).
Proof.
  assert (E : vnorm (mkV3 0 1 0) = 1) by (unfold vnorm, vnorm2, vdot; cbn [vx vy vz]; replace (0 * 0 + 1 * 1 + 0 * 0) with 1 by ring; apply sqrt_1).
  apply C82_axis_angle_to_quaternion; [intros H; assert (X : vy (mkV3 0 1 0) = vy vzero) by (rewrite H; reflexivity); cbn [vy vzero] in X; lra | rewrite E; unfold eps6; lra].
Qed.

(** every quaternion with a vector part; on the sphere of angle 1e-6 the formulas change *)
Theorem C82_quaternion_to_axis_angle : forall old q, qvec q <> vzero -> 2 * atan2 (vnorm (qvec q)) (qw q) <> eps6 ->
  differentiates old tape_quaternion_to_axis_angle q2a_list (q_list q).
Proof. exact l82_quaternion_to_axis_angle. Qed.
Print Assumptions C82_quaternion_to_axis_angle.
Example C82_quaternion_to_axis_angle_ex : differentiates false tape_quaternion_to_axis_angle q2a_list (q_list (mkQ 0 0 1 0)).
Proof.
  assert (E : vnorm (qvec (mkQ 0 0 1 0)) = 1) by (unfold vnorm, vnorm2, vdot, qvec; cbn [qx qy qz vx vy vz]; replace (0 * 0 + 1 * 1 + 0 * 0) with 1 by ring; apply sqrt_1).
  apply C82_quaternion_to_axis_angle; [intros H; assert (X : vy (qvec (mkQ 0 0 1 0)) = vy vzero) by (rewrite H; reflexivity); cbn [qvec qy vy vzero] in X; lra|].
  rewrite E. cbn [qw]. unfold atan2. rewrite (proj2 (Rltb_false 0 0)), (proj2 (Rltb_true 0 1)) by lra. pose proof PI2_1. unfold eps6. lra.
Qed.

(** the rotations of quaternions that have no zero component and one component that is largest in size *)
Theorem C82_matrix_to_quaternion : forall old q, qnorm2 q <> 0 -> (forall c, In c (q_list q) -> c <> 0) ->
  (exists i, (i < 4)%nat /\ forall k, (k < 4)%nat -> k <> i -> Rabs (nth k (q_list q) 0) < Rabs (nth i (q_list q) 0)) ->
  differentiates old tape_matrix_to_quaternion m2q_list (m3_list (quaternion_to_matrix q)).
Proof. exact l82_matrix_to_quaternion. Qed.
Print Assumptions C82_matrix_to_quaternion.
(** the same for any matrix, rotation or not *)
Theorem C82_matrix_to_quaternion_any : forall old A, (forall k, (k < 4)%nat -> diag4 A k <> 0) ->
  (exists i, (i < 4)%nat /\ forall k, (k < 4)%nat -> k <> i -> diag4 A k < diag4 A i) -> differentiates old tape_matrix_to_quaternion m2q_list (m3_list A).
Proof. exact l82_matrix_to_quaternion_any. Qed.
Print Assumptions C82_matrix_to_quaternion_any.
Example C82_matrix_to_quaternion_ex : differentiates false tape_matrix_to_quaternion m2q_list (m3_list (quaternion_to_matrix q_sample)).
Proof.
  apply C82_matrix_to_quaternion; [rewrite q_sample_norm; lra | |].
  - intros c H. unfold q_list, q_sample in H. cbn [qw qx qy qz In] in H. destruct H as [<- | [<- | [<- | [<- | []]]]]; lra.
  - exists 0%nat. split; [lia|]. intros k Hk Nk. unfold q_list, q_sample. cbn [qw qx qy qz]. rewrite (Rabs_pos_eq (nth 0 _ _)) by (cbn [nth]; lra).
    destruct k as [|[|[|[|]]]]; try lia; cbn [nth]; rewrite Rabs_pos_eq by lra; lra.
Qed.

Theorem C82_so3_exp : forall old eps v, 0 < eps -> vnorm2 v <> eps -> differentiates old (tape_so3_exp_map eps) (exp_list eps) (v_list v).
Proof. exact l82_so3_exp. Qed.
Print Assumptions C82_so3_exp.
(** also at the zero vector *)
Example C82_so3_exp_ex : differentiates false (tape_so3_exp_map eps4) (exp_list eps4) (v_list vzero).
Proof. assert (P : 0 < eps4) by (unfold eps4; lra). apply C82_so3_exp; [exact P|]. unfold vnorm2, vdot, vzero. cbn [vx vy vz]. lra. Qed.

(** every rotation, the identity and the half turns included, thanks to the linear extension of the arc cosine *)
Theorem C82_so3_log : forall old eps A, is_rot A -> 0 < eps <= eps4 -> differentiates old (tape_so3_log_map eps) (log_listf eps) (m3_list A).
Proof. exact l82_so3_log. Qed.
Print Assumptions C82_so3_log.
Theorem C82_so3_log_any : forall old eps A, -1 - eps4 < m00 A + m11 A + m22 A < 3 + eps4 -> 0 < eps <= eps4 -> differentiates old (tape_so3_log_map eps) (log_listf eps) (m3_list A).
Proof. exact l82_so3_log_any. Qed.
Print Assumptions C82_so3_log_any.
Example C82_so3_log_ex : differentiates false (tape_so3_log_map eps4) (log_listf eps4) (m3_list I3).
Proof. apply C82_so3_log; [apply is_rot_I | unfold eps4; lra]. Qed.

(** neither equal, nor opposite, nor half a turn apart *)
Theorem C82_angular_distance : forall old p q, -1 < qdot p q < 1 -> qdot p q <> 0 -> 1 - qdot p q * qdot p q <> eps4 ->
  differentiates old (tape_quaternion_angular_distance (quaternion_close eps4 [(p, q)])) dist_list (q_list p ++ q_list q).
Proof. exact l82_angular_distance. Qed.
Print Assumptions C82_angular_distance.
Example C82_angular_distance_ex :
  differentiates false (tape_quaternion_angular_distance (quaternion_close eps4 [(mkQ 1 0 0 0, mkQ (3 / 5) (4 / 5) 0 0)])) dist_list (q_list (mkQ 1 0 0 0) ++ q_list (mkQ (3 / 5) (4 / 5) 0 0)).
Proof. apply C82_angular_distance; unfold qdot, eps4; cbn [qw qx qy qz]; lra. Qed.

(** ** Where it is not *)
(** the docstring of [_sqrt_positive_part] promises a zero subgradient where the argument is 0 *)
Theorem C82_sqrt_positive_part_refuted : forall old,
  gradient old tape_sqrt_positive_part [Fin 0] [Fin 0] = [NaN] /\ (forall c, 0 < c -> gradient old tape_sqrt_positive_part [Fin 0] [Fin c] = [PInf]) /\
  (forall c, c < 0 -> gradient old tape_sqrt_positive_part [Fin 0] [Fin c] = [NInf]).
Proof. exact l82_sqrt_positive_part_refuted. Qed.
Print Assumptions C82_sqrt_positive_part_refuted.

(** the rotation of a quaternion with a zero component: the three diagonal entries get NaN, whatever is back-propagated *)
Theorem C82_matrix_to_quaternion_nan : forall old q cot j, qnorm2 q <> 0 -> In 0 (q_list q) -> In j [0; 4; 8]%nat ->
  nth_error (gradient old tape_matrix_to_quaternion (map Fin (m3_list (quaternion_to_matrix q))) (map Fin cot)) j = Some NaN.
Proof. exact l82_matrix_to_quaternion_nan. Qed.
Print Assumptions C82_matrix_to_quaternion_nan.
(** at the identity there is a gradient, and back-propagation does not find it *)
Theorem C82_matrix_to_quaternion_refuted : forall old w x y z,
  is_gradient m2q_list (m3_list I3) [w; x; y; z] [w / 8; - z / 4; y / 4; z / 4; w / 8; - x / 4; - y / 4; x / 4; w / 8] /\
  forall j, In j [0; 4; 8]%nat -> nth_error (gradient old tape_matrix_to_quaternion (map Fin (m3_list I3)) (map Fin [w; x; y; z])) j = Some NaN.
Proof. exact l82_matrix_to_quaternion_refuted. Qed.
Print Assumptions C82_matrix_to_quaternion_refuted.

(** the zero vector: right with the older [norm_backward], NaN with the present one *)
Theorem C82_axis_angle_to_quaternion_refuted : forall w x y z, let c := map Fin [w; x; y; z] in
  is_gradient a2q_list [0; 0; 0] [w; x; y; z] [x * / 2; y * / 2; z * / 2] /\
  gradient true tape_axis_angle_to_quaternion (map Fin [0; 0; 0]) c = map Fin [x * / 2; y * / 2; z * / 2] /\
  gradient false tape_axis_angle_to_quaternion (map Fin [0; 0; 0]) c = [NaN; NaN; NaN].
Proof. exact l82_axis_angle_to_quaternion_refuted. Qed.
Print Assumptions C82_axis_angle_to_quaternion_refuted.

(** the identity and its positive multiples *)
Theorem C82_quaternion_to_axis_angle_refuted : forall w x y z, 0 < w -> let c := map Fin [x; y; z] in
  is_gradient q2a_list [w; 0; 0; 0] [x; y; z] [0; 2 * x; 2 * y; 2 * z] /\
  gradient true tape_quaternion_to_axis_angle (map Fin [w; 0; 0; 0]) c = NaN :: map Fin [2 * x; 2 * y; 2 * z] /\
  gradient false tape_quaternion_to_axis_angle (map Fin [w; 0; 0; 0]) c = [NaN; NaN; NaN; NaN].
Proof. exact l82_quaternion_to_axis_angle_refuted. Qed.
Print Assumptions C82_quaternion_to_axis_angle_refuted.
Example C82_quaternion_to_axis_angle_refuted_ex : gradient false tape_quaternion_to_axis_angle (map Fin [1; 0; 0; 0]) (map Fin [0; 0; 0]) = [NaN; NaN; NaN; NaN].
Proof. apply (C82_quaternion_to_axis_angle_refuted 1 0 0 0). lra. Qed.

(** equal or opposite unit quaternions: the distance is the constant 0 around them and its gradient zero, but all eight entries are NaN;
    in a batch that is not close as a whole they are NaN or infinite *)
Theorem C82_angular_distance_refuted : forall old p q cot, qdot p q = 1 \/ qdot p q = -1 ->
  let x := q_list p ++ q_list q in
  is_gradient dist_list x [cot] [0; 0; 0; 0; 0; 0; 0; 0] /\
  quaternion_close eps4 [(p, q)] = true /\
  gradient old (tape_quaternion_angular_distance true) (map Fin x) [Fin cot] = [NaN; NaN; NaN; NaN; NaN; NaN; NaN; NaN] /\
  let G := gradient old (tape_quaternion_angular_distance false) (map Fin x) [Fin cot] in
  length G = 8%nat /\ forall k v, nth_error G k = Some v -> isfinite v = false /\ (cot = 0 -> v = NaN).
Proof. exact l82_angular_distance_refuted. Qed.
Print Assumptions C82_angular_distance_refuted.
Example C82_angular_distance_refuted_ex : gradient false (tape_quaternion_angular_distance true) (map Fin [1; 0; 0; 0; 1; 0; 0; 0]) [Fin 1] = [NaN; NaN; NaN; NaN; NaN; NaN; NaN; NaN].
Proof. apply (C82_angular_distance_refuted false (mkQ 1 0 0 0) (mkQ 1 0 0 0) 1). left. unfold qdot. cbn [qw qx qy qz]. ring. Qed.
