(** C33 - C38: so3 maps, acos extrapolation, angular distance, slerp, perturbations. *)
From Coq Require Import Reals Lra Psatz Bool Arith ZArith Lia List.
From Coquelicot Require Import Coquelicot.
From Verif Require Import Prelude ExtF Lin Trig RotModel RotBasic QuatProofs AxisAngle MathModel AcosProofs So3Proofs So3More SlerpProofs.
From Verif Require Import MathFinal.
Import ListNotations.
Local Open Scope R_scope.

(** C33: [hat v] is skew and multiplies as the cross product *)
Theorem C33_cross : forall v u, m3tr (hat v) = m3opp (hat v) /\ m3vec (hat v) u = vcross v u.
Proof. exact l33_cross. Qed.
Print Assumptions C33_cross.
Theorem C33_inverse : forall vs, vs <> [] -> hat_inv (map hat vs) = Ok vs.
Proof. exact hat_inv_hat. Qed.
Print Assumptions C33_inverse.
Theorem C33_inverse_skew : forall hs, hs <> [] -> (forall h, In h hs -> m3tr h = m3opp h) ->
  exists vs, hat_inv hs = Ok vs /\ map hat vs = hs.
Proof. exact hat_inv_skew. Qed.
Print Assumptions C33_inverse_skew.
(** a batch with one matrix whose symmetric part exceeds the tolerance is rejected, wherever the entry is *)
Theorem C33_reject : forall hs h, In h hs ->
  (exists x, In x [m00 h + m00 h; m11 h + m11 h; m22 h + m22 h; m01 h + m10 h; m02 h + m20 h; m12 h + m21 h] /\ / 100000 < Rabs x) ->
  hat_inv hs = Err ValueError.
Proof. exact l33_reject. Qed.
Print Assumptions C33_reject.
(** and nothing else is: within the tolerance, the result is still the three lower entries *)
Theorem C33_accept : forall hs, hs <> [] ->
  (forall h, In h hs -> forall x, In x [m00 h + m00 h; m11 h + m11 h; m22 h + m22 h; m01 h + m10 h; m02 h + m20 h; m12 h + m21 h] -> Rabs x <= / 100000) ->
  hat_inv hs = Ok (map (fun h => mkV3 (m21 h) (m02 h) (m10 h)) hs).
Proof. exact l33_accept. Qed.
Print Assumptions C33_accept.
Theorem C33_empty_batch_refuted : exists hs, (forall h, In h hs -> m3tr h = m3opp h) /\ hat_inv hs = Err RuntimeError.
Proof. exact l33_empty_batch_refuted. Qed.
Print Assumptions C33_empty_batch_refuted.
Example C33_ex : hat_inv [hat (mkV3 1 2 3); hat (mkV3 0 0 5)] = Ok [mkV3 1 2 3; mkV3 0 0 5] /\ m3vec (hat (mkV3 1 2 3)) (mkV3 0 0 1) = mkV3 2 (-1) 0.
Proof.
  split; [apply (C33_inverse [mkV3 1 2 3; mkV3 0 0 5]); discriminate|]. rewrite (proj2 (C33_cross _ _)).
  unfold vcross; cbn [vx vy vz]. apply mkV3_eq; ring.
Qed.

(** C34: at or above the clamp the exponential is the rotation about [v] by [|v|] *)
Theorem C34_exp : forall eps v, 0 < eps -> eps <= vnorm2 v ->
  exists k, unit3 k /\ v = vscale (vnorm v) k /\ so3_exp_map eps v = axis_and_angle_to_matrix_33 k (vnorm v) /\
    is_rot (so3_exp_map eps v) /\ m3vec (so3_exp_map eps v) v = v.
Proof. exact l34_exp. Qed.
Print Assumptions C34_exp.
(** below the clamp it is within 1e-6 of that rotation in every entry *)
Theorem C34_exp_small : forall v, vnorm2 v < eps4 ->
  exists k, unit3 k /\ v = vscale (vnorm v) k /\
    forall e, In e [m00; m01; m02; m10; m11; m12; m20; m21; m22] ->
      Rabs (e (so3_exp_map eps4 v) - e (axis_and_angle_to_matrix_33 k (vnorm v))) <= / 1000000.
Proof. exact l34_exp_small. Qed.
Print Assumptions C34_exp_small.
(** but it is not a rotation there *)
Theorem C34_exp_small_refuted : exists v, v <> vzero /\ ~ is_rot (so3_exp_map eps4 v).
Proof. exact exp_not_rotation. Qed.
Print Assumptions C34_exp_small_refuted.
Theorem C34_log_exp : forall eps v, 0 < eps <= eps4 -> vnorm v < PI -> Rabs (cos (vnorm v)) <= 1 - eps4 ->
  forall e, e <= 1 / 100 -> so3_log_map [so3_exp_map eps v] e = Ok [v].
Proof. exact log_exp. Qed.
Print Assumptions C34_log_exp.
Theorem C34_exp_log : forall A e eps, is_rot A -> -1 + 2 * eps4 <= trace3 A <= 3 - 2 * eps4 -> e <= 1 / 100 -> 0 < eps <= eps4 ->
  exists v, so3_log_map [A] e = Ok [v] /\ so3_exp_map eps v = A /\ trace3 A = 1 + 2 * cos (vnorm v).
Proof. exact exp_log. Qed.
Print Assumptions C34_exp_log.
Theorem C34_log_rows : forall As e, As <> [] -> (forall A, In A As -> is_rot A) ->
  exists vs, so3_log_map As e = Ok vs /\ length vs = length As /\
    forall i A, nth_error As i = Some A -> exists v, nth_error vs i = Some v /\ so3_log_map [A] e = Ok [v].
Proof. exact log_rows. Qed.
Print Assumptions C34_log_rows.
Theorem C34_log_small : forall A, is_rot A -> 3 - 2 * eps4 < trace3 A ->
  exists k t v, unit3 k /\ 0 <= t <= 15 / 1000 /\ A = axis_and_angle_to_matrix_33 k t /\ so3_log_map [A] eps4 = Ok [v] /\
    vnorm (vsub v (vscale t k)) <= 2 / 10000 * t.
Proof. exact log_small. Qed.
Print Assumptions C34_log_small.
(** near a half turn the logarithm is not an inverse at all: an exact half turn is mapped to zero *)
Theorem C34_log_half_turn_refuted : exists A, is_rot A /\ A <> I3 /\ so3_log_map [A] eps4 = Ok [vzero] /\ so3_exp_map eps4 vzero = I3.
Proof. exact log_half_turn. Qed.
Print Assumptions C34_log_half_turn_refuted.
Theorem C34_relative_symmetric : forall As Bs c, so3_relative_angle As Bs c = so3_relative_angle Bs As c.
Proof. exact relative_sym. Qed.
Print Assumptions C34_relative_symmetric.
Theorem C34_relative_accuracy : forall A B, is_rot A -> is_rot B -> exists k t r, unit3 k /\ 0 <= t <= PI /\
  m3mul A (m3tr B) = axis_and_angle_to_matrix_33 k t /\ so3_relative_angle [A] [B] false = Ok [Fin r] /\
  Rabs (r - t) <= 15 / 1000 /\ (Rabs (cos t) <= 1 - eps4 -> r = t).
Proof. exact relative_accuracy. Qed.
Print Assumptions C34_relative_accuracy.
(** the angle of a rotation to itself is never zero *)
Theorem C34_relative_self_refuted : exists A, is_rot A /\ so3_relative_angle [A] [A] false <> Ok [Fin 0].
Proof. exact l34_relative_self_refuted. Qed.
Print Assumptions C34_relative_self_refuted.
Theorem C34_relative_self : forall A, is_rot A -> exists r, so3_relative_angle [A] [A] false = Ok [Fin r] /\ 7 / 1000 <= r <= 15 / 1000.
Proof. exact relative_self. Qed.
Print Assumptions C34_relative_self.
(** the reported angle never reorders two rotation angles *)
Theorem C34_relative_monotone : forall A B C D r s k l t u, is_rot A -> is_rot B -> is_rot C -> is_rot D ->
  so3_relative_angle [A] [B] false = Ok [Fin r] -> so3_relative_angle [C] [D] false = Ok [Fin s] ->
  unit3 k -> unit3 l -> 0 <= t -> u <= PI -> t < u ->
  m3mul A (m3tr B) = axis_and_angle_to_matrix_33 k t -> m3mul C (m3tr D) = axis_and_angle_to_matrix_33 l u -> r < s.
Proof. exact l34_relative_monotone. Qed.
Print Assumptions C34_relative_monotone.
(** matrices whose trace is out of range are rejected *)
Theorem C34_reject : forall As A, In A As -> (trace3 A < -1 - eps4 \/ 3 + eps4 < trace3 A) ->
  so3_rotation_angle As eps4 false eps4 = Err ValueError.
Proof. exact angle_reject. Qed.
Print Assumptions C34_reject.
Example C34_ex : so3_log_map [so3_exp_map eps4 (mkV3 0 0 (PI / 2))] eps4 = Ok [mkV3 0 0 (PI / 2)] /\
  so3_exp_map eps4 (mkV3 0 0 (PI / 2)) = mkM3 0 (-1) 0 1 0 0 0 0 1.
Proof.
  pose proof PI_RGT_0. pose proof PI2_1.
  assert (N2 : vnorm2 (mkV3 0 0 (PI / 2)) = PI / 2 * (PI / 2)) by (unfold vnorm2, vdot; cbn [vx vy vz]; ring).
  assert (N : vnorm (mkV3 0 0 (PI / 2)) = PI / 2) by (unfold vnorm; rewrite N2; apply sqrt_square; lra).
  split.
  - apply C34_log_exp; rewrite ?N, ?cos_PI2, ?Rabs_R0; unfold eps4; lra.
  - replace (mkV3 0 0 (PI / 2)) with (vscale (PI / 2) (mkV3 0 0 1)) by (unfold vscale; cbn [vx vy vz]; apply mkV3_eq; ring).
    rewrite exp_axis; [|unfold unit3, vnorm2, vdot; cbn [vx vy vz]; ring | lra | unfold eps4; nra].
    unfold axis_and_angle_to_matrix_33; cbn [vx vy vz]. rewrite cos_PI2, sin_PI2. apply mkM3_eq; ring.
Qed.

(** C35: for admissible bounds there is one total real function applied to every entry, equal to [acos] between the
    bounds, continuously differentiable everywhere and strictly decreasing (by at least the step in [x]) *)
Theorem C35_extrapolation : forall b lo hi, b = BFloat hi /\ lo = - hi \/ b = BPair lo hi -> -1 < lo -> lo <= hi -> hi < 1 ->
  exists f f', (forall xs, acos_linear_extrapolation xs b = Ok (map f xs)) /\
    (forall x, lo <= x <= hi -> f x = acos x) /\
    (forall x, is_derive f x (f' x)) /\ (forall x, continuous f' x) /\ (forall x, continuous f x) /\
    (forall x, x <= lo -> f' x = f' lo) /\ (forall x, hi <= x -> f' x = f' hi) /\
    (forall x y, x < y -> f y + (y - x) <= f x).
Proof. exact l35_extrapolation. Qed.
Print Assumptions C35_extrapolation.
Theorem C35_reject : forall xs b lo hi, b = BFloat hi /\ lo = - hi \/ b = BPair lo hi -> (lo <= -1 \/ 1 <= hi \/ hi < lo) ->
  acos_linear_extrapolation xs b = Err ValueError.
Proof. exact l35_reject. Qed.
Print Assumptions C35_reject.
Example C35_ex : exists r s, acos_linear_extrapolation [0; 3] (BFloat (1 / 2)) = Ok [r; s] /\ r = PI / 2 /\ s < 0 /\
  acos_linear_extrapolation [0] (BFloat 1) = Err ValueError.
Proof.
  destruct (C35_extrapolation (BFloat (1 / 2)) (- (1 / 2)) (1 / 2)) as (f & f' & E & M & D & _ & _ & _ & _ & Dc); [left; split; reflexivity | lra | lra | lra |].
  exists (f 0), (f 3). split; [apply E|]. rewrite (M 0) by lra. split; [apply acos_0|]. split.
  - pose proof (Dc 0 3 ltac:(lra)) as K. rewrite (M 0), acos_0 in K by lra. pose proof PI_4. lra.
  - apply (C35_reject [0] (BFloat 1) (- (1)) 1); [left; split; reflexivity | lra].
Qed.

(** C36: symmetric, invariant under negating either argument, for every batch of quaternions *)
Theorem C36_symmetric : forall qs, quaternion_angular_distance (map (fun p => (snd p, fst p)) qs) = quaternion_angular_distance qs.
Proof. exact l36_symmetric. Qed.
Print Assumptions C36_symmetric.
Theorem C36_sign : forall qs (s1 s2 : Q * Q -> bool),
  quaternion_angular_distance (map (fun p => (if s1 p then qopp (fst p) else fst p, if s2 p then qopp (snd p) else snd p)) qs) =
  quaternion_angular_distance qs.
Proof. exact l36_sign. Qed.
Print Assumptions C36_sign.
(** for unit quaternions: either every entry is the angle of the relative rotation, or every relative rotation is
    small (the half-angle sine squared below 1e-4) and every entry is zero *)
Theorem C36_angle : forall qs, (forall p q, In (p, q) qs -> qnorm2 p = 1 /\ qnorm2 q = 1) ->
  exists th, length th = length qs /\
    (forall i p q, nth_error qs i = Some (p, q) -> exists t k, nth_error th i = Some t /\ 0 <= t <= PI /\ unit3 k /\
       m3mul (quaternion_to_matrix p) (m3tr (quaternion_to_matrix q)) = axis_and_angle_to_matrix_33 k t /\
       (t = 0 <-> quaternion_to_matrix p = quaternion_to_matrix q)) /\
    ((quaternion_angular_distance qs = th /\ exists t, In t th /\ eps4 <= sin (t / 2) * sin (t / 2)) \/
     (quaternion_angular_distance qs = map (fun _ => 0) qs /\ forall t, In t th -> sin (t / 2) * sin (t / 2) < eps4)).
Proof. exact l36_angle. Qed.
Print Assumptions C36_angle.
Theorem C36_range : forall qs, (forall p q, In (p, q) qs -> qnorm2 p = 1 /\ qnorm2 q = 1) ->
  length (quaternion_angular_distance qs) = length qs /\ forall t, In t (quaternion_angular_distance qs) -> 0 <= t <= PI.
Proof. exact l36_range. Qed.
Print Assumptions C36_range.
(** equal orientations, given by either sign, have distance zero *)
Theorem C36_zero : forall qs i p q, (forall p q, In (p, q) qs -> qnorm2 p = 1 /\ qnorm2 q = 1) ->
  nth_error qs i = Some (p, q) -> q = p \/ q = qopp p -> nth_error (quaternion_angular_distance qs) i = Some 0.
Proof. exact l36_zero. Qed.
Print Assumptions C36_zero.
(** triangle inequality, when none of the three calls is zeroed as close *)
Theorem C36_triangle : forall p q r a b c, qnorm2 p = 1 -> qnorm2 q = 1 -> qnorm2 r = 1 ->
  quaternion_angular_distance [(p, q)] = [a] -> quaternion_angular_distance [(q, r)] = [b] -> quaternion_angular_distance [(p, r)] = [c] ->
  a <> 0 -> b <> 0 -> c <= a + b.
Proof. exact l36_triangle. Qed.
Print Assumptions C36_triangle.
(** one pair's distance depends on the rest of the batch *)
Theorem C36_batch_refuted : exists p q r s d0 d1 d2, qnorm2 p = 1 /\ qnorm2 q = 1 /\ qnorm2 r = 1 /\ qnorm2 s = 1 /\
  quaternion_angular_distance [(p, q)] = [d0] /\ quaternion_angular_distance [(p, q); (r, s)] = [d1; d2] /\ d0 = 0 /\ 0 < d1.
Proof. exact l36_batch_refuted. Qed.
Print Assumptions C36_batch_refuted.
(** and distinct orientations can have distance zero *)
Theorem C36_separation_refuted : exists p q, qnorm2 p = 1 /\ qnorm2 q = 1 /\ quaternion_to_matrix p <> quaternion_to_matrix q /\
  quaternion_angular_distance [(p, q)] = [0].
Proof. exact l36_separation_refuted. Qed.
Print Assumptions C36_separation_refuted.
Example C36_ex : quaternion_angular_distance [(mkQ 1 0 0 0, mkQ 0 1 0 0)] = [PI].
Proof.
  assert (P : qnorm2 (mkQ 1 0 0 0) = 1) by (unfold qnorm2; cbn [qw qx qy qz]; ring).
  assert (S : qnorm2 (mkQ 0 1 0 0) = 1) by (unfold qnorm2; cbn [qw qx qy qz]; ring).
  unfold quaternion_angular_distance, quaternion_close. cbn [forallb map fst snd].
  replace (Rltb _ eps4) with false; [|symmetry; apply Rltb_false; unfold qdot, eps4; cbn [qw qx qy qz]; lra].
  cbn [andb]. f_equal. pose proof PI_RGT_0. apply angle_char; try assumption; [lra|]. rewrite cos_PI2.
  unfold qdot; cbn [qw qx qy qz]. replace (1 * 0 + 0 * 1 + 0 * 0 + 0 * 0) with 0 by ring. rewrite Rabs_R0. reflexivity.
Qed.

(** C37: in a batch of unit pairs with at least one pair apart, every pair of distinct orientations is interpolated
    along the short arc at constant angular speed: the angle between the results for [t] and [s] is [(t - s)] times
    the angle between the ends, [t = 0] gives [q1] and [t = 1] gives [q2] or [- q2], whichever is nearer *)
Theorem C37_slerp : forall qs, (forall p q, In (p, q) qs -> qnorm2 p = 1 /\ qnorm2 q = 1) ->
  (exists p q, In (p, q) qs /\ Rabs (qdot p q) <= 1 - / 1000000) ->
  forall t, exists out q2, quaternion_slerp qs (TNum t) = (Ok out, q2) /\ length out = length qs /\
    forall i p q, nth_error qs i = Some (p, q) -> q <> p -> q <> qopp p ->
      exists (f : R -> Q) th, nth_error out i = Some (finq (f t)) /\ 0 < th <= PI / 2 /\ cos th = Rabs (qdot p q) /\
        f 0 = p /\ (f 1 = q \/ f 1 = qopp q) /\ qdot (f 0) (f 1) = cos th /\
        (forall s, qnorm2 (f s) = 1) /\ (forall s u, qdot (f s) (f u) = cos ((s - u) * th)) /\
        (forall s, exists out' q2', quaternion_slerp qs (TNum s) = (Ok out', q2') /\ nth_error out' i = Some (finq (f s))).
Proof. exact l37_slerp. Qed.
Print Assumptions C37_slerp.
(** a batch of nearly equal pairs is interpolated linearly; the length is off by at most 5e-7 for [t] in [0, 1] *)
Theorem C37_lerp : forall qs, (forall p q, In (p, q) qs -> qnorm2 p = 1 /\ qnorm2 q = 1 /\ 1 - / 1000000 < Rabs (qdot p q)) ->
  forall t, exists q2, quaternion_slerp qs (TNum t) = (Ok (map (fun pq => finq (qadd (qscale (1 - t) (fst pq)) (qscale t (snd pq)))) (zip_with (fun p q => (fst p, q)) qs q2)), q2) /\
    length q2 = length qs /\
    forall i p q, nth_error qs i = Some (p, q) -> exists q', nth_error q2 i = Some q' /\ (q' = q \/ q' = qopp q) /\ 0 <= qdot p q' /\
      (0 <= t <= 1 -> 1 - 5 / 10000000 <= qnorm2 (qadd (qscale (1 - t) p) (qscale t q')) <= 1).
Proof. exact l37_lerp. Qed.
Print Assumptions C37_lerp.
(** it is not of unit length then *)
Theorem C37_lerp_unit_refuted : exists p q r, qnorm2 p = 1 /\ qnorm2 q = 1 /\
  fst (quaternion_slerp [(p, q)] (TNum (1 / 2))) = Ok [finq r] /\ qnorm2 r < 1.
Proof. exact l37_lerp_unit_refuted. Qed.
Print Assumptions C37_lerp_unit_refuted.
(** an identical pair gives NaN when the batch also contains a distinct pair, and is fine alone *)
Theorem C37_batch_refuted : exists p q r, qnorm2 p = 1 /\ qnorm2 q = 1 /\
  fst (quaternion_slerp [(p, p)] (TNum (1 / 2))) = Ok [finq p] /\
  fst (quaternion_slerp [(p, p); (p, q)] (TNum (1 / 2))) = Ok [mkF4 NaN NaN NaN NaN; r].
Proof. exact l37_batch_refuted. Qed.
Print Assumptions C37_batch_refuted.
(** the caller's second tensor is overwritten with the flipped quaternions, whatever [t] and whether or not the call fails *)
Theorem C37_argument : forall qs t, snd (quaternion_slerp qs t) = map (fun p => if Rltb (qdot (fst p) (snd p)) 0 then qopp (snd p) else snd p) qs.
Proof. exact l37_argument. Qed.
Print Assumptions C37_argument.
Theorem C37_argument_refuted : exists p q t, qnorm2 p = 1 /\ qnorm2 q = 1 /\ snd (quaternion_slerp [(p, q)] t) <> [q].
Proof. exact l37_argument_refuted. Qed.
Print Assumptions C37_argument_refuted.
(** a vector of parameters: in the slerp branch row [i] uses [t_i]; *)
Theorem C37_vector_t : forall qs l, (2 <= length qs)%nat -> length l = length qs -> (exists p, In p qs /\ Rabs (qdot (fst p) (snd p)) <= 1 - / 1000000) ->
  exists out, fst (quaternion_slerp qs (TVec l)) = Ok out /\ length out = length qs /\
    forall i t, nth_error l i = Some t -> exists o out', nth_error out i = Some o /\
      fst (quaternion_slerp qs (TNum t)) = Ok out' /\ nth_error out' i = Some o.
Proof. exact l37_vector_t. Qed.
Print Assumptions C37_vector_t.
(** in the lerp branch a vector of parameters is an error, except that four parameters are silently applied to the
    four components of every quaternion *)
Theorem C37_vector_t_lerp_refuted :
  (exists qs l, length l = length qs /\ (2 <= length qs)%nat /\ fst (quaternion_slerp qs (TVec l)) = Err RuntimeError) /\
  (exists qs l out, length l = length qs /\ fst (quaternion_slerp qs (TVec l)) = Ok out /\ l = [0; 0; 1; 0] /\
     nth_error out 2 = Some (finq (mkQ 1 0 0 0)) /\ exists q, nth_error qs 2 = Some (mkQ 1 0 0 0, q) /\ q <> mkQ 1 0 0 0 /\ 0 < qdot (mkQ 1 0 0 0) q).
Proof. exact l37_vector_t_lerp_refuted. Qed.
Print Assumptions C37_vector_t_lerp_refuted.
Example C37_ex : exists r, fst (quaternion_slerp [(mkQ 1 0 0 0, mkQ 0 1 0 0)] (TNum (1 / 2))) = Ok [finq r] /\ qw r = qx r /\ qnorm2 r = 1.
Proof.
  assert (P : qnorm2 (mkQ 1 0 0 0) = 1) by (unfold qnorm2; cbn [qw qx qy qz]; ring).
  assert (S : qnorm2 (mkQ 0 1 0 0) = 1) by (unfold qnorm2; cbn [qw qx qy qz]; ring).
  assert (D' : qdot (mkQ 1 0 0 0) (mkQ 0 1 0 0) = 0) by (unfold qdot; cbn [qw qx qy qz]; ring).
  assert (Fd : flip_cos (mkQ 1 0 0 0, mkQ 0 1 0 0) = 0) by (destruct (flip_spec _ _ P S) as (_ & _ & E & _); rewrite E, D', Rabs_R0; reflexivity).
  assert (Fl : flip_row (mkQ 1 0 0 0, mkQ 0 1 0 0) = mkQ 0 1 0 0).
  { unfold flip_row. cbn [fst snd]. rewrite D'. replace (Rltb 0 0) with false; [reflexivity|]. symmetry. apply Rltb_false. lra. }
  exists (slerp_exact (1 / 2) (mkQ 1 0 0 0) (mkQ 0 1 0 0) (acos 0)). split; [|split].
  - rewrite slerp_far; [|intros A; specialize (A _ (or_introl eq_refl)); rewrite Fd in A; lra].
    cbn [map fst]. rewrite Fl, Fd, slerp_row_fin by lra. reflexivity.
  - unfold slerp_exact, qadd, qscale; cbn [qw qx qy qz]. replace ((1 - 1 / 2) * acos 0) with (1 / 2 * acos 0) by field. ring.
  - rewrite <- qdot_self, slerp_dot; [replace ((1 / 2 - 1 / 2) * acos 0) with 0 by ring; apply cos_0 | exact P | exact S | rewrite D', cos_acos by lra; reflexivity |].
    rewrite acos_0, sin_PI2. lra.
Qed.

(** C38: for every draw the results are rigid, in number equal to the requested perturbations *)
Theorem C38_rigid : forall T rs ts axis perp ds out, sample_perturbations T rs ts axis perp ds = Ok out ->
  (match T with inl A => is_rigid A | inr l => forall A, In A l -> is_rigid A end) ->
  (forall a, axis = Some a -> unit3 a) -> (axis = None -> forall d, In d ds -> d_ax d <> vzero) ->
  length out = length ds /\ forall P, In P out -> is_rigid P.
Proof. exact l38_rigid. Qed.
Print Assumptions C38_rigid.
(** with a given unit axis: rotation about it by the drawn angle times the standard deviation, before the input
    rotation; the translation moves by the drawn vector times its deviation, less its part along the axis on request *)
Theorem C38_given_axis : forall A rs ts a perp ds, unit3 a -> exists out,
  sample_perturbations (inl A) rs ts (Some a) perp ds = Ok out /\ length out = length ds /\
  forall i d, nth_error ds i = Some d -> exists P, nth_error out i = Some P /\
    rotp P = m3mul (axis_and_angle_to_matrix_33 a (d_th d * rs)) (rotp A) /\
    (exists c, vsub (vscale ts (d_t d)) (vsub (trp P) (trp A)) = vscale c a /\ (perp = false -> c = 0)) /\
    (perp = true -> vdot (vsub (trp P) (trp A)) a = 0).
Proof. exact l38_given_axis. Qed.
Print Assumptions C38_given_axis.
(** without an axis: rotation about the normalised drawn direction *)
Theorem C38_drawn_axis : forall A rs ts perp ds, exists out,
  sample_perturbations (inl A) rs ts None perp ds = Ok out /\ length out = length ds /\
  forall i d, nth_error ds i = Some d -> d_ax d <> vzero -> exists P k c, nth_error out i = Some P /\
    unit3 k /\ 0 < c /\ k = vscale c (d_ax d) /\
    rotp P = m3mul (axis_and_angle_to_matrix_33 k (d_th d * rs)) (rotp A) /\ trp P = vadd (trp A) (vscale ts (d_t d)).
Proof. exact l38_drawn_axis. Qed.
Print Assumptions C38_drawn_axis.
(** batches of transforms: one transform, or as many as perturbations; anything else is an error *)
Theorem C38_batches : forall l rs ts axis perp ds,
  (forall A, sample_perturbations (inr [A]) rs ts axis perp ds = sample_perturbations (inl A) rs ts axis perp ds) /\
  (length l <> 1%nat -> length l <> length ds -> sample_perturbations (inr l) rs ts axis perp ds = Err RuntimeError) /\
  (length l = length ds -> exists out, sample_perturbations (inr l) rs ts axis perp ds = Ok out /\ length out = length ds /\
     forall i A d, nth_error l i = Some A -> nth_error ds i = Some d -> exists P, nth_error out i = Some P /\
       sample_perturbations (inl A) rs ts axis perp [d] = Ok [P]) /\
  (forall A, transform_sample_perturbations [A] rs ts ds = sample_perturbations (inl A) rs ts None true ds) /\
  (length l <> 1%nat -> transform_sample_perturbations l rs ts ds = sample_perturbations (inr l) rs ts None true ds).
Proof. exact l38_batches. Qed.
Print Assumptions C38_batches.
(** an axis that is not of unit length gives a result that is not rigid *)
Theorem C38_axis_length_refuted : exists a d P, a <> vzero /\
  sample_perturbations (inl I4) 1 1 (Some a) true [d] = Ok [P] /\ ~ is_rigid P.
Proof. exact l38_axis_length_refuted. Qed.
Print Assumptions C38_axis_length_refuted.
Example C38_ex : exists P, sample_perturbations (inl I4) 1 1 (Some (mkV3 0 0 1)) true [mkDraw (mkV3 1 2 3) PI vzero] = Ok [P] /\
  is_rigid P /\ trp P = mkV3 1 2 0.
Proof.
  assert (U : unit3 (mkV3 0 0 1)) by (unfold unit3, vnorm2, vdot; cbn [vx vy vz]; ring).
  eexists. split; [reflexivity|]. split.
  - apply perturb_rigid; [apply is_rigid_I | intros a E; assert (Ea : a = mkV3 0 0 1) by congruence; rewrite Ea; exact U | discriminate].
  - destruct (perturb_axis I4 1 1 (mkV3 0 0 1) true (mkDraw (mkV3 1 2 3) PI vzero) U) as (_ & E & _). rewrite E. cbn [d_t].
    unfold trp, I4, vadd, vsub, vscale, vdot; cbn. apply mkV3_eq; ring.
Qed.
