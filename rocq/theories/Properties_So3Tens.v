(** C95: the exponential, the logarithm and the angles of rotations as tensor programs. *)
From Coq Require Import Reals Lra Bool Arith Lia List.
From Verif Require Import Prelude ExtF Lin Trig RotModel AxisAngle MathModel So3Proofs So3More MathFinal TorchModel RotTorchModel SpecTorch TorchProofs RotTorch IkTorch So3TorchModel So3Torch.
From Verif Require Import So3TensFinal.
Import ListNotations.
Local Open Scope nat_scope.


(** The skew-symmetric matrices of a batch: the matrix of every row multiplies as the cross product with the vector of the row, and the inverse operation gives the batch back; one matrix that is not skew-symmetric within the tolerance makes the inverse operation fail for the whole batch. *)
Theorem C95_hat : forall (v : tensor R) N, shape v = [3; N] -> exists t, hat_t v = Ok t /\ shape t = [3; 3; N] /\
  (forall r w, r < N -> m3vec (m3_at t [r]) w = vcross (v_at v [r]) w) /\
  (N <> 0 -> exists b, hat_inv_t t = Ok b /\ shape b = [3; N] /\ forall r, r < N -> v_at b [r] = v_at v [r]).
Proof. exact l95_hat. Qed.
Print Assumptions C95_hat.
Theorem C95_hat_inv_rejects : forall (h : tensor R) N r e, shape h = [3; 3; N] -> r < N -> In e [m00; m01; m02; m10; m11; m12; m20; m21; m22] ->
  (hat_tol < Rabs (e (m3add (m3_at h [r]) (m3tr (m3_at h [r])))))%R -> hat_inv_t h = Err ValueError.
Proof. exact l95_hat_inv_rejects. Qed.
Print Assumptions C95_hat_inv_rejects.
Example C95_hat_ex : exists t, hat_t ex_v = Ok t /\ m3vec (m3_at t [0]) (mkV3 1 0 0) = mkV3 0 (PI / 2) 0.
Proof.
  destruct (C95_hat ex_v 1 eq_refl) as (t & E & _ & H & _). exists t. split; [exact E|]. rewrite (H 0 _ ltac:(lia)). rewrite (proj1 ex_v_norm). unfold vcross; cbn [vx vy vz]. apply eqV; cbn [vx vy vz]; ring.
Qed.
(** The exponential of a batch: at or above the clamp, every row is the rotation about its vector by the length of the vector; with the default clamp every shorter row is within 1e-6 of it in every entry. *)
Theorem C95_exp : forall (v : tensor R) N eps, shape v = [3; N] -> (0 < eps)%R ->
  exists out, so3_exp_map_t v eps = Ok out /\ shape out = [3; 3; N] /\ forall r, r < N -> let w := v_at v [r] in exists k, unit3 k /\ w = vscale (vnorm w) k /\
    ((eps <= vnorm2 w)%R -> m3_at out [r] = axis_and_angle_to_matrix_33 k (vnorm w) /\ is_rot (m3_at out [r]) /\ m3vec (m3_at out [r]) w = w) /\
    (eps = eps4 -> (vnorm2 w < eps)%R -> forall e, In e [m00; m01; m02; m10; m11; m12; m20; m21; m22] -> (Rabs (e (m3_at out [r]) - e (axis_and_angle_to_matrix_33 k (vnorm w))) <= / 1000000)%R).
Proof. exact l95_exp. Qed.
Print Assumptions C95_exp.
(** The logarithm of a batch of rotations: every row is the logarithm of that rotation alone; away from the identity and from half turns the exponential of the result gives the batch back, row by row. *)
Theorem C95_log : forall (m : tensor R) N e eps, shape m = [3; 3; N] -> N <> 0 -> (forall r, r < N -> is_rot (m3_at m [r])) -> (e <= 1 / 100)%R -> (0 < eps <= eps4)%R ->
  exists out back, so3_log_map_t m e = Ok out /\ shape out = [3; N] /\ so3_exp_map_t out eps = Ok back /\ shape back = [3; 3; N] /\
    forall r, r < N -> (-1 + 2 * eps4 <= trace3 (m3_at m [r]) <= 3 - 2 * eps4)%R -> m3_at back [r] = m3_at m [r] /\ trace3 (m3_at m [r]) = (1 + 2 * cos (vnorm (v_at out [r])))%R.
Proof. exact l95_log. Qed.
Print Assumptions C95_log.
(** The other way round: the logarithm of the exponential is the batch of vectors, for vectors shorter than a half turn and away from zero. *)
Theorem C95_log_exp : forall (v : tensor R) N e eps, shape v = [3; N] -> N <> 0 -> (0 < eps <= eps4)%R -> (e <= 1 / 100)%R ->
  (forall r, r < N -> (eps <= vnorm2 (v_at v [r]))%R /\ (vnorm (v_at v [r]) < PI)%R /\ (Rabs (cos (vnorm (v_at v [r]))) <= 1 - eps4)%R) ->
  exists m out, so3_exp_map_t v eps = Ok m /\ so3_log_map_t m e = Ok out /\ shape out = [3; N] /\ forall r, r < N -> v_at out [r] = v_at v [r].
Proof. exact l95_log_exp. Qed.
Print Assumptions C95_log_exp.
Example C95_maps_ex : exists m out, so3_exp_map_t ex_v eps4 = Ok m /\ so3_log_map_t m eps4 = Ok out /\ v_at out [0] = mkV3 0 0 (PI / 2).
Proof.
  pose proof PI_RGT_0. pose proof PI2_1. destruct ex_v_norm as (V & N2 & N1). destruct (C95_log_exp ex_v 1 eps4 eps4 eq_refl ltac:(lia)) as (m & out & Em & Eo & _ & H1); [unfold eps4; lra | unfold eps4; lra | |].
  - intros r L. replace r with 0 by lia. rewrite N2, N1, cos_PI2, Rabs_R0. unfold eps4. split; [nra | split; lra].
  - exists m, out. split; [exact Em|]. split; [exact Eo|]. rewrite (H1 0 ltac:(lia)). exact V.
Qed.
(** Relative angles of two batches of rotations: every entry is within 0.015 of the angle between the two rotations of its row, and equal to it away from zero and from half turns. *)
Theorem C95_relative_angles : forall (A B : tensor R) N, shape A = [3; 3; N] -> shape B = [3; 3; N] -> (forall r, r < N -> is_rot (m3_at A [r]) /\ is_rot (m3_at B [r])) ->
  exists out, so3_relative_angle_t A B = Ok out /\ shape out = [N] /\ forall r, r < N -> exists k t, unit3 k /\ (0 <= t <= PI)%R /\ m3mul (m3_at A [r]) (m3tr (m3_at B [r])) = axis_and_angle_to_matrix_33 k t /\
    (Rabs (at_ out [r] - t) <= 15 / 1000)%R /\ ((Rabs (cos t) <= 1 - eps4)%R -> at_ out [r] = t).
Proof. exact l95_relative_angles. Qed.
Print Assumptions C95_relative_angles.
Example C95_relative_ex : exists out, so3_relative_angle_t (mkT [3; 3; 1] (fun i => if nth 0 i 0 =? nth 1 i 0 then 1%R else 0%R)) (mkT [3; 3; 1] (fun i => if nth 0 i 0 =? nth 1 i 0 then 1%R else 0%R)) = Ok out /\ shape out = [1].
Proof.
  destruct (C95_relative_angles (mkT [3; 3; 1] (fun i => if nth 0 i 0 =? nth 1 i 0 then 1%R else 0%R)) (mkT [3; 3; 1] (fun i => if nth 0 i 0 =? nth 1 i 0 then 1%R else 0%R)) 1 eq_refl eq_refl) as (out & E & S & _).
  - intros r L. change (m3_at (mkT [3; 3; 1] (fun i => if nth 0 i 0 =? nth 1 i 0 then 1%R else 0%R)) [r]) with I3. split; (split; [unfold m3mul, m3tr, I3; cbn [m00 m01 m02 m10 m11 m12 m20 m21 m22]; apply mkM3_eq; ring | unfold det3, I3; cbn [m00 m01 m02 m10 m11 m12 m20 m21 m22]; ring]).
  - exists out. auto.
Qed.
(** One matrix with a trace out of range makes the whole batch fail with ValueError; the logarithm and [hat_inv] of an empty batch fail with RuntimeError; other shapes fail with ValueError. *)
Theorem C95_rejects : forall (m : tensor R) e, (forall N r, shape m = [3; 3; N] -> r < N -> (trace3 (m3_at m [r]) < -1 - eps4 \/ 3 + eps4 < trace3 (m3_at m [r]))%R -> so3_rotation_angle_t m eps4 eps4 = Err ValueError /\ so3_log_map_t m e = Err ValueError) /\
  (shape m = [3; 3; 0] -> so3_log_map_t m e = Err RuntimeError /\ hat_inv_t m = Err RuntimeError) /\
  ((forall N, shape m <> [3; 3; N]) -> so3_log_map_t m e = Err ValueError /\ so3_rotation_angle_t m eps4 eps4 = Err ValueError /\ hat_inv_t m = Err ValueError) /\
  ((forall N, shape m <> [3; N]) -> so3_exp_map_t m e = Err ValueError /\ hat_t m = Err ValueError).
Proof. exact l95_rejects. Qed.
Print Assumptions C95_rejects.
Example C95_rejects_ex : so3_log_map_t (mkT [3; 3; 2] (fun i => Rmult 2 (INR (nth 2 i 0)))) eps4 = Err ValueError /\ so3_log_map_t (mkT [3; 3; 0] (fun _ => 0%R)) eps4 = Err RuntimeError.
Proof.
  split; [|exact (proj1 (proj1 (proj2 (C95_rejects (mkT [3; 3; 0] (fun _ => 0%R)) eps4)) eq_refl))].
  refine (proj2 (proj1 (C95_rejects (mkT [3; 3; 2] (fun i => Rmult 2 (INR (nth 2 i 0)))) eps4) 2 1 eq_refl ltac:(lia) _)).
  right. unfold trace3, m3_at, eps4. cbn [at_ nth app m00 m11 m22 INR]. lra.
Qed.
