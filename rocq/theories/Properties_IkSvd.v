(** C93: the inverse kinematics step by singular values as a tensor program. *)
From Coq Require Import Reals Lra Bool Arith Lia List.
From Verif Require Import Prelude ExtF Lin RotModel TorchModel RotTorchModel SpecTorch SpecFkTorch SpecIkTorch SpecIkSvd TorchProofs RotTorch JacModel IKKernel KernelProofs DeltaPose IKModel IKSolve FkTorchModel FkTorch FkTensFinal IkTorchModel IkTorch IkTorchStep IkTorchIter IkTensFinal IkSvdTorchModel IkSvdTorch.
From Verif Require Import IkSvdFinal.
Import ListNotations.
Local Open Scope nat_scope.


(** With six joints or more the step by singular values gives, for every row of the batch, the errors and the joint velocities of the direct step, whichever decomposition is used: N problems with M
    retries, with or without weights and damping. *)
Theorem C93_svd_step_is_direct_step : forall svd (m target_pos target_wxyz J : tensor R) N M K n reg lm w, shape m = [4; 4; N * M] -> 0 < M -> shape target_pos = [3; K] -> shape target_wxyz = [4; K] -> K = N \/ K = 1 ->
  shape J = [n; 6; N * M] -> (forall t, w = Some t -> shape t = [6]) -> (0 < reg)%R -> (0 <= lm)%R -> 6 <= n -> (forall A, weighted n (N * M) w J A -> decomposes n (N * M) A (svd A)) ->
  (forall r, r < N * M -> exists p v, delta_pose (m4_at m [r]) (v_at target_pos [target_of K M r]) (q_at target_wxyz [target_of K M r]) = (p, fin3 v)) ->
  exists dq dq' dx, ik_step_t m target_pos target_wxyz J (reg_t reg) M lm w = Ok (dq, dx) /\ ik_step_svd_t svd m target_pos target_wxyz J (reg_t reg) M lm w = Ok (dq', dx) /\
    shape dq' = [1; n; N * M] /\ shape dq = [1; n; N * M] /\ forall j r, j < n -> r < N * M -> at_ dq' [0; j; r] = at_ dq [0; j; r].
Proof. exact l93_svd_step_is_direct_step. Qed.
Print Assumptions C93_svd_step_is_direct_step.
(** one pose a distance of two from its target, six joints moving one coordinate each *)
Example C93_direct_ex : exists dq dq' dx, ik_step_t (m4_tensor [ex_m 1]) (v3_tensor [mkV3 3 0 0]) (q_tensor [qone]) six_id (reg_t 1) 1 0 None = Ok (dq, dx) /\
  ik_step_svd_t id_svd (m4_tensor [ex_m 1]) (v3_tensor [mkV3 3 0 0]) (q_tensor [qone]) six_id (reg_t 1) 1 0 None = Ok (dq', dx) /\ at_ dq' [0; 2; 0] = at_ dq [0; 2; 0].
Proof.
  destruct (C93_svd_step_is_direct_step id_svd (m4_tensor [ex_m 1]) (v3_tensor [mkV3 3 0 0]) (q_tensor [qone]) six_id 1 1 1 6 1 0 None eq_refl ltac:(lia) eq_refl eq_refl (or_introl eq_refl) eq_refl ltac:(intros t Ht; discriminate Ht) ltac:(lra) ltac:(lra) ltac:(lia) id_decomposes) as (dq & dq' & dx & E1 & E2 & _ & _ & H).
  { intros r L. replace r with 0 by lia. eexists _, _. exact ex_delta. }
  exists dq, dq', dx. split; [exact E1|]. split; [exact E2|]. apply H; lia.
Qed.

(** The joint velocity by singular values minimises, in each row, the weighted error left plus the damping, and is the only one to do so. *)
Theorem C93_svd_step_is_damped_least_squares : forall svd (dx J : tensor R) n B reg lm w, shape dx = [1; 6; B] -> shape J = [n; 6; B] -> (forall t, w = Some t -> shape t = [6]) -> (0 < reg)%R -> (0 <= lm)%R -> 6 <= n ->
  (forall A, weighted n B w J A -> decomposes n B A (svd A)) ->
  exists dq, dls_svd_t svd dx J (reg_t reg) lm w = Ok dq /\ shape dq = [1; n; B] /\ forall r z, r < B ->
    let cost := damped_cost dx J n r reg lm w in (cost (fun j => at_ dq [0; j; r]%nat) <= cost z)%R /\ ((cost z <= cost (fun j => at_ dq [0; j; r]%nat))%R -> forall j, j < n -> z j = at_ dq [0; j; r]).
Proof. exact l93_svd_step_is_damped_least_squares. Qed.
Print Assumptions C93_svd_step_is_damped_least_squares.
(** six joints moving one coordinate each, an error of two in the first, regularisation one: half the error is taken *)
Example C93_svd_ex : exists dq, dls_svd_t id_svd (mkT [1; 6; 1] (fun i => if nth 1 i 0 =? 0 then 2%R else 0%R)) six_id (reg_t 1) 0 None = Ok dq /\ at_ dq [0; 0; 0] = 1%R /\ at_ dq [0; 5; 0] = 0%R.
Proof.
  destruct (C93_svd_step_is_damped_least_squares id_svd (mkT [1; 6; 1] (fun i => if nth 1 i 0 =? 0 then 2%R else 0%R)) six_id 6 1 1 0 None eq_refl eq_refl ltac:(intros t Ht; discriminate Ht) ltac:(lra) ltac:(lra) ltac:(lia) id_decomposes) as (dq & E & _ & H).
  exists dq. split; [exact E|]. destruct (H 0 (fun j => if j =? 0 then 1%R else 0%R) ltac:(lia)) as (H1 & H2). cbv zeta in H1, H2. unfold damped_cost, total, weight_at in H1, H2. cbn [seq map fold_right at_ nth Nat.eqb six_id] in H1, H2.
  set (a := at_ dq [0; 0; 0]) in *. set (b := at_ dq [0; 1; 0]) in *. set (c := at_ dq [0; 2; 0]) in *. set (d := at_ dq [0; 3; 0]) in *. set (e := at_ dq [0; 4; 0]) in *. set (f := at_ dq [0; 5; 0]) in *.
  assert (K : forall x y, (2 * (x - y) ^ 2 <= 0 -> x = y)%R) by (intros x y Q; pose proof (Rle_0_sqr (x - y)) as Z; unfold Rsqr in Z; assert (Z2 : ((x - y) * (x - y) = 0)%R) by lra; apply Rmult_integral in Z2; lra).
  pose proof (pow2_ge_0 (a - 1)) as A1. pose proof (pow2_ge_0 b) as A2. pose proof (pow2_ge_0 c) as A3. pose proof (pow2_ge_0 d) as A4. pose proof (pow2_ge_0 e) as A5. pose proof (pow2_ge_0 f) as A6.
  split; apply K; lra.
Qed.

(** With fewer than six joints the step by singular values raises RuntimeError for every batch, whichever decomposition is used: the six by six factor is not cut to the number of singular values. *)
Theorem C93_svd_step_needs_six_joints : forall svd (m target_pos target_wxyz J : tensor R) N M K n reg lm w, shape m = [4; 4; N * M] -> 0 < M -> shape target_pos = [3; K] -> shape target_wxyz = [4; K] -> K = N \/ K = 1 ->
  shape J = [n; 6; N * M] -> (forall t, w = Some t -> shape t = [6]) -> (forall A, weighted n (N * M) w J A -> decomposes n (N * M) A (svd A)) ->
  (forall r, r < N * M -> exists p v, delta_pose (m4_at m [r]) (v_at target_pos [target_of K M r]) (q_at target_wxyz [target_of K M r]) = (p, fin3 v)) ->
  n < 6 -> ik_step_svd_t svd m target_pos target_wxyz J (reg_t reg) M lm w = Err RuntimeError.
Proof. exact l93_svd_step_needs_six_joints. Qed.
Print Assumptions C93_svd_step_needs_six_joints.
(** one joint along the first coordinate *)
Example C93_one_joint_ex : ik_step_svd_t one_svd (m4_tensor [ex_m 1]) (v3_tensor [mkV3 3 0 0]) (q_tensor [qone]) one_col (reg_t 1) 1 0 None = Err RuntimeError.
Proof.
  apply (C93_svd_step_needs_six_joints one_svd (m4_tensor [ex_m 1]) (v3_tensor [mkV3 3 0 0]) (q_tensor [qone]) one_col 1 1 1 1 1 0 None eq_refl ltac:(lia) eq_refl eq_refl (or_introl eq_refl) eq_refl ltac:(intros t Ht; discriminate Ht) one_decomposes); [|lia].
  intros r L. replace r with 0 by lia. eexists _, _. exact ex_delta.
Qed.
