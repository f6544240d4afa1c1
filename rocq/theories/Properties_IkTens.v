(** C91: the pose error and the damped step of the inverse kinematics solver as tensor programs act row by row. *)
From Coq Require Import Reals Lra String Bool Arith Lia List.
From Verif Require Import Prelude ExtF Lin Trig RotModel RotBasic QuatProofs TorchModel RotTorchModel SpecTorch SpecFkTorch SpecIkTorch TorchProofs RotTorch Tree ChainModel SpecFK ChainProofs ChainTables ChainInst Input FKMore SerialModel SerialProofs SerialMore Deriv JacModel JacProofs JacMore
  IKKernel KernelProofs DeltaPose IKModel IKSolve SolveProofs Examples FKFinal FkTorchModel FkTorch FkTorchJac FkTensFinal IkTorchModel IkTorch IkTorchStep IkTorchIter.
From Verif Require Import IkTensFinal.
Import ListNotations.
Local Open Scope nat_scope.
Local Open Scope list_scope.



(** Poses of N problems with M retries each, a target for each problem or one for all: row [r] of the two error tensors is the error of pose [r] against
    the target of problem r / M. *)
Theorem C91_error_is_rowwise : forall (m target_pos target_wxyz : tensor R) N M K, shape m = [4; 4; N * M] -> 0 < M -> shape target_pos = [3; K] -> shape target_wxyz = [4; K] -> K = N \/ K = 1 ->
  exists P D, pose_error_t m target_pos target_wxyz M = (Ok P, Ok D) /\ shape P = [1; 3; N * M] /\ shape D = [1; 3; N * M] /\
    forall r, r < N * M -> delta_pose (m4_at m [r]) (v_at target_pos [target_of K M r]) (q_at target_wxyz [target_of K M r]) =
      (mkV3 (at_ P [0; 0; r]) (at_ P [0; 1; r]) (at_ P [0; 2; r]), mkF3 (at_ D [0; 0; r]) (at_ D [0; 1; r]) (at_ D [0; 2; r])).
Proof. exact l91_error_is_rowwise. Qed.
Print Assumptions C91_error_is_rowwise.
(** two problems with two retries each: the last row is measured against the second target *)
Example C91_error_ex : exists P D, pose_error_t (m4_tensor [ex_m 1; ex_m 2; ex_m 3; ex_m 4]) (v3_tensor [mkV3 10 0 0; mkV3 20 1 0]) (q_tensor [qone; qone]) 2 = (Ok P, Ok D) /\ shape P = [1; 3; 4] /\
  at_ P [0; 0; 1] = 8%R /\ at_ P [0; 0; 2] = 17%R /\ at_ P [0; 0; 3] = 16%R /\ at_ P [0; 1; 3] = 1%R.
Proof.
  destruct (C91_error_is_rowwise (m4_tensor [ex_m 1; ex_m 2; ex_m 3; ex_m 4]) (v3_tensor [mkV3 10 0 0; mkV3 20 1 0]) (q_tensor [qone; qone]) 2 2 2 eq_refl ltac:(lia) eq_refl eq_refl (or_introl eq_refl)) as (P & D & E & SP & _ & H).
  exists P, D. split; [exact E|]. split; [exact SP|].
  assert (G : forall r, r < 4 -> vsub (v_at (v3_tensor [mkV3 10 0 0; mkV3 20 1 0]) [r / 2]) (trp (m4_at (m4_tensor [ex_m 1; ex_m 2; ex_m 3; ex_m 4]) [r])) = mkV3 (at_ P [0; 0; r]) (at_ P [0; 1; r]) (at_ P [0; 2; r])).
  { intros r L. exact (f_equal fst (H r L)). }
  pose proof (f_equal vx (G 1 ltac:(lia))) as G1. pose proof (f_equal vx (G 2 ltac:(lia))) as G2. pose proof (f_equal vx (G 3 ltac:(lia))) as G3. pose proof (f_equal vy (G 3 ltac:(lia))) as G4.
  clear H G E. destruct P as [sp ap]. cbn [at_]. cbv [vsub v_at trp m4_at v3_tensor m4_tensor ex_m aff at_ nth Nat.div Nat.divmod fst snd vx vy vz a03 a13 a23] in G1, G2, G3, G4. split; [lra|]. split; [lra|]. split; lra.
Qed.

(** For rigid poses and unit target quaternions the error is finite: the difference of the positions, and a vector of the length of the angle [a] between the
    orientations (up to a^5/960), which is zero exactly if they agree. *)
Theorem C91_error_measures_the_pose : forall (m target_pos target_wxyz : tensor R) N M K, shape m = [4; 4; N * M] -> 0 < M -> shape target_pos = [3; K] -> shape target_wxyz = [4; K] -> K = N \/ K = 1 ->
  (forall r, r < N * M -> is_rot (rotp (m4_at m [r]))) -> (forall k, k < K -> qnorm2 (q_at target_wxyz [k]) = 1%R) ->
  exists dx, (let e := pose_error_t m target_pos target_wxyz M in cat2 (fst e) (finite3 (snd e))) = Ok dx /\ shape dx = [1; 6; N * M] /\
    forall r, r < N * M -> let k := target_of K M r in fst (col_at dx r 0) = vsub (v_at target_pos [k]) (trp (m4_at m [r])) /\
      exists a, (0 <= a <= PI)%R /\ trace3 (m3mul (quaternion_to_matrix (q_at target_wxyz [k])) (m3tr (rotp (m4_at m [r])))) = (1 + 2 * cos a)%R /\
        (a <= vnorm (snd (col_at dx r 0)) <= a + a ^ 5 / 960)%R /\ (snd (col_at dx r 0) = vzero <-> rotp (m4_at m [r]) = quaternion_to_matrix (q_at target_wxyz [k])).
Proof. exact l91_error_measures_the_pose. Qed.
Print Assumptions C91_error_measures_the_pose.
Example C91_measure_ex : exists dx, (let e := pose_error_t (m4_tensor [ex_m 1; ex_m 2; ex_m 3; ex_m 4]) (v3_tensor [mkV3 10 0 0; mkV3 20 1 0]) (q_tensor [qone; qone]) 2 in cat2 (fst e) (finite3 (snd e))) = Ok dx /\
  col_at dx 3 0 = (mkV3 16 1 0, vzero).
Proof.
  assert (Em : forall r, r < 4 -> rotp (m4_at (m4_tensor [ex_m 1; ex_m 2; ex_m 3; ex_m 4]) [r]) = I3) by (intros r L; destruct r as [|[|[|[|r]]]]; [reflexivity..|lia]).
  assert (Eq : forall k, k < 2 -> q_at (q_tensor [qone; qone]) [k] = qone) by (intros k L; destruct k as [|[|k]]; [reflexivity..|lia]).
  destruct (C91_error_measures_the_pose (m4_tensor [ex_m 1; ex_m 2; ex_m 3; ex_m 4]) (v3_tensor [mkV3 10 0 0; mkV3 20 1 0]) (q_tensor [qone; qone]) 2 2 2 eq_refl ltac:(lia) eq_refl eq_refl (or_introl eq_refl)) as (dx & E & _ & H).
  - intros r L. rewrite (Em r L). apply is_rot_I.
  - intros k L. rewrite (Eq k L). exact one_norm.
  - exists dx. split; [exact E|]. destruct (H 3 ltac:(lia)) as (H1 & a & _ & _ & _ & H2). cbv zeta in H1, H2. rewrite (surjective_pairing (col_at dx 3 0)). f_equal.
    + rewrite H1. cbv [vsub v_at trp m4_at v3_tensor m4_tensor ex_m aff at_ nth Nat.div Nat.divmod Nat.eqb target_of fst snd vx vy vz a03 a13 a23]. apply eqV; ring.
    + apply H2. rewrite (Em 3) by lia. change (target_of 2 2 3) with 1. rewrite (Eq 1) by lia. symmetry. exact q_one.
Qed.

(** A number of targets that is neither one nor the number of problems is refused, and so is a number of retries that does not divide the number of poses. *)
Theorem C91_wrong_sizes : forall (m target_pos target_wxyz : tensor R) M,
  (forall N K, shape m = [4; 4; N * M] -> 0 < M -> shape target_pos = [3; K] -> K <> N -> K <> 1 -> N <> 1 -> fst (pose_error_t m target_pos target_wxyz M) = Err RuntimeError) /\
  (forall B, shape m = [4; 4; B] -> 0 < M -> B mod M <> 0 -> pose_error_t m target_pos target_wxyz M = (Err RuntimeError, Err RuntimeError)).
Proof. exact l91_wrong_sizes. Qed.
Print Assumptions C91_wrong_sizes.
Example C91_wrong_sizes_ex : fst (pose_error_t (m4_tensor [I4; I4]) (v3_tensor [vzero; vzero; vzero]) (q_tensor [qone; qone; qone]) 1) = Err RuntimeError /\
  pose_error_t (m4_tensor [I4; I4; I4]) (v3_tensor [vzero]) (q_tensor [qone]) 2 = (Err RuntimeError, Err RuntimeError).
Proof. split; [apply (proj1 (C91_wrong_sizes _ _ _ 1) 2 3); (reflexivity || lia) | apply (proj2 (C91_wrong_sizes _ _ _ 2) 3); (reflexivity || (cbn; lia))]. Qed.

(** ... but not always: with one problem, any number K of targets is taken, and the error has K rows for the single pose. *)
Theorem C91_number_of_targets_is_checked_refuted : forall (m target_pos target_wxyz : tensor R) M K, shape m = [4; 4; M] -> 0 < M -> shape target_pos = [3; K] ->
  exists P, fst (pose_error_t m target_pos target_wxyz M) = Ok P /\ shape P = [1; 3; K * M].
Proof. exact l91_number_of_targets_is_checked_refuted. Qed.
Print Assumptions C91_number_of_targets_is_checked_refuted.
Example C91_number_of_targets_ex : exists P, fst (pose_error_t (m4_tensor [I4]) (v3_tensor [vzero; vzero; vzero]) (q_tensor [qone; qone; qone]) 1) = Ok P /\ shape P = [1; 3; 3].
Proof. apply (C91_number_of_targets_is_checked_refuted _ _ _ 1 3); (reflexivity || lia). Qed.

(** The whole step: if each row has a finite error and a step, these are the rows of the two results. *)
Theorem C91_step_is_rowwise : forall (m target_pos target_wxyz J : tensor R) N M K n reg lm w, shape m = [4; 4; N * M] -> 0 < M -> shape target_pos = [3; K] -> shape target_wxyz = [4; K] -> K = N \/ K = 1 ->
  shape J = [n; 6; N * M] -> (forall t, w = Some t -> shape t = [6]) ->
  let error r := delta_pose (m4_at m [r]) (v_at target_pos [target_of K M r]) (q_at target_wxyz [target_of K M r]) in
  let step r e := ik_step (map (col_at J r) (seq 0 n)) e reg lm (option_map (fun t i => at_ t [i]) w) in
  (forall r, r < N * M -> exists p v l, error r = (p, fin3 v) /\ step r (p, v) = Ok l) ->
  exists dq dx, ik_step_t m target_pos target_wxyz J (reg_t reg) M lm w = Ok (dq, dx) /\ shape dq = [1; n; N * M] /\ shape dx = [1; 6; N * M] /\
    forall r p v l, r < N * M -> error r = (p, fin3 v) -> step r (p, v) = Ok l -> col_at dx r 0 = (p, v) /\ map (fun j => at_ dq [0; j; r]) (seq 0 n) = l.
Proof. exact l91_step_is_rowwise. Qed.
Print Assumptions C91_step_is_rowwise.
(** one pose a distance of two from its target, one joint along that direction, regularisation one *)
Example C91_step_ex : exists dq dx, ik_step_t (m4_tensor [ex_m 1]) (v3_tensor [mkV3 3 0 0]) (q_tensor [qone]) (mkT [1; 6; 1] (fun i => if nth 1 i 0 =? 0 then 1%R else 0%R)) (reg_t 1) 1 0 None = Ok (dq, dx) /\
  col_at dx 0 0 = (mkV3 2 0 0, vzero) /\ at_ dq [0; 0; 0] = 1%R.
Proof.
  set (J := mkT [1; 6; 1] (fun i => if nth 1 i 0 =? 0 then 1%R else 0%R)).
  assert (E2 : vsub (mkV3 3 0 0) (mkV3 1 0 0) = mkV3 2 0 0) by (unfold vsub; cbn [vx vy vz]; apply eqV; ring).
  assert (D : delta_pose (m4_at (m4_tensor [ex_m 1]) [0]) (v_at (v3_tensor [mkV3 3 0 0]) [0]) (q_at (q_tensor [qone]) [0]) = (mkV3 2 0 0, fin3 vzero)) by (rewrite <- E2; exact ex_delta).
  destruct (ik_step_eq (map (col_at J 0) (seq 0 1)) (mkV3 2 0 0, vzero) 1 0 None ltac:(lra) ltac:(lra)) as (x & Hx & El).
  destruct (C91_step_is_rowwise (m4_tensor [ex_m 1]) (v3_tensor [mkV3 3 0 0]) (q_tensor [qone]) J 1 1 1 1 1 0 None eq_refl ltac:(lia) eq_refl eq_refl (or_introl eq_refl) eq_refl ltac:(intros t Ht; discriminate Ht)) as (dq & dx & E & _ & _ & H).
  { intros r L. replace r with 0 by lia. eexists _, _, _. split; [exact D | exact El]. }
  exists dq, dx. split; [exact E|]. destruct (H 0 _ _ _ ltac:(lia) D El) as (H1 & H2). split; [exact H1|].
  apply (f_equal (fun l => nth 0 l 0%R)) in H2. specialize (Hx 0 ltac:(lia)). unfold gram, damping, jt, jac_w, weigh in *. replace (Rltb 0 0) with false in * by (symmetry; apply Rltb_false; lra).
  cbn [seq map List.length nth IKKernel.rsum Nat.eqb six fst snd vx vy vz col_at J at_ vzero] in Hx, H2. lra.
Qed.

(** One row without a finite error, or with a singular system, and the call as a whole fails. *)
Theorem C91_step_fails_with_a_row : forall (m target_pos target_wxyz J : tensor R) N M K n reg lm w, shape m = [4; 4; N * M] -> 0 < M -> shape target_pos = [3; K] -> shape target_wxyz = [4; K] -> K = N \/ K = 1 ->
  shape J = [n; 6; N * M] -> (forall t, w = Some t -> shape t = [6]) ->
  let error r := delta_pose (m4_at m [r]) (v_at target_pos [target_of K M r]) (q_at target_wxyz [target_of K M r]) in
  let step r e := ik_step (map (col_at J r) (seq 0 n)) e reg lm (option_map (fun t i => at_ t [i]) w) in
  let result := ik_step_t m target_pos target_wxyz J (reg_t reg) M lm w in
  (forall r, r < N * M -> (forall v, snd (error r) <> fin3 v) -> result = Err ValueError) /\
  (forall r p v x, (forall r, r < N * M -> exists p v, error r = (p, fin3 v)) -> r < N * M -> error r = (p, fin3 v) -> step r (p, v) = Err x -> result = Err RuntimeError).
Proof. exact l91_step_fails_with_a_row. Qed.
Print Assumptions C91_step_fails_with_a_row.
(** without regularisation and with a Jacobian of zeros the system is singular *)
Example C91_singular_ex : ik_step_t (m4_tensor [ex_m 1]) (v3_tensor [mkV3 3 0 0]) (q_tensor [qone]) (mkT [1; 6; 1] (fun _ => 0%R)) (reg_t 0) 1 0 None = Err RuntimeError.
Proof.
  pose proof ex_delta as D.
  destruct (C91_step_fails_with_a_row (m4_tensor [ex_m 1]) (v3_tensor [mkV3 3 0 0]) (q_tensor [qone]) (mkT [1; 6; 1] (fun _ => 0%R)) 1 1 1 1 0 0 None eq_refl ltac:(lia) eq_refl eq_refl (or_introl eq_refl) eq_refl ltac:(intros t Ht; discriminate Ht)) as (_ & H).
  apply (H 0 (vsub (mkV3 3 0 0) (mkV3 1 0 0)) vzero RuntimeError); [| lia | exact D |].
  - intros r L. replace r with 0 by lia. eexists _, _. exact D.
  - unfold ik_step. cbv zeta. cbn [seq map List.length lin_solve]. replace (Reqb _ 0) with true; [reflexivity|]. symmetry. unfold Reqb. destruct (Req_EM_T _ 0%R) as [|Ne]; [reflexivity|]. exfalso. apply Ne.
    unfold damping, jac_w, weigh. cbn [IKKernel.rsum nth option_map col_at at_ six fst snd vx vy vz Nat.eqb]. replace (Rltb 0 0) with false by (symmetry; apply Rltb_false; lra). ring.
Qed.

(** With positive regularisation and a damping that is not negative the step always exists, and each row of it is the only joint velocity of least damped cost. *)
Theorem C91_step_is_damped_least_squares : forall (dx J : tensor R) n B reg lm w, shape dx = [1; 6; B] -> shape J = [n; 6; B] -> (forall t, w = Some t -> shape t = [6]) -> (0 < reg)%R -> (0 <= lm)%R ->
  exists dq, dls_t dx J (reg_t reg) lm w = Ok dq /\ shape dq = [1; n; B] /\
    forall r z, r < B -> let best j := at_ dq [0; j; r] in (damped_cost dx J n r reg lm w best <= damped_cost dx J n r reg lm w z)%R /\
      ((damped_cost dx J n r reg lm w z <= damped_cost dx J n r reg lm w best)%R -> forall j, j < n -> z j = best j).
Proof. exact l91_step_is_damped_least_squares. Qed.
Print Assumptions C91_step_is_damped_least_squares.
(** one joint along the first coordinate, an error of two, regularisation one: half the error is taken *)
Example C91_least_squares_ex : exists dq, dls_t (mkT [1; 6; 1] (fun i => if nth 1 i 0 =? 0 then 2%R else 0%R)) (mkT [1; 6; 1] (fun i => if nth 1 i 0 =? 0 then 1%R else 0%R)) (reg_t 1) 0 None = Ok dq /\ at_ dq [0; 0; 0] = 1%R.
Proof.
  destruct (C91_step_is_damped_least_squares (mkT [1; 6; 1] (fun i => if nth 1 i 0 =? 0 then 2%R else 0%R)) (mkT [1; 6; 1] (fun i => if nth 1 i 0 =? 0 then 1%R else 0%R)) 1 1 1 0 None eq_refl eq_refl ltac:(intros t Ht; discriminate Ht) ltac:(lra) ltac:(lra)) as (dq & E & _ & H).
  exists dq. split; [exact E|]. destruct (H 0 (fun _ => 1%R) ltac:(lia)) as (H1 & _). cbv zeta in H1. unfold damped_cost, total, weight_at in H1. cbn [seq map fold_right at_ nth Nat.eqb] in H1.
  assert (G : ((at_ dq [0; 0; 0]%nat - 1) * (at_ dq [0; 0; 0]%nat - 1) <= 0)%R) by nra. pose proof (Rle_0_sqr (at_ dq [0; 0; 0] - 1)) as G2. unfold Rsqr in G2. assert (G3 : ((at_ dq [0; 0; 0]%nat - 1) * (at_ dq [0; 0; 0]%nat - 1) = 0)%R) by lra. apply Rmult_integral in G3. lra.
Qed.

(** One iteration of the solver (Jacobian and poses from the joint values, then the step) for N rigid targets and M retries each on a serial chain: in every row
    the step and the error are those of that row alone against its target. *)
Theorem C91_iteration_is_rowwise : forall (root r : mframe) c rn p fs, chain_init mops root = Ok c -> distinct_joints root -> distinct_frames root -> clean_names root -> rigid_tree root ->
  root_path root (p ++ [r]) -> ((rn = ""%string /\ r = root) \/ (rn <> ""%string /\ rn = f_name r)) -> root_path r (r :: fs) ->
  exists s, serial_init mops zax c (f_name (last (r :: fs) r)) rn = Ok s /\ let n := List.length (c_names (s_chain s)) in
  forall static axes dof_axes target q N M reg lm w junk, holds_m4 static (c_static (s_chain s)) -> holds_v3 axes (c_axes (s_chain s)) -> holds_v3 dof_axes (s_dof_axes s) ->
  shape target = [4; 4; N] -> shape q = [n; N * M] -> 0 < N -> 0 < M -> (forall t, w = Some t -> shape t = [6]) -> (0 < reg)%R -> (0 <= lm)%R -> (forall k, k < N -> is_rigid (m4_at target [k])) ->
  exists dq dx, ik_iteration_t junk s static axes dof_axes target q M reg lm w = Ok (dq, dx) /\ shape dq = [1; n; N * M] /\ shape dx = [1; 6; N * M] /\
    forall k, k < N * M -> pik_row s (m4_at target [k / M]) reg lm (option_map (fun t i => at_ t [i]) w) (map (fun j => at_ q [j; k]) (seq 0 n)) =
      Ok (map (fun j => at_ dq [0; j; k]) (seq 0 n), map (fun i => at_ dx [0; i; k]) (seq 0 6)).
Proof. exact l91_iteration_is_rowwise. Qed.
Print Assumptions C91_iteration_is_rowwise.
(** the example robot, two retries, a target away from the hand: the error of the second retry *)
Example C91_iteration_ex : exists c s dq dx, chain_init mops ex_robot = Ok c /\ serial_init mops zax c "hand"%string ""%string = Ok s /\
  ik_iteration_t (fun _ => 7%R) s (m4_tensor (c_static (s_chain s))) (v3_tensor (c_axes (s_chain s))) (v3_tensor (s_dof_axes s)) (m4_tensor [aff I3 (mkV3 1 2 3)]) (ex_th [[0; 0]; [PI / 2; 5]]%R) 2 1 0 None = Ok (dq, dx) /\
  at_ dx [0; 0; 1] = 1%R /\ at_ dx [0; 1; 1] = (-4)%R /\ at_ dx [0; 2; 1] = (-2)%R.
Proof.
  destruct ex_chain as (c & Hc). pose (fs := [ex_shoulder; ex_elbow; ex_hand]). assert (Hin : In ex_robot (preorder ex_robot)) by (rewrite preorder_unfold; left; reflexivity).
  destruct (C91_iteration_is_rowwise ex_robot ex_robot c ""%string [] fs Hc ex_distinct_joints ex_distinct_frames ex_clean ex_rigid (rp_here _) (or_introl (conj eq_refl eq_refl)) ex_path_hand) as (s & Hs & H).
  destruct (serial_ok mops zax ex_robot c ""%string ex_robot fs Hc ex_distinct_frames ex_clean (or_introl (conj eq_refl eq_refl)) ex_path_hand) as (s' & Hs' & Ht). assert (Es : s' = s) by congruence. subst s'.
  assert (En : c_names (s_chain s) = [Some "j1"; Some "j2"]%string) by (rewrite (path_chain_names _ _ _ Ht); reflexivity). cbv zeta in H. rewrite En in H.
  assert (RT : is_rigid (aff I3 (mkV3 1 2 3))) by (apply is_rigid_aff, is_rot_I).
  destruct (H _ _ _ (m4_tensor [aff I3 (mkV3 1 2 3)]) (ex_th [[0; 0]; [PI / 2; 5]]%R) 1 2 1%R 0%R None (fun _ => 7%R) (m4_tensor_holds _) (v3_tensor_holds _) (v3_tensor_holds _) eq_refl eq_refl ltac:(lia) ltac:(lia) ltac:(intros t Hx; discriminate Hx) ltac:(lra) ltac:(lra)) as (dq & dx & E & _ & _ & G).
  { intros k L. replace k with 0 by lia. exact RT. }
  exists c, s, dq, dx. split; [exact Hc|]. split; [exact Hs|]. split; [exact E|]. specialize (G 1 ltac:(lia)). cbn [option_map] in G. change (m4_at (m4_tensor [aff I3 (mkV3 1 2 3)]) [1 / 2]) with (aff I3 (mkV3 1 2 3)) in G.
  change (map (fun j => at_ (ex_th [[0; 0]; [PI / 2; 5]]%R) [j; 1]) (seq 0 (List.length [Some "j1"; Some "j2"]%string))) with (map ex_config (path_names fs)) in G.
  destruct (pik_row_eq ex_robot ex_robot fs s Hin ex_distinct_joints ex_distinct_frames ex_clean ex_path_hand Ht ex_rigid 1%R 0%R None ltac:(lra) ltac:(lra) (aff I3 (mkV3 1 2 3)) ex_config (proj2 RT)) as (dr & a & l & E2 & _).
  rewrite E2 in G. apply (f_equal (fun x => match x with Ok p => snd p | Err _ => [] end)) in G. cbv beta iota in G. cbn [snd] in G.
  assert (PX : trp (pose ex_config fs) = mkV3 0 6 5).
  { rewrite <- ex_hand_pose. change [ex_robot; ex_shoulder; ex_elbow; ex_hand] with (ex_robot :: fs). rewrite (pose_cons _ ex_robot).
    unfold rel_pose at 1, joint_motion, ex_robot. cbn -[m4mul I4 path_pose]. rewrite !m4mul_1_l. reflexivity. }
  rewrite PX in G.
  pose proof (f_equal (fun l => nth 0 l 0%R) G) as G0. pose proof (f_equal (fun l => nth 1 l 0%R) G) as G1. pose proof (f_equal (fun l => nth 2 l 0%R) G) as G2.
  cbn [seq map nth six fst snd vsub trp aff vx vy vz a03 a13 a23] in G0, G1, G2. split; [lra|]. split; lra.
Qed.
