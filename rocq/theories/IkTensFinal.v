(** Last steps of the proofs quoted in Properties_IkTens.v. *)
From Coq Require Import Reals Lra String Bool Arith Lia List.
From Verif Require Import Prelude ExtF Lin Trig RotModel RotBasic QuatProofs TorchModel RotTorchModel SpecTorch SpecFkTorch SpecIkTorch TorchProofs RotTorch Tree ChainModel SpecFK ChainProofs ChainTables ChainInst Input FKMore SerialModel SerialProofs SerialMore Deriv JacModel JacProofs JacMore
  IKKernel KernelProofs DeltaPose IKModel IKSolve SolveProofs Examples FKFinal FkTorchModel FkTorch FkTorchJac FkTensFinal IkTorchModel IkTorch IkTorchStep IkTorchIter.
Import ListNotations.
Local Open Scope nat_scope.
Local Open Scope list_scope.

Lemma total_rsum n f : total n f = IKKernel.rsum n f.
Proof.
  unfold total. revert f. induction n as [|n IH]; intros f; cbn [seq map fold_right IKKernel.rsum]; [reflexivity|]. rewrite <- (IH (fun i => f (S i))), <- seq_shift, map_map. reflexivity.
Qed.
Lemma weigh_at (t : tensor R) (w : option (tensor R)) r j i : i < 6 -> weigh (option_map (fun t i => at_ t [i]) w) (col_at t r j) i = Rmult (weight_at w i) (at_ t [j; i; r]).
Proof. intros L. unfold weigh, weight_at. destruct w as [v|]; cbn [option_map]; rewrite six_col by exact L; [reflexivity | ring]. Qed.
Lemma cost_obj dx J n r reg lm w z : (0 <= lm)%R -> damped_cost dx J n r reg lm w z =
  obj 6 n (jac_w (option_map (fun t i => at_ t [i]) w) (map (col_at J r) (seq 0 n))) (weigh (option_map (fun t i => at_ t [i]) w) (col_at dx r 0)) (damping reg lm (weigh (option_map (fun t i => at_ t [i]) w) (col_at dx r 0))) z.
Proof.
  intros Hl. unfold damped_cost, obj, jv. cbv zeta. rewrite !total_rsum. set (wk := option_map _ w).
  assert (Hw : forall i, i < 6 -> weigh wk (col_at dx r 0) i = Rmult (weight_at w i) (at_ dx [0; i; r])) by (intros; apply weigh_at; assumption).
  f_equal.
  - apply ksum_ext. intros i Li. rewrite total_rsum, Hw by exact Li. f_equal. f_equal. apply ksum_ext. intros j Lj. f_equal. etransitivity; [symmetry; apply weigh_at; exact Li | exact (jac_nth J w n r i j Lj)].
  - f_equal. unfold damping. f_equal. rewrite (ksum_ext 6 (fun i => pow _ 2) (fun i => weigh wk (col_at dx r 0) i * weigh wk (col_at dx r 0) i)%R) by (intros i Li; rewrite Hw by exact Li; ring).
    destruct (Rltb 0 lm) eqn:E; [reflexivity|]. unfold Rltb in E. destruct (Rlt_dec 0 lm) as [|N]; [discriminate E|]. replace lm with 0%R by lra. ring.
Qed.
Definition q_tensor (l : list Q) : tensor R := mkT [4; List.length l] (fun i => match i with [c; k] => let q := nth k l qone in nth c [qw q; qx q; qy q; qz q] 0%R | _ => 0%R end).
Definition ex_m (x : R) : M4 := aff I3 (mkV3 x 0 0).
Lemma one_norm : qnorm2 qone = 1%R. Proof. unfold qnorm2, qone. cbn [qw qx qy qz]. ring. Qed.
Lemma q_one : quaternion_to_matrix qone = I3. Proof. apply q2m_one_iff; [exact one_norm | cbn [qone qw]; lra | reflexivity]. Qed.
Lemma ex_delta : delta_pose (m4_at (m4_tensor [ex_m 1]) [0]) (v_at (v3_tensor [mkV3 3 0 0]) [0]) (q_at (q_tensor [qone]) [0]) = (vsub (mkV3 3 0 0) (mkV3 1 0 0), fin3 vzero).
Proof.
  change (m4_at (m4_tensor [ex_m 1]) [0]) with (ex_m 1). change (v_at (v3_tensor [mkV3 3 0 0]) [0]) with (mkV3 3 0 0). change (q_at (q_tensor [qone]) [0]) with qone.
    destruct (delta_spec (ex_m 1) (mkV3 3 0 0) qone is_rot_I one_norm) as (v & a & Hd & _ & _ & _ & _ & Hz). rewrite Hd. f_equal. f_equal. apply Hz.
    rewrite q_one. reflexivity.
Qed.

Lemma l91_error_is_rowwise : forall (m target_pos target_wxyz : tensor R) N M K, shape m = [4; 4; N * M] -> 0 < M -> shape target_pos = [3; K] -> shape target_wxyz = [4; K] -> K = N \/ K = 1 ->
  exists P D, pose_error_t m target_pos target_wxyz M = (Ok P, Ok D) /\ shape P = [1; 3; N * M] /\ shape D = [1; 3; N * M] /\
    forall r, r < N * M -> delta_pose (m4_at m [r]) (v_at target_pos [target_of K M r]) (q_at target_wxyz [target_of K M r]) =
      (mkV3 (at_ P [0; 0; r]) (at_ P [0; 1; r]) (at_ P [0; 2; r]), mkF3 (at_ D [0; 0; r]) (at_ D [0; 1; r]) (at_ D [0; 2; r])).
Proof. intros m tp tq N M K H1 H2 H3 H4 H5. exact (error_rows m tp tq N M K H1 H2 H3 H4 H5). Qed.

Lemma l91_error_measures_the_pose : forall (m target_pos target_wxyz : tensor R) N M K, shape m = [4; 4; N * M] -> 0 < M -> shape target_pos = [3; K] -> shape target_wxyz = [4; K] -> K = N \/ K = 1 ->
  (forall r, r < N * M -> is_rot (rotp (m4_at m [r]))) -> (forall k, k < K -> qnorm2 (q_at target_wxyz [k]) = 1%R) ->
  exists dx, (let e := pose_error_t m target_pos target_wxyz M in cat2 (fst e) (finite3 (snd e))) = Ok dx /\ shape dx = [1; 6; N * M] /\
    forall r, r < N * M -> let k := target_of K M r in fst (col_at dx r 0) = vsub (v_at target_pos [k]) (trp (m4_at m [r])) /\
      exists a, (0 <= a <= PI)%R /\ trace3 (m3mul (quaternion_to_matrix (q_at target_wxyz [k])) (m3tr (rotp (m4_at m [r])))) = (1 + 2 * cos a)%R /\
        (a <= vnorm (snd (col_at dx r 0)) <= a + a ^ 5 / 960)%R /\ (snd (col_at dx r 0) = vzero <-> rotp (m4_at m [r]) = quaternion_to_matrix (q_at target_wxyz [k])).
Proof.
  intros m tp tq N M K H1 H2 H3 H4 H5 Hr Hq. destruct (error_rows m tp tq N M K H1 H2 H3 H4 H5) as (P & D & E & SP & SD & HD). cbv zeta. rewrite E. cbn [fst snd].
  set (v := fun r => match fin3_of (snd (delta_pose (m4_at m [r]) (v_at tp [tix K (r / M)]) (q_at tq [tix K (r / M)]))) with Some v => v | None => vzero end).
  assert (L : forall r, r < N * M -> tix K (r / M) < K). { intros r Lr. destruct (row_parts N M r Lr) as (_ & L2 & _). exact (tix_lt K N _ H5 L2). }
  assert (Hv : forall r, r < N * M -> mkF3 (at_ D [0; 0; r]) (at_ D [0; 1; r]) (at_ D [0; 2; r]) = fin3 (v r)).
  { intros r Lr. destruct (delta_spec (m4_at m [r]) (v_at tp [tix K (r / M)]) (q_at tq [tix K (r / M)]) (Hr r Lr) (Hq _ (L r Lr))) as (u & a & Hd & _). unfold v. rewrite Hd. cbn [snd]. rewrite fin3_of_fin.
    rewrite (HD r Lr) in Hd. exact (f_equal snd Hd). }
  destruct (dx_rows N M K H2 H5 P D v SP SD Hv) as (X & EX & SX & HX). exists X. split; [exact EX|]. split; [exact SX|]. intros r Lr. change (target_of K M r) with (tix K (r / M)).
  destruct (delta_spec (m4_at m [r]) (v_at tp [tix K (r / M)]) (q_at tq [tix K (r / M)]) (Hr r Lr) (Hq _ (L r Lr))) as (u & a & Hd & Ha & Htr & Hn & _ & Hz).
  assert (Ev : v r = u) by (unfold v; rewrite Hd; cbn [snd]; rewrite fin3_of_fin; reflexivity). rewrite (HX r Lr), Ev. cbn [fst snd]. rewrite (HD r Lr) in Hd. split; [exact (f_equal fst Hd)|]. exists a. auto.
Qed.

Lemma l91_wrong_sizes : forall (m target_pos target_wxyz : tensor R) M,
  (forall N K, shape m = [4; 4; N * M] -> 0 < M -> shape target_pos = [3; K] -> K <> N -> K <> 1 -> N <> 1 -> fst (pose_error_t m target_pos target_wxyz M) = Err RuntimeError) /\
  (forall B, shape m = [4; 4; B] -> 0 < M -> B mod M <> 0 -> pose_error_t m target_pos target_wxyz M = (Err RuntimeError, Err RuntimeError)).
Proof.
  intros m tp tq M. split.
  - intros N K H1 H2 H3 H4 H5 H6. exact (error_bad m tp tq N M K H1 H2 H3 H4 H5 H6).
  - intros B H1 H2 H3. unfold pose_error_t. rewrite H1. replace (M =? 0) with false by (symmetry; apply Nat.eqb_neq; lia). assert (E : TorchModel.reshape [4; 4; M; B / M] (Ok m) = Err RuntimeError); [|rewrite E; reflexivity]. unfold TorchModel.reshape. cbn [rbind]. rewrite H1.
    destruct (Nat.eqb_spec (prod [4; 4; M; B / M]) (prod [4; 4; B])) as [G|]; [|reflexivity]. exfalso. cbn [prod] in G. pose proof (Nat.div_mod B M ltac:(lia)). lia.
Qed.

Lemma l91_number_of_targets_is_checked_refuted : forall (m target_pos target_wxyz : tensor R) M K, shape m = [4; 4; M] -> 0 < M -> shape target_pos = [3; K] ->
  exists P, fst (pose_error_t m target_pos target_wxyz M) = Ok P /\ shape P = [1; 3; K * M].
Proof.
  intros m tp tq M K H1 H2 H3. unfold pose_error_t. rewrite H1. replace (M =? 0) with false by (symmetry; apply Nat.eqb_neq; lia). rewrite Nat.div_same by lia.
  destruct (unflat m 1 M ltac:(rewrite Nat.mul_1_l; exact H1)) as (t & Et & St & Ht). rewrite Et. unfold delta_pose_t. cbv zeta. cbn [fst].
  assert (Hp : is_t (pos_of (Ok t)) [3; M; 1] (fun i => at_ t (3 :: i))). { unfold pos_of. eapply t_ext; [tt|]. intros i V. apply valid3_inv in V as (x & y & z & -> & _). reflexivity. }
  destruct (view_row _ M K _ (t_op2 Rminus _ _ _ _ [3; M; K] _ _ (t_unsq1 tp 3 K H3) Hp ltac:(apply tg_same, tg_one_l, tg_one_r, tg_left))) as (P & EP & SP & _). exists P. split; [exact EP | exact SP].
Qed.

Lemma l91_step_is_rowwise : forall (m target_pos target_wxyz J : tensor R) N M K n reg lm w, shape m = [4; 4; N * M] -> 0 < M -> shape target_pos = [3; K] -> shape target_wxyz = [4; K] -> K = N \/ K = 1 ->
  shape J = [n; 6; N * M] -> (forall t, w = Some t -> shape t = [6]) ->
  let error r := delta_pose (m4_at m [r]) (v_at target_pos [target_of K M r]) (q_at target_wxyz [target_of K M r]) in
  let step r e := ik_step (map (col_at J r) (seq 0 n)) e reg lm (option_map (fun t i => at_ t [i]) w) in
  (forall r, r < N * M -> exists p v l, error r = (p, fin3 v) /\ step r (p, v) = Ok l) ->
  exists dq dx, ik_step_t m target_pos target_wxyz J (reg_t reg) M lm w = Ok (dq, dx) /\ shape dq = [1; n; N * M] /\ shape dx = [1; 6; N * M] /\
    forall r p v l, r < N * M -> error r = (p, fin3 v) -> step r (p, v) = Ok l -> col_at dx r 0 = (p, v) /\ map (fun j => at_ dq [0; j; r]) (seq 0 n) = l.
Proof. intros m tp tq J N M K n reg lm w H1 H2 H3 H4 H5 H6 H7. exact (step_rows m tp tq J N M K n reg lm w H1 H2 H3 H4 H5 H6 H7). Qed.

Lemma l91_step_fails_with_a_row : forall (m target_pos target_wxyz J : tensor R) N M K n reg lm w, shape m = [4; 4; N * M] -> 0 < M -> shape target_pos = [3; K] -> shape target_wxyz = [4; K] -> K = N \/ K = 1 ->
  shape J = [n; 6; N * M] -> (forall t, w = Some t -> shape t = [6]) ->
  let error r := delta_pose (m4_at m [r]) (v_at target_pos [target_of K M r]) (q_at target_wxyz [target_of K M r]) in
  let step r e := ik_step (map (col_at J r) (seq 0 n)) e reg lm (option_map (fun t i => at_ t [i]) w) in
  let result := ik_step_t m target_pos target_wxyz J (reg_t reg) M lm w in
  (forall r, r < N * M -> (forall v, snd (error r) <> fin3 v) -> result = Err ValueError) /\
  (forall r p v x, (forall r, r < N * M -> exists p v, error r = (p, fin3 v)) -> r < N * M -> error r = (p, fin3 v) -> step r (p, v) = Err x -> result = Err RuntimeError).
Proof.
  intros m tp tq J N M K n reg lm w H1 H2 H3 H4 H5 H6 H7. cbv zeta. split.
  - intros r L H. exact (step_not_finite m tp tq J N M K reg lm w H1 H2 H3 H4 H5 r L H).
  - intros r p v x H L E F. exact (step_fails m tp tq J N M K n reg lm w H1 H2 H3 H4 H5 H6 H7 r p v x H L E F).
Qed.

Lemma l91_step_is_damped_least_squares : forall (dx J : tensor R) n B reg lm w, shape dx = [1; 6; B] -> shape J = [n; 6; B] -> (forall t, w = Some t -> shape t = [6]) -> (0 < reg)%R -> (0 <= lm)%R ->
  exists dq, dls_t dx J (reg_t reg) lm w = Ok dq /\ shape dq = [1; n; B] /\
    forall r z, r < B -> let best j := at_ dq [0; j; r] in (damped_cost dx J n r reg lm w best <= damped_cost dx J n r reg lm w z)%R /\
      ((damped_cost dx J n r reg lm w z <= damped_cost dx J n r reg lm w best)%R -> forall j, j < n -> z j = best j).
Proof.
  intros dx J n B reg lm w H1 H2 H3 H4 H5. set (wk := option_map (fun (t : tensor R) i => at_ t [i]) w).
  set (l := fun r => match ik_step (map (col_at J r) (seq 0 n)) (col_at dx r 0) reg lm wk with Ok l => l | Err _ => [] end).
  destruct (dls_rows dx J reg lm w n B H1 H2 H3 l) as (dq & E & S & H).
  { intros r L. fold wk. unfold l. destruct (ik_step_eq (map (col_at J r) (seq 0 n)) (col_at dx r 0) reg lm wk H4 H5) as (x & _ & ->). reflexivity. }
  exists dq. split; [exact E|]. split; [exact S|]. intros r z L. cbv zeta. specialize (H r L). unfold l in H.
  destruct (ik_step_eq (map (col_at J r) (seq 0 n)) (col_at dx r 0) reg lm wk H4 H5) as (x & Hx & Es). rewrite Es in H. rewrite map_length, seq_length in H, Hx.
  set (A := jac_w wk (map (col_at J r) (seq 0 n))) in *. set (d := weigh wk (col_at dx r 0)) in *. pose proof (damping_pos reg lm d H4 H5) as HK.
  assert (Hb : forall j, j < n -> at_ dq [0; j; r] = jt 6 A x j).
  { intros j Lj. pose proof (f_equal (fun l => nth j l 0%R) H) as G. cbv beta in G. rewrite (nth_indep _ 0%R (at_ dq [0; 0; r])) in G by (rewrite map_length, seq_length; exact Lj). rewrite (map_nth (fun j => at_ dq [0; j; r]) (seq 0 n) 0 j) in G.
    rewrite (nth_indep _ 0%R (jt 6 A x 0)) in G by (rewrite map_length, seq_length; exact Lj). rewrite (map_nth (jt 6 A x)) in G. rewrite seq_nth in G by exact Lj. exact G. }
  rewrite !cost_obj by exact H5. fold wk. fold A. fold d.
  assert (Eo : obj 6 n A d (damping reg lm d) (fun j => at_ dq [0; j; r]) = obj 6 n A d (damping reg lm d) (jt 6 A x)).
  { unfold obj, jv. f_equal; [|f_equal]; apply ksum_ext; intros i Li; [f_equal; f_equal; apply ksum_ext; intros j Lj |]; rewrite Hb by assumption; reflexivity. }
  rewrite Eo. split; [apply (obj_min 6 n A d _ HK x Hx)|]. intros G j Lj. rewrite (Hb j Lj). exact (obj_unique 6 n A d _ HK x Hx z G j Lj).
Qed.

Lemma l91_iteration_is_rowwise : forall (root r : mframe) c rn p fs, chain_init mops root = Ok c -> distinct_joints root -> distinct_frames root -> clean_names root -> rigid_tree root ->
  root_path root (p ++ [r]) -> ((rn = ""%string /\ r = root) \/ (rn <> ""%string /\ rn = f_name r)) -> root_path r (r :: fs) ->
  exists s, serial_init mops zax c (f_name (last (r :: fs) r)) rn = Ok s /\ let n := List.length (c_names (s_chain s)) in
  forall static axes dof_axes target q N M reg lm w junk, holds_m4 static (c_static (s_chain s)) -> holds_v3 axes (c_axes (s_chain s)) -> holds_v3 dof_axes (s_dof_axes s) ->
  shape target = [4; 4; N] -> shape q = [n; N * M] -> 0 < N -> 0 < M -> (forall t, w = Some t -> shape t = [6]) -> (0 < reg)%R -> (0 <= lm)%R -> (forall k, k < N -> is_rigid (m4_at target [k])) ->
  exists dq dx, ik_iteration_t junk s static axes dof_axes target q M reg lm w = Ok (dq, dx) /\ shape dq = [1; n; N * M] /\ shape dx = [1; 6; N * M] /\
    forall k, k < N * M -> pik_row s (m4_at target [k / M]) reg lm (option_map (fun t i => at_ t [i]) w) (map (fun j => at_ q [j; k]) (seq 0 n)) =
      Ok (map (fun j => at_ dq [0; j; k]) (seq 0 n), map (fun i => at_ dx [0; i; k]) (seq 0 6)).
Proof.
  intros root r c rn p fs Hc Hdj Hdf Hcl Hrt Hpr Hrn Hp. assert (Hin : In r (preorder root)) by (eapply root_path_in; exact Hpr).
  assert (Hch : root_choice root r rn) by (destruct Hrn as [?|[? ?]]; [left | right]; auto).
  destruct (serial_ok mops zax root c rn r fs Hc Hdf Hcl Hch Hp) as (s & Hs & Ht). exists s. split; [exact Hs|]. cbv zeta. rewrite (path_chain_names r fs s Ht).
  intros static axes dof_axes target q N M reg lm w junk A1 A2 A3 A4 A5 A6 A7 A8 A9 A10 A11.
  apply (iteration_rows root r fs c _ rn s Hs Hin Hdj Hdf Hcl Hp Ht Hrt static axes dof_axes target q N M reg lm w junk A1 A2 A3 A4 A5 A6 A7 A8 A9 A10). intros k L. apply A11, L.
Qed.
