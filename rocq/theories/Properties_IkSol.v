(** C92: the inverse kinematics solver as a tensor program. *)
From Coq Require Import Reals Lra Bool Arith Lia List.
From Verif Require Import Prelude ExtF TorchModel SpecTorch TorchProofs FkTorchModel IKModel IKMore IKFinal IKProofs IkTorch IkSolTorchModel SpecIkSol IkSolTorch IkSolRun.
From Verif Require Import IkSolFinal.
Import ListNotations.
Local Open Scope nat_scope.


(** The solver, written with tensors, gives in the cell of problem p and retry r what the solver on rows gives for that attempt: solutions, errors, flags, remaining problems and the number of
    iterations, with or without line search, early stopping, clamping and enforced joint limits, provided the step kernel acts row by row. *)
Theorem C92_solver_is_rowwise : forall eval kern k search low high np q0, 0 < ik_dof k -> 0 < ik_nr k -> acts_as eval kern (ik_dof k) np (ik_nr k) ->
  shape low = [ik_dof k] -> shape high = [ik_dof k] -> ik_low k = map (fun j => at_ low [j]) (seq 0 (ik_dof k)) -> ik_high k = map (fun j => at_ high [j]) (seq 0 (ik_dof k)) ->
  ik_ls k = option_map (fun ls q dq dx rem => map l_lr (do_line_search (fun i row => fnorm (snd (kern (i / ik_nr k) row))) ls (ik_nr k) q dq dx rem)) search ->
  List.length (ik_rev k) = ik_dof k -> shape q0 = [ik_dof k; np * ik_nr k] ->
  exists s, solve_program eval k search low high np q0 = Ok s /\
    solve_from kern k np (rows_of q0 (np * ik_nr k) (ik_dof k)) = Ok (solution_of (ik_dof k) np (ik_nr k) (ik_ptol k) (ik_rtol k) s).
Proof. exact l92_solver_is_rowwise. Qed.

Print Assumptions C92_solver_is_rowwise.
(** one joint, one step of size one, with and without line search: the attempt ends at 1 and is marked as converged *)
Example C92_solver_ex : exists s, solve_program (tabulated ex_kern 1 1 1) (ex_ik None) None ex_lim ex_lim 1 (mkT [1; 1] (fun _ => Fin 0%R)) = Ok s /\
  at_ (t_solutions s) [0; 0; 0] = Fin 1%R /\ at_ (t_conv s) [0; 0] = true /\ t_iter s = 1 /\ at_ (t_any s) [0] = true.
Proof.
  destruct (C92_solver_is_rowwise (tabulated ex_kern 1 1 1) ex_kern (ex_ik None) None ex_lim ex_lim 1 (mkT [1; 1] (fun _ => Fin 0%R)) ltac:(cbn; lia) ltac:(cbn; lia) (ex_acts 1) eq_refl eq_refl eq_refl eq_refl eq_refl eq_refl eq_refl) as (s & E & L).
  exists s. split; [exact E|].
  assert (B1 : flt (Fin (1 - (0 + 1 * 1))) (Fin (1/2)) = true) by (cbn [flt]; apply Rltb_true; lra).
  assert (B2 : flt (Fin (1 - 0)) (Fin (1/2)) = false) by (cbn [flt]; apply Rltb_false; lra).
  assert (B3 : flt (Fin 0) (Fin 1) = true) by (cbn [flt]; apply Rltb_true; lra).
  assert (X : exists s0, solve_from ex_kern (ex_ik None) 1 (rows_of (mkT [1; 1] (fun _ => Fin 0%R)) 1 1) = Ok s0 /\ s_iter s0 = 1 /\ s_any s0 = [true] /\ exists e, s_entries s0 = [[e]] /\ e_q e = [Fin (0 + 1 * 1)%R] /\ e_conv e = true).
  { eexists. split.
    - unfold solve_from. cbn -[fnorm flt]. unfold conv_now, pos_err, rot_err. cbn -[fnorm flt]. rewrite !ex_norm by lra. rewrite B1, B2, B3. cbn -[fnorm flt].
      unfold conv_now, pos_err, rot_err. cbn -[fnorm flt]. rewrite ?ex_norm by lra. rewrite ?B1, ?B2, ?B3. reflexivity.
    - split; [reflexivity|]. split; [reflexivity|]. eexists. split; [reflexivity|]. split; reflexivity. }
  destruct X as (s0 & E0 & I0 & A0 & e & N0 & Q0 & C0). cbn [ik_dof ik_nr ik_ptol ik_rtol ex_ik Nat.mul Nat.add] in L.
  assert (Es : s0 = solution_of 1 1 1 (Fin (1/2)) (Fin 1) s) by (rewrite L in E0; congruence).
  rewrite Es in I0, A0, N0. cbn [solution_of s_iter s_any s_entries seq map] in I0, A0, N0.
  assert (Ee : e = mkEntry [at_ (t_solutions s) [0; 0; 0]] (at_ (t_err_pos s) [0; 0]) (at_ (t_err_rot s) [0; 0]) (at_ (t_conv_pos s) [0; 0]) (at_ (t_conv_rot s) [0; 0]) (at_ (t_conv s) [0; 0])) by congruence.
  subst e. cbn [e_q e_conv] in Q0, C0. split; [|split; [exact C0|]; split; [exact I0 | congruence]].
  assert (Eq : at_ (t_solutions s) [0; 0; 0] = Fin (0 + 1 * 1)%R) by congruence. rewrite Eq. apply f_equal. ring.
Qed.

(** What the returned tensors say about each attempt: the errors are those of the joint values returned with them, converged means that both errors are below their tolerance, and a problem is
    marked as solved iff one of its attempts is. *)
Theorem C92_converged_means_within_tolerance : forall eval kern k search low high np q0, 0 < ik_dof k -> 0 < ik_nr k -> acts_as eval kern (ik_dof k) np (ik_nr k) ->
  shape low = [ik_dof k] -> shape high = [ik_dof k] -> ik_low k = map (fun j => at_ low [j]) (seq 0 (ik_dof k)) -> ik_high k = map (fun j => at_ high [j]) (seq 0 (ik_dof k)) ->
  ik_ls k = option_map (fun ls q dq dx rem => map l_lr (do_line_search (fun i row => fnorm (snd (kern (i / ik_nr k) row))) ls (ik_nr k) q dq dx rem)) search ->
  List.length (ik_rev k) = ik_dof k -> shape q0 = [ik_dof k; np * ik_nr k] ->
  exists s, solve_program eval k search low high np q0 = Ok s /\
    (forall p r, p < np -> r < ik_nr k -> let dx := snd (kern p (map (fun j => at_ (t_solutions s) [j; r; p]) (seq 0 (ik_dof k)))) in
      at_ (t_err_pos s) [r; p] = fnorm (firstn 3 dx) /\ at_ (t_err_rot s) [r; p] = fnorm (skipn 3 dx) /\
      (at_ (t_conv s) [r; p] = true <-> flt (at_ (t_err_pos s) [r; p]) (ik_ptol k) = true /\ flt (at_ (t_err_rot s) [r; p]) (ik_rtol k) = true)) /\
    (forall p, p < np -> at_ (t_any s) [p] = true <-> exists r, r < ik_nr k /\ at_ (t_conv s) [r; p] = true).
Proof. exact l92_converged_means_within_tolerance. Qed.
Print Assumptions C92_converged_means_within_tolerance.
(** one joint at 1 with all errors zero: converged for the tolerances of the example *)
Example C92_converged_ex : exists s, solve_program (tabulated ex_kern 1 3 1) (ex_ik None) None ex_lim ex_lim 3 (mkT [1; 3] (fun _ => Fin 0%R)) = Ok s /\
  (at_ (t_any s) [2] = true <-> exists r, r < 1 /\ at_ (t_conv s) [r; 2] = true).
Proof.
  destruct (C92_converged_means_within_tolerance (tabulated ex_kern 1 3 1) ex_kern (ex_ik None) None ex_lim ex_lim 3 (mkT [1; 3] (fun _ => Fin 0%R)) ltac:(cbn; lia) ltac:(cbn; lia) (ex_acts 3) eq_refl eq_refl eq_refl eq_refl eq_refl eq_refl eq_refl) as (s & E & _ & H).
  exists s. split; [exact E|]. exact (H 2 ltac:(lia)).
Qed.

(** The line search on tensors gives each row the step size that the search on rows gives it; with a single row, where [squeeze] also drops the row dimension, as well. *)
Theorem C92_search_is_rowwise : forall eval kern ls dof np nr q dq dx remaining, 0 < dof -> 0 < nr -> 0 < np -> acts_as eval kern dof np nr ->
  shape q = [dof; np * nr] -> shape dq = [dof; np * nr] -> shape dx = [1; 6; np * nr] -> shape remaining = [np] ->
  exists lr, line_search_t eval ls q dq dx remaining = Ok lr /\ shape lr = [np * nr] /\
    map l_lr (do_line_search (fun i row => fnorm (snd (kern (i / nr) row))) ls nr (rows_of q (np * nr) dof) (rows_of dq (np * nr) dof)
      (map (fun r => map (fun c => at_ dx [0; c; r]) (seq 0 6)) (seq 0 (np * nr))) (map (fun p => at_ remaining [p]) (seq 0 np))) = map (fun r => at_ lr [r]) (seq 0 (np * nr)).
Proof. exact l92_search_is_rowwise. Qed.
Print Assumptions C92_search_is_rowwise.
(** a single row, a full step from 0 to 1, which lowers the error from 1 to 0 *)
Example C92_search_ex : exists lr, line_search_t (tabulated ex_kern 1 1 1) (mkLS 1 (1/2) 2 (1/10)) (mkT [1; 1] (fun _ => Fin 0%R)) (mkT [1; 1] (fun _ => Fin 1%R)) (mkT [1; 6; 1] (fun i => if nth 1 i 0 =? 0 then Fin 1%R else Fin 0%R)) (mkT [1] (fun _ => true)) = Ok lr /\
  shape lr = [1] /\ at_ lr [0] = Fin 1%R.
Proof.
  destruct (C92_search_is_rowwise (tabulated ex_kern 1 1 1) ex_kern (mkLS 1 (1/2) 2 (1/10)) 1 1 1 (mkT [1; 1] (fun _ => Fin 0%R)) (mkT [1; 1] (fun _ => Fin 1%R)) (mkT [1; 6; 1] (fun i => if nth 1 i 0 =? 0 then Fin 1%R else Fin 0%R)) (mkT [1] (fun _ => true)) ltac:(lia) ltac:(lia) ltac:(lia) (ex_acts 1) eq_refl eq_refl eq_refl eq_refl) as (lr & E & S & H).
  exists lr. split; [exact E|]. split; [exact S|]. cbn -[fnorm flt fsub] in H. rewrite !ex_norm6 in H by lra.
  assert (B : flt (Fin (1 / 10)) (fsub (Fin 1) (Fin (1 - (0 + 1 * 1)))) = true) by (cbn [fsub fadd fopp flt]; apply Rltb_true; lra).
  rewrite B in H. cbn -[fnorm flt fsub] in H. rewrite !ex_norm6 in H by lra. rewrite B in H. congruence.
Qed.

(** What an update does to the solution tensors, cell by cell: an attempt that had converged keeps its joint values and errors; any other takes the new joint values and their errors; flags are only
    ever set, and for errors below the tolerances; with [use_keep_mask], a problem remains if it did and none of its attempts is now within tolerance. *)
Theorem C92_update_cells : forall dof np nr ptol rtol s q err use_keep, 0 < dof -> 0 < nr ->
  shape (t_solutions s) = [dof; nr; np] -> shape (t_remaining s) = [np] -> shape (t_err_pos s) = [nr; np] -> shape (t_err_rot s) = [nr; np] -> shape (t_conv_pos s) = [nr; np] -> shape (t_conv_rot s) = [nr; np] ->
  shape (t_conv s) = [nr; np] -> shape (t_any s) = [np] -> (forall p, p < np -> at_ (t_pos_any s) [p] = false) -> (forall p, p < np -> at_ (t_rot_any s) [p] = false) ->
  shape q = [dof; np * nr] -> shape err = [6; np * nr] ->
  exists s', update_t dof nr ptol rtol s q err use_keep = Ok s' /\ t_iter s' = t_iter s /\
    let perr p r := fnorm [at_ err [0; p * nr + r]; at_ err [1; p * nr + r]; at_ err [2; p * nr + r]] in
    let rerr p r := fnorm [at_ err [3; p * nr + r]; at_ err [4; p * nr + r]; at_ err [5; p * nr + r]] in
    let within p r := flt (perr p r) ptol = true /\ flt (rerr p r) rtol = true in
    (forall p r, p < np -> r < nr ->
      (at_ (t_conv s) [r; p] = true -> at_ (t_err_pos s') [r; p] = at_ (t_err_pos s) [r; p] /\ at_ (t_err_rot s') [r; p] = at_ (t_err_rot s) [r; p] /\
        forall j, j < dof -> at_ (t_solutions s') [j; r; p] = at_ (t_solutions s) [j; r; p]) /\
      (at_ (t_conv s) [r; p] = false -> at_ (t_err_pos s') [r; p] = perr p r /\ at_ (t_err_rot s') [r; p] = rerr p r /\
        forall j, j < dof -> at_ (t_solutions s') [j; r; p] = at_ q [j; p * nr + r]) /\
      (at_ (t_conv s') [r; p] = true <-> at_ (t_conv s) [r; p] = true \/ within p r) /\
      (at_ (t_conv_pos s') [r; p] = true <-> at_ (t_conv_pos s) [r; p] = true \/ flt (perr p r) ptol = true) /\
      (at_ (t_conv_rot s') [r; p] = true <-> at_ (t_conv_rot s) [r; p] = true \/ flt (rerr p r) rtol = true)) /\
    (forall p, p < np ->
      (at_ (t_any s') [p] = true <-> at_ (t_any s) [p] = true \/ exists r, r < nr /\ within p r) /\
      (at_ (t_remaining s') [p] = true <-> at_ (t_remaining s) [p] = true /\ (use_keep = true -> ~ exists r, r < nr /\ within p r))).
Proof. exact l92_update_cells. Qed.
Print Assumptions C92_update_cells.
(** two problems, the second within tolerance: it takes the new joint value and leaves the set of remaining problems *)
Example C92_update_ex : exists s', update_t 1 1 (Fin 1) (Fin 1) (sol_init_t 1 2 1) (mkT [1; 2] (fun _ => Fin 7%R)) (mkT [6; 2] (fun i => if nth 1 i 0 =? 0 then PInf else Fin 0%R)) true = Ok s' /\
  at_ (t_solutions s') [0; 0; 1] = Fin 7%R /\ at_ (t_conv s') [0; 1] = true /\ at_ (t_any s') [1] = true /\ at_ (t_remaining s') [1] = false.
Proof.
  destruct (C92_update_cells 1 2 1 (Fin 1) (Fin 1) (sol_init_t 1 2 1) (mkT [1; 2] (fun _ => Fin 7%R)) (mkT [6; 2] (fun i => if nth 1 i 0 =? 0 then PInf else Fin 0%R)) true ltac:(lia) ltac:(lia)
    eq_refl eq_refl eq_refl eq_refl eq_refl eq_refl eq_refl eq_refl ltac:(reflexivity) ltac:(reflexivity) eq_refl eq_refl) as (s' & E & _ & H).
  exists s'. split; [exact E|]. cbv zeta in H. destruct H as (H1 & H2). destruct (H1 1 0 ltac:(lia) ltac:(lia)) as (_ & A & B & _). destruct (H2 1 ltac:(lia)) as (C & D).
  assert (W : flt (fnorm [Fin 0%R; Fin 0%R; Fin 0%R]) (Fin 1) = true) by (rewrite ex_norm by lra; cbn [flt]; apply Rltb_true; lra).
  split; [exact (proj2 (proj2 (A eq_refl)) 0 ltac:(lia))|]. split; [apply B; right; split; exact W|]. split; [apply C; right; exists 0; split; [lia | split; exact W]|].
  apply not_true_is_false. intros T. apply D in T. destruct T as (_ & T). apply (T eq_refl). exists 0. split; [lia | split; exact W].
Qed.

(** An update raises where [reshape(-1, ...)] cannot give the other two sizes: for errors whose number is not a multiple of six times the number of retries, without retries, or for a chain without
    joints. *)
Theorem C92_update_rejects : forall dof np nr ptol rtol s q err use_keep,
  (nr = 0 \/ prod (shape err) mod (nr * 6) <> 0 -> update_t dof nr ptol rtol s q err use_keep = Err RuntimeError) /\
  (dof = 0 \/ prod (shape q) mod (nr * dof) <> 0 -> 0 < nr -> shape err = [6; np * nr] -> shape (t_remaining s) = [np] -> update_t dof nr ptol rtol s q err use_keep = Err RuntimeError).
Proof. exact l92_update_rejects. Qed.
Print Assumptions C92_update_rejects.
(** a chain without joints *)
Example C92_no_joints_ex : update_t 0 1 (Fin 1) (Fin 1) (sol_init_t 0 2 1) (mkT [0; 2] (fun _ => NaN)) (mkT [6; 2] (fun _ => Fin 0%R)) true = Err RuntimeError.
Proof. apply (proj2 (C92_update_rejects 0 2 1 _ _ _ _ _ _)); [left; reflexivity | lia | reflexivity | reflexivity]. Qed.
