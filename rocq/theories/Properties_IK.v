(** C39 - C43, C46 - C48: the inverse kinematics solver. *)
From Coq Require Import Reals Lra String Bool Arith Lia List ZArith.
From Verif Require Import Prelude ExtF IKModel IKProofs IKMore IKLimits.
From Verif Require Import IKFinal.
Import ListNotations.
Local Open Scope nat_scope.
Local Open Scope list_scope.


(** C39.  Any history of updates with rows of the right shape.  [seen] is what problem [p], retry [r] was given; the entry is marked converged
    exactly if one of the errors seen was below both tolerances, and it stores the first such configuration with its errors (the last
    configuration if there is none). *)
Theorem C39_history : forall dof np nr pt rt h, 0 < nr -> (forall q e b, In (q, e, b) h -> length q = np * nr /\ length e = np * nr) ->
  exists s, run_updates (sol_init dof np nr pt rt) h = Ok s /\
  (forall p r, p < np -> r < nr ->
    let seen := map (fun x => (nth (p * nr + r) (fst (fst x)) [], nth (p * nr + r) (snd (fst x)) [])) h in
    let good := fun qe : list F * list F => flt (fnorm (firstn 3 (snd qe))) pt = true /\ flt (fnorm (skipn 3 (snd qe))) rt = true in
    exists e, entry_at s p r = Some e /\ (e_conv e = true <-> exists qe, In qe seen /\ good qe) /\
      (forall a qe b, seen = a ++ qe :: b -> (forall x, In x a -> ~ good x) -> (good qe \/ b = []) ->
        e_q e = fst qe /\ e_pos e = fnorm (firstn 3 (snd qe)) /\ e_rot e = fnorm (skipn 3 (snd qe))) /\
      (e_conv e = true -> flt (e_pos e) pt = true /\ flt (e_rot e) rt = true)) /\
  (forall p, p < np -> exists b, nth_error (s_any s) p = Some b /\ (b = true <-> exists r e, entry_at s p r = Some e /\ e_conv e = true)).
Proof. exact l39_history. Qed.
Print Assumptions C39_history.

(** C39: once converged, an entry keeps its configuration, errors and flag under any further updates. *)
Theorem C39_frozen : forall dof np nr pt rt h1 h2, 0 < nr -> (forall q e b, In (q, e, b) (h1 ++ h2) -> length q = np * nr /\ length e = np * nr) ->
  exists s1 s2, run_updates (sol_init dof np nr pt rt) h1 = Ok s1 /\ run_updates s1 h2 = Ok s2 /\
  forall p r e1, p < np -> r < nr -> entry_at s1 p r = Some e1 -> e_conv e1 = true ->
    exists e2, entry_at s2 p r = Some e2 /\ e_q e2 = e_q e1 /\ e_pos e2 = e_pos e1 /\ e_rot e2 = e_rot e1 /\ e_conv e2 = true.
Proof. exact l39_frozen. Qed.
Print Assumptions C39_frozen.

(** C39 for solve, with or without limit enforcement and whatever the step oracle: every stored error is the error of the stored configuration,
    an entry is marked converged exactly if that error is below both tolerances, and converged_any is the disjunction over retries. *)
Theorem C39_solve : forall kern k np q0, 0 < ik_nr k -> length q0 = np * ik_nr k ->
  (forall f, ik_ls k = Some f -> forall q dq dx rem, length dq = length q -> length dx = length q -> length (f q dq dx rem) = length q) ->
  exists s, solve_from kern k np q0 = Ok s /\
  (forall p r, p < np -> r < ik_nr k -> exists e, entry_at s p r = Some e /\
    e_pos e = fnorm (firstn 3 (snd (kern p (e_q e)))) /\ e_rot e = fnorm (skipn 3 (snd (kern p (e_q e)))) /\
    (e_conv e = true <-> flt (e_pos e) (ik_ptol k) = true /\ flt (e_rot e) (ik_rtol k) = true)) /\
  (forall p, p < np -> exists b, nth_error (s_any s) p = Some b /\ (b = true <-> exists r e, entry_at s p r = Some e /\ e_conv e = true)).
Proof. exact l39_solve. Qed.
Print Assumptions C39_solve.

(** a one-joint problem solved in one step: the entry is marked converged and stores the configuration reached *)
Example C39_example : exists s e, solve_from (fun _ q => match q with [Fin x] => ([Fin 1], [Fin (1 - x); Fin 0; Fin 0; Fin 0; Fin 0; Fin 0]) | _ => ([], []) end)
    (mkIK 1 1 (Fin (1/2)) (Fin 1) 1 (Fin 1) None false NoStop 0 false 0 false [] [] []) 1 [[Fin 0%R]] = Ok s /\
  entry_at s 0 0 = Some e /\ e_conv e = true /\ e_q e = [Fin 1%R] /\ s_any s = [true] /\ s_iter s = 1.
Proof.
  assert (N : forall x, fnorm [Fin x; Fin 0%R; Fin 0%R] = Fin (sqrt (x * x + (0 * 0 + (0 * 0 + 0))))).
  { intros x. unfold fnorm. cbn [map fmul fsum fold_right fadd fsqrt]. unfold Rltb. destruct (Rlt_dec _ 0) as [L|L]; [|reflexivity]. exfalso. pose proof (Rle_0_sqr x) as Q. unfold Rsqr in Q. lra. }
  assert (V : forall x, (0 <= x)%R -> fnorm [Fin x; Fin 0%R; Fin 0%R] = Fin x).
  { intros x Hx. rewrite N. f_equal. replace (x * x + (0 * 0 + (0 * 0 + 0)))%R with (x * x)%R by ring. apply sqrt_square. exact Hx. }
  assert (B1 : flt (Fin (1 - (0 + 1 * 1))) (Fin (1/2)) = true) by (cbn [flt]; apply Rltb_true; lra).
  assert (B2 : flt (Fin (1 - 0)) (Fin (1/2)) = false) by (cbn [flt]; apply Rltb_false; lra).
  assert (B3 : flt (Fin 0) (Fin 1) = true) by (cbn [flt]; apply Rltb_true; lra).
  eexists; eexists. split.
  - unfold solve_from. cbn -[fnorm flt]. unfold conv_now, pos_err, rot_err. cbn -[fnorm flt]. rewrite !V by lra. rewrite B1, B2, B3. cbn -[fnorm flt].
    unfold conv_now, pos_err, rot_err. cbn -[fnorm flt]. rewrite ?V by lra. rewrite ?B1, ?B2, ?B3. reflexivity.
  - split; [reflexivity|]. cbn -[fnorm flt]. split; [reflexivity|]. split; [|split; reflexivity]. do 2 f_equal. ring.
Qed.

(** C40: what the per-component flags record after solve without limit enforcement: that the tolerance was met at some time up to the stored one
    or later.  They are implied by the stored errors, and by [converged]. *)
Theorem C40_flags_implied : forall kern k np q0, 0 < ik_nr k -> length q0 = np * ik_nr k ->
  (forall f, ik_ls k = Some f -> forall q dq dx rem, length dq = length q -> length dx = length q -> length (f q dq dx rem) = length q) ->
  exists s, solve_from kern k np q0 = Ok s /\
  forall p r, p < np -> r < ik_nr k -> exists e, entry_at s p r = Some e /\
    (flt (e_pos e) (ik_ptol k) = true -> e_cpos e = true) /\ (flt (e_rot e) (ik_rtol k) = true -> e_crot e = true) /\
    (e_conv e = true -> e_cpos e = true /\ e_crot e = true).
Proof. exact l40_flags_implied. Qed.
Print Assumptions C40_flags_implied.

(** C40: with limit enforcement the two flags are exact. *)
Theorem C40_exact_after_enforcement : forall kern k np q0, 0 < ik_nr k -> length q0 = np * ik_nr k ->
  (forall f, ik_ls k = Some f -> forall q dq dx rem, length dq = length q -> length dx = length q -> length (f q dq dx rem) = length q) ->
  ik_enforce k = true -> (exists x, In x (ik_low k ++ ik_high k) /\ isfinite x = true) ->
  exists s, solve_from kern k np q0 = Ok s /\
  forall p r, p < np -> r < ik_nr k -> exists e, entry_at s p r = Some e /\
    e_cpos e = flt (e_pos e) (ik_ptol k) /\ e_crot e = flt (e_rot e) (ik_rtol k) /\ e_conv e = e_cpos e && e_crot e.
Proof. exact l40_exact_after_enforcement. Qed.
Print Assumptions C40_exact_after_enforcement.

(** C40 fails without enforcement: converged_pos stays set after the position error has left the tolerance, and converged_pos_any, never written,
    does not report it. *)
Theorem C40_flags_refuted : exists kern k s e, solve_from kern k 1 [[Fin 0%R]] = Ok s /\ entry_at s 0 0 = Some e /\
  e_cpos e = true /\ flt (e_pos e) (ik_ptol k) = false /\ s_pos_any s = [false].
Proof. exact l40_flags_refuted. Qed.
Print Assumptions C40_flags_refuted.

(** C40: converged_pos_any and converged_rot_any are false in every result. *)
Theorem C40_any_never_set : forall kern k np q0, 0 < ik_nr k -> length q0 = np * ik_nr k ->
  (forall f, ik_ls k = Some f -> forall q dq dx rem, length dq = length q -> length dx = length q -> length (f q dq dx rem) = length q) ->
  exists s, solve_from kern k np q0 = Ok s /\ s_pos_any s = repeat false np /\ s_rot_any s = repeat false np.
Proof. exact l40_any_never_set. Qed.
Print Assumptions C40_any_never_set.

(** a one-joint chain with limits [-1, 1] whose position error is the joint value and whose rotation error is 3: after enforcement the position flag
    is set, the rotation flag is not *)
Example C40_example : exists s e, solve_from (fun _ q => ([Fin 0%R], [Fin 0%R; Fin 0%R; Fin 0%R; Fin 3%R; Fin 0%R; Fin 0%R]))
    (mkIK 1 1 (Fin (1/2)) (Fin 1) 0 (Fin 1) None false NoStop 0 true 0 false [Fin (-1)%R] [Fin 1%R] [true]) 1 [[Fin 0%R]] = Ok s /\
  entry_at s 0 0 = Some e /\ e_cpos e = true /\ e_crot e = false /\ e_conv e = false.
Proof.
  match goal with |- context [solve_from ?kn ?kk _ ?q] => destruct (C40_exact_after_enforcement kn kk 1 q) as (s & Hs & H) end;
    [cbn; lia | reflexivity | discriminate | reflexivity | exists (Fin (-1)%R); split; [left; reflexivity | reflexivity] |].
  match type of Hs with solve_from ?kn ?kk _ ?q = _ => destruct (C39_solve kn kk 1 q) as (s2 & Hs2 & H2 & _) end; [cbn; lia | reflexivity | discriminate |].
  rewrite Hs in Hs2. assert (HX : forall X (a b : X), Ok a = Ok b -> a = b) by (intros; congruence). apply HX in Hs2. subst s2.
  destruct (H 0 0 ltac:(lia) ltac:(cbn; lia)) as (e & He & A & B & C). destruct (H2 0 0 ltac:(lia) ltac:(cbn; lia)) as (e2 & He2 & P & Q & _).
  rewrite He in He2. assert (HY : forall X (a b : X), Some a = Some b -> a = b) by (intros; congruence). apply HY in He2. subst e2.
  exists s, e. split; [exact Hs|]. split; [exact He|]. cbn [snd firstn skipn ik_ptol ik_rtol] in *.
  assert (V : forall x, (0 <= x)%R -> fnorm [Fin x; Fin 0%R; Fin 0%R] = Fin x).
  { intros x Hx. unfold fnorm. cbn [map fmul fsum fold_right fadd fsqrt]. replace (x * x + (0 * 0 + (0 * 0 + 0)))%R with (x * x)%R by ring.
    unfold Rltb. destruct (Rlt_dec _ 0) as [L|L]; [exfalso; pose proof (Rle_0_sqr x) as Q0; unfold Rsqr in Q0; lra|]. f_equal. apply sqrt_square. exact Hx. }
  rewrite V in P, Q by lra. rewrite P in A. rewrite Q in B. cbn [flt] in A, B.
  assert (A' : e_cpos e = true) by (rewrite A; apply Rltb_true; lra). assert (B' : e_crot e = false) by (rewrite B; apply Rltb_false; lra).
  rewrite A', B' in C. auto.
Qed.

(** C41 and C47.  The run of solve: rows [Q j] at the start of iteration [j], each obtained from the one before by one (clamped) step.  Iteration
    [j] happens only while some problem is alive; at most max_iterations happen; if fewer, no problem is alive.  A problem is alive before
    iteration [n] exactly if in no earlier iteration it was dropped, either because early_stopping_any_converged is set and one of its
    retries met both tolerances, or because the improvement test of the given mode failed.  A retry is stalled in iteration [j] if none of the
    last patience + 1 iterations brought a new strict minimum of its error. *)
Theorem C41_run : forall kern k np q0, 0 < ik_nr k -> length q0 = np * ik_nr k ->
  (forall f, ik_ls k = Some f -> forall q dq dx rem, length dq = length q -> length dx = length q -> length (f q dq dx rem) = length q) ->
  exists s (Q : nat -> nat -> list F) (lr : nat -> nat -> F), solve_from kern k np q0 = Ok s /\
  let err := fun p r j => snd (kern p (Q j (p * ik_nr k + r))) in
  let met := fun p r j => flt (fnorm (firstn 3 (err p r j))) (ik_ptol k) = true /\ flt (fnorm (skipn 3 (err p r j))) (ik_rtol k) = true in
  let newmin := fun p r i => isnan (fnorm (err p r 0)) = false /\ forall l, l < i -> isnan (fnorm (err p r l)) = false -> flt (fnorm (err p r i)) (fnorm (err p r l)) = true in
  let stalled := fun p r j => ik_patience k < j /\ forall i, j - ik_patience k <= i <= j -> ~ newmin p r i in
  let improving := fun p j => exists c, (forall r, r < ik_nr k -> (c r = true <-> ~ stalled p r j)) /\
    match ik_noimp k with
    | NoStop => True
    | StopAll => forall r, r < ik_nr k -> c r = true
    | StopAny => exists r, r < ik_nr k /\ c r = true
    | StopRatio x => (x < INR (length (filter c (seq 0 (ik_nr k)))) / INR (ik_nr k))%R
    end in
  let alive := fun p n => (ik_stop_any k = true -> forall j r, j < n -> r < ik_nr k -> ~ met p r j) /\
    (ik_noimp k <> NoStop -> forall j, 0 < j < n -> improving p j) in
  (forall i, i < np * ik_nr k -> nth_error q0 i = Some (Q 0 i)) /\
  (forall j i, j < s_iter s -> i < np * ik_nr k -> Q (S j) i =
    (let q := zip_with2 (fun x d => fadd x (fmul (lr j i) d)) (Q j i) (fst (kern (i / ik_nr k) (Q j i))) in
     if ik_clamp k then clamp_row (ik_low k) (ik_high k) q else q)) /\
  (ik_ls k = None -> forall j i, lr j i = ik_lr k) /\
  s_iter s <= ik_max k /\
  (forall j, j < s_iter s -> exists p, p < np /\ alive p j) /\
  (s_iter s < ik_max k -> forall p, p < np -> ~ alive p (s_iter s)) /\
  (forall p, p < np -> exists b, nth_error (s_remaining s) p = Some b /\
    (b = true <-> alive p (s_iter s) /\ (ik_stop_any k = true -> forall r, r < ik_nr k -> ~ met p r (s_iter s)))).
Proof. exact l41_run. Qed.
Print Assumptions C41_run.

(** C41: with both kinds of early stopping off, all iterations run and no problem is dropped. *)
Theorem C41_full_budget : forall kern k np q0, 0 < ik_nr k -> 0 < np -> length q0 = np * ik_nr k ->
  (forall f, ik_ls k = Some f -> forall q dq dx rem, length dq = length q -> length dx = length q -> length (f q dq dx rem) = length q) -> ik_stop_any k = false -> ik_noimp k = NoStop ->
  exists s, solve_from kern k np q0 = Ok s /\ s_iter s = ik_max k /\ s_remaining s = repeat true np.
Proof. exact l41_full_budget. Qed.
Print Assumptions C41_full_budget.

(** three iterations, two problems with two retries *)
Example C41_example : exists s, solve_from (fun _ q => (q, repeat (Fin 1%R) 6)) (mkIK 1 2 (Fin 1) (Fin 1) 3 (Fin 1) None false NoStop 0 false 0 false [] [] []) 2
    [[Fin 0%R]; [Fin 1%R]; [Fin 2%R]; [Fin 3%R]] = Ok s /\ s_iter s = 3 /\ s_remaining s = [true; true].
Proof. apply C41_full_budget; try reflexivity; [cbn; lia | lia | discriminate]. Qed.

(** C47 fails: the docstring says that "all" stops a problem when all its retries stop improving and "any" when any does.  Here retry 0 is stuck
    and retry 1 keeps improving: "all" drops the problem and "any" keeps it. *)
Theorem C47_swapped_refuted : exists kern k q0 s s', ik_nr k = 2 /\ ik_noimp k = StopAll /\
  solve_from kern k 1 q0 = Ok s /\ s_remaining s = [false] /\
  solve_from kern (mkIK (ik_dof k) 2 (ik_ptol k) (ik_rtol k) (ik_max k) (ik_lr k) (ik_ls k) (ik_stop_any k) StopAny (ik_patience k) (ik_enforce k)
    (ik_refine k) (ik_clamp k) (ik_low k) (ik_high k) (ik_rev k)) 1 q0 = Ok s' /\ s_remaining s' = [true] /\
  (forall x, snd (kern 0 [Fin 0%R]) = [Fin 1%R; Fin 0%R; Fin 0%R; Fin 0%R; Fin 0%R; Fin 0%R] /\ fst (kern 0 [Fin 0%R]) = [Fin 0%R] /\
     ((x < 0)%R -> kern 0 [Fin x] = ([Fin (- x / 2)%R], [Fin (- x)%R; Fin 0%R; Fin 0%R; Fin 0%R; Fin 0%R; Fin 0%R]))) /\ q0 = [[Fin 0%R]; [Fin (-4)%R]].
Proof. exact l47_swapped_refuted. Qed.
Print Assumptions C47_swapped_refuted.

(** C47: the equivalences stated in the docstring, "all" with 0.999 and "any" with 0.001, hold for fewer than 1000 retries. *)
Theorem C47_ratio_equivalents : forall k c, 0 < ik_nr k < 1000 -> length c = ik_nr k ->
  let with_mode md := mkIK (ik_dof k) (ik_nr k) (ik_ptol k) (ik_rtol k) (ik_max k) (ik_lr k) (ik_ls k) (ik_stop_any k) md (ik_patience k) (ik_enforce k)
    (ik_refine k) (ik_clamp k) (ik_low k) (ik_high k) (ik_rev k) in
  keep_problem (with_mode (StopRatio 0.999)) c = keep_problem (with_mode StopAll) c /\ keep_problem (with_mode (StopRatio 0.001)) c = keep_problem (with_mode StopAny) c.
Proof. exact l47_ratio_equivalents. Qed.
Print Assumptions C47_ratio_equivalents.

(** two retries of which one improves: kept by "any" and by 0.001 *)
Example C47_example : forall k, keep_problem (mkIK (ik_dof k) 2 (ik_ptol k) (ik_rtol k) (ik_max k) (ik_lr k) (ik_ls k) (ik_stop_any k) (StopRatio 0.001) (ik_patience k) (ik_enforce k)
    (ik_refine k) (ik_clamp k) (ik_low k) (ik_high k) (ik_rev k)) [true; false] = true.
Proof. intros k. unfold keep_problem. cbn [ik_noimp ik_nr filter length]. apply Rltb_true. cbn. lra. Qed.

(** C42: with enforcement on and some finite limit, every component of every returned configuration is within its limits or NaN; the entries are
    marked converged exactly if the error of the returned configuration is below both tolerances. *)
Theorem C42_limits : forall kern k np q0, 0 < ik_nr k -> length q0 = np * ik_nr k ->
  (forall f, ik_ls k = Some f -> forall q dq dx rem, length dq = length q -> length dx = length q -> length (f q dq dx rem) = length q) ->
  ik_enforce k = true -> (exists x, In x (ik_low k ++ ik_high k) /\ isfinite x = true) ->
  exists s, solve_from kern k np q0 = Ok s /\
  forall p r, p < np -> r < ik_nr k -> exists e, entry_at s p r = Some e /\
    (forall j x lo hi, nth_error (e_q e) j = Some x -> nth_error (ik_low k) j = Some lo -> nth_error (ik_high k) j = Some hi -> fle lo hi = true ->
       x = NaN \/ (fle lo x = true /\ fle x hi = true)) /\
    (e_conv e = true <-> flt (fnorm (firstn 3 (snd (kern p (e_q e))))) (ik_ptol k) = true /\ flt (fnorm (skipn 3 (snd (kern p (e_q e))))) (ik_rtol k) = true).
Proof. exact l42_limits. Qed.
Print Assumptions C42_limits.

(** C42: no NaN appears and every returned configuration is finite, provided revolute joints have two finite limits, the other limits are not the
    wrong infinities, and the step oracle and the starting configurations are finite. *)
Theorem C42_limits_finite : forall kern k np q0, 0 < ik_nr k -> length q0 = np * ik_nr k ->
  (forall q, In q q0 -> length q = ik_dof k /\ (forall x, In x q -> isfinite x = true)) ->
  (forall p q, length q = ik_dof k -> (forall x, In x q -> isfinite x = true) -> length (fst (kern p q)) = ik_dof k /\ (forall x, In x (fst (kern p q)) -> isfinite x = true)) ->
  (forall f, ik_ls k = Some f -> forall q dq dx rem, length dq = length q -> length dx = length q -> length (f q dq dx rem) = length q /\ (forall x, In x (f q dq dx rem) -> isfinite x = true)) ->
  isfinite (ik_lr k) = true -> length (ik_low k) = ik_dof k -> length (ik_high k) = ik_dof k -> length (ik_rev k) = ik_dof k ->
  (forall j lo hi, nth_error (ik_low k) j = Some lo -> nth_error (ik_high k) j = Some hi -> fle lo hi = true /\ lo <> PInf /\ hi <> NInf /\
    (nth_error (ik_rev k) j = Some true -> isfinite lo = true /\ isfinite hi = true)) ->
  ik_enforce k = true -> (exists x, In x (ik_low k ++ ik_high k) /\ isfinite x = true) ->
  exists s, solve_from kern k np q0 = Ok s /\
  forall p r, p < np -> r < ik_nr k -> exists e, entry_at s p r = Some e /\ length (e_q e) = ik_dof k /\
    forall j x, nth_error (e_q e) j = Some x -> exists lo hi y, nth_error (ik_low k) j = Some lo /\ nth_error (ik_high k) j = Some hi /\ x = Fin y /\ fle lo x = true /\ fle x hi = true.
Proof. exact l42_limits_finite. Qed.
Print Assumptions C42_limits_finite.

(** C42 fails for a revolute joint without limits next to a limited joint: the start configuration solves the problem and lies within the limits,
    but after enforcement its first joint is NaN and the problem is reported unsolved. *)
Theorem C42_unlimited_revolute_refuted : exists kern k s s' e e', ik_low k = [NInf; Fin (-1)] /\ ik_high k = [PInf; Fin 1] /\ ik_rev k = [true; true] /\
  solve_from kern (mkIK (ik_dof k) (ik_nr k) (ik_ptol k) (ik_rtol k) (ik_max k) (ik_lr k) (ik_ls k) (ik_stop_any k) (ik_noimp k) (ik_patience k) false
    (ik_refine k) (ik_clamp k) (ik_low k) (ik_high k) (ik_rev k)) 1 [[Fin 0%R; Fin 0%R]] = Ok s /\
  entry_at s 0 0 = Some e /\ e_conv e = true /\ e_q e = [Fin 0%R; Fin 0%R] /\
  ik_enforce k = true /\ solve_from kern k 1 [[Fin 0%R; Fin 0%R]] = Ok s' /\ entry_at s' 0 0 = Some e' /\ nth_error (e_q e') 0 = Some NaN /\ e_conv e' = false.
Proof. exact l42_unlimited_revolute_refuted. Qed.
Print Assumptions C42_unlimited_revolute_refuted.

(** C42 fails for a limit given on one side only: a revolute joint with limits (-inf, 1] is sent to NaN. *)
Theorem C42_one_sided_limit_refuted : exists kern k s e, ik_enforce k = true /\ ik_low k = [NInf] /\ ik_high k = [Fin 1%R] /\
  solve_from kern k 1 [[Fin 0%R]] = Ok s /\ entry_at s 0 0 = Some e /\ forall x, In x (e_q e) -> isfinite x = false.
Proof. exact l42_one_sided_limit_refuted. Qed.
Print Assumptions C42_one_sided_limit_refuted.

(** limits [-1, 1] and a start at 7: one whole turn back, then within the limits *)
Example C42_example : exists s e x, solve_from (fun _ q => ([Fin 0%R], repeat (Fin 0%R) 6)) (mkIK 1 1 (Fin 1) (Fin 1) 4 (Fin 1) None true NoStop 0 true 2 false [Fin (-1)%R] [Fin 1%R] [true]) 1
    [[Fin 7%R]] = Ok s /\ entry_at s 0 0 = Some e /\ e_q e = [Fin x] /\ (-1 <= x <= 1)%R.
Proof.
  match goal with |- context [solve_from ?kn ?kk _ ?q] => destruct (C42_limits_finite kn kk 1 q) as (s & Hs & H) end; try reflexivity; try (cbn; lia); try discriminate.
  - intros q [<-|[]]. split; [reflexivity|]. intros x [<-|[]]. reflexivity.
  - intros p q _ _. split; [reflexivity|]. intros x [<-|[]]. reflexivity.
  - intros [|[|j]] lo hi Hlo Hhi; try discriminate Hlo. cbn in Hlo, Hhi. assert (HX : forall X (a b : X), Some a = Some b -> a = b) by (intros; congruence).
    apply HX in Hlo. apply HX in Hhi. subst lo hi. split; [cbn; apply Rleb_true; lra|]. split; [discriminate|]. split; [discriminate|]. auto.
  - exists (Fin (-1)%R). split; [left; reflexivity | reflexivity].
  - destruct (H 0 0 ltac:(lia) ltac:(cbn; lia)) as (e & He & Hlen & Hx). cbn [ik_dof] in Hlen. destruct (e_q e) as [|y [|]] eqn:Eq; try discriminate Hlen.
    destruct (Hx 0 y eq_refl) as (lo & hi & x & Hlo & Hhi & -> & A & B). cbn in Hlo, Hhi. assert (HX : forall X (a b : X), Some a = Some b -> a = b) by (intros; congruence).
    apply HX in Hlo. apply HX in Hhi. subst lo hi. cbn in A, B. apply Rleb_true in A. apply Rleb_true in B. exists s, e, x. auto.
Qed.

(** C43.  A revolute joint with finite limits: wrapping adds a whole number of turns, lands within half a turn of the middle of the limits, and
    lands within the limits whenever some whole number of turns does.  Other joints are left alone. *)
Theorem C43_wrap : forall lo hi q, exists n : Z, wrap1 true (Fin lo) (Fin hi) (Fin q) = Fin (q + 2 * PI * IZR n)%R /\
  (Rabs (q + 2 * PI * IZR n - (lo + hi) / 2) <= PI)%R /\
  (forall m : Z, (lo <= q + 2 * PI * IZR m <= hi)%R -> (lo <= q + 2 * PI * IZR n <= hi)%R) /\
  forall x y z, wrap1 false x y z = z.
Proof. exact l43_wrap. Qed.
Print Assumptions C43_wrap.

(** 2 pi is brought back to 0 for limits -1, 1 *)
Example C43_example : wrap1 true (Fin (-1)) (Fin 1) (Fin (2 * PI)) = Fin 0.
Proof.
  destruct (C43_wrap (-1) 1 (2 * PI)) as (n & E & _ & W & _). rewrite E. pose proof PI_RGT_0. pose proof PI_4. pose proof PI2_3_2. unfold PI2 in *.
  assert (H2 : (-1 <= 2 * PI + 2 * PI * IZR (-1) <= 1)%R) by (cbn; lra). apply W in H2.
  assert (n = -1)%Z; [|subst n; f_equal; cbn; ring]. set (z := IZR n) in *. assert (Hz : (2 * PI + 2 * PI * z = 2 * PI * (z + 1))%R) by ring. rewrite Hz in H2.
  assert (z + 1 < 1)%R by (apply Rmult_lt_reg_l with (2 * PI)%R; lra). assert (-1 < z + 1)%R by (apply Rmult_lt_reg_l with (2 * PI)%R; lra).
  assert (n < 0)%Z by (apply lt_IZR; unfold z in *; lra). assert (-2 < n)%Z by (apply lt_IZR; unfold z in *; lra). lia.
Qed.

(** C46.  Rows [q i], directions [dq i], initial errors [dx i].  After [m <= max_iterations] rounds each row returns max_lr * factor^j for the
    first [j] that decreased its error by more than the required amount, or for [j = m] if none of the first [m] did; if the search
    stopped before its budget, every row of a remaining problem has its sufficient decrease. *)
Theorem C46_line_search : forall errf ls nr n (q dq dx : nat -> list F) rem,
  let progress := fun i j => flt (Fin (ls_suff ls)) (fsub (fnorm (dx i)) (errf i (zip_with2 (fun x d => fadd x (fmul (Fin (ls_lr ls * ls_factor ls ^ j)) d)) (q i) (dq i)))) = true in
  exists m rows, do_line_search errf ls nr (map q (seq 0 n)) (map dq (seq 0 n)) (map dx (seq 0 n)) rem = rows /\ length rows = n /\ m <= ls_iter ls /\
  forall i, i < n -> exists row j, nth_error rows i = Some row /\ l_lr row = Fin (ls_lr ls * ls_factor ls ^ j)%R /\ j <= m /\
    (forall l, l < j -> ~ progress i l) /\ (j < m -> progress i j) /\
    (m < ls_iter ls -> nth (i / nr) rem false = true -> progress i j).
Proof. exact l46_line_search. Qed.
Print Assumptions C46_line_search.

(** C46: a row that never improves returns a step size that was never tried, and taking it can raise the error. *)
Theorem C46_untried_step_refuted : exists errf ls row, do_line_search errf ls 1 [[Fin 0%R]] [[Fin 1%R]] [[Fin 3%R]] [true] = [row] /\
  fnorm [Fin 3%R] = Fin 3%R /\ (forall x, errf 0 [Fin x] = if Reqb x 1 then Fin 3%R else Fin (3 + x)%R) /\ exists r, l_lr row = Fin r /\ (3 < 3 + (0 + r * 1))%R /\
  errf 0 (step_row (l_lr row) [Fin 0%R] [Fin 1%R]) = Fin (3 + (0 + r * 1))%R.
Proof. exact l46_untried_step_refuted. Qed.
Print Assumptions C46_untried_step_refuted.

(** error 3 at the start, 3 after a full step, 1 after half a step: half a step is returned *)
Example C46_example : exists row, do_line_search (fun _ q => match q with [Fin x] => if Reqb x 1 then Fin 3%R else Fin 1%R | _ => NaN end) (mkLS 1 (1/2) 4 (1/100)) 1 [[Fin 0%R]] [[Fin 1%R]] [[Fin 3%R]] [true] = [row] /\
  l_lr row = Fin (1 * (1/2) ^ 1)%R.
Proof.
  destruct (C46_line_search (fun _ q => match q with [Fin x] => if Reqb x 1 then Fin 3%R else Fin 1%R | _ => NaN end) (mkLS 1 (1/2) 4 (1/100)) 1 1 (fun _ => [Fin 0%R]) (fun _ => [Fin 1%R]) (fun _ => [Fin 3%R]) [true])
    as (m & rows & E & L & Hm & H). destruct (H 0 ltac:(lia)) as (row & j & Hrow & Hlr & Hj & N1 & N2 & N3). cbn [ls_lr ls_factor ls_suff ls_iter] in *.
  destruct rows as [|r0 [|]]; try discriminate L. cbn in Hrow. assert (HX : forall X (a b : X), Some a = Some b -> a = b) by (intros; congruence). apply HX in Hrow. subst r0.
  exists row. split; [exact E|]. rewrite Hlr. cbn [zip_with2 fmul fadd nth Nat.div fst Nat.divmod] in *.
  assert (N : fnorm [Fin 3%R] = Fin 3%R).
  { unfold fnorm. cbn [map fmul fsum fold_right fadd fsqrt]. unfold Rltb. destruct (Rlt_dec _ 0); [exfalso; lra|]. f_equal. replace (3 * 3 + 0)%R with (3 * 3)%R by ring. apply sqrt_square. lra. }
  rewrite N in *.
  assert (P0 : Reqb (0 + 1 * (1 / 2) ^ 0 * 1) 1 = true) by (apply Reqb_true; cbn; lra).
  assert (P1 : Reqb (0 + 1 * (1 / 2) ^ 1 * 1) 1 = false) by (apply Reqb_false; cbn; lra).
  destruct j as [|[|j]]; [| reflexivity |].
  - exfalso. assert (Q : m = 0 \/ 0 < m) by lia. destruct Q as [-> | Q].
    + specialize (N3 ltac:(lia) eq_refl). rewrite P0 in N3. apply Rltb_true in N3. lra.
    + specialize (N2 Q). rewrite P0 in N2. apply Rltb_true in N2. lra.
  - exfalso. apply (N1 1 ltac:(lia)). rewrite P1. apply Rltb_true. lra.
Qed.

(** C48.  Uniform sampling with finite limits and draws in [0, 1): every entry lies within the limits of its joint. *)
Theorem C48_uniform_within_limits : forall draws lim dof n, 0 < dof -> length lim = dof -> length (draws n dof) = n * dof ->
  (forall u, In u (draws n dof) -> (0 <= u < 1)%R) -> (forall l h, In (l, h) lim -> exists a b, l = Fin a /\ h = Fin b /\ (a <= b)%R) ->
  exists data, sample_configs draws Uniform (Some lim) dof n = Ok (mkTens [n; dof] data) /\ length data = n * dof /\
  forall r j, r < n -> j < dof -> exists a b x, nth_error lim j = Some (Fin a, Fin b) /\ nth_error data (r * dof + j) = Some (Fin x) /\ (a <= x <= b)%R /\ ((a < b)%R -> (x < b)%R).
Proof. exact l48_uniform_within_limits. Qed.
Print Assumptions C48_uniform_within_limits.

(** C48 fails for a joint without limits: every sampled value is NaN. *)
Theorem C48_infinite_limits_refuted : exists lim, lim = [(NInf, PInf)] /\ forall draws n u, draws n 1 = [u] -> (0 <= u < 1)%R ->
  exists t, sample_configs draws Uniform (Some lim) 1 n = Ok t /\ t_data t = [NaN].
Proof. exact l48_infinite_limits_refuted. Qed.
Print Assumptions C48_infinite_limits_refuted.

(** C48: two-dimensional retry configurations are used as given, for every problem. *)
Theorem C48_retry_2d : forall draws m lim num dof nr np d, 0 < dof -> 0 < nr ->
  init_configs draws m lim dof (Some (mkTens [nr; dof] (map d (seq 0 (nr * dof))))) num = Ok (mkTens [nr; dof] (map d (seq 0 (nr * dof))), nr) /\
  exists rows, start_configs dof nr np (mkTens [nr; dof] (map d (seq 0 (nr * dof)))) = Ok rows /\ length rows = np * nr /\
    forall p r, p < np -> r < nr -> nth_error rows (p * nr + r) = Some (map (fun j => d (r * dof + j)) (seq 0 dof)).
Proof. exact l48_retry_2d. Qed.
Print Assumptions C48_retry_2d.

(** C48: the (problems, retries, joints) shape that the solver's own error message offers is accepted by the constructor only if the number
    of retries equals the number of joints.  When it does, problem [p], retry [r] starts from entry [p][r]. *)
Theorem C48_retry_3d : forall draws m lim num dof nr np d, 0 < dof ->
  let t := mkTens [np; nr; dof] (map d (seq 0 (np * nr * dof))) in
  (nr <> dof -> init_configs draws m lim dof (Some t) num = Err ValueError) /\
  (nr = dof -> init_configs draws m lim dof (Some t) num = Ok (t, nr)) /\
  exists rows, start_configs dof nr np t = Ok rows /\ forall p r, p < np -> r < nr -> nth_error rows (p * nr + r) = Some (map (fun j => d ((p * nr + r) * dof + j)) (seq 0 dof)).
Proof. exact l48_retry_3d. Qed.
Print Assumptions C48_retry_3d.

(** C48 fails for five retries of two problems with three joints: a ValueError. *)
Theorem C48_retry_3d_refuted : exists t, t_shape t = [2; 5; 3] /\ length (t_data t) = 30 /\
  forall draws m lim num, init_configs draws m lim 3 (Some t) num = Err ValueError.
Proof. exact l48_retry_3d_refuted. Qed.
Print Assumptions C48_retry_3d_refuted.

(** C48: a single configuration is used for every retry of every problem. *)
Theorem C48_single_config : forall dof nr np q, length q = dof -> 0 < dof -> 1 < nr -> 0 < np ->
  exists rows, start_configs dof nr np (mkTens [dof] q) = Ok rows /\ length rows = np * nr /\ forall i, i < np * nr -> nth_error rows i = Some q.
Proof. exact l48_single_config. Qed.
Print Assumptions C48_single_config.

Example C48_single_example : exists rows, start_configs 2 3 2 (mkTens [2] [Fin 4; Fin 5]) = Ok rows /\ length rows = 6 /\ nth_error rows 5 = Some [Fin 4; Fin 5].
Proof.
  destruct (C48_single_config 2 3 2 [Fin 4; Fin 5]) as (rows & A & B & C); [reflexivity | lia | lia | lia|].
  exists rows. split; [exact A|]. split; [exact B|]. apply C. lia.
Qed.

(** C48: sampling around a configuration returns the configuration plus the draws times the standard deviation. *)
Theorem C48_gaussian_around : forall draws config std n, length (draws n (length config)) = n * length config ->
  t_shape (gaussian_around draws (map Fin config) std n) = [n; length config] /\
  length (t_data (gaussian_around draws (map Fin config) std n)) = n * length config /\
  forall r j, r < n -> j < length config -> exists g c, nth_error (draws n (length config)) (r * length config + j) = Some g /\
    nth_error config j = Some c /\
    nth_error (t_data (gaussian_around draws (map Fin config) std n)) (r * length config + j) = Some (Fin (g * std + c)).
Proof. exact l48_gaussian_around. Qed.
Print Assumptions C48_gaussian_around.

Example C48_gaussian_example : exists x, nth_error (t_data (gaussian_around (fun _ _ => [1; 2; 3; 4]%R) (map Fin [10; 20]%R) 2 2)) 3 = Some (Fin x) /\ x = 28%R.
Proof.
  destruct (C48_gaussian_around (fun _ _ => [1; 2; 3; 4]%R) [10; 20]%R 2 2 eq_refl) as (_ & _ & H).
  destruct (H 1 1) as (g & c & A & B & C); [lia | simpl; lia|]. exists (g * 2 + c)%R. split; [exact C|].
  assert (E1 : g = 4%R) by (simpl in A; congruence). assert (E2 : c = 20%R) by (simpl in B; congruence). rewrite E1, E2. lra.
Qed.

(** one draw of 1/2 between 2 and 4 *)
Example C48_example : exists x, sample_configs (fun _ _ => [1/2]%R) Uniform (Some [(Fin 2, Fin 4)]) 1 1 = Ok (mkTens [1; 1] [Fin x]) /\ x = 3%R.
Proof. eexists. split; [reflexivity | field]. Qed.
