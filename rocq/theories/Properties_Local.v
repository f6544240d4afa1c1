(** C78: near a configuration from which the robot can move in every direction the solver converges. *)
From Coq Require Import Reals Lra String Bool Arith Lia List ZArith.
From Verif Require Import Prelude ExtF Tree ChainModel SpecFK ChainProofs ChainTables TreeQueries Input Widths Lin Trig RotModel RotBasic QuatProofs AxisAngle ChainInst
  FKMore ChainClamp Examples SerialModel SerialProofs SerialMore Deriv JacModel JacProofs JacMore IKModel IKProofs IKMore IKLimits IKKernel KernelProofs DeltaPose IKSolve SolveProofs
  SpecDescent PathDeriv DescentProofs DescFinal SpecLocal LocalNorm LocalCont LocalErr LocalDeriv LocalStep LocalRun LocalTraj LocalStart.
From Verif Require Import LocalFinal.
Import ListNotations.
Local Open Scope string_scope.
Local Open Scope list_scope.
Local Open Scope R_scope.


(** Take any chain, and a configuration whose Jacobian, as the library computes it, can start every motion of the end.  Then there are a distance [delta] and a rate
    [rho] below one such that, for every target pose within [delta] of the end's pose there and every start within [delta] of the configuration, the solver reports the problem as solved as soon as [N] iterations are allowed, where [rho ^ N]
    is below both tolerances; whatever the other problems, the other retries, the damping, the weights and the early stopping rules, as long as limits are not in the way and the patience covers the
    difference between the weights.  Unless another retry may end the problem first, the row itself is reported as converged, at a configuration within [eps] of the one given. *)
Theorem C78_converges : forall (nan : R) is_nan (root r : mframe) c rn p fs s row0 T0 J Ts reg lm wp wr lr eps,
  chain_init mops root = Ok c -> distinct_joints root -> distinct_frames root -> clean_names root -> rigid_tree root ->
  root_path root (p ++ [r]) -> ((rn = "" /\ r = root) \/ (rn <> "" /\ rn = f_name r)) -> root_path r (r :: fs) ->
  serial_init mops zax c (f_name (last (r :: fs) r)) rn = Ok s -> length row0 = length (filter moving fs) ->
  serial_fk_end mops nan is_nan s (InTensor (T1 row0)) = Ok [T0] -> jacobian s (InTensor (T1 row0)) None = Ok ([J], Ts) -> reaches J ->
  0 < reg -> 0 <= lm -> 0 < wp -> 0 < wr -> 0 < lr <= 1 -> 0 < eps ->
  exists delta rho, 0 < delta /\ 0 < rho < 1 /\
  forall targets o np q0 i t row pt rt N,
  ik_lr o = Fin lr -> ik_ls o = None -> (0 < ik_nr o)%nat -> ik_ptol o = Fin pt -> ik_rtol o = Fin rt ->
  ik_noimp o = NoStop \/ ((ik_noimp o = StopAny \/ (ik_nr o = 1%nat /\ forall x, ik_noimp o = StopRatio x -> x < 1)) /\ rho ^ S (ik_patience o) * Rmax wp wr < Rmin wp wr) ->
  ik_clamp o = false \/ all_joints off_limits fs row0 -> ik_enforce o = false \/ (forall f, In f fs -> moving f = true -> j_lim (f_joint f) = None) ->
  length q0 = (np * ik_nr o)%nat -> (i < np)%nat -> (t < ik_nr o)%nat -> nth_error q0 (i * ik_nr o + t) = Some (map Fin row) -> row_within delta row row0 ->
  is_rigid (targets i) -> pose_within delta (targets i) T0 -> rho ^ N < pt -> rho ^ N < rt -> (N <= ik_max o)%nat ->
  exists sol, solve_from (pik_kern s targets reg lm (Some (row_weights wp wr))) (pik_init s o) np q0 = Ok sol /\ nth_error (s_any sol) i = Some true /\
  (ik_stop_any o = false \/ ik_nr o = 1%nat -> exists e rowe, entry_at sol i t = Some e /\ e_conv e = true /\ e_q e = map Fin rowe /\ row_within eps rowe row0).
Proof. exact l78_converges. Qed.
Print Assumptions C78_converges.

(** With limits to enforce (and a row that no other retry can end early) the same holds, if the configuration keeps clear of its limits and its turning joints are within half a turn of the middle between theirs,
    and the steps taken after the enforcement are none, or enough of them to make up for the difference between the tolerances. *)
Theorem C78_limits : forall (nan : R) is_nan (root r : mframe) c rn p fs s row0 T0 J Ts reg lm wp wr lr eps,
  chain_init mops root = Ok c -> distinct_joints root -> distinct_frames root -> clean_names root -> rigid_tree root ->
  root_path root (p ++ [r]) -> ((rn = "" /\ r = root) \/ (rn <> "" /\ rn = f_name r)) -> root_path r (r :: fs) ->
  serial_init mops zax c (f_name (last (r :: fs) r)) rn = Ok s -> length row0 = length (filter moving fs) ->
  serial_fk_end mops nan is_nan s (InTensor (T1 row0)) = Ok [T0] -> jacobian s (InTensor (T1 row0)) None = Ok ([J], Ts) -> reaches J ->
  0 < reg -> 0 <= lm -> 0 < wp -> 0 < wr -> 0 < lr <= 1 -> 0 < eps -> all_joints off_limits fs row0 -> all_joints same_turn fs row0 ->
  exists delta rho, 0 < delta /\ 0 < rho < 1 /\
  forall targets o np q0 i t row pt rt N,
  ik_lr o = Fin lr -> ik_ls o = None -> (0 < ik_nr o)%nat -> ik_ptol o = Fin pt -> ik_rtol o = Fin rt ->
  ik_noimp o = NoStop \/ ((ik_noimp o = StopAny \/ (ik_nr o = 1%nat /\ forall x, ik_noimp o = StopRatio x -> x < 1)) /\ rho ^ S (ik_patience o) * Rmax wp wr < Rmin wp wr) ->
  ik_stop_any o = false \/ ik_nr o = 1%nat ->
  ik_refine o = 0%nat \/ (rho ^ ik_refine o * (wp * pt + wr * rt) < wp * pt /\ rho ^ ik_refine o * (wp * pt + wr * rt) < wr * rt) ->
  length q0 = (np * ik_nr o)%nat -> (i < np)%nat -> (t < ik_nr o)%nat -> nth_error q0 (i * ik_nr o + t) = Some (map Fin row) -> row_within delta row row0 ->
  is_rigid (targets i) -> pose_within delta (targets i) T0 -> rho ^ N < pt -> rho ^ N < rt -> (N <= ik_max o)%nat ->
  exists sol e rowe, solve_from (pik_kern s targets reg lm (Some (row_weights wp wr))) (pik_init s o) np q0 = Ok sol /\ nth_error (s_any sol) i = Some true /\
  entry_at sol i t = Some e /\ e_conv e = true /\ e_q e = map Fin rowe /\ row_within eps rowe row0.
Proof. exact l78_limits. Qed.
Print Assumptions C78_limits.

(** three slides that carry a wrist with three axes, all with limits of one unit to either side, at zero: every target close enough is found, with the default stopping rule, one retry and limits enforced *)
Example C78_example : exists c s delta N, chain_init mops wrist = Ok c /\ serial_init mops zax c "hand" "" = Ok s /\ 0 < delta /\
  forall target, is_rigid target -> pose_within delta target I4 ->
  exists sol, solve_from (pik_kern s (fun _ => target) 1 1 (Some (row_weights 1 1)))
    (pik_init s (mkIK 0 1 (Fin (1/1000)) (Fin (1/100)) N (Fin (1/2)) None false StopAny 2 true 0 true [] [] [])) 1 [[Fin 0; Fin 0; Fin 0; Fin 0; Fin 0; Fin 0]] = Ok sol /\ nth_error (s_any sol) 0 = Some true.
Proof.
  destruct (chain_init_ok mops wrist) as (c & Hc & _).
  assert (Hin : In wrist (preorder wrist)) by (rewrite preorder_unfold; left; reflexivity).
  destruct (serial_ok mops zax wrist c "" wrist wrist_path Hc wrist_distinct_frames wrist_clean (or_introl (conj eq_refl eq_refl)) wrist_root_path) as (s & Hs & Ht).
  assert (En : c_names (s_chain s) = map (fun n => Some n) ["x"; "y"; "z"; "a"; "b"; "c"]) by (rewrite (path_chain_names _ _ _ Ht); reflexivity).
  assert (FK := serial_pose 0 (fun _ => false) wrist wrist c "" wrist_path s (fun _ => 0) Hin wrist_distinct_joints wrist_distinct_frames wrist_clean wrist_root_path Hs Ht). rewrite En in FK. cbn [map] in FK.
  rewrite wrist_pose0 in FK.
  assert (JE := jacobian_tensor_eq wrist wrist wrist_path s [fun _ => 0] Hin wrist_distinct_joints wrist_distinct_frames wrist_clean wrist_root_path Ht).
  set (row0 := [0; 0; 0; 0; 0; 0]) in *.
  destruct (C78_limits 0 (fun _ => false) wrist wrist c "" [] wrist_path s row0 I4 _ _ 1 1 1 1 (1/2) 1 Hc wrist_distinct_joints wrist_distinct_frames wrist_clean wrist_rigid
    (rp_here _) (or_introl (conj eq_refl eq_refl)) wrist_root_path Hs eq_refl FK JE) as (delta & rho & D & Hrho & H); try lra.
  { exact wrist_reaches. }
  { unfold all_joints. cbn -[wrist_path off_limits]. repeat constructor; unfold off_limits; cbn; apply Rltb_true; lra. }
  { pose proof PI_RGT_0. assert (3 < PI) by (pose proof PI_4; pose proof PI2_3_2; unfold PI2 in *; lra). unfold all_joints. cbn -[wrist_path same_turn]. repeat constructor; unfold same_turn; cbn; intros Q; try discriminate Q; exists (-1), 1; (split; [reflexivity|]); rewrite Rabs_pos_eq; lra. }
  destruct (pow_lt_1_zero rho ltac:(rewrite Rabs_pos_eq; lra) (1 / 1000) ltac:(lra)) as (N & HN). exists c, s, delta, N. split; [exact Hc|]. split; [exact Hs|]. split; [exact D|].
  intros target Hrig Hpw. specialize (HN N (le_n N)). rewrite Rabs_pos_eq in HN by (left; apply pow_lt; lra).
  destruct (H (fun _ => target) (mkIK 0 1 (Fin (1/1000)) (Fin (1/100)) N (Fin (1/2)) None false StopAny 2 true 0 true [] [] []) 1%nat [map Fin row0] 0%nat 0%nat row0 (1/1000) (1/100) N) as (sol & e & rowe & E1 & E2 & _);
    try reflexivity; try (simpl; lia); try lra; try assumption.
  { right. split; [left; reflexivity|]. rewrite Rmax_left, Rmin_left, Rmult_1_r by lra. cbn [ik_patience]. cbn [pow]. assert (rho * rho < 1 * rho) by (apply Rmult_lt_compat_r; lra). assert (rho * rho * rho < 1 * rho) by (apply Rmult_lt_compat_r; lra). lra. }
  { unfold row_within, row0. do 6 (constructor; [rewrite Rminus_diag_eq, Rabs_R0 by reflexivity; lra|]). constructor. }
  exists sol. split; [exact E1 | exact E2].
Qed.
