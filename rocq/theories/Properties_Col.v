(** C79: near a configuration in which no joint moves in vain the solver finds the joint values a pose was made from. *)
From Coq Require Import Reals Lra String Bool Arith Lia List ZArith.
From Verif Require Import Prelude ExtF Tree ChainModel SpecFK ChainProofs ChainTables TreeQueries Input Widths Lin Trig RotModel RotBasic QuatProofs AxisAngle ChainInst
  FKMore ChainClamp Examples SerialModel SerialProofs SerialMore Deriv JacModel JacProofs JacMore IKModel IKProofs IKMore IKLimits IKKernel KernelProofs DeltaPose IKSolve SolveProofs
  SpecDescent PathDeriv DescentProofs DescFinal SpecLocal LocalNorm LocalCont LocalErr LocalDeriv LocalStep LocalRun LocalTraj LocalStart LocalFinal SpecCol ColStep ColTraj.
From Verif Require Import ColFinal.
Import ListNotations.
Local Open Scope string_scope.
Local Open Scope list_scope.
Local Open Scope R_scope.


(** Take any chain and a configuration whose Jacobian, as the library computes it, has independent columns: no joint motion leaves the end where it is, as for arms with up to six joints away from their
    singularities.  Then there are [delta], [rho] below one and [kappa] such that, for every target that forward kinematics makes from a row [rowt] within [delta], and every start within [delta], the solver
    reports the problem as solved once [N] iterations are allowed, where [rho ^ N] is below both tolerances; and (unless another retry may end the problem first) the joint values it reports differ from
    [rowt] by at most [kappa] times the tolerances. *)
Theorem C79_recovers : forall (nan : R) is_nan (root r : mframe) c rn p fs s row0 T0 J Ts reg lm wp wr lr,
  chain_init mops root = Ok c -> distinct_joints root -> distinct_frames root -> clean_names root -> rigid_tree root ->
  root_path root (p ++ [r]) -> ((rn = "" /\ r = root) \/ (rn <> "" /\ rn = f_name r)) -> root_path r (r :: fs) ->
  serial_init mops zax c (f_name (last (r :: fs) r)) rn = Ok s -> length row0 = length (filter moving fs) ->
  serial_fk_end mops nan is_nan s (InTensor (T1 row0)) = Ok [T0] -> jacobian s (InTensor (T1 row0)) None = Ok ([J], Ts) -> independent J ->
  0 < reg -> 0 <= lm -> 0 < wp -> 0 < wr -> 0 < lr <= 1 ->
  exists delta rho kappa, 0 < delta /\ 0 < rho < 1 /\ 0 < kappa /\
  forall targets o np q0 i t row rowt pt rt N,
  ik_lr o = Fin lr -> ik_ls o = None -> (0 < ik_nr o)%nat -> ik_ptol o = Fin pt -> ik_rtol o = Fin rt ->
  ik_noimp o = NoStop \/ ((ik_noimp o = StopAny \/ (ik_nr o = 1%nat /\ forall x, ik_noimp o = StopRatio x -> x < 1)) /\ kappa * rho ^ S (ik_patience o) < 1) ->
  ik_clamp o = false \/ all_joints off_limits fs row0 -> ik_enforce o = false \/ (forall f, In f fs -> moving f = true -> j_lim (f_joint f) = None) ->
  length q0 = (np * ik_nr o)%nat -> (i < np)%nat -> (t < ik_nr o)%nat -> nth_error q0 (i * ik_nr o + t) = Some (map Fin row) -> row_within delta row row0 ->
  row_within delta rowt row0 -> serial_fk_end mops nan is_nan s (InTensor (T1 rowt)) = Ok [targets i] -> rho ^ N < pt -> rho ^ N < rt -> (N <= ik_max o)%nat ->
  exists sol, solve_from (pik_kern s targets reg lm (Some (row_weights wp wr))) (pik_init s o) np q0 = Ok sol /\ nth_error (s_any sol) i = Some true /\
  (ik_stop_any o = false \/ ik_nr o = 1%nat -> exists e rowe, entry_at sol i t = Some e /\ e_conv e = true /\ e_q e = map Fin rowe /\ row_within (kappa * (pt + rt)) rowe rowt).
Proof. exact l79_recovers. Qed.
Print Assumptions C79_recovers.

(** With limits to enforce (and a row that no other retry can end early) the same holds, if the configuration keeps clear of its limits and its turning joints are within half a turn of the middle between theirs,
    and the steps taken after the enforcement are none, or enough of them to make up for the difference between the tolerances. *)
Theorem C79_limits : forall (nan : R) is_nan (root r : mframe) c rn p fs s row0 T0 J Ts reg lm wp wr lr,
  chain_init mops root = Ok c -> distinct_joints root -> distinct_frames root -> clean_names root -> rigid_tree root ->
  root_path root (p ++ [r]) -> ((rn = "" /\ r = root) \/ (rn <> "" /\ rn = f_name r)) -> root_path r (r :: fs) ->
  serial_init mops zax c (f_name (last (r :: fs) r)) rn = Ok s -> length row0 = length (filter moving fs) ->
  serial_fk_end mops nan is_nan s (InTensor (T1 row0)) = Ok [T0] -> jacobian s (InTensor (T1 row0)) None = Ok ([J], Ts) -> independent J ->
  0 < reg -> 0 <= lm -> 0 < wp -> 0 < wr -> 0 < lr <= 1 -> all_joints off_limits fs row0 -> all_joints same_turn fs row0 ->
  exists delta rho kappa, 0 < delta /\ 0 < rho < 1 /\ 0 < kappa /\
  forall targets o np q0 i t row rowt pt rt N,
  ik_lr o = Fin lr -> ik_ls o = None -> (0 < ik_nr o)%nat -> ik_ptol o = Fin pt -> ik_rtol o = Fin rt ->
  ik_noimp o = NoStop \/ ((ik_noimp o = StopAny \/ (ik_nr o = 1%nat /\ forall x, ik_noimp o = StopRatio x -> x < 1)) /\ kappa * rho ^ S (ik_patience o) < 1) ->
  ik_stop_any o = false \/ ik_nr o = 1%nat ->
  ik_refine o = 0%nat \/ (kappa * rho ^ ik_refine o * (pt + rt) < pt /\ kappa * rho ^ ik_refine o * (pt + rt) < rt) ->
  length q0 = (np * ik_nr o)%nat -> (i < np)%nat -> (t < ik_nr o)%nat -> nth_error q0 (i * ik_nr o + t) = Some (map Fin row) -> row_within delta row row0 ->
  row_within delta rowt row0 -> serial_fk_end mops nan is_nan s (InTensor (T1 rowt)) = Ok [targets i] -> rho ^ N < pt -> rho ^ N < rt -> (N <= ik_max o)%nat ->
  exists sol e rowe, solve_from (pik_kern s targets reg lm (Some (row_weights wp wr))) (pik_init s o) np q0 = Ok sol /\ nth_error (s_any sol) i = Some true /\
  entry_at sol i t = Some e /\ e_conv e = true /\ e_q e = map Fin rowe /\ row_within (kappa * (pt + rt)) rowe rowt.
Proof. exact l79_limits. Qed.
Print Assumptions C79_limits.

(** In particular no two configurations near it have the same pose. *)
Theorem C79_injective : forall (nan : R) is_nan (root r : mframe) c rn p fs s row0 T0 J Ts,
  chain_init mops root = Ok c -> distinct_joints root -> distinct_frames root -> clean_names root -> rigid_tree root ->
  root_path root (p ++ [r]) -> ((rn = "" /\ r = root) \/ (rn <> "" /\ rn = f_name r)) -> root_path r (r :: fs) ->
  serial_init mops zax c (f_name (last (r :: fs) r)) rn = Ok s -> length row0 = length (filter moving fs) ->
  serial_fk_end mops nan is_nan s (InTensor (T1 row0)) = Ok [T0] -> jacobian s (InTensor (T1 row0)) None = Ok ([J], Ts) -> independent J ->
  exists delta, 0 < delta /\ forall row1 row2 T, row_within delta row1 row0 -> row_within delta row2 row0 ->
  serial_fk_end mops nan is_nan s (InTensor (T1 row1)) = Ok [T] -> serial_fk_end mops nan is_nan s (InTensor (T1 row2)) = Ok [T] -> row1 = row2.
Proof. exact l79_injective. Qed.
Print Assumptions C79_injective.

(** a planar arm with two joints, stretched out: from zero the solver finds the angles of both joints, with limits enforced and the default stopping rule *)
Example C79_example : exists c s delta kappa N P, chain_init mops arm = Ok c /\ serial_init mops zax c "hand" "" = Ok s /\ 0 < delta /\
  forall a b target, Rabs a <= delta -> Rabs b <= delta -> serial_fk_end mops 0 (fun _ => false) s (InTensor (T1 [a; b])) = Ok [target] ->
  exists sol e x y, solve_from (pik_kern s (fun _ => target) 1 1 (Some (row_weights 1 1)))
    (pik_init s (mkIK 0 1 (Fin (1/1000)) (Fin (1/100)) N (Fin (1/2)) None false StopAny P true 0 true [] [] [])) 1 [[Fin 0; Fin 0]] = Ok sol /\
  entry_at sol 0 0 = Some e /\ e_conv e = true /\ e_q e = [Fin x; Fin y] /\ Rabs (x - a) <= kappa /\ Rabs (y - b) <= kappa.
Proof.
  destruct (chain_init_ok mops arm) as (c & Hc & _).
  assert (Hin : In arm (preorder arm)) by (rewrite preorder_unfold; left; reflexivity).
  destruct (serial_ok mops zax arm c "" arm arm_path Hc arm_distinct_frames arm_clean (or_introl (conj eq_refl eq_refl)) arm_root_path) as (s & Hs & Ht).
  assert (En : c_names (s_chain s) = map (fun n => Some n) ["shoulder"; "elbow"]) by (rewrite (path_chain_names _ _ _ Ht); reflexivity).
  assert (FK := serial_pose 0 (fun _ => false) arm arm c "" arm_path s (fun _ => 0) Hin arm_distinct_joints arm_distinct_frames arm_clean arm_root_path Hs Ht). rewrite En in FK. cbn [map] in FK.
  assert (JE := jacobian_tensor_eq arm arm arm_path s [fun _ => 0] Hin arm_distinct_joints arm_distinct_frames arm_clean arm_root_path Ht).
  set (row0 := [0; 0]) in *.
  destruct (C79_limits 0 (fun _ => false) arm arm c "" [] arm_path s row0 _ _ _ 1 1 1 1 (1/2) Hc arm_distinct_joints arm_distinct_frames arm_clean arm_rigid
    (rp_here _) (or_introl (conj eq_refl eq_refl)) arm_root_path Hs eq_refl FK JE) as (delta & rho & kappa & D & Hrho & Hk & H); try lra.
  { exact arm_independent. }
  { unfold all_joints. cbn -[arm_path off_limits]. repeat constructor; unfold off_limits; cbn; apply Rltb_true; lra. }
  { pose proof PI_RGT_0. assert (3 < PI) by (pose proof PI_4; pose proof PI2_3_2; unfold PI2 in *; lra). unfold all_joints. cbn -[arm_path same_turn]. repeat constructor; unfold same_turn; cbn; intros Q; try discriminate Q; exists (-1), 1; (split; [reflexivity|]); rewrite Rabs_pos_eq; lra. }
  destruct (pow_lt_1_zero rho ltac:(rewrite Rabs_pos_eq; lra) (1 / 1000) ltac:(lra)) as (N & HN).
  destruct (pow_lt_1_zero rho ltac:(rewrite Rabs_pos_eq; lra) (/ kappa) ltac:(apply Rinv_0_lt_compat; lra)) as (P & HP).
  exists c, s, delta, (kappa * (1 / 1000 + 1 / 100)), N, P. split; [exact Hc|]. split; [exact Hs|]. split; [exact D|].
  intros a b target Ha Hb HT. specialize (HN N (le_n N)). rewrite Rabs_pos_eq in HN by (left; apply pow_lt; lra). specialize (HP (S P) (Nat.le_succ_diag_r P)). rewrite Rabs_pos_eq in HP by (left; apply pow_lt; lra).
  destruct (H (fun _ => target) (mkIK 0 1 (Fin (1/1000)) (Fin (1/100)) N (Fin (1/2)) None false StopAny P true 0 true [] [] []) 1%nat [map Fin row0] 0%nat 0%nat row0 [a; b] (1/1000) (1/100) N) as (sol & e & rowe & E1 & _ & E3 & E4 & E5 & E6);
    try reflexivity; try (simpl; lia); try lra; try assumption.
  { right. split; [left; reflexivity|]. cbn [ik_patience]. apply Rmult_lt_reg_l with (/ kappa); [apply Rinv_0_lt_compat; lra|]. rewrite <- Rmult_assoc, Rinv_l, Rmult_1_l, Rmult_1_r by lra. exact HP. }
  { unfold row_within, row0. do 2 (constructor; [rewrite Rminus_diag_eq, Rabs_R0 by reflexivity; lra|]). constructor. }
  { unfold row_within, row0. do 2 (constructor; [rewrite Rminus_0_r; assumption|]). constructor. }
  inversion E6 as [|x ? l1 ? Hx E7]; subst. inversion E7 as [|y ? l2 ? Hy E8]; subst. inversion E8; subst. exists sol, e, x, y. split; [exact E1|]. split; [exact E3|]. split; [exact E4|]. split; [exact E5|]. split; assumption.
Qed.
