(** C75: on a robot whose joints all slide the solver converges, at a known rate. *)
From Coq Require Import Reals Lra String Bool Arith Lia List ZArith.
From Verif Require Import Prelude ExtF Tree ChainModel SpecFK ChainProofs ChainTables TreeQueries Input Widths Lin Trig RotModel RotBasic QuatProofs AxisAngle ChainInst
  FKMore ChainClamp Examples SerialModel SerialProofs SerialMore Deriv JacModel JacProofs JacMore IKModel IKProofs IKMore IKLimits IKKernel KernelProofs DeltaPose IKSolve SolveProofs
  SpecDescent PathDeriv DescentProofs DescFinal SpecGantry GantryProofs GantryRun.
From Verif Require Import ConvFinal.
Import ListNotations.
Local Open Scope string_scope.
Local Open Scope list_scope.
Local Open Scope R_scope.

(** On a robot whose joints on the way to the end all slide along directions that reach every direction with strength [mu], with targets of the orientation
    the end always has and no limits in the way, every iteration brings a row closer by the factor [rate].  So the solver reports a problem as solved as soon as the iterations allowed suffice to bring one of its rows under the
    position tolerance at that rate, whatever the early stopping rules; without early stopping that row itself is reported as converged. *)
Theorem C75_gantry : forall (nan : R) is_nan (root r : mframe) c rn p fs targets reg lm wp wr lr mu o np pt rt,
  chain_init mops root = Ok c -> distinct_joints root -> distinct_frames root -> clean_names root -> rigid_tree root ->
  root_path root (p ++ [r]) -> ((rn = "" /\ r = root) \/ (rn <> "" /\ rn = f_name r)) -> root_path r (r :: fs) ->
  gantry fs -> spread mu (slide_axes I3 fs) -> (forall i, is_rigid (targets i)) -> (forall i, rotp (targets i) = rotp (pose (fun _ => 0) fs)) ->
  0 < mu -> 0 < reg -> 0 <= lm -> 0 < wp -> 0 < lr <= 1 -> ik_lr o = Fin lr -> ik_ls o = None -> (0 < ik_nr o)%nat ->
  ik_ptol o = Fin pt -> ik_rtol o = Fin rt -> 0 < rt -> (forall x, ik_noimp o = StopRatio x -> x < 1) ->
  (forall f, In f fs -> moving f = true -> j_lim (f_joint f) = None) \/ (ik_clamp o = false /\ ik_enforce o = false) ->
  exists s, serial_init mops zax c (f_name (last (r :: fs) r)) rn = Ok s /\
  forall q0, length q0 = (np * ik_nr o)%nat -> (forall q, In q q0 -> exists row, q = map Fin row /\ length row = length (c_names (s_chain s))) ->
  exists sol, solve_from (pik_kern s targets reg lm (Some (row_weights wp wr))) (pik_init s o) np q0 = Ok sol /\
  forall i t row T0 N, (i < np)%nat -> (t < ik_nr o)%nat -> nth_error q0 (i * ik_nr o + t) = Some (map Fin row) -> serial_fk_end mops nan is_nan s (InTensor (T1 row)) = Ok [T0] ->
  let e0 := vnorm (vsub (trp (targets i)) (trp T0)) in
  rate lr mu reg lm wp e0 ^ N * e0 < pt -> (N <= ik_max o)%nat ->
  nth_error (s_any sol) i = Some true /\
  (ik_stop_any o = false -> ik_noimp o = NoStop -> exists e, entry_at sol i t = Some e /\ e_conv e = true).
Proof. exact l75_gantry. Qed.
Print Assumptions C75_gantry.

(** The hypotheses are easy to meet: three directions that do not lie in a plane reach every direction, and however far the start and however small the tolerance, some number of
    iterations suffices. *)
Theorem C75_enough : (forall zs a b c, In a zs -> In b zs -> In c zs -> vdot a (vcross b c) <> 0 -> exists mu, 0 < mu /\ spread mu zs) /\
  (forall lr mu reg lm wp e pt, 0 < lr <= 1 -> 0 < mu -> 0 < reg -> 0 <= lm -> 0 < wp -> 0 <= e -> 0 < pt -> exists N, rate lr mu reg lm wp e ^ N * e < pt).
Proof. exact l75_enough. Qed.
Print Assumptions C75_enough.

(** On robots with turning joints nothing of the kind holds, even when the target can be reached: a straight arm with three parallel joints asked to draw its hand back along itself never
    moves, and reports failure after any number of iterations, for every learning rate, regularisation, weights and early stopping rules. *)
Theorem C75_turning_refuted : exists c s, chain_init mops snake = Ok c /\ serial_init mops zax c "hand" "" = Ok s /\
  (exists row, serial_fk_end mops 0 (fun _ => false) s (InTensor (T1 row)) = Ok [trans 2 0 0]) /\
  forall o lr pt reg lm wp wr, ik_lr o = Fin lr -> ik_ls o = None -> (0 < ik_nr o)%nat -> ik_ptol o = Fin pt -> pt <= 1 -> 0 < reg -> 0 <= lm ->
  exists sol, solve_from (pik_kern s (fun _ => trans 2 0 0) reg lm (Some (row_weights wp wr))) (pik_init s o) 1 (repeat [Fin 0; Fin 0; Fin 0] (ik_nr o)) = Ok sol /\
  nth_error (s_any sol) 0 = Some false /\ forall t, (t < ik_nr o)%nat -> exists e, entry_at sol 0 t = Some e /\ e_q e = [Fin 0; Fin 0; Fin 0] /\ e_conv e = false.
Proof. exact l75_turning_refuted. Qed.
Print Assumptions C75_turning_refuted.

(** the machine with three slides, one unit away from the target, with the default stopping rule and patience: three iterations suffice for half a unit *)
Example C75_example : exists c s sol, chain_init mops slides = Ok c /\ serial_init mops zax c "hand" "" = Ok s /\
  solve_from (pik_kern s (fun _ => aff (mkM3 0 (-1) 0 1 0 0 0 0 1) (mkV3 0 1 1)) 1 0 (Some (row_weights 1 1)))
    (pik_init s (mkIK 0 1 (Fin (1/2)) (Fin 1) 3 (Fin (1/2)) None false StopAny 2 true 0 true [] [] [])) 1 [[Fin 0; Fin 0; Fin 0]] = Ok sol /\ nth_error (s_any sol) 0 = Some true.
Proof.
  destruct (chain_init_ok mops slides) as (c & Hc & _).
  set (target := aff (mkM3 0 (-1) 0 1 0 0 0 0 1) (mkV3 0 1 1)). set (o := mkIK 0 1 (Fin (1/2)) (Fin 1) 3 (Fin (1/2)) None false StopAny 2 true 0 true [] [] []).
  assert (Rt : is_rigid target) by (apply is_rigid_aff; apply quarter_rigid).
  destruct (C75_gantry 0 (fun _ => false) slides slides c "" [] slides_path (fun _ => target) 1 0 1 1 (1/2) 1 o 1 (1/2) 1 Hc slides_distinct_joints slides_distinct_frames slides_clean slides_rigid
    (rp_here _) (or_introl (conj eq_refl eq_refl)) slides_root_path slides_gantry slides_spread (fun _ => Rt)) as (s & Hs & H); try lra; try reflexivity; try (simpl; lia).
  { intros _. rewrite slides_pose0. unfold target. rewrite !rotp_aff. reflexivity. }
  { intros x Hx. discriminate Hx. }
  { left. intros f Hf _. simpl in Hf. repeat (destruct Hf as [<-|Hf]; [reflexivity|]). contradiction. }
  exists c, s. assert (Hin : In slides (preorder slides)) by (rewrite preorder_unfold; left; reflexivity).
  destruct (serial_ok mops zax slides c "" slides slides_path Hc slides_distinct_frames slides_clean (or_introl (conj eq_refl eq_refl)) slides_root_path) as (s' & Hs' & Ht).
  assert (s' = s) by (rewrite Hs in Hs'; congruence). subst s'.
  assert (En : c_names (s_chain s) = [Some "x"; Some "y"; Some "z"]) by (rewrite (path_chain_names _ _ _ Ht); reflexivity).
  destruct (H [[Fin 0; Fin 0; Fin 0]]) as (sol & Es & Hsol); [reflexivity | intros q [<-|[]]; exists [0; 0; 0]; rewrite En; split; reflexivity|].
  exists sol. split; [exact Hc|]. split; [exact Hs|]. split; [exact Es|].
  assert (FK := serial_pose 0 (fun _ => false) slides slides c "" slides_path s (fun _ => 0) Hin slides_distinct_joints slides_distinct_frames slides_clean slides_root_path Hs Ht). rewrite En in FK. cbn [map] in FK.
  assert (E1 : vnorm (vsub (trp target) (trp (pose (fun _ => 0) slides_path))) = 1).
  { rewrite slides_pose0. unfold target. rewrite !trp_aff. unfold vnorm, vnorm2, vdot, vsub. cbn [vx vy vz]. match goal with |- sqrt ?x = _ => replace x with 1 by ring end. apply sqrt_1. }
  apply (Hsol 0%nat 0%nat [0; 0; 0] _ 3%nat ltac:(lia) ltac:(simpl; lia) eq_refl FK); [|simpl; lia].
  rewrite E1. unfold rate. lra.
Qed.
