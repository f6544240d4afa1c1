(** C77: what the backtracking line search finds, and what its fixed threshold costs. *)
From Coq Require Import Reals Lra String Bool Arith Lia List ZArith FunctionalExtensionality.
From Coquelicot Require Import Coquelicot.
From Verif Require Import Prelude ExtF Tree ChainModel SpecFK ChainProofs ChainTables TreeQueries Input Widths Lin Trig RotModel RotBasic QuatProofs AxisAngle ChainInst
  FKMore ChainClamp Examples SerialModel SerialProofs SerialMore Deriv JacModel JacProofs JacMore IKModel IKProofs IKMore IKLimits IKKernel KernelProofs DeltaPose IKSolve SolveProofs
  SpecDescent PathDeriv AngleDeriv DescentProofs DescFinal SpecGantry GantryProofs GantryRun ConvFinal LineModel LineProofs LineGantry.
From Verif Require Import LineFinal.
Import ListNotations.
Local Open Scope string_scope.
Local Open Scope list_scope.
Local Open Scope R_scope.


(** With equal weights and a required decrease of zero, the search finds a step that lowers the true error, unless the solver's step is zero: for any chain, any row at angle zero from its target or inside the range in which the
    computed angle is exact, there is a number of halvings [K] such that every search allowed more than [K] rounds, in whatever batch and with whatever other problems, returns for that row a step after which
    the end is closer to the target in distance and angle together. *)
Theorem C77_finds : forall (nan : R) is_nan (root r : mframe) c rn p fs targets reg lm w lr f,
  chain_init mops root = Ok c -> distinct_joints root -> distinct_frames root -> clean_names root -> rigid_tree root ->
  root_path root (p ++ [r]) -> ((rn = "" /\ r = root) \/ (rn <> "" /\ rn = f_name r)) -> root_path r (r :: fs) ->
  (forall i, is_rigid (targets i)) -> 0 < reg -> 0 <= lm -> 0 < lr -> 0 < f < 1 ->
  exists s, serial_init mops zax c (f_name (last (r :: fs) r)) rn = Ok s /\
  forall i row T0 a dq dx, length row = length (c_names (s_chain s)) -> serial_fk_end mops nan is_nan s (InTensor (T1 row)) = Ok [T0] -> angle_between (targets i) T0 a -> (a = 0 \/ eps6 < a < PI) ->
  pik_row s (targets i) reg lm (Some (row_weights w w)) row = Ok (dq, dx) -> (exists x, In x dq /\ x <> 0) ->
  exists K, forall iter np nr t q dqs dxs rem, (K < iter)%nat -> (i < np)%nat -> (t < nr)%nat -> length q = (np * nr)%nat -> length dqs = (np * nr)%nat -> length dxs = (np * nr)%nat ->
  nth_error q (i * nr + t) = Some (map Fin row) -> nth_error dqs (i * nr + t) = Some (map Fin dq) -> nth_error dxs (i * nr + t) = Some (map Fin dx) -> nth_error rem i = Some true ->
  exists j Tn an, (j <= K)%nat /\ nth_error (line_search s targets (mkLS lr f iter 0) nr q dqs dxs rem) (i * nr + t) = Some (Fin (lr * f ^ j)) /\
    serial_fk_end mops nan is_nan s (InTensor (T1 (zip_with (fun x d => x + lr * f ^ j * d) row dq))) = Ok [Tn] /\ angle_between (targets i) Tn an /\
    vnorm (vsub (trp (targets i)) (trp Tn)) ^ 2 + an ^ 2 < vnorm (vsub (trp (targets i)) (trp T0)) ^ 2 + a ^ 2.
Proof. exact l77_finds. Qed.
Print Assumptions C77_finds.

Example C77_example : exists (c : chain M4 V3) (s : schain M4 V3) dq dx K, chain_init mops arm = Ok c /\ serial_init mops zax c "hand" "" = Ok s /\
  let target := aff (axis_and_angle_to_matrix_33 zax (PI / 2)) (mkV3 0 1 0) in
  pik_row s target 1 0 (Some (row_weights 1 1)) [0] = Ok (dq, dx) /\ (exists x, In x dq /\ x <> 0) /\
  forall iter, (K < iter)%nat -> exists l T an, line_search s (fun _ => target) (mkLS 1 (1/2) iter 0) 1 [[Fin 0]] [map Fin dq] [map Fin dx] [true] = [Fin l] /\ 0 < l <= 1 /\
    serial_fk_end mops 0 (fun _ => false) s (InTensor (T1 (zip_with (fun x d => x + l * d) [0] dq))) = Ok [T] /\ angle_between target T an /\
    vnorm (vsub (trp target) (trp T)) ^ 2 + an ^ 2 < 2 + (PI / 2) ^ 2.
Proof.
  destruct (chain_init_ok mops arm) as (c & Hc & _). pose proof PI_RGT_0 as HPI. pose proof PI2_3_2 as HP2. unfold PI2 in HP2. pose proof eps6_pos as HE.
  set (target := aff (axis_and_angle_to_matrix_33 zax (PI / 2)) (mkV3 0 1 0)).
  assert (Rt : is_rigid target) by (apply is_rigid_aff; apply rot33_rot; apply zax_unit).
  destruct (C77_finds 0 (fun _ => false) arm arm c "" [] [arm_turn; arm_hand] (fun _ => target) 1 0 1 1 (1/2) Hc arm_distinct_joints arm_distinct_frames arm_clean arm_rigid (rp_here _) (or_introl (conj eq_refl eq_refl)) arm_path (fun _ => Rt)
    ltac:(lra) ltac:(lra) ltac:(lra) ltac:(lra)) as (s & Hs & H).
  destruct (serial_ok mops zax arm c "" arm [arm_turn; arm_hand] Hc arm_distinct_frames arm_clean (or_introl (conj eq_refl eq_refl)) arm_path) as (s' & Hs' & Ht).
  assert (s' = s) by (rewrite Hs in Hs'; congruence). subst s'.
  assert (En : c_names (s_chain s) = [Some "j"]) by (rewrite (path_chain_names _ _ _ Ht); reflexivity).
  assert (Hin : In arm (preorder arm)) by (rewrite preorder_unfold; left; reflexivity).
  set (v := fun _ : option string => 0%R).
  assert (FK : serial_fk_end mops 0 (fun _ => false) s (InTensor (T1 [0])) = Ok [pose v [arm_turn; arm_hand]]).
  { assert (E := serial_pose 0 (fun _ => false) arm arm c "" [arm_turn; arm_hand] s v Hin arm_distinct_joints arm_distinct_frames arm_clean arm_path Hs Ht). rewrite En in E. exact E. }
  assert (P0 : pose v [arm_turn; arm_hand] = aff I3 (mkV3 1 0 0)).
  { rewrite arm_pose, rot33_zax. unfold v. rewrite cos_0, sin_0, Ropp_0. change (mkM3 1 0 0 0 1 0 0 0 1) with I3. rewrite m3vec_1. reflexivity. }
  assert (A0 : angle_between target (pose v [arm_turn; arm_hand]) (PI / 2)).
  { split; [lra|]. rewrite P0. unfold target. rewrite !rotp_aff, rot33_zax, cos_PI2, sin_PI2. unfold trace3, m3mul, m3tr, I3. cbn [m00 m01 m02 m10 m11 m12 m20 m21 m22]. ring. }
  destruct (row_step arm arm [arm_turn; arm_hand] s target v 1 0 1 1 Hin arm_distinct_joints arm_distinct_frames arm_clean arm_path Ht arm_rigid ltac:(apply Rt) ltac:(lra) ltac:(lra)) as (dr & x & Hx & Hk & Ha).
  cbn zeta in Hx, Hk. rewrite (arm_cols v eq_refl) in Hx, Hk. change (path_names [arm_turn; arm_hand]) with [Some "j"] in Hx, Hk. cbn [length map seq] in Hx, Hk. change (v (Some "j")) with 0 in Hk.
  set (dq := [jt 6 (jac_w (Some (row_weights 1 1)) [(mkV3 0 1 0, zax)]) x 0%nat]) in *.
  assert (Nz : exists y, In y dq /\ y <> 0).
  { destruct (Ha _ A0 ltac:(right; unfold eps6 in *; lra)) as [N1 N2]. destruct (axis_decomp dr) as (k & Uk & Ek). rewrite N1 in Ek.
    rewrite Ek, (aa_matrix_exact k (PI / 2) Uk) in N2 by (left; rewrite Rabs_pos_eq; unfold eps6; lra). rewrite P0 in N2. unfold target in N2. rewrite !rotp_aff in N2.
    apply (f_equal axial) in N2. change (m3tr I3) with I3 in N2. rewrite m3mul_1_r, !axial_rot33, sin_PI2 in N2.
    assert (K3 := f_equal vz N2). unfold vscale, zax in K3. cbn [vz] in K3.
    assert (V5 : vz dr = PI / 2) by (rewrite Ek; unfold vscale; cbn [vz]; replace (vz k) with 1 by lra; ring).
    eexists. split; [left; reflexivity|].
    pose proof (Hx 1%nat ltac:(lia)) as H1. pose proof (Hx 5%nat ltac:(lia)) as H5. rewrite P0 in H1, H5. unfold target in H1, H5. rewrite !trp_aff in H1, H5. clear - H1 H5 V5 HPI.
    unfold gram, damping, jt, jac_w, weigh, row_weights, vsub, zax in *. cbn [rsum length Nat.eqb Nat.ltb Nat.leb nth six fst snd vx vy vz] in *. rewrite V5 in H5.
    replace (Rltb 0 0) with false in * by (symmetry; apply Rltb_false; lra). lra. }
  destruct (H 0%nat [0] _ (PI / 2) _ _ ltac:(rewrite En; reflexivity) FK A0 ltac:(right; unfold eps6 in *; lra) Hk Nz) as (K & HK).
  exists c, s, dq. eexists. exists K. split; [exact Hc|]. split; [exact Hs|]. cbn zeta. split; [exact Hk|]. split; [exact Nz|]. intros iter Hi.
  match type of Hk with _ = Ok (_, ?d) => set (dx := d) in * end.
  destruct (HK iter 1%nat 1%nat 0%nat [[Fin 0]] [map Fin dq] [map Fin dx] [true] Hi ltac:(lia) ltac:(lia) eq_refl eq_refl eq_refl eq_refl eq_refl eq_refl eq_refl) as (j & Tn & an & _ & J2 & J3 & J4 & J5).
  assert (LL : length (line_search s (fun _ => target) (mkLS 1 (1/2) iter 0) 1 [[Fin 0]] [map Fin dq] [map Fin dx] [true]) = 1%nat) by (apply line_length; reflexivity).
  destruct (line_search s (fun _ => target) (mkLS 1 (1/2) iter 0) 1 [[Fin 0]] [map Fin dq] [map Fin dx] [true]) as [|g [|]]; try discriminate LL. cbn [nth_error Nat.mul Nat.add] in J2.
  assert (HX : forall X (a b : X), Some a = Some b -> a = b) by (intros; congruence). apply HX in J2. subst g.
  exists (1 * (1/2) ^ j), Tn, an. split; [reflexivity|]. split.
  { assert (0 < (1/2) ^ j) by (apply pow_lt; lra). pose proof (pow_incr (1/2) 1 j ltac:(lra)) as PB. rewrite pow1 in PB. lra. }
  split; [exact J3|]. split; [exact J4|]. rewrite (vnorm_sq (vsub (trp target) (trp (pose v _)))) in J5. rewrite P0 in J5. unfold target in J5 at 2. rewrite !trp_aff in J5.
  replace (vnorm2 (vsub (mkV3 0 1 0) (mkV3 1 0 0))) with 2 in J5 by (unfold vnorm2, vdot, vsub; cbn [vx vy vz]; ring). exact J5.
Qed.

(** No step is ever accepted for a row whose error is not above the required decrease, since no step could lower it by more than it is: such a row always returns the first step times the factor once for every round allowed.  This holds for every
    chain, every row and direction, in every batch. *)
Theorem C77_threshold : forall s targets ls nr np q dqs dxs rem i t dx e, (i < np)%nat -> (t < nr)%nat -> length q = (np * nr)%nat -> length dqs = (np * nr)%nat -> length dxs = (np * nr)%nat ->
  nth_error dxs (i * nr + t) = Some dx -> fnorm dx = Fin e -> e <= ls_suff ls -> nth_error rem i = Some true ->
  nth_error (line_search s targets ls nr q dqs dxs rem) (i * nr + t) = Some (Fin (ls_lr ls * ls_factor ls ^ ls_iter ls)).
Proof. exact l77_threshold. Qed.
Print Assumptions C77_threshold.

Example C77_example_threshold : forall s targets, line_search s targets (mkLS 1 (1/2) 5 (1/100)) 1 [[Fin 3]] [[Fin 1]] [map Fin [1/200; 0; 0; 0; 0; 0]] [true] = [Fin (1 * (1/2) ^ 5)].
Proof.
  intros s targets. assert (LL : length (line_search s targets (mkLS 1 (1/2) 5 (1/100)) 1 [[Fin 3]] [[Fin 1]] [map Fin [1/200; 0; 0; 0; 0; 0]] [true]) = 1%nat) by (apply line_length; reflexivity).
  assert (E := C77_threshold s targets (mkLS 1 (1/2) 5 (1/100)) 1 1 [[Fin 3]] [[Fin 1]] [map Fin [1/200; 0; 0; 0; 0; 0]] [true] 0 0 (map Fin [1/200; 0; 0; 0; 0; 0]) (1/200) ltac:(lia) ltac:(lia) eq_refl eq_refl eq_refl eq_refl).
  destruct (line_search s targets (mkLS 1 (1/2) 5 (1/100)) 1 [[Fin 3]] [[Fin 1]] [map Fin [1/200; 0; 0; 0; 0; 0]] [true]) as [|g [|]]; try discriminate LL. cbn [nth_error Nat.mul Nat.add] in E.
  assert (HX : forall X (a b : X), Some a = Some b -> [a] = [b]) by (intros; congruence). apply HX. apply E; [|cbn [ls_suff]; lra | reflexivity].
  etransitivity; [exact (norm_six (mkV3 (1/200) 0 0) vzero)|]. f_equal. unfold vnorm2, vdot, vzero. cbn [vx vy vz]. match goal with |- sqrt ?x = _ => replace x with (1/200 * (1/200)) by ring end. apply sqrt_square. lra.
Qed.

(** With the search in use the solver still converges on robots that only slide, at the rate of the smallest step the search can return. *)
Theorem C77_gantry : forall (nan : R) is_nan (root r : mframe) c rn p fs targets reg lm wp wr mu ls np pt rt,
  chain_init mops root = Ok c -> distinct_joints root -> distinct_frames root -> clean_names root -> rigid_tree root ->
  root_path root (p ++ [r]) -> ((rn = "" /\ r = root) \/ (rn <> "" /\ rn = f_name r)) -> root_path r (r :: fs) ->
  gantry fs -> spread mu (slide_axes I3 fs) -> (forall i, is_rigid (targets i)) -> (forall i, rotp (targets i) = rotp (pose (fun _ => 0) fs)) ->
  0 < mu -> 0 < reg -> 0 <= lm -> 0 < wp -> 0 < ls_lr ls <= 1 -> 0 < ls_factor ls <= 1 -> 0 < rt ->
  exists s, serial_init mops zax c (f_name (last (r :: fs) r)) rn = Ok s /\
  forall o, ik_ls o = Some (line_search s targets ls (ik_nr o)) -> (0 < ik_nr o)%nat ->
  ik_ptol o = Fin pt -> ik_rtol o = Fin rt -> (forall x, ik_noimp o = StopRatio x -> x < 1) ->
  (forall f, In f fs -> moving f = true -> j_lim (f_joint f) = None) \/ (ik_clamp o = false /\ ik_enforce o = false) ->
  forall q0, length q0 = (np * ik_nr o)%nat -> (forall q, In q q0 -> exists row, q = map Fin row /\ length row = length (c_names (s_chain s))) ->
  exists sol, solve_from (pik_kern s targets reg lm (Some (row_weights wp wr))) (pik_init s o) np q0 = Ok sol /\
  forall i t row T0 N, (i < np)%nat -> (t < ik_nr o)%nat -> nth_error q0 (i * ik_nr o + t) = Some (map Fin row) -> serial_fk_end mops nan is_nan s (InTensor (T1 row)) = Ok [T0] ->
  let e0 := vnorm (vsub (trp (targets i)) (trp T0)) in
  rate (ls_lr ls * ls_factor ls ^ ls_iter ls) mu reg lm wp e0 ^ N * e0 < pt -> (N <= ik_max o)%nat -> nth_error (s_any sol) i = Some true /\
  (ik_stop_any o = false -> ik_noimp o = NoStop -> exists e, entry_at sol i t = Some e /\ e_conv e = true).
Proof. exact l77_gantry. Qed.
Print Assumptions C77_gantry.

Example C77_example_gantry : exists c s sol, chain_init mops slides = Ok c /\ serial_init mops zax c "hand" "" = Ok s /\
  let target := aff (mkM3 0 (-1) 0 1 0 0 0 0 1) (mkV3 0 1 1) in
  solve_from (pik_kern s (fun _ => target) 1 0 (Some (row_weights 1 1)))
    (pik_init s (mkIK 0 1 (Fin (1/2)) (Fin 1) 3 (Fin (1/2)) (Some (line_search s (fun _ => target) (mkLS 1 (1/2) 1 (1/100)) 1)) false StopAny 2 true 0 true [] [] [])) 1 [[Fin 0; Fin 0; Fin 0]] = Ok sol /\ nth_error (s_any sol) 0 = Some true.
Proof.
  destruct (chain_init_ok mops slides) as (c & Hc & _).
  set (target := aff (mkM3 0 (-1) 0 1 0 0 0 0 1) (mkV3 0 1 1)).
  assert (Rt : is_rigid target) by (apply is_rigid_aff; apply quarter_rigid).
  destruct (C77_gantry 0 (fun _ => false) slides slides c "" [] slides_path (fun _ => target) 1 0 1 1 1 (mkLS 1 (1/2) 1 (1/100)) 1 (1/2) 1 Hc slides_distinct_joints slides_distinct_frames slides_clean slides_rigid
    (rp_here _) (or_introl (conj eq_refl eq_refl)) slides_root_path slides_gantry slides_spread (fun _ => Rt)) as (s & Hs & H); try (cbn [ls_lr ls_factor]; lra).
  { intros _. rewrite slides_pose0. unfold target. rewrite !rotp_aff. reflexivity. }
  exists c, s. assert (Hin : In slides (preorder slides)) by (rewrite preorder_unfold; left; reflexivity).
  destruct (serial_ok mops zax slides c "" slides slides_path Hc slides_distinct_frames slides_clean (or_introl (conj eq_refl eq_refl)) slides_root_path) as (s' & Hs' & Ht).
  assert (s' = s) by (rewrite Hs in Hs'; congruence). subst s'.
  assert (En : c_names (s_chain s) = [Some "x"; Some "y"; Some "z"]) by (rewrite (path_chain_names _ _ _ Ht); reflexivity).
  destruct (H (mkIK 0 1 (Fin (1/2)) (Fin 1) 3 (Fin (1/2)) (Some (line_search s (fun _ => target) (mkLS 1 (1/2) 1 (1/100)) 1)) false StopAny 2 true 0 true [] [] []) eq_refl ltac:(cbn [ik_nr]; lia) eq_refl eq_refl ltac:(intros x Hx; discriminate Hx)
    ltac:(left; intros f Hf _; simpl in Hf; repeat (destruct Hf as [<-|Hf]; [reflexivity|]); contradiction) [[Fin 0; Fin 0; Fin 0]] eq_refl) as (sol & Es & Hsol); [intros q [<-|[]]; exists [0; 0; 0]; rewrite En; split; reflexivity|].
  exists sol. split; [exact Hc|]. split; [exact Hs|]. split; [exact Es|].
  assert (FK := serial_pose 0 (fun _ => false) slides slides c "" slides_path s (fun _ => 0) Hin slides_distinct_joints slides_distinct_frames slides_clean slides_root_path Hs Ht). rewrite En in FK. cbn [map] in FK.
  assert (E1 : vnorm (vsub (trp target) (trp (pose (fun _ => 0) slides_path))) = 1).
  { rewrite slides_pose0. unfold target. rewrite !trp_aff. unfold vnorm, vnorm2, vdot, vsub. cbn [vx vy vz]. match goal with |- sqrt ?x = _ => replace x with 1 by ring end. apply sqrt_1. }
  destruct (Hsol 0%nat 0%nat [0; 0; 0] _ 3%nat ltac:(lia) ltac:(cbn [ik_nr]; lia) eq_refl FK) as [HA _]; [|cbn [ik_max]; lia | exact HA].
  rewrite E1. unfold rate. cbn [ls_lr ls_factor ls_iter pow]. lra.
Qed.

(** The default search can turn success into failure.  A machine with three slides, started 1/100 from the target, all arguments at their defaults: without a search the problem is solved; with BacktrackingLineSearch() it is reported as unsolved after
    all 50 iterations, for any number of retries, because the error is at the required decrease from the start. *)
Theorem C77_default_refuted : exists c s target, chain_init mops slides = Ok c /\ serial_init mops zax c "hand" "" = Ok s /\ is_rigid target /\
  forall nr, (0 < nr)%nat ->
  let o := fun search => mkIK 0 nr (Fin (1/1000)) (Fin (1/100)) 50 (Fin 1) search false StopAny 2 true 10 false [] [] [] in
  let run := fun search => solve_from (pik_kern s (fun _ => target) (1/1000000000) (1/10) (Some (row_weights 1 1))) (pik_init s (o search)) 1 (repeat [Fin 0; Fin 0; Fin 0] nr) in
  (exists sol, run None = Ok sol /\ nth_error (s_any sol) 0 = Some true) /\
  (exists sol, run (Some (line_search s (fun _ => target) (mkLS 1 (1/2) 5 (1/100)) nr)) = Ok sol /\ nth_error (s_any sol) 0 = Some false).
Proof. exact l77_default_refuted. Qed.
Print Assumptions C77_default_refuted.

(** With unequal weights a step can lower the weighted error, which the solver's step is made for, and still be refused at every length by the search, which compares unweighted errors: an arm with one joint, position counting double.  The search then returns its shortest
    step, after which the end is further away in distance and angle together. *)
Theorem C77_weights_refuted : forall reg lm ls, 0 < reg -> 0 <= lm -> 0 < ls_lr ls <= 1 -> 0 < ls_factor ls <= 1 -> 0 <= ls_suff ls ->
  exists c s target dq dx T0 Te a ae T ang dl, chain_init mops arm = Ok c /\ serial_init mops zax c "hand" "" = Ok s /\ is_rigid target /\
  pik_row s target reg lm (Some (row_weights 2 1)) [0] = Ok (dq, dx) /\
  (moves 0 (fun _ => false) s target [0] dq T ang /\ 0 < dl /\ forall t, 0 < t < dl -> true_error 2 1 target T ang t < true_error 2 1 target T ang 0) /\
  let l := ls_lr ls * ls_factor ls ^ ls_iter ls in
  line_search s (fun _ => target) ls 1 [[Fin 0]] [map Fin dq] [map Fin dx] [true] = [Fin l] /\
  serial_fk_end mops 0 (fun _ => false) s (InTensor (T1 [0])) = Ok [T0] /\ angle_between target T0 a /\
  serial_fk_end mops 0 (fun _ => false) s (InTensor (T1 (map (fun d => l * d) dq))) = Ok [Te] /\ angle_between target Te ae /\
  vnorm (vsub (trp target) (trp T0)) ^ 2 + a ^ 2 < vnorm (vsub (trp target) (trp Te)) ^ 2 + ae ^ 2.
Proof. exact l77_weights_refuted. Qed.
Print Assumptions C77_weights_refuted.
