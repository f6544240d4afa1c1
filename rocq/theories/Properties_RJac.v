(** C73: rounding errors of the Jacobian. *)
From Coq Require Import ZArith Reals Lra Psatz String Bool Arith Lia List Permutation.
From Verif Require Import Prelude ExtF Tree ChainModel SpecFK ChainProofs Input Lin Trig RotModel RotBasic ChainInst Examples SerialModel SerialProofs SerialMore Deriv
  JacModel JacProofs JacMore SpecRound RoundNorm RoundModel RoundProofs RoundChain RoundFloat RoundFinal RoundJacModel SpecRoundJac RoundJacProofs RoundJacChain RoundJacTool.
From Verif Require Import RJacFinal.
Import ListNotations.
Local Open Scope string_scope.
Local Open Scope list_scope.
Local Open Scope R_scope.


(** C73.  With exact arithmetic this is the Jacobian of the code. *)
Theorem C73_exact : (forall s th, jacobian_with mops exact_jops s th = jacobian_tensor s th) /\
  forall s i th t, jac_input i = Ok th -> jacobian_tool_with mops exact_jops s th (tool_matrix t) = jacobian s i (Some t).
Proof. exact l73_exact. Qed.
Print Assumptions C73_exact.

(** C73.  Products and differences in floating-point arithmetic, in any order of summation, fused or not. *)
Theorem C73_ops : forall u rnd sv sc, rounding u rnd -> (forall i, s_full3 (sv i)) -> (forall i, s_full2 (sc i)) ->
  rounded_jops ((1 + u) ^ 3 - 1) u ((1 + u) ^ 2 - 1) (fl_jops rnd sv sc).
Proof. exact l73_ops. Qed.
Print Assumptions C73_ops.

Example C73_ops_ex : rounded_jops ((1 + u32) ^ 3 - 1) u32 ((1 + u32) ^ 2 - 1) (fl_jops rnd32 (fun _ => Fma 2 (Fma 1 (Prod 0))) (fun _ => Fma 0 (Prod 1))).
Proof.
  apply C73_ops; [exact rnd32_rounding| |]; intros _.
  - apply Permutation_sym, (Permutation_rev [0; 1; 2]%nat).
  - apply Permutation_refl.
Qed.

(** C73.  The errors of the Jacobian, for arithmetic with given errors: [X] is the factor of forward kinematics, [Z] that of the axes. *)
Theorem C73_jacobian : forall (O : Ops M4 V3 R) (jo : jops) g a o j gv us h (root' root r : mframe) c rn p fs vs,
  0 <= g -> 1 <= o -> 1 <= j -> 0 <= a -> 0 <= gv -> 0 <= us -> 0 <= h ->
  rounded_product g (t_mul O) -> t_one O = I4 -> accurate_motions a j O -> rounded_jops gv us h jo ->
  close_tree a o root' root -> distinct_joints root -> distinct_frames root -> clean_names root -> chain_init O root' = Ok c ->
  root_path root (p ++ [r]) -> ((rn = "" /\ r = root) \/ (rn <> "" /\ rn = f_name r)) -> root_path r (r :: fs) ->
  let X := path_factor g o j (S (length fs)) in let Z := X * (1 + 2 * gv) * (1 + 2 * a) in
  exists s Js Ts, serial_init O zax c (f_name (last (r :: fs) r)) rn = Ok s /\ c_names (s_chain s) = path_names fs /\
    jacobian_with O jo s (mkTh (length (path_names fs)) (map (fun v => map v (path_names fs)) vs)) = Ok (Js, Ts) /\
    Forall2 (fun T v => close X T (pose v fs) (path_reach v fs)) Ts vs /\
    Forall2 (fun J' v => exists J, is_jacobian (fun v => pose v fs) (path_names fs) v J /\
      jac_within (2 * path_reach v fs * ((1 + 2 * h) * Z * ((1 + us) * X) - 1)) (Z - 1) (filter moving fs) J' J) Js vs.
Proof. exact l73_jacobian. Qed.
Print Assumptions C73_jacobian.

(** exact arithmetic has no errors, and then there is no error in the result *)
Example C73_jacobian_ex : rounded_jops 0 0 0 exact_jops /\ (let X := path_factor 0 1 1 3 in let Z := X * (1 + 2 * 0) * (1 + 2 * 0) in Z - 1 = 0 /\ (1 + 2 * 0) * Z * ((1 + 0) * X) - 1 = 0).
Proof.
  assert (Z1 : forall x, Rabs (x - x) = 0) by (intros x; replace (x - x) with 0 by ring; apply Rabs_R0).
  split; [|cbv zeta; unfold path_factor; cbn [Nat.mul Nat.add Nat.sub pow]; split; ring].
  split; [|split; [|split]]; intros; unfold exact_jops; cbn [jo_vec jo_sub jo_cross jo_add]; unfold vle, vsub, vscale; cbn [vx vy vz vabs]; rewrite !Z1, !Rmult_0_l; repeat split; apply Rle_refl.
Qed.

(** C73.  In floating-point arithmetic the Jacobian is within a small multiple of the unit roundoff of the true derivative of the pose: the axes per
    frame of the path, the linear parts of revolute joints per frame and length of the path. *)
Theorem C73_jacobian_rounded : forall u t e rnd fcos fsin st sv sc (root' root r : mframe) c rn p fs vs,
  rounding u rnd -> trig_within t fcos fsin -> (forall i j, s_full (st i j)) -> (forall i, s_full3 (sv i)) -> (forall i, s_full2 (sc i)) ->
  u <= e -> t <= e -> e <= / 100 -> close_tree e (1 + 3 * e) root' root ->
  distinct_joints root -> distinct_frames root -> clean_names root -> chain_init (fl_ops rnd fcos fsin st) root' = Ok c ->
  root_path root (p ++ [r]) -> ((rn = "" /\ r = root) \/ (rn <> "" /\ rn = f_name r)) -> root_path r (r :: fs) ->
  let n := INR (length (r :: fs)) in 105 * n * e <= 1 / 2 ->
  exists s Js Ts, serial_init (fl_ops rnd fcos fsin st) zax c (f_name (last (r :: fs) r)) rn = Ok s /\ c_names (s_chain s) = path_names fs /\
    jacobian_with (fl_ops rnd fcos fsin st) (fl_jops rnd sv sc) s (mkTh (length (path_names fs)) (map (fun v => map v (path_names fs)) vs)) = Ok (Js, Ts) /\
    Forall2 (fun J' v => exists J, is_jacobian (fun v => pose v fs) (path_names fs) v J /\
      jac_within (1400 * n * e * path_reach v fs) (230 * n * e) (filter moving fs) J' J) Js vs.
Proof. exact l73_jacobian_rounded. Qed.
Print Assumptions C73_jacobian_rounded.

(** an arm with a tool in float32: the entries of the Jacobian are within 10^-3 *)
Example C73_jacobian_rounded_ex : forall q, exists c s J' T J,
  let O := fl_ops rnd32 (fun q => rnd32 (cos q)) (fun q => rnd32 (sin q)) (fun _ _ => s_left) in
  chain_init O (round_tree rnd32 ex_jac_arm) = Ok c /\ serial_init O zax c "tool" "" = Ok s /\
  jacobian_with O (fl_jops rnd32 (fun _ => s_left3) (fun _ => s_left2)) s (mkTh 1 [[q]]) = Ok ([J'], [T]) /\
  is_jacobian (fun v => pose v [ex_jac_hinge; ex_jac_tool]) [Some "j"] (fun _ => q) J /\
  jac_within (/ 1000) (/ 10000) [ex_jac_hinge] J' J.
Proof.
  intros q. set (O := fl_ops _ _ _ _). destruct (chain_init_ok O (round_tree rnd32 ex_jac_arm)) as (c & Hc & _).
  pose proof (round_tree_close u32 rnd32 rnd32_rounding ex_jac_arm ex_jac_rigid) as Hct.
  assert (Hp : root_path ex_jac_arm (ex_jac_arm :: [ex_jac_hinge; ex_jac_tool])).
  { eapply rp_child; [left; reflexivity|]. eapply rp_child; [left; reflexivity|]. apply rp_here. }
  destruct (C73_jacobian_rounded u32 u32 u32 rnd32 (fun q => rnd32 (cos q)) (fun q => rnd32 (sin q)) (fun _ _ => s_left) (fun _ => s_left3) (fun _ => s_left2)
    (round_tree rnd32 ex_jac_arm) ex_jac_arm ex_jac_arm c "" [] [ex_jac_hinge; ex_jac_tool] [fun _ => q]
    rnd32_rounding ex_trig32 s_left_full (fun _ => Permutation_refl _) (fun _ => Permutation_refl _) (Rle_refl _) (Rle_refl _) (proj2 u32_small) Hct
    ex_jac_dj ex_jac_df ex_jac_cl Hc (rp_here _) (or_introl (conj eq_refl eq_refl)) Hp) as (s & Js & Ts & H1 & _ & H3 & H4).
  { cbn [length]. replace (INR 3) with 3 by (simpl; ring). unfold u32. lra. }
  inversion H4 as [|J' ? ? ? HJ HN]; subst. inversion HN; subst. destruct HJ as (J & HJ & HW).
  assert (HT : exists T, Ts = [T]).
  { change (path_names [ex_jac_hinge; ex_jac_tool]) with [Some "j"] in H3. cbn [map length] in H3.
    pose proof (jacobian_rows _ _ _ _ _ _ H3) as E1. destruct Ts as [|T [|T2 Ts]]; cbn [length] in E1; [discriminate| |discriminate]. eauto. }
  destruct HT as (T & ->). exists c, s, J', T, J. split; [exact Hc|]. split; [exact H1|]. split; [exact H3|]. split; [exact HJ|].
  change (filter moving [ex_jac_hinge; ex_jac_tool]) with [ex_jac_hinge] in HW.
  assert (N1 : vnorm (mkV3 (/ 3) 0 0) <= 1) by (apply vnorm_le_sqr; [lra|]; unfold vnorm2, vdot; cbn [vx vy vz]; lra).
  assert (N2 : vnorm (mkV3 2 0 0) <= 2) by (apply vnorm_le_sqr; [lra|]; unfold vnorm2, vdot; cbn [vx vy vz]; lra).
  pose proof (vnorm_nonneg (mkV3 (/ 3) 0 0)). pose proof (vnorm_nonneg (mkV3 2 0 0)).
  eapply jac_within_le; [| |exact HW]; cbn [length]; replace (INR 3) with 3 by (simpl; ring).
  - unfold path_reach. cbn [fold_right]. unfold reach, ex_jac_hinge, ex_jac_tool. cbn [f_link f_joint l_off j_off j_type]. rewrite !trp_aff.
    apply Rle_trans with (1400 * 3 * u32 * 3); [|unfold u32; lra]. apply Rmult_le_compat_l; [unfold u32; lra|lra].
  - unfold u32. lra.
Qed.

(** C73.  The errors at a tool frame: one tool per configuration or one for all, stored up to the factor [w]; [Y] is the factor of the pose of the tool. *)
Theorem C73_tool : forall (O : Ops M4 V3 R) (jo : jops) g a o j gv us h (root' root r : mframe) c rn p fs vs w ms tools' tools,
  0 <= g -> 1 <= o -> 1 <= j -> 0 <= a -> 0 <= gv -> 0 <= us -> 0 <= h ->
  rounded_product g (t_mul O) -> t_one O = I4 -> accurate_motions a j O -> rounded_jops gv us h jo ->
  close_tree a o root' root -> distinct_joints root -> distinct_frames root -> clean_names root -> chain_init O root' = Ok c ->
  root_path root (p ++ [r]) -> ((rn = "" /\ r = root) \/ (rn <> "" /\ rn = f_name r)) -> root_path r (r :: fs) ->
  (ms = tools' \/ exists m, ms = [m] /\ tools' = repeat m (length vs)) -> length tools = length vs ->
  Forall2 (fun m' m => close w m' m (vnorm (trp m))) tools' tools ->
  let X := path_factor g o j (S (length fs)) in let Z := X * (1 + 2 * gv) * (1 + 2 * a) in let Y := X * w * (1 + 3 * g) in
  exists s Js Ts, serial_init O zax c (f_name (last (r :: fs) r)) rn = Ok s /\ c_names (s_chain s) = path_names fs /\
    jacobian_tool_with O jo s (mkTh (length (path_names fs)) (map (fun v => map v (path_names fs)) vs)) ms = Ok (Js, Ts) /\
    length Js = length vs /\ length Ts = length vs /\
    forall b v m, nth_error vs b = Some v -> nth_error tools b = Some m -> let L := path_reach v fs + vnorm (trp m) in
      exists J' T J, nth_error Js b = Some J' /\ nth_error Ts b = Some T /\ close Y T (m4mul (pose v fs) m) L /\
        is_jacobian (fun v => m4mul (pose v fs) m) (path_names fs) v J /\
        jac_within (4 * L * ((1 + us) * ((1 + 2 * h) * Z * ((1 + us) * Y)) - 1)) ((1 + us) * Z - 1) (filter moving fs) J' J.
Proof. exact l73_tool. Qed.
Print Assumptions C73_tool.

(** no errors, no error *)
Example C73_tool_ex : let X := path_factor 0 1 1 3 in let Z := X * (1 + 2 * 0) * (1 + 2 * 0) in let Y := X * 1 * (1 + 3 * 0) in
  Z - 1 = 0 /\ (1 + 0) * ((1 + 2 * 0) * Z * ((1 + 0) * Y)) - 1 = 0 /\ forall m, is_rigid m -> close 1 m m (vnorm (trp m)).
Proof. cbv zeta. unfold path_factor. cbn [Nat.mul Nat.add Nat.sub pow]. split; [ring|]. split; [ring|]. intros m Hm. apply close_refl; [exact Hm|apply Rle_refl]. Qed.

(** C73.  In floating-point arithmetic the Jacobian at a tool is within a small multiple of the unit roundoff of the true derivative of its pose. *)
Theorem C73_tool_rounded : forall u t e rnd fcos fsin st sv sc (root' root r : mframe) c rn p fs vs ms tools' tools,
  rounding u rnd -> trig_within t fcos fsin -> (forall i j, s_full (st i j)) -> (forall i, s_full3 (sv i)) -> (forall i, s_full2 (sc i)) ->
  u <= e -> t <= e -> e <= / 100 -> close_tree e (1 + 3 * e) root' root ->
  distinct_joints root -> distinct_frames root -> clean_names root -> chain_init (fl_ops rnd fcos fsin st) root' = Ok c ->
  root_path root (p ++ [r]) -> ((rn = "" /\ r = root) \/ (rn <> "" /\ rn = f_name r)) -> root_path r (r :: fs) ->
  (ms = tools' \/ exists m, ms = [m] /\ tools' = repeat m (length vs)) -> length tools = length vs ->
  Forall2 (fun m' m => close (1 + 3 * e) m' m (vnorm (trp m))) tools' tools ->
  let n := INR (length (r :: fs)) in 105 * n * e <= 1 / 2 ->
  exists s Js Ts, serial_init (fl_ops rnd fcos fsin st) zax c (f_name (last (r :: fs) r)) rn = Ok s /\ c_names (s_chain s) = path_names fs /\
    jacobian_tool_with (fl_ops rnd fcos fsin st) (fl_jops rnd sv sc) s (mkTh (length (path_names fs)) (map (fun v => map v (path_names fs)) vs)) ms = Ok (Js, Ts) /\
    length Js = length vs /\ length Ts = length vs /\
    forall b v m, nth_error vs b = Some v -> nth_error tools b = Some m -> let L := path_reach v fs + vnorm (trp m) in
      exists J' T J, nth_error Js b = Some J' /\ nth_error Ts b = Some T /\ close (1 + 245 * n * e) T (m4mul (pose v fs) m) L /\
        is_jacobian (fun v => m4mul (pose v fs) m) (path_names fs) v J /\ jac_within (3200 * n * e * L) (235 * n * e) (filter moving fs) J' J.
Proof. exact l73_tool_rounded. Qed.
Print Assumptions C73_tool_rounded.

(** the same arm and a tool one unit further, in float32: within 1/400 *)
Example C73_tool_rounded_ex : forall q, exists c s J' T J,
  let O := fl_ops rnd32 (fun q => rnd32 (cos q)) (fun q => rnd32 (sin q)) (fun _ _ => s_left) in let m := aff I3 (mkV3 1 0 0) in
  chain_init O (round_tree rnd32 ex_jac_arm) = Ok c /\ serial_init O zax c "tool" "" = Ok s /\
  jacobian_tool_with O (fl_jops rnd32 (fun _ => s_left3) (fun _ => s_left2)) s (mkTh 1 [[q]]) [m] = Ok ([J'], [T]) /\
  is_jacobian (fun v => m4mul (pose v [ex_jac_hinge; ex_jac_tool]) m) [Some "j"] (fun _ => q) J /\
  jac_within (/ 400) (/ 10000) [ex_jac_hinge] J' J.
Proof.
  intros q. set (O := fl_ops _ _ _ _). set (m := aff I3 (mkV3 1 0 0)). destruct (chain_init_ok O (round_tree rnd32 ex_jac_arm)) as (c & Hc & _).
  pose proof (round_tree_close u32 rnd32 rnd32_rounding ex_jac_arm ex_jac_rigid) as Hct.
  assert (Hp : root_path ex_jac_arm (ex_jac_arm :: [ex_jac_hinge; ex_jac_tool])).
  { eapply rp_child; [left; reflexivity|]. eapply rp_child; [left; reflexivity|]. apply rp_here. }
  assert (Hm : close (1 + 3 * u32) m m (vnorm (trp m))).
  { eapply close_weaken; [apply close_refl; [apply is_rigid_aff, is_rot_I|apply Rle_refl]| |apply Rle_refl]. unfold u32. lra. }
  assert (HmF : Forall2 (fun m' m => close (1 + 3 * u32) m' m (vnorm (trp m))) [m] [m]) by (constructor; [exact Hm|constructor]).
  destruct (C73_tool_rounded u32 u32 u32 rnd32 (fun q => rnd32 (cos q)) (fun q => rnd32 (sin q)) (fun _ _ => s_left) (fun _ => s_left3) (fun _ => s_left2)
    (round_tree rnd32 ex_jac_arm) ex_jac_arm ex_jac_arm c "" [] [ex_jac_hinge; ex_jac_tool] [fun _ => q] [m] [m] [m]
    rnd32_rounding ex_trig32 s_left_full (fun _ => Permutation_refl _) (fun _ => Permutation_refl _) (Rle_refl _) (Rle_refl _) (proj2 u32_small) Hct
    ex_jac_dj ex_jac_df ex_jac_cl Hc (rp_here _) (or_introl (conj eq_refl eq_refl)) Hp (or_introl eq_refl) eq_refl HmF) as (s & Js & Ts & H1 & _ & H3 & L1 & L2 & H4).
  { cbn [length]. replace (INR 3) with 3 by (simpl; ring). unfold u32. lra. }
  destruct (H4 0%nat (fun _ => q) m eq_refl eq_refl) as (J' & T & J & E1 & E2 & _ & HJ & HW).
  destruct Js as [|J1 [|]]; cbn [length nth_error] in *; try discriminate. destruct Ts as [|T1 [|]]; cbn [length nth_error] in *; try discriminate.
  assert (J1 = J') by congruence. assert (T1 = T) by congruence. subst J1 T1.
  exists c, s, J', T, J. split; [exact Hc|]. split; [exact H1|]. split; [exact H3|]. split; [exact HJ|].
  change (filter moving [ex_jac_hinge; ex_jac_tool]) with [ex_jac_hinge] in HW.
  assert (N1 : vnorm (mkV3 (/ 3) 0 0) <= 1) by (apply vnorm_le_sqr; [lra|]; unfold vnorm2, vdot; cbn [vx vy vz]; lra).
  assert (N2 : vnorm (mkV3 2 0 0) <= 2) by (apply vnorm_le_sqr; [lra|]; unfold vnorm2, vdot; cbn [vx vy vz]; lra).
  assert (N3 : vnorm (mkV3 1 0 0) <= 1) by (apply vnorm_le_sqr; [lra|]; unfold vnorm2, vdot; cbn [vx vy vz]; lra).
  eapply jac_within_le; [| |exact HW]; replace (INR 3) with 3 by (simpl; ring).
  - unfold path_reach. cbn [fold_right]. unfold reach, ex_jac_hinge, ex_jac_tool, m. cbn [f_link f_joint l_off j_off j_type]. rewrite !trp_aff.
    apply Rle_trans with (3200 * 3 * u32 * 4); [|unfold u32; lra]. apply Rmult_le_compat_l; [unfold u32; lra|lra].
  - unfold u32. lra.
Qed.
