(** C74: the step of the solver goes downhill in the true pose error. *)
From Coq Require Import Reals Lra String Bool Arith Lia List ZArith FunctionalExtensionality.
From Coquelicot Require Import Coquelicot.
From Verif Require Import Prelude ExtF Tree ChainModel SpecFK ChainProofs ChainTables TreeQueries Input Widths Lin Trig RotModel RotBasic QuatProofs AxisAngle ChainInst
  FKMore ChainClamp Examples SerialModel SerialProofs SerialMore Deriv JacModel JacProofs JacMore IKModel IKProofs IKMore IKLimits IKKernel KernelProofs DeltaPose IKSolve SolveProofs
  SpecDescent PathDeriv AngleDeriv DescentProofs.
From Verif Require Import DescFinal.
Import ListNotations.
Local Open Scope string_scope.
Local Open Scope list_scope.
Local Open Scope R_scope.



(** C74.  Serial chains of rigid offsets and unit axes, rigid targets, positive regularisation, non-negative damping, any weights.  [dq]: the step
    of the solver at [row].  Unless the end is turned from the target by less than the small-angle window or by half a turn: along every direction
    there is a motion; along [dq] the weighted squared distance and angle to the target fall at a rate of at least twice the regularisation times
    |dq|^2, so for a while they go down if the step is not zero; and the step is zero exactly if no direction changes them to first order. *)
Theorem C74_descent : forall (nan : R) is_nan (root r : mframe) c rn p fs target reg lm wp wr,
  chain_init mops root = Ok c -> distinct_joints root -> distinct_frames root -> clean_names root -> rigid_tree root ->
  root_path root (p ++ [r]) -> ((rn = "" /\ r = root) \/ (rn <> "" /\ rn = f_name r)) -> root_path r (r :: fs) ->
  is_rigid target -> 0 < reg -> 0 <= lm ->
  exists s, serial_init mops zax c (f_name (last (r :: fs) r)) rn = Ok s /\
  forall row, length row = length (c_names (s_chain s)) ->
  exists dq dx, pik_row s target reg lm (Some (row_weights wp wr)) row = Ok (dq, dx) /\
  (forall dir, length dir = length row -> exists T ang, moves nan is_nan s target row dir T ang) /\
  forall T0 a, serial_fk_end mops nan is_nan s (InTensor (T1 row)) = Ok [T0] -> angle_between target T0 a -> (a = 0 \/ eps6 <= a < PI) ->
  (forall T ang, moves nan is_nan s target row dq T ang ->
    (exists g, is_derive (true_error wp wr target T ang) 0 (- 2 * g) /\ reg * rsum (length dq) (fun j => nth j dq 0 ^ 2) <= g) /\
    ((exists x, In x dq /\ x <> 0) -> exists dl, 0 < dl /\ forall t, 0 < t < dl -> true_error wp wr target T ang t < true_error wp wr target T ang 0)) /\
  ((forall x, In x dq -> x = 0) <-> (forall dir T ang, moves nan is_nan s target row dir T ang -> is_derive (true_error wp wr target T ang) 0 0)).
Proof. exact l74_descent. Qed.
Print Assumptions C74_descent.

(** C74 does not extend to the whole step: for every learning rate and regularisation there is a target for which an arm with one joint ends further away, in distance
    and in angle, after taking the step times that rate. *)
Theorem C74_whole_step_refuted : forall lr reg, 0 < lr -> 0 < reg -> exists c s target dq dx T0 Te,
  chain_init mops arm = Ok c /\ serial_init mops zax c "hand" "" = Ok s /\ is_rigid target /\
  pik_row s target reg 0 (Some (row_weights 1 1)) [0] = Ok (dq, dx) /\
  serial_fk_end mops 0 (fun _ => false) s (InTensor (T1 [0])) = Ok [T0] /\
  serial_fk_end mops 0 (fun _ => false) s (InTensor (T1 (map (fun d => lr * d) dq))) = Ok [Te] /\
  angle_between target T0 0 /\ angle_between target Te PI /\ vnorm (vsub (trp target) (trp T0)) < vnorm (vsub (trp target) (trp Te)).
Proof. exact l74_whole_step_refuted. Qed.
Print Assumptions C74_whole_step_refuted.

(** the arm at rest with a target a quarter turn away: the step is not zero and the error goes down along it *)
Example C74_example : exists (c : chain M4 V3) (s : schain M4 V3) dq dx T ang dl, chain_init mops arm = Ok c /\ serial_init mops zax c "hand" "" = Ok s /\
  let target := aff (axis_and_angle_to_matrix_33 zax (PI / 2)) (mkV3 0 1 0) in
  pik_row s target 1 0 (Some (row_weights 1 2)) [0] = Ok (dq, dx) /\ (exists x, In x dq /\ x <> 0) /\
  moves 0 (fun _ => false) s target [0] dq T ang /\ ang 0 = PI / 2 /\ 0 < dl /\ forall t, 0 < t < dl -> true_error 1 2 target T ang t < true_error 1 2 target T ang 0.
Proof.
  destruct (chain_init_ok mops arm) as (c & Hc & _). pose proof PI_RGT_0 as HPI. pose proof PI2_3_2 as HP2. unfold PI2 in HP2. pose proof eps6_pos as HE.
  set (target := aff (axis_and_angle_to_matrix_33 zax (PI / 2)) (mkV3 0 1 0)).
  assert (Rt : is_rigid target) by (apply is_rigid_aff; apply rot33_rot; apply zax_unit).
  destruct (C74_descent 0 (fun _ => false) arm arm c "" [] [arm_turn; arm_hand] target 1 0 1 2 Hc arm_distinct_joints arm_distinct_frames arm_clean arm_rigid (rp_here _) (or_introl (conj eq_refl eq_refl)) arm_path Rt ltac:(lra) ltac:(lra)) as (s & Hs & H).
  destruct (serial_ok mops zax arm c "" arm [arm_turn; arm_hand] Hc arm_distinct_frames arm_clean (or_introl (conj eq_refl eq_refl)) arm_path) as (s' & Hs' & Ht).
  assert (s' = s) by (rewrite Hs in Hs'; congruence). subst s'.
  assert (En : c_names (s_chain s) = [Some "j"]) by (rewrite (path_chain_names _ _ _ Ht); reflexivity).
  destruct (H [0] ltac:(rewrite En; reflexivity)) as (dq & dx & Hk & Hmv & Hmain).
  assert (Hin : In arm (preorder arm)) by (rewrite preorder_unfold; left; reflexivity).
  set (v := fun _ : option string => 0%R).
  assert (FK : serial_fk_end mops 0 (fun _ => false) s (InTensor (T1 [0])) = Ok [pose v [arm_turn; arm_hand]]).
  { assert (E := serial_pose 0 (fun _ => false) arm arm c "" [arm_turn; arm_hand] s v Hin arm_distinct_joints arm_distinct_frames arm_clean arm_path Hs Ht). rewrite En in E. exact E. }
  assert (P0 : pose v [arm_turn; arm_hand] = aff I3 (mkV3 1 0 0)).
  { rewrite arm_pose, rot33_zax. unfold v. rewrite cos_0, sin_0, Ropp_0. change (mkM3 1 0 0 0 1 0 0 0 1) with I3. rewrite m3vec_1. reflexivity. }
  assert (A0 : angle_between target (pose v [arm_turn; arm_hand]) (PI / 2)).
  { split; [lra|]. rewrite P0. unfold target. rewrite !rotp_aff, rot33_zax, cos_PI2, sin_PI2. unfold trace3, m3mul, m3tr, I3. cbn [m00 m01 m02 m10 m11 m12 m20 m21 m22]. ring. }
  destruct (Hmain _ _ FK A0 ltac:(right; unfold eps6 in *; lra)) as (Hd & Hz).
  destruct (row_step arm arm [arm_turn; arm_hand] s target v 1 0 1 2 Hin arm_distinct_joints arm_distinct_frames arm_clean arm_path Ht arm_rigid ltac:(apply Rt) ltac:(lra) ltac:(lra)) as (dr & x & Hx & Hk2 & Ha).
  cbn zeta in Hx, Hk2. rewrite (arm_cols v eq_refl) in Hx, Hk2. change (path_names [arm_turn; arm_hand]) with [Some "j"] in Hx, Hk2. cbn [length map seq] in Hx, Hk2. change (v (Some "j")) with 0 in Hk2.
  rewrite Hk in Hk2. assert (HP : forall X Y (a b : X) (p q : Y), Ok (a, p) = Ok (b, q) -> a = b) by (intros; congruence). apply HP in Hk2.
  assert (Ld : length dq = 1%nat) by (rewrite Hk2; reflexivity).
  assert (Nz : exists x, In x dq /\ x <> 0).
  { destruct (Ha _ A0 ltac:(right; unfold eps6 in *; lra)) as [N1 N2]. destruct (axis_decomp dr) as (k & Uk & Ek). rewrite N1 in Ek.
    rewrite Ek, (aa_matrix_exact k (PI / 2) Uk) in N2 by (left; rewrite Rabs_pos_eq; unfold eps6; lra). rewrite P0 in N2. unfold target in N2. rewrite !rotp_aff in N2.
    apply (f_equal axial) in N2. change (m3tr I3) with I3 in N2. rewrite m3mul_1_r, !axial_rot33, sin_PI2 in N2.
    assert (K3 := f_equal vz N2). unfold vscale, zax in K3. cbn [vz] in K3.
    assert (V5 : vz dr = PI / 2) by (rewrite Ek; unfold vscale; cbn [vz]; replace (vz k) with 1 by lra; ring).
    exists (jt 6 (jac_w (Some (row_weights 1 2)) [(mkV3 0 1 0, zax)]) x 0%nat). split; [rewrite Hk2; left; reflexivity|].
    pose proof (Hx 1%nat ltac:(lia)) as H1. pose proof (Hx 5%nat ltac:(lia)) as H5. rewrite P0 in H1, H5. unfold target in H1, H5. rewrite !trp_aff in H1, H5.
    unfold gram, damping, jt, jac_w, weigh, row_weights, vsub, zax in *. cbn [rsum length Nat.eqb Nat.ltb Nat.leb nth six fst snd vx vy vz] in *. rewrite V5 in H5.
    replace (Rltb 0 0) with false in * by (symmetry; apply Rltb_false; lra). lra. }
  destruct (Hmv dq Ld) as (T & ang & Hm). destruct (Hd T ang Hm) as [_ Hdown]. destruct (Hdown Nz) as (dl & Hdl & Hlt).
  exists c, s, dq, dx, T, ang, dl. split; [exact Hc|]. split; [exact Hs|]. cbn zeta. split; [exact Hk|]. split; [exact Nz|]. split; [exact Hm|]. split; [|split; [exact Hdl|exact Hlt]].
  destruct Hm as [_ Hm]. destruct (Hm 0) as [F1 F2]. rewrite zip_still in F1 by exact Ld. rewrite FK in F1. assert (HX : forall X (a b : X), Ok [a] = Ok [b] -> a = b) by (intros; congruence). apply HX in F1.
  eapply angle_unique; [exact F2|]. rewrite <- F1. exact A0.
Qed.
