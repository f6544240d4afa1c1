(** C70: rounding errors of forward kinematics. *)
From Coq Require Import ZArith Reals Lra Psatz String Bool Arith Lia List Permutation.
From Flocq Require Import Core.
From Verif Require Import Prelude ExtF Tree ChainModel SpecFK ChainProofs Lin Trig RotModel RotBasic ChainInst SpecRound RoundNorm RoundModel RoundProofs RoundChain RoundFloat.
From Verif Require Import RoundFinal.
Import ListNotations.
Local Open Scope string_scope.
Local Open Scope list_scope.
Local Open Scope R_scope.


Theorem C70_product : forall u rnd st, rounding u rnd -> (forall i j, s_full (st i j)) ->
  rounded_product ((1 + u) ^ 4 - 1) (fl_matmul rnd st).
Proof. exact l70_product. Qed.
Print Assumptions C70_product.

Theorem C70_motions : forall u t a e rnd fcos fsin st, rounding u rnd -> trig_within t fcos fsin ->
  u <= e -> t <= e -> a <= e -> e <= / 100 -> accurate_motions a (1 + 60 * e) (fl_ops rnd fcos fsin st).
Proof. exact l70_motions. Qed.
Print Assumptions C70_motions.

Theorem C70_axis : forall u rnd k, rounding u rnd -> u <= / 100 -> k <> vzero ->
  Rabs (vx (fl_axis rnd k) - vx k / vnorm k) <= 6 * u /\ Rabs (vy (fl_axis rnd k) - vy k / vnorm k) <= 6 * u /\
  Rabs (vz (fl_axis rnd k) - vz k / vnorm k) <= 6 * u.
Proof. exact l70_axis. Qed.
Print Assumptions C70_axis.

Theorem C70_stored : forall u rnd root, rounding u rnd -> rigid_tree root -> close_tree u (1 + 3 * u) (round_tree rnd root) root.
Proof. exact l70_stored. Qed.
Print Assumptions C70_stored.

Theorem C70_fk : forall (O : Ops M4 V3 R) g a o j root' root c vs,
  0 <= g -> 1 <= o -> 1 <= j -> rounded_product g (t_mul O) -> t_one O = I4 -> accurate_motions a j O ->
  close_tree a o root' root -> distinct_joints root -> distinct_frames root -> clean_names root -> chain_init O root' = Ok c ->
  exists d, forward_kinematics O c (config_tensor root vs) None = Ok d /\ map fst d = map f_name (preorder root) /\
    forall fs f, root_path root (fs ++ [f]) -> exists ws, dget String.eqb (f_name f) d = Some ws /\
      Forall2 (fun w v => close (path_factor g o j (S (length fs))) w (pose v (fs ++ [f])) (path_reach v (fs ++ [f]))) ws vs.
Proof. exact l70_fk. Qed.
Print Assumptions C70_fk.

Theorem C70_fk_rounded : forall u t e rnd fcos fsin st root' root c vs,
  rounding u rnd -> trig_within t fcos fsin -> (forall i j, s_full (st i j)) ->
  u <= e -> t <= e -> e <= / 100 -> close_tree e (1 + 3 * e) root' root ->
  distinct_joints root -> distinct_frames root -> clean_names root -> chain_init (fl_ops rnd fcos fsin st) root' = Ok c ->
  exists d, forward_kinematics (fl_ops rnd fcos fsin st) c (config_tensor root vs) None = Ok d /\ map fst d = map f_name (preorder root) /\
    forall fs f, root_path root (fs ++ [f]) -> let n := INR (length (fs ++ [f])) in 105 * n * e <= 1 / 2 ->
      exists ws, dget String.eqb (f_name f) d = Some ws /\
      Forall2 (fun w v =>
        let M := pose v (fs ++ [f]) in let b := 210 * n * e in
        affine w /\
        m3le (m3abs (m3sub (rotp w) (rotp M))) (mkM3 b b b b b b b b b) /\
        (forall p, vnorm (vsub (m3vec (rotp w) p) (m3vec (rotp M) p)) <= b * vnorm p) /\
        vnorm (vsub (trp w) (trp M)) <= b * path_reach v (fs ++ [f])) ws vs.
Proof. exact l70_fk_rounded. Qed.
Print Assumptions C70_fk_rounded.

(** a two-frame arm in float32: the poses of the arm are within 10^-4 of the true ones *)
Example C70_fk_rounded_ex : forall q, exists c d ws,
  chain_init (fl_ops rnd32 (fun q => rnd32 (cos q)) (fun q => rnd32 (sin q)) (fun _ _ => s_left)) (round_tree rnd32 ex_round_arm) = Ok c /\
  forward_kinematics (fl_ops rnd32 (fun q => rnd32 (cos q)) (fun q => rnd32 (sin q)) (fun _ _ => s_left)) c (config_tensor ex_round_arm [fun _ => q]) None = Ok d /\
  dget String.eqb "arm" d = Some ws /\
  Forall2 (fun w v => vnorm (vsub (trp w) (trp (pose v [ex_round_arm; hd ex_round_arm (f_children ex_round_arm)]))) <= / 10000) ws [fun _ => q].
Proof.
  intros q. set (O := fl_ops _ _ _ _). destruct (chain_init_ok O (round_tree rnd32 ex_round_arm)) as (c & Hc & _).
  pose proof (C70_stored u32 rnd32 ex_round_arm rnd32_rounding ex_round_rigid) as Hct.
  destruct (C70_fk_rounded u32 u32 u32 rnd32 (fun q => rnd32 (cos q)) (fun q => rnd32 (sin q)) (fun _ _ => s_left) _ ex_round_arm c [fun _ => q]
    rnd32_rounding ex_trig32 s_left_full (Rle_refl _) (Rle_refl _) (proj2 u32_small) Hct ex_round_dj ex_round_df ex_round_cl Hc) as (d & H1 & _ & H3).
  assert (Hp : root_path ex_round_arm ([ex_round_arm] ++ [hd ex_round_arm (f_children ex_round_arm)])).
  { eapply rp_child; [left; reflexivity|apply rp_here]. }
  specialize (H3 [ex_round_arm] (hd ex_round_arm (f_children ex_round_arm)) Hp). cbv zeta in H3. cbn [app length] in H3.
  replace (INR 2) with 2 in H3 by (simpl; ring).
  destruct H3 as (ws & H4 & H5); [unfold u32; lra|]. exists c, d, ws. split; [exact Hc|]. split; [exact H1|]. split; [exact H4|].
  eapply forall2_weaken; [|exact H5]. cbv beta. intros w v (_ & _ & _ & Hw). eapply Rle_trans; [exact Hw|].
  unfold path_reach. cbn [fold_right app]. unfold reach, ex_round_arm, ex_base_off. cbn [hd f_children f_link f_joint l_off j_off j_type].
  rewrite !trp_aff.
  assert (N1 : vnorm (mkV3 (/ 3) 0 0) <= 1) by (apply vnorm_le_sqr; [lra|]; unfold vnorm2, vdot; cbn [vx vy vz]; lra).
  assert (N2 : vnorm (mkV3 1 0 0) <= 1) by (apply vnorm_le_sqr; [lra|]; unfold vnorm2, vdot; cbn [vx vy vz]; lra).
  pose proof (vnorm_nonneg (mkV3 (/ 3) 0 0)). pose proof (vnorm_nonneg (mkV3 1 0 0)).
  apply Rle_trans with (210 * 2 * u32 * 2); [|unfold u32; lra]. apply Rmult_le_compat_l; [unfold u32; lra|lra].
Qed.

Theorem C70_float32 : rounding u32 rnd32 /\ u32 = / 2 ^ 24 /\ (forall x, rnd32 (rnd32 x) = rnd32 x) /\ rnd32 (/ 3) <> / 3.
Proof. exact l70_float32. Qed.
Print Assumptions C70_float32.

Theorem C70_rotation_refuted : exists root c d w,
  let O := fl_ops rnd32 (fun q => rnd32 (cos q)) (fun q => rnd32 (sin q)) (fun _ _ => s_left) in
  rigid_tree root /\ chain_init O (round_tree rnd32 root) = Ok c /\
  forward_kinematics O c (config_tensor root [fun _ => 0]) None = Ok d /\
  dget String.eqb "base" d = Some [w] /\ affine w /\ ~ is_rot (rotp w).
Proof. exact l70_rotation_refuted. Qed.
Print Assumptions C70_rotation_refuted.

(** the premises of the other theorems hold in float32, whatever the order of the sums *)
Example C70_product_ex : rounded_product ((1 + u32) ^ 4 - 1) (fl_matmul rnd32 (fun i _ => if Nat.eqb i 0 then Fma 3 (Fma 2 (Fma 1 (Prod 0))) else Plus (Plus (Prod 0) (Prod 2)) (Plus (Prod 1) (Prod 3)))).
Proof.
  apply C70_product; [exact rnd32_rounding|]. intros i _. unfold s_full. destruct (Nat.eqb i 0); cbn [s_leaves app].
  - apply Permutation_sym, (Permutation_rev [0; 1; 2; 3]%nat).
  - apply perm_skip, perm_swap.
Qed.
Example C70_motions_ex : accurate_motions (6 * u32) (1 + 60 * (6 * u32)) (fl_ops rnd32 (fun q => rnd32 (cos q)) (fun q => rnd32 (sin q)) (fun _ _ => s_left)).
Proof. pose proof u32_small. apply (C70_motions u32 u32); [exact rnd32_rounding|exact ex_trig32| | | |]; unfold u32 in *; lra. Qed.
Example C70_axis_ex : Rabs (vx (fl_axis rnd32 (mkV3 1 1 1)) - 1 / vnorm (mkV3 1 1 1)) <= / 2000000.
Proof.
  pose proof (C70_axis u32 rnd32 (mkV3 1 1 1) rnd32_rounding (proj2 u32_small)) as H. cbn [vx vy vz] in H.
  destruct H as (H & _); [intros E; apply (f_equal vx) in E; cbn [vx vzero] in E; lra|]. eapply Rle_trans; [exact H|]. unfold u32. lra.
Qed.
Example C70_stored_ex : close_tree u32 (1 + 3 * u32) (round_tree rnd32 ex_round_arm) ex_round_arm.
Proof. apply C70_stored; [exact rnd32_rounding|exact ex_round_rigid]. Qed.
(** exact arithmetic on an exactly stored tree: the bound is zero *)
Example C70_fk_ex : rounded_product 0 (t_mul mops) /\ accurate_motions 0 1 mops /\ path_factor 0 1 1 2 = 1 /\ rounding 0 (fun x => x).
Proof.
  assert (Z : forall x, x - x = 0) by (intros; ring).
  assert (Z1 : forall x, Rabs (x - x) = 0) by (intros; rewrite Z; apply Rabs_R0).
  split; [|split; [|split]].
  - intros A B HA HB. cbn [t_mul mops]. split; [apply affine_mul; assumption|]. split.
    + unfold m3le, m3sub, m3add, m3opp, m3scale. cbn [m00 m01 m02 m10 m11 m12 m20 m21 m22 m3abs].
      rewrite !Rplus_opp_r, !Rabs_R0, !Rmult_0_l. repeat split; apply Rle_refl.
    + unfold vle, vsub, vscale. cbn [vx vy vz vabs]. rewrite !Z1, !Rmult_0_l. repeat split; apply Rle_refl.
  - intros k' k q Hk Hx Hy Hz.
    assert (E : forall x y, Rabs (x - y) <= 0 -> x = y).
    { intros x y H. destruct (Req_dec x y) as [E|E]; [exact E|]. assert (H0 : x - y <> 0) by lra. pose proof (Rabs_pos_lt _ H0). lra. }
    assert (Ek : k' = k). { destruct k' as [b1 b2 b3], k as [c1 c2 c3]. cbn [vx vy vz] in *. apply mkV3_eq; apply E; assumption. }
    subst k'. cbn [t_rev t_pris mops]. split; apply close_refl.
    + apply rot44_rigid, Hk.
    + rewrite rot44_aff, trp_aff. rewrite vnorm_zero. apply Rle_refl.
    + rewrite pris_aff. apply is_rigid_aff, is_rot_I.
    + rewrite pris_aff, trp_aff, vnorm_scale, (unit3_norm k Hk). lra.
  - unfold path_factor. cbn [Nat.mul Nat.add Nat.sub pow]. ring.
  - split; [reflexivity|]. intros x. rewrite Z1, Rmult_0_l. apply Rle_refl.
Qed.
