(** Last steps of the proofs quoted in Properties_Round.v. *)
From Coq Require Import ZArith Reals Lra Psatz String Bool Arith Lia List Permutation.
From Flocq Require Import Core.
From Verif Require Import Prelude ExtF Tree ChainModel SpecFK ChainProofs Lin Trig RotModel RotBasic ChainInst SpecRound RoundNorm RoundModel RoundProofs RoundChain RoundFloat.
Import ListNotations.
Local Open Scope string_scope.
Local Open Scope list_scope.
Local Open Scope R_scope.

(** rounding every number of a tree *)
Lemma round_tree_close u rnd : rounding u rnd -> forall root, rigid_tree root -> close_tree u (1 + 3 * u) (round_tree rnd root) root.
Proof.
  intros Hr root. pose proof (u_nonneg u rnd Hr) as Hu. induction root as [n l j cs IH] using frame_rect'. intros H. constructor.
  - pose proof (H _ (or_introl eq_refl)) as (H1 & H2 & H3). cbn [f_link f_joint] in H1, H2, H3.
    unfold close_node. cbn [round_tree f_name f_link f_joint l_off j_off j_name j_type j_axis]. split; [reflexivity|].
    assert (Ho : forall x, rigid_opt x -> close_offset (1 + 3 * u) (option_map (round_m4 rnd) x) x).
    { intros [m|] Hm; cbn [option_map close_offset]; [|exact I]. apply round_m4_close; assumption. }
    split; [apply Ho, H1|]. split; [apply Ho, H2|]. split; [reflexivity|]. split; [reflexivity|].
    intros Hm. split; [apply H3, Hm|]. cbn [vx vy vz]. destruct (unit_entries _ (H3 Hm)) as (B1 & B2 & B3).
    assert (HE : forall x, Rabs x <= 1 -> Rabs (rnd x - x) <= u).
    { intros x Hx. eapply Rle_trans; [apply Hr|]. rewrite <- (Rmult_1_r u) at 2. apply Rmult_le_compat_l; assumption. }
    repeat split; apply HE; assumption.
  - cbn [round_tree f_children]. assert (Hc : forall c, In c cs -> rigid_tree c).
    { intros c Hc f Hf. apply H. rewrite preorder_unfold. right. cbn [f_children]. apply in_flat_map. exists c. split; assumption. }
    clear H. induction cs as [|c cs IHc]; cbn [map]; constructor.
    + inversion IH; subst. auto with datatypes.
    + inversion IH; subst. apply IHc; [assumption|]. intros d Hd. apply Hc. right; exact Hd.
Qed.

Lemma forall2_weaken {X Y} (P Q : X -> Y -> Prop) l m : (forall x y, P x y -> Q x y) -> Forall2 P l m -> Forall2 Q l m.
Proof. intros H. induction 1; constructor; auto. Qed.

(** powers *)
Lemma bern_le e n : 0 <= e -> 1 + INR n * e <= (1 + e) ^ n.
Proof.
  intros He. induction n as [|n IH]; [cbn [INR pow]; lra|]. rewrite S_INR. cbn [pow].
  apply Rle_trans with ((1 + e) * (1 + INR n * e)); [|apply Rmult_le_compat_l; lra].
  pose proof (Rmult_le_pos _ _ (pos_INR n) (Rmult_le_pos _ _ He He)). nra.
Qed.
Lemma quad_le e : 0 <= e -> e <= / 100 -> 3 * ((1 + e) ^ 4 - 1) <= 13 * e.
Proof. intros H1 H2. cbn [pow]. assert (e * e <= / 100 * e) by (apply Rmult_le_compat_r; lra). assert (0 <= e * e) by nra. assert (e * e * e <= / 100 * (e * e)) by nra. assert (e * e * e * e <= / 100 * (e * e * e)) by (apply Rle_trans with ((e * e * e) * e); [lra|]; rewrite Rmult_comm; apply Rmult_le_compat_r; nra). nra. Qed.
Lemma factor_bound e n : 0 <= e -> e <= / 100 -> (1 <= n)%nat -> 105 * INR n * e <= 1 / 2 ->
  path_factor ((1 + e) ^ 4 - 1) (1 + 3 * e) (1 + 60 * e) n <= 1 + 210 * INR n * e.
Proof.
  intros He Hs Hn Hb. unfold path_factor.
  assert (B3 : 1 + 3 * e <= (1 + e) ^ 3) by (pose proof (bern_le e 3 He) as B; replace (INR 3) with 3 in B by (simpl; ring); exact B).
  assert (B60 : 1 + 60 * e <= (1 + e) ^ 60) by (pose proof (bern_le e 60 He) as B; replace (INR 60) with 60 in B by (rewrite INR_IZR_INZ; reflexivity); exact B).
  assert (B13 : 1 + 3 * ((1 + e) ^ 4 - 1) <= (1 + e) ^ 13).
  { pose proof (bern_le e 13 He) as B. replace (INR 13) with 13 in B by (rewrite INR_IZR_INZ; reflexivity). pose proof (quad_le e He Hs). lra. }
  assert (P1 : 1 <= 1 + 3 * ((1 + e) ^ 4 - 1)). { pose proof (pow_R1_Rle (1 + e) 4 ltac:(lra)). lra. }
  assert (K1 : (1 + 3 * e) * (1 + 3 * e) * (1 + 60 * e) <= (1 + e) ^ 66).
  { replace 66%nat with (3 + 3 + 60)%nat by reflexivity. rewrite !pow_add. repeat apply Rmult_le_compat; try assumption; try lra.
    apply Rmult_le_pos; lra. }
  assert (K2 : ((1 + 3 * e) * (1 + 3 * e) * (1 + 60 * e)) ^ n <= (1 + e) ^ (66 * n)).
  { rewrite pow_mult. apply pow_incr. split; [|exact K1]. repeat apply Rmult_le_pos; lra. }
  assert (K3 : (1 + 3 * ((1 + e) ^ 4 - 1)) ^ (3 * n - 1) <= (1 + e) ^ (39 * n)).
  { apply Rle_trans with (((1 + e) ^ 13) ^ (3 * n - 1)); [apply pow_incr; split; [lra|exact B13]|]. rewrite <- pow_mult.
    apply Rle_pow; [lra|lia]. }
  apply Rle_trans with ((1 + e) ^ (66 * n) * (1 + e) ^ (39 * n)).
  { apply Rmult_le_compat; try assumption; apply pow_le; [repeat apply Rmult_le_pos; lra|lra]. }
  rewrite <- pow_add. replace (66 * n + 39 * n)%nat with (105 * n)%nat by lia.
  assert (EN : INR (105 * n) = 105 * INR n) by (rewrite mult_INR; f_equal; rewrite INR_IZR_INZ; reflexivity).
  eapply Rle_trans; [apply pow_lin_bound; [exact He|rewrite EN; exact Hb]|]. rewrite EN. lra.
Qed.

(** the example arm: a base at (1/3, 0, 0) and a revolute arm about z *)
Definition ex_base_off : M4 := aff I3 (mkV3 (/ 3) 0 0).
Definition ex_round_arm : mframe :=
  Frame "base" (mkLink (Some "base") (Some ex_base_off)) (mkJoint None None Fixed (mkV3 0 0 1) None None None)
    [Frame "arm" (mkLink (Some "arm") None) (mkJoint (Some "j") (Some (aff I3 (mkV3 1 0 0))) Revolute (mkV3 0 0 1) None None None) []].
Lemma ex_round_rigid : rigid_tree ex_round_arm.
Proof.
  assert (U : unit3 (mkV3 0 0 1)) by (unfold unit3, vnorm2, vdot; cbn [vx vy vz]; ring).
  intros f [<-|[<-|[]]]; cbn [f_link f_joint l_off j_off j_axis rigid_opt]; (split; [|split]); try (intros _; exact U); try exact I;
    apply is_rigid_aff, is_rot_I.
Qed.
Lemma ex_round_dj : distinct_joints ex_round_arm. Proof. unfold distinct_joints, moving_names. cbn. repeat constructor; simpl; tauto. Qed.
Lemma ex_round_df : distinct_frames ex_round_arm. Proof. unfold distinct_frames. cbn. repeat constructor; simpl; intuition discriminate. Qed.
Lemma ex_round_cl : clean_names ex_round_arm. Proof. intros f [<-|[<-|[]]]; reflexivity. Qed.
Lemma ex_trig32 : trig_within u32 (fun q => rnd32 (cos q)) (fun q => rnd32 (sin q)).
Proof.
  pose proof (u_nonneg _ _ rnd32_rounding) as Hu.
  intros q; split; (eapply Rle_trans; [apply rnd32_rounding|]); rewrite <- (Rmult_1_r u32) at 2; (apply Rmult_le_compat_l; [exact Hu|]); [apply cos_abs|apply sin_abs].
Qed.
Lemma s_left_full : forall i j : nat, s_full s_left. Proof. intros _ _. apply Permutation_refl. Qed.
Lemma u32_small : 0 <= u32 <= / 100. Proof. unfold u32. lra. Qed.

(** concrete float32 numbers *)
Lemma rnd32_value x m : / 2 <= x -> x < 1 -> Rabs (x * 16777216 - IZR m) < / 2 -> rnd32 x = IZR m * / 16777216.
Proof.
  intros H1 H2 H3. unfold rnd32, round, F2R. cbn [Fnum Fexp].
  assert (Hm : mag radix2 x = 0%Z :> Z).
  { apply mag_unique. rewrite Rabs_pos_eq by lra. change (bpow radix2 0) with 1. change (bpow radix2 (0 - 1)) with (/ IZR 2). lra. }
  assert (Hc : cexp radix2 (FLX_exp 24) x = (-24)%Z) by (unfold cexp, FLX_exp; rewrite Hm; reflexivity).
  unfold scaled_mantissa. rewrite Hc. change (bpow radix2 (- (-24))) with (IZR 16777216). change (bpow radix2 (-24)) with (/ IZR 16777216).
  rewrite (Znearest_imp _ _ m H3). reflexivity.
Qed.
Lemma rnd32_idem x : rnd32 (rnd32 x) = rnd32 x.
Proof. unfold rnd32. apply round_generic; [apply valid_rnd_N|]. apply generic_format_round; [apply FLX_exp_valid; reflexivity|apply valid_rnd_N]. Qed.
Lemma rnd32_35 : rnd32 (3 / 5) = 10066330 * / 16777216.
Proof. apply rnd32_value; try lra. replace (3 / 5 * 16777216 - 10066330) with (- (2 / 5)) by field. rewrite Rabs_Ropp, Rabs_pos_eq; lra. Qed.
Lemma rnd32_45 : rnd32 (4 / 5) = 13421773 * / 16777216.
Proof. apply rnd32_value; try lra. replace (4 / 5 * 16777216 - 13421773) with (- (/ 5)) by field. rewrite Rabs_Ropp, Rabs_pos_eq; lra. Qed.
Lemma fl_matmul_I A : affine A -> (forall i k, rnd32 (row4 i A k) = row4 i A k) -> fl_matmul rnd32 (fun _ _ => s_left) A I4 = A.
Proof.
  intros (A0 & A1 & A2 & A3) H. pose proof (rnd_0 u32 rnd32 rnd32_rounding) as R0.
  assert (E : forall i j, (j <= 3)%nat -> s_eval rnd32 (fun k => row4 i A k * col4 j I4 k) s_left = row4 i A j).
  { intros i j Hj. unfold s_left, fadd. cbn [s_eval]. unfold fadd, col4.
    destruct j as [|[|[|[|j]]]]; [| | | |lia]; unfold I4; cbn [row4 a00 a01 a02 a03 a10 a11 a12 a13 a20 a21 a22 a23 a30 a31 a32 a33];
      rewrite ?Rmult_1_r, ?Rmult_0_r, ?R0, ?Rplus_0_r, ?R0, ?H, ?Rplus_0_r, ?Rplus_0_l, ?R0, ?Rplus_0_l, ?H, ?Rplus_0_r, ?H, ?Rplus_0_r, ?H; reflexivity. }
  destruct A as [x00 x01 x02 x03 x10 x11 x12 x13 x20 x21 x22 x23 x30 x31 x32 x33]. unfold fl_matmul.
  rewrite !E by lia. reflexivity.
Qed.
Definition ex_345 : M4 := aff (mkM3 (3 / 5) (- (4 / 5)) 0 (4 / 5) (3 / 5) 0 0 0 1) vzero.
Definition ex_turn : mframe := Frame "base" (mkLink (Some "base") (Some ex_345)) (mkJoint None None Fixed (mkV3 0 0 1) None None None) [].
Lemma ex_345_rigid : is_rigid ex_345.
Proof.
  apply is_rigid_aff. split.
  - unfold m3mul, m3tr, I3. cbn [m00 m01 m02 m10 m11 m12 m20 m21 m22]. apply mkM3_eq; field.
  - unfold det3. cbn [m00 m01 m02 m10 m11 m12 m20 m21 m22]. field.
Qed.

Lemma l70_product : forall u rnd st, rounding u rnd -> (forall i j, s_full (st i j)) ->
  rounded_product ((1 + u) ^ 4 - 1) (fl_matmul rnd st).
Proof. intros u rnd st Hr Hs. exact (fl_matmul_rounded u rnd Hr st Hs). Qed.

Lemma l70_motions : forall u t a e rnd fcos fsin st, rounding u rnd -> trig_within t fcos fsin ->
  u <= e -> t <= e -> a <= e -> e <= / 100 -> accurate_motions a (1 + 60 * e) (fl_ops rnd fcos fsin st).
Proof. intros u t a e rnd fcos fsin st H1 H2 H3 H4 H5 H6. exact (fl_motions u t a e rnd fcos fsin H1 H2 H3 H4 H5 H6 st). Qed.

Lemma l70_axis : forall u rnd k, rounding u rnd -> u <= / 100 -> k <> vzero ->
  Rabs (vx (fl_axis rnd k) - vx k / vnorm k) <= 6 * u /\ Rabs (vy (fl_axis rnd k) - vy k / vnorm k) <= 6 * u /\
  Rabs (vz (fl_axis rnd k) - vz k / vnorm k) <= 6 * u.
Proof.
  intros u rnd k H1 H2 H3. pose proof (fl_axis_err u rnd k H1 H2 H3) as H. cbv zeta in H. cbn [vx vy vz vscale] in H. unfold Rdiv.
  rewrite !(Rmult_comm _ (/ vnorm k)). exact H.
Qed.

Lemma l70_stored : forall u rnd root, rounding u rnd -> rigid_tree root -> close_tree u (1 + 3 * u) (round_tree rnd root) root.
Proof. intros u rnd root H1 H2. exact (round_tree_close u rnd H1 root H2). Qed.

Lemma l70_fk : forall (O : Ops M4 V3 R) g a o j root' root c vs,
  0 <= g -> 1 <= o -> 1 <= j -> rounded_product g (t_mul O) -> t_one O = I4 -> accurate_motions a j O ->
  close_tree a o root' root -> distinct_joints root -> distinct_frames root -> clean_names root -> chain_init O root' = Ok c ->
  exists d, forward_kinematics O c (config_tensor root vs) None = Ok d /\ map fst d = map f_name (preorder root) /\
    forall fs f, root_path root (fs ++ [f]) -> exists ws, dget String.eqb (f_name f) d = Some ws /\
      Forall2 (fun w v => close (path_factor g o j (S (length fs))) w (pose v (fs ++ [f])) (path_reach v (fs ++ [f]))) ws vs.
Proof. intros O g a o j root' root c vs H1 H2 H3 H4 H5 H6 H7 H8 H9 HA HB. exact (fk_close O g a o j H1 H2 H3 H4 H5 H6 root' root c vs H7 H8 H9 HA HB). Qed.

Lemma l70_fk_rounded : forall u t e rnd fcos fsin st root' root c vs,
  rounding u rnd -> trig_within t fcos fsin -> (forall i j, s_full (st i j)) ->
  u <= e -> t <= e -> e <= / 100 -> close_tree e (1 + 3 * e) root' root ->
  distinct_joints root -> distinct_frames root -> clean_names root -> chain_init (fl_ops rnd fcos fsin st) root' = Ok c ->
  exists d, forward_kinematics (fl_ops rnd fcos fsin st) c (config_tensor root vs) None = Ok d /\ map fst d = map f_name (preorder root) /\
    forall fs f, root_path root (fs ++ [f]) -> let n := INR (length (fs ++ [f])) in 105 * n * e <= 1 / 2 ->
      exists ws, dget String.eqb (f_name f) d = Some ws /\
      Forall2 (fun w v =>
        let M := pose v (fs ++ [f]) in let b := 210 * n * e in
        affine w /\
        m3le (m3abs (m3sub (rotp w) (rotp M))) (mkM3 b b b b b b b b b) /\
        (forall p, vnorm (vsub (m3vec (rotp w) p) (m3vec (rotp M) p)) <= b * vnorm p) /\
        vnorm (vsub (trp w) (trp M)) <= b * path_reach v (fs ++ [f])) ws vs.
Proof.
  intros u t e rnd fcos fsin st root' root c vs Hr Ht Hst Hu Hte He Hct Hdj Hdf Hcl Hi.
  pose proof (u_nonneg u rnd Hr) as Hu0. assert (He0 : 0 <= e) by lra.
  assert (Hg : 0 <= (1 + e) ^ 4 - 1) by (pose proof (pow_R1_Rle (1 + e) 4 ltac:(lra)); lra).
  assert (Hr' : rounding e rnd).
  { split; [apply Hr|]. intros x. eapply Rle_trans; [apply Hr|]. apply Rmult_le_compat_r; [apply Rabs_pos|exact Hu]. }
  destruct (fk_close (fl_ops rnd fcos fsin st) ((1 + e) ^ 4 - 1) e (1 + 3 * e) (1 + 60 * e) Hg ltac:(lra) ltac:(lra)
              (fl_matmul_rounded e rnd Hr' st Hst) eq_refl
              (fl_motions u t e e rnd fcos fsin Hr Ht Hu Hte (Rle_refl e) He st) root' root c vs Hct Hdj Hdf Hcl Hi) as (d & H1 & H2 & H3).
  exists d. split; [exact H1|]. split; [exact H2|]. intros fs f Hp n Hb. destruct (H3 fs f Hp) as (ws & H4 & H5).
  exists ws. split; [exact H4|]. eapply forall2_weaken; [|exact H5]. cbv beta. intros w v Hw. cbv zeta.
  assert (Hn : length (fs ++ [f]) = S (length fs)) by (rewrite app_length, Nat.add_comm; reflexivity).
  assert (Hf : path_factor ((1 + e) ^ 4 - 1) (1 + 3 * e) (1 + 60 * e) (S (length fs)) <= 1 + 210 * n * e).
  { unfold n in *. rewrite Hn in *. apply factor_bound; [exact He0|exact He|lia|exact Hb]. }
  pose proof (close_weaken _ _ _ _ _ _ Hw Hf (Rle_refl _)) as HC. pose proof (close_entries _ _ _ _ HC) as HE.
  replace (1 + 210 * n * e - 1) with (210 * n * e) in HE by ring.
  destruct HC as (C1 & _ & C3 & C4 & _). replace (1 + 210 * n * e - 1) with (210 * n * e) in C3, C4 by ring.
  split; [exact C1|]. split; [exact HE|]. split; [exact C3|exact C4].
Qed.

Lemma l70_float32 : rounding u32 rnd32 /\ u32 = / 2 ^ 24 /\ (forall x, rnd32 (rnd32 x) = rnd32 x) /\ rnd32 (/ 3) <> / 3.
Proof.
  split; [exact rnd32_rounding|]. split; [unfold u32; cbn [pow]; lra|]. split; [exact rnd32_idem|].
  intros E.
  assert (Hm : mag radix2 (/ 3) = (-1)%Z :> Z).
  { apply mag_unique. rewrite Rabs_pos_eq by lra. change (bpow radix2 (-1)) with (/ IZR 2). change (bpow radix2 (-1 - 1)) with (/ IZR 4). lra. }
  unfold rnd32, round, F2R in E. cbn [Fnum Fexp] in E.
  assert (Hc : cexp radix2 (FLX_exp 24) (/ 3) = (-25)%Z) by (unfold cexp, FLX_exp; rewrite Hm; reflexivity).
  rewrite Hc in E. change (bpow radix2 (-25)) with (/ IZR 33554432) in E. set (z := ZnearestE _) in E. clearbody z.
  assert (E2 : IZR (3 * z) = IZR 33554432) by (rewrite mult_IZR; lra). apply eq_IZR in E2. lia.
Qed.

Lemma l70_rotation_refuted : exists root c d w,
  let O := fl_ops rnd32 (fun q => rnd32 (cos q)) (fun q => rnd32 (sin q)) (fun _ _ => s_left) in
  rigid_tree root /\ chain_init O (round_tree rnd32 root) = Ok c /\
  forward_kinematics O c (config_tensor root [fun _ => 0]) None = Ok d /\
  dget String.eqb "base" d = Some [w] /\ affine w /\ ~ is_rot (rotp w).
Proof.
  set (O := fl_ops rnd32 (fun q => rnd32 (cos q)) (fun q => rnd32 (sin q)) (fun _ _ => s_left)).
  destruct (chain_init_ok O (round_tree rnd32 ex_turn)) as (c & Hc & _).
  assert (Hdj : distinct_joints (round_tree rnd32 ex_turn)) by (unfold distinct_joints; constructor).
  assert (Hdf : distinct_frames (round_tree rnd32 ex_turn)) by (unfold distinct_frames; cbn; repeat constructor; simpl; tauto).
  assert (Hcl : clean_names (round_tree rnd32 ex_turn)) by (intros f [<-|[]]; reflexivity).
  destruct (fk_all_raw O _ c [fun _ => 0] Hdj Hdf Hcl Hc) as (d & H1 & _ & H3).
  pose proof (H3 [] _ (rp_here (round_tree rnd32 ex_turn))) as HE.
  exists ex_turn, c, d, (round_m4 rnd32 ex_345). cbv zeta. fold O.
  pose proof rnd32_rounding as Hr. pose proof (round_m4_close _ _ _ Hr ex_345_rigid) as (Haff & _).
  split. { intros f [<-|[]]; cbn; (split; [|split]); [exact ex_345_rigid|exact I|discriminate]. }
  split; [exact Hc|]. split; [exact H1|]. split.
  - change (f_name (round_tree rnd32 ex_turn)) with "base" in HE. rewrite HE. f_equal. cbn [app path_pose1 map fold_left]. f_equal.
    change (rel_pose O (fun _ => 0) (round_tree rnd32 ex_turn))
      with (fl_matmul rnd32 (fun _ _ => s_left) (fl_matmul rnd32 (fun _ _ => s_left) (round_m4 rnd32 ex_345) I4) I4).
    assert (HI : forall i k, rnd32 (row4 i (round_m4 rnd32 ex_345) k) = row4 i (round_m4 rnd32 ex_345) k).
    { intros i k. destruct i as [|[|[|i]]]; destruct k as [|[|[|k]]]; unfold round_m4; cbn [row4 a00 a01 a02 a03 a10 a11 a12 a13 a20 a21 a22 a23 a30 a31 a32 a33]; apply rnd32_idem. }
    rewrite !(fl_matmul_I _ Haff HI). reflexivity.
  - split; [exact Haff|]. intros HR.
    assert (HN : vnorm2 (m3vec (rotp (round_m4 rnd32 ex_345)) (mkV3 1 0 0)) = 1).
    { rewrite rot_norm2 by exact HR. unfold vnorm2, vdot. cbn [vx vy vz]. ring. }
    unfold m3vec, round_m4, ex_345, rotp, aff, vnorm2, vdot in HN. cbn [vx vy vz m00 m01 m02 m10 m11 m12 m20 m21 m22 a00 a01 a02 a10 a11 a12 a20 a21 a22] in HN.
    rewrite rnd32_35, rnd32_45, (rnd_0 _ _ Hr) in HN. lra.
Qed.
