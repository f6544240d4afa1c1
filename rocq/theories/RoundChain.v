(** Rounding errors of forward kinematics along the tree. *)
From Coq Require Import Reals Lra Psatz String Bool Arith Lia List Permutation.
From Verif Require Import Prelude ExtF Tree ChainModel SpecFK ChainProofs Lin Trig RotModel RotBasic ChainInst SpecRound RoundNorm RoundModel RoundProofs.
Import ListNotations.
Local Open Scope R_scope.

(** ** Trees that differ only in their numbers *)
Lemma close_tree_name a o f' f : close_tree a o f' f -> f_name f' = f_name f.
Proof. intros H; inversion H as [? ? Hn _]; subst. apply Hn. Qed.
Lemma close_node_moving a o f' f : close_node a o f' f -> moving f' = moving f.
Proof. intros (_ & _ & _ & _ & E & _). unfold moving. rewrite E. reflexivity. Qed.
Lemma close_tree_preorder a o : forall f' f, close_tree a o f' f -> Forall2 (close_node a o) (preorder f') (preorder f).
Proof.
  intros f'. induction f' as [n l j cs IH] using frame_rect'. intros f H. inversion H as [? ? Hn Hc]; subst. rewrite !preorder_unfold.
  constructor; [exact Hn|]. cbn [f_children] in *. revert IH Hc. generalize (f_children f). clear. induction cs as [|c cs IHcs]; intros ds IH Hc.
  - inversion Hc; subst. constructor.
  - inversion Hc as [|? d ? ds' H1 H2]; subst. inversion IH as [|? ? I1 I2]; subst. cbn [flat_map]. apply Forall2_app; auto.
Qed.
Lemma forall2_map_eq {X Y Z} (P : X -> Y -> Prop) (g : X -> Z) (h : Y -> Z) l m : (forall x y, P x y -> g x = h y) -> Forall2 P l m -> map g l = map h m.
Proof. intros H. induction 1; simpl; [reflexivity|]. f_equal; auto. Qed.
Lemma close_tree_names a o f' f : close_tree a o f' f -> map f_name (preorder f') = map f_name (preorder f).
Proof. intros H. eapply forall2_map_eq; [|apply (close_tree_preorder _ _ _ _ H)]. intros x y Hxy. apply Hxy. Qed.
Lemma close_tree_moving a o f' f : close_tree a o f' f -> moving_names f' = moving_names f.
Proof.
  intros H. unfold moving_names. pose proof (close_tree_preorder _ _ _ _ H) as HF. induction HF as [|x y l m Hxy _ IH]; [reflexivity|].
  cbn [filter]. rewrite (close_node_moving _ _ _ _ Hxy). destruct (moving y); cbn [map]; [|exact IH]. f_equal; [apply Hxy|exact IH].
Qed.
Lemma close_tree_clean a o f' f : close_tree a o f' f -> clean_names f -> clean_names f'.
Proof.
  intros H Hc x Hx. pose proof (close_tree_preorder _ _ _ _ H) as HF. unfold clean_names in Hc. clear H.
  induction HF as [|x0 y l m Hxy _ IH]; [contradiction|]. destruct Hx as [<-|Hx].
  - destruct Hxy as (E & _). rewrite E. apply Hc. left; reflexivity.
  - apply IH; [|exact Hx]. intros z Hz. apply Hc. right; exact Hz.
Qed.
Lemma forall2_in_left {X Y} (P : X -> Y -> Prop) l m y : Forall2 P l m -> In y m -> exists x, In x l /\ P x y.
Proof. induction 1 as [|a b l m H _ IH]; intros Hy; [contradiction|]. destruct Hy as [<-|Hy]; [eexists; split; [left; reflexivity|exact H]|]. destruct (IH Hy) as (x & ? & ?). exists x; split; [right|]; assumption. Qed.
Lemma close_tree_path a o fs : forall f' f, close_tree a o f' f -> root_path f fs ->
  exists fs', root_path f' fs' /\ Forall2 (close_node a o) fs' fs.
Proof.
  induction fs as [|g fs IH]; intros f' f H Hp; [inversion Hp|].
  inversion H as [? ? Hn Hc]; subst. inversion Hp as [|? c ? Hin Hp']; subst.
  - exists [f']. split; constructor; [exact Hn|constructor].
  - destruct (forall2_in_left _ _ _ _ Hc Hin) as (c' & Hin' & Hcc). destruct (IH c' c Hcc Hp') as (fs' & H1 & H2).
    exists (f' :: fs'). split; [econstructor; eassumption|constructor; assumption].
Qed.
Lemma forall2_snoc {X Y} (P : X -> Y -> Prop) m : forall l y, Forall2 P l (m ++ [y]) -> exists l' x, l = l' ++ [x] /\ Forall2 P l' m /\ P x y.
Proof.
  induction m as [|b m IH]; intros l y H; inversion H as [|x ? l1 ? Hx H1]; subst.
  - inversion H1; subst. exists [], x. repeat split; [constructor|exact Hx].
  - destruct (IH _ _ H1) as (l' & z & -> & H2 & H3). exists (x :: l'), z. repeat split; [constructor; assumption|exact H3].
Qed.

(** ** Errors along a path *)
Section Chain.
Variables (O : Ops M4 V3 R) (g a o j : R).
Hypotheses (Hg : 0 <= g) (Ho : 1 <= o) (Hj : 1 <= j).
Hypothesis Hmul : rounded_product g (t_mul O).
Hypothesis Hone : t_one O = I4.
Hypothesis Hmot : accurate_motions a j O.

Lemma vnorm_zero : vnorm vzero = 0. Proof. apply vnorm_zero_iff; reflexivity. Qed.
Lemma close_one x : 1 <= x -> close x (t_one O) I4 0.
Proof.
  intros Hx. rewrite Hone. apply (close_weaken 1 x _ _ 0 0); [|exact Hx|lra]. apply close_refl; [apply is_rigid_I|].
  change (trp I4) with vzero. rewrite vnorm_zero. lra.
Qed.
Lemma close_or_one x y : close_offset o x y ->
  close o (or_one O x) (or_one mops y) (match y with Some m => vnorm (trp m) | None => 0 end).
Proof. destruct x, y; cbn [close_offset or_one]; intros H; try contradiction; [exact H|]. apply close_one, Ho. Qed.
Lemma close_motion v f' f : close_node a o f' f ->
  close j (joint_motion O v (f_joint f')) (joint_motion mops v (f_joint f))
    (match j_type (f_joint f) with Prismatic => Rabs (v (j_name (f_joint f))) | _ => 0 end).
Proof.
  intros (_ & _ & _ & En & Et & Hax). unfold joint_motion. rewrite Et, En. unfold moving in Hax.
  destruct (j_type (f_joint f)).
  - apply close_one, Hj.
  - destruct (Hax eq_refl) as (Hu & H1 & H2 & H3). apply (Hmot _ _ (v (j_name (f_joint f))) Hu H1 H2 H3).
  - destruct (Hax eq_refl) as (Hu & H1 & H2 & H3). apply (Hmot _ _ (v (j_name (f_joint f))) Hu H1 H2 H3).
Qed.
Lemma close_rel v f' f : close_node a o f' f ->
  close (o * o * j * (1 + 3 * g) ^ 2) (rel_pose O v f') (rel_pose mops v f) (reach v f).
Proof.
  intros Hn. pose proof Hn as (_ & Hl & Hjo & _). unfold rel_pose, reach.
  replace (o * o * j * (1 + 3 * g) ^ 2) with ((o * o * (1 + 3 * g)) * j * (1 + 3 * g)) by (cbn [pow]; ring).
  apply close_mul; [exact Hg|exact Hmul| |apply close_motion, Hn].
  apply close_mul; [exact Hg|exact Hmul|apply close_or_one, Hl|apply close_or_one, Hjo].
Qed.
Lemma path_reach_snoc v fs f : path_reach v (fs ++ [f]) = path_reach v fs + reach v f.
Proof. unfold path_reach. induction fs as [|x fs IH]; simpl; [ring|]. rewrite IH; ring. Qed.
Lemma close_path v fs : forall fs' f' f, Forall2 (close_node a o) fs' fs -> close_node a o f' f ->
  close (path_factor g o j (S (length fs))) (path_pose1 O v (fs' ++ [f'])) (pose v (fs ++ [f])) (path_reach v (fs ++ [f])).
Proof.
  induction fs as [|x fs IH] using rev_ind; intros fs' f' f Hfs Hf.
  - inversion Hfs; subst. cbn [app path_pose1 fold_left]. unfold path_pose. cbn [app fold_left]. cbn [t_mul t_one mops]. rewrite m4mul_1_l.
    unfold path_reach. cbn [fold_right]. rewrite Rplus_0_r. unfold path_factor. cbn [length Nat.mul Nat.add Nat.sub].
    rewrite pow_1. apply close_rel, Hf.
  - destruct (forall2_snoc _ _ _ _ Hfs) as (l' & x' & -> & H1 & H2). pose proof (IH l' x' x H1 H2) as HI.
    rewrite path_pose_snoc, path_reach_snoc.
    replace (path_pose1 O v ((l' ++ [x']) ++ [f'])) with (t_mul O (path_pose1 O v (l' ++ [x'])) (rel_pose O v f')).
    2:{ destruct l' as [|y l']; cbn [app path_pose1]; [reflexivity|]. rewrite (fold_left_app _ (l' ++ [x'])); reflexivity. }
    replace (path_factor g o j (S (length (fs ++ [x]))))
      with (path_factor g o j (S (length fs)) * (o * o * j * (1 + 3 * g) ^ 2) * (1 + 3 * g)).
    { apply close_mul; [exact Hg|exact Hmul|exact HI|apply close_rel, Hf]. }
    rewrite app_length, Nat.add_comm. cbn [length Nat.add]. unfold path_factor. set (m := length fs).
    replace (3 * S (S m) - 1)%nat with (3 + (3 * S m - 1))%nat by lia. rewrite pow_add.
    change ((o * o * j) ^ S (S m)) with ((o * o * j) * (o * o * j) ^ S m). ring.
Qed.

Lemma fk_close root' root c vs : close_tree a o root' root -> distinct_joints root -> distinct_frames root -> clean_names root ->
  chain_init O root' = Ok c ->
  exists d, forward_kinematics O c (config_tensor root vs) None = Ok d /\ map fst d = map f_name (preorder root) /\
    forall fs f, root_path root (fs ++ [f]) -> exists ws, dget String.eqb (f_name f) d = Some ws /\
      Forall2 (fun w v => close (path_factor g o j (S (length fs))) w (pose v (fs ++ [f])) (path_reach v (fs ++ [f]))) ws vs.
Proof.
  intros Hct Hdj Hdf Hcl Hi.
  assert (Hdj' : distinct_joints root') by (unfold distinct_joints; rewrite (close_tree_moving _ _ _ _ Hct); exact Hdj).
  assert (Hdf' : distinct_frames root') by (unfold distinct_frames; rewrite (close_tree_names _ _ _ _ Hct); exact Hdf).
  destruct (fk_all_raw O root' c vs Hdj' Hdf' (close_tree_clean _ _ _ _ Hct Hcl) Hi) as (d & H1 & H2 & H3).
  exists d. split; [|split].
  - unfold config_tensor in *. rewrite (close_tree_moving _ _ _ _ Hct) in H1. exact H1.
  - rewrite H2. apply (close_tree_names _ _ _ _ Hct).
  - intros fs f Hp. destruct (close_tree_path _ _ _ _ _ Hct Hp) as (fs2 & Hp2 & HF).
    destruct (forall2_snoc _ _ _ _ HF) as (fs' & f' & -> & HF' & Hf'). pose proof (H3 fs' f' Hp2) as HE.
    replace (f_name f') with (f_name f) in HE by (symmetry; apply Hf'). eexists. split; [exact HE|].
    clear - HF' Hf' Hg Ho Hj Hmul Hone Hmot. induction vs as [|v vs IH]; cbn [map]; constructor; [|exact IH].
    apply close_path; assumption.
Qed.
End Chain.

(** ** What the factor amounts to *)
(** entries of the computed matrix *)
Lemma close_entries x M' M P : close x M' M P ->
  m3le (m3abs (m3sub (rotp M') (rotp M))) (mkM3 (x - 1) (x - 1) (x - 1) (x - 1) (x - 1) (x - 1) (x - 1) (x - 1) (x - 1)).
Proof.
  intros (_ & _ & H & _).
  assert (Hc : forall v, unit3 v -> Rabs (vx (m3vec (m3sub (rotp M') (rotp M)) v)) <= x - 1 /\ Rabs (vy (m3vec (m3sub (rotp M') (rotp M)) v)) <= x - 1 /\ Rabs (vz (m3vec (m3sub (rotp M') (rotp M)) v)) <= x - 1).
  { intros v Hv. pose proof (H v) as Hn. rewrite <- m3sub_vec, (unit3_norm v Hv), Rmult_1_r in Hn.
    set (w := m3vec (m3sub (rotp M') (rotp M)) v) in *. clearbody w. pose proof (vnorm_nonneg w) as Hp.
    assert (Hsq : forall y, y * y <= vnorm2 w -> Rabs y <= x - 1).
    { intros y Hy. eapply Rle_trans; [|exact Hn]. rewrite <- (Rabs_pos_eq (vnorm w) Hp). apply Rsqr_le_abs_0. unfold Rsqr. rewrite vnorm_sqr. exact Hy. }
    assert (E : vnorm2 w = vx w * vx w + vy w * vy w + vz w * vz w) by reflexivity.
    pose proof (Rle_0_sqr (vx w)) as S1. pose proof (Rle_0_sqr (vy w)) as S2. pose proof (Rle_0_sqr (vz w)) as S3. unfold Rsqr in S1, S2, S3.
    repeat split; apply Hsq; lra. }
  assert (U0 : unit3 (mkV3 1 0 0)) by (unfold unit3, vnorm2, vdot; cbn [vx vy vz]; ring).
  assert (U1 : unit3 (mkV3 0 1 0)) by (unfold unit3, vnorm2, vdot; cbn [vx vy vz]; ring).
  assert (U2 : unit3 (mkV3 0 0 1)) by (unfold unit3, vnorm2, vdot; cbn [vx vy vz]; ring).
  destruct (Hc _ U0) as (C00 & C10 & C20). destruct (Hc _ U1) as (C01 & C11 & C21). destruct (Hc _ U2) as (C02 & C12 & C22).
  unfold m3vec in *. cbn [vx vy vz] in *. rewrite ?Rmult_1_r, ?Rmult_0_r, ?Rplus_0_r, ?Rplus_0_l in *.
  unfold m3le. cbn [m00 m01 m02 m10 m11 m12 m20 m21 m22 m3abs]. repeat split; assumption.
Qed.
(** linear bound on the factor: n frames, all errors at most [e] each, with [n e] small *)
Lemma pow_lin_bound z n : 0 <= z -> INR n * z <= 1 / 2 -> (1 + z) ^ n <= 1 + 2 * (INR n * z).
Proof.
  intros Hz. induction n as [|n IH]; intros H.
  - cbn [pow INR]. lra.
  - rewrite S_INR in *. pose proof (pos_INR n) as Hn. assert (H' : INR n * z <= 1 / 2) by nra. specialize (IH H'). cbn [pow].
    assert (Hnz : 0 <= INR n * z) by (apply Rmult_le_pos; assumption).
    apply Rle_trans with ((1 + z) * (1 + 2 * (INR n * z))); [apply Rmult_le_compat_l; [lra|exact IH]|]. nra.
Qed.
