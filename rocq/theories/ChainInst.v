(** Forward kinematics instantiated with 4x4 matrices, and its geometric consequences. *)
From Coq Require Import Reals Lra String Bool Arith Lia List Permutation.
From Verif Require Import Prelude ExtF Tree ChainModel SpecFK ChainProofs Lin Trig RotModel RotBasic.
Import ListNotations.
Local Open Scope nat_scope.

(** The operations [_fk_impl] uses on matrices: [@], [torch.eye(4)], [axis_and_angle_to_matrix_44],
    [axis_and_d_to_pris_matrix], and a zero axis row (chain.py:249). *)
Definition mops : Ops M4 V3 R :=
  mkOps M4 V3 R m4mul I4 axis_and_angle_to_matrix_44 axis_and_d_to_pris_matrix vzero.

Local Arguments rel_pose : simpl never.

Lemma mlaws : MonoidLaws mops.
Proof. constructor; intros; simpl; auto using m4mul_assoc, m4mul_1_l, m4mul_1_r. Qed.

Notation mframe := (frame M4 V3).
Notation mjoint := (joint M4 V3).
Notation pose := (path_pose mops).

(** frame.py:47-70 [Joint.__init__]: unknown types raise RuntimeError, a missing axis is z, and the axis is
    divided by its norm.  A zero axis gives 0/0 = NaN in the code; the theorems assume a non-zero axis. *)
Definition joint_type_of (s : string) : res jtype :=
  if String.eqb s "fixed" then Ok Fixed
  else if String.eqb s "revolute" then Ok Revolute
  else if String.eqb s "prismatic" then Ok Prismatic
  else Err RuntimeError.
Definition joint_init (name : option string) (off : option M4) (ty : string) (axis : option V3)
  (lim vlim elim : option (F * F)) : res mjoint :=
  do t <- joint_type_of ty;
  let a := match axis with Some a => a | None => mkV3 0 0 1 end in
  Ok (mkJoint name off t (vscale (/ vnorm a) a) lim vlim elim).

Lemma joint_init_unit name off ty axis lim vlim elim j :
  joint_init name off ty axis lim vlim elim = Ok j -> axis <> Some vzero -> unit3 (j_axis j).
Proof.
  unfold joint_init. destruct (joint_type_of ty); cbn [rbind]; [|discriminate].
  cbn zeta. intros E H. inversion E; subst; cbn [j_axis]. apply normalise_unit.
  destruct axis as [x|]; [congruence|]. intros E2. inversion E2. lra.
Qed.

(** a tree whose offsets are rigid and whose moving-joint axes have unit length *)
Definition rigid_opt (o : option M4) : Prop := match o with Some m => is_rigid m | None => True end.
Definition rigid_tree (root : mframe) : Prop :=
  forall f, In f (preorder root) ->
    rigid_opt (l_off (f_link f)) /\ rigid_opt (j_off (f_joint f)) /\
    (moving f = true -> unit3 (j_axis (f_joint f))).

Lemma or_one_rigid o : rigid_opt o -> is_rigid (or_one mops o).
Proof. destruct o; simpl; auto. intros _. apply is_rigid_I. Qed.

Lemma motion_rigid v (f : mframe) : (moving f = true -> unit3 (j_axis (f_joint f))) ->
  is_rigid (joint_motion mops v (f_joint f)).
Proof.
  unfold moving, joint_motion. destruct (j_type (f_joint f)); simpl; intros H.
  - apply is_rigid_I.
  - apply rot44_rigid; auto.
  - apply pris_rigid.
Qed.

Lemma rel_rigid v (f : mframe) : rigid_opt (l_off (f_link f)) -> rigid_opt (j_off (f_joint f)) ->
  (moving f = true -> unit3 (j_axis (f_joint f))) -> is_rigid (rel_pose mops v f).
Proof.
  intros. unfold rel_pose. cbn [t_mul mops]. repeat apply is_rigid_mul; auto using or_one_rigid, motion_rigid.
Qed.

Lemma root_path_incl (root : mframe) fs : root_path root fs -> forall f, In f fs -> In f (preorder root).
Proof.
  induction 1 as [f|f c fs Hc _ IH]; simpl; intros g [<-|H]; rewrite preorder_unfold.
  - left; reflexivity.
  - contradiction.
  - left; reflexivity.
  - right. apply in_flat_map. exists c. auto.
Qed.

Lemma pose_cons_gen v fs : forall M, fold_left (fun acc f => m4mul acc (rel_pose mops v f)) fs M
  = m4mul M (pose v fs).
Proof.
  induction fs as [|f fs IH]; intros M; simpl.
  - unfold path_pose; simpl. rewrite m4mul_1_r; reflexivity.
  - rewrite IH. unfold path_pose at 2; simpl. rewrite m4mul_1_l.
    rewrite IH. symmetry; apply m4mul_assoc.
Qed.

Lemma pose_app v p q : pose v (p ++ q) = m4mul (pose v p) (pose v q).
Proof. unfold path_pose at 1. simpl. rewrite fold_left_app. apply pose_cons_gen. Qed.
Lemma pose_cons v f q : pose v (f :: q) = m4mul (rel_pose mops v f) (pose v q).
Proof. change (f :: q) with ([f] ++ q). rewrite pose_app. unfold path_pose at 1; simpl. rewrite m4mul_1_l; reflexivity. Qed.
Lemma pose_nil v : pose v [] = I4. Proof. reflexivity. Qed.

Lemma pose_rigid_in v fs (root : mframe) : rigid_tree root -> (forall f, In f fs -> In f (preorder root)) ->
  is_rigid (pose v fs).
Proof.
  intros Hr. induction fs as [|f fs IH]; intros Hin.
  - apply is_rigid_I.
  - rewrite pose_cons. apply is_rigid_mul.
    + destruct (Hr f (Hin f (or_introl eq_refl))) as (H1 & H2 & H3). apply rel_rigid; assumption.
    + apply IH. intros g Hg. apply Hin; right; exact Hg.
Qed.

Lemma pose_rigid v fs root : rigid_tree root -> root_path root fs -> is_rigid (pose v fs).
Proof. intros Hr Hp. eapply pose_rigid_in; [exact Hr | apply root_path_incl, Hp]. Qed.

(** every (B, n) tensor over a chain with distinct joint names is the tensor of some configurations *)
Lemma lookup_names {S} (d : S) (names : list (option string)) (row : list S) :
  NoDup names -> length row = length names ->
  map (fun n => match index_of oseqb n names with Some i => nth i row d | None => d end) names = row.
Proof.
  intros Hnd Hl. apply list_ext. intros i. rewrite nth_error_map.
  destruct (nth_error names i) as [n|] eqn:E; simpl.
  - rewrite (index_of_nodup oseqb oseqb_eq n names i Hnd E).
    symmetry. apply nth_error_nth'. rewrite Hl. apply nth_error_Some. congruence.
  - symmetry. apply nth_error_None. apply nth_error_None in E. lia.
Qed.

Lemma tensor_configs {S} (d : S) (root : mframe) (rows : list (list S)) : distinct_joints root ->
  (forall r, In r rows -> length r = length (moving_names root)) ->
  exists vs, mkTh (length (moving_names root)) rows = config_tensor root vs /\ length vs = length rows.
Proof.
  intros Hd Hr.
  exists (map (fun row n => match index_of oseqb n (moving_names root) with Some i => nth i row d | None => d end) rows).
  split; [|apply map_length]. unfold config_tensor. f_equal. rewrite map_map.
  symmetry. rewrite <- (map_id rows) at 2. apply map_ext_in. intros r Hin.
  apply lookup_names; auto.
Qed.

(** configurations that agree on the joints of a path give the same pose *)
Lemma rel_pose_ext v v' (f : mframe) : (moving f = true -> v (j_name (f_joint f)) = v' (j_name (f_joint f))) ->
  rel_pose mops v f = rel_pose mops v' f.
Proof.
  unfold rel_pose, joint_motion, moving. destruct (j_type (f_joint f)); intros H; try rewrite H; reflexivity.
Qed.
Lemma pose_ext v v' fs : (forall f, In f fs -> moving f = true -> v (j_name (f_joint f)) = v' (j_name (f_joint f))) ->
  pose v fs = pose v' fs.
Proof.
  induction fs as [|f fs IH]; intros H; [reflexivity|]. rewrite !pose_cons.
  rewrite (rel_pose_ext v v' f) by (apply H; left; reflexivity).
  rewrite IH; [reflexivity|]. intros; apply H; auto. right; assumption.
Qed.

Lemma root_path_app (root g : mframe) p s : root_path root (p ++ [g]) -> root_path g s ->
  root_path root (p ++ s).
Proof.
  revert root. induction p as [|x p IH]; simpl; intros root H Hs.
  - apply root_path_here in H; subst. exact Hs.
  - inversion H as [? E|? y ? Hy Hp]; subst; [destruct p; discriminate|].
    econstructor; eauto.
Qed.

Lemma root_path_tail (root g : mframe) p s : root_path root (p ++ g :: s) -> root_path g (g :: s).
Proof.
  revert root. induction p as [|x p IH]; simpl; intros root H.
  - inversion H; subst; econstructor; eauto.
  - inversion H as [? E|? y ? Hy Hp]; subst; [destruct p; discriminate|]. eauto.
Qed.

Lemma root_path_tail_in (root g f : mframe) p s : root_path root (p ++ g :: s) -> In f (g :: s) -> In f (preorder g).
Proof. intros H Hf. apply root_path_tail in H. eapply root_path_incl; eauto. Qed.

Lemma cancel_mid A' A X : is_rigid A -> m4mul (m4mul A' (rigid_inv A)) (m4mul A X) = m4mul A' X.
Proof.
  intros H. rewrite <- (m4mul_assoc A'), (m4mul_assoc (rigid_inv A)), rigid_inv_l, m4mul_1_l by exact H. reflexivity.
Qed.

(** ** C04: one joint moves exactly its subtree, by one rigid motion *)
Theorem joint_moves_subtree root c (g : mframe) v v' :
  rigid_tree root -> distinct_joints root -> distinct_frames root -> clean_names root ->
  chain_init mops root = Ok c -> In g (preorder root) -> moving g = true ->
  (forall n, n <> j_name (f_joint g) -> v n = v' n) ->
  exists d d', forward_kinematics mops c (config_tensor root [v]) None = Ok d /\
    forward_kinematics mops c (config_tensor root [v']) None = Ok d' /\
    (forall f, In f (preorder root) -> ~ In f (preorder g) ->
       dget String.eqb (f_name f) d = dget String.eqb (f_name f) d') /\
    exists M, is_rigid M /\ forall f, In f (preorder g) ->
       exists X, dget String.eqb (f_name f) d = Some [X] /\ dget String.eqb (f_name f) d' = Some [m4mul M X].
Proof.
  intros Hr Hdj Hdf Hcl Hc Hg Hm Hv.
  destruct (fk_all_spec mops root c [v] mlaws Hdj Hdf Hcl Hc) as (d & Hd & _ & Dd).
  destruct (fk_all_spec mops root c [v'] mlaws Hdj Hdf Hcl Hc) as (d' & Hd' & _ & Dd').
  exists d, d'. split; [exact Hd|]. split; [exact Hd'|].
  assert (Hsame : forall fs, root_path root fs -> ~ In g fs -> pose v fs = pose v' fs).
  { intros fs Hp Hn. apply pose_ext. intros f Hf Hmf. apply Hv. intros E.
    apply Hn. replace g with f; [exact Hf|].
    eapply (moving_inj root); eauto. eapply root_path_incl; eauto. }
  split.
  - intros f Hf Hnf. destruct (preorder_path root f Hf) as [fs Hp].
    rewrite (Dd fs f Hp), (Dd' fs f Hp). simpl. do 2 f_equal. apply Hsame; [exact Hp|].
    intros Hin. apply Hnf. apply in_split in Hin as (l1 & l2 & E).
    eapply (root_path_tail_in root g f l1 l2); [rewrite <- E; exact Hp|].
    assert (In f (fs ++ [f])) as Hx by (apply in_or_app; right; left; reflexivity).
    destruct l2 as [|x l2] using rev_ind.
    + apply app_inj_tail in E as [_ ->]. left; reflexivity.
    + change (l1 ++ g :: l2 ++ [x]) with (l1 ++ (g :: l2) ++ [x]) in E. rewrite app_assoc in E.
      apply app_inj_tail in E as [_ ->]. right. apply in_or_app; right; left; reflexivity.
  - destruct (preorder_path root g Hg) as [p Hp].
    set (A := m4mul (pose v p) (rel_pose mops v g)).
    set (A' := m4mul (pose v' p) (rel_pose mops v' g)).
    assert (RA : is_rigid A).
    { unfold A. replace (m4mul (pose v p) (rel_pose mops v g)) with (pose v (p ++ [g])).
      - eapply pose_rigid; eauto.
      - rewrite pose_app, pose_cons, pose_nil, m4mul_1_r; reflexivity. }
    assert (RA' : is_rigid A').
    { unfold A'. replace (m4mul (pose v' p) (rel_pose mops v' g)) with (pose v' (p ++ [g])).
      - eapply pose_rigid; eauto.
      - rewrite pose_app, pose_cons, pose_nil, m4mul_1_r; reflexivity. }
    exists (m4mul A' (rigid_inv A)). split; [apply is_rigid_mul; auto using is_rigid_inv|].
    intros f Hf. destruct (preorder_path g f Hf) as [s Hs].
    assert (exists s', s ++ [f] = g :: s') as [s' Es].
    { destruct s as [|x s]; simpl in *.
      - apply root_path_here in Hs; subst. exists []; reflexivity.
      - inversion Hs; subst; [eexists; reflexivity|]. eexists; reflexivity. }
    pose proof (root_path_app root g p (s ++ [f]) Hp Hs) as Hfull.
    exists (pose v (p ++ (s ++ [f]))).
    pose proof Hfull as Hfull'. rewrite app_assoc in Hfull'.
    rewrite (Dd _ _ Hfull'), (Dd' _ _ Hfull'). rewrite <- app_assoc. simpl. split; [reflexivity|].
    do 2 f_equal. rewrite Es.
    rewrite !(pose_app _ p), !(pose_cons _ g).
    rewrite (m4mul_assoc (pose v' p)), (m4mul_assoc (pose v p)). fold A A'.
    assert (E : pose v' s' = pose v s').
    { symmetry. apply pose_ext. intros x Hx Hmx. apply Hv. intros En.
      (* x would be g, a frame strictly below itself *)
      assert (Hxg : x = g).
      { eapply (moving_inj root); eauto. eapply root_path_incl; [exact Hfull|].
        apply in_or_app; right. rewrite Es. right; exact Hx. }
      subst x. rewrite Es in Hs.
      inversion Hs as [? E0|? y ? Hy Hpy]; subst; [contradiction|].
      pose proof (root_path_incl _ _ Hpy g Hx) as Hin.
      (* sizes: a proper descendant is smaller *)
      assert (Hsz : size g <= list_sum (map size (f_children g))).
      { clear - Hin Hy. assert (Hle : forall (a b : mframe), In a (preorder b) -> size a <= size b).
        { intros a b. induction b as [n l j cs IH] using frame_rect'. simpl. intros [<-|H]; [simpl; lia|].
          apply in_flat_map in H as (z & Hz & Ha). rewrite Forall_forall in IH. specialize (IH z Hz Ha).
          assert (size z <= list_sum (map size cs)); [|lia].
          clear - Hz. induction cs as [|w cs IHc]; [contradiction|]. destruct Hz as [->|Hz]; simpl; [lia|].
          specialize (IHc Hz). lia. }
        specialize (Hle g y Hin).
        assert (size y <= list_sum (map size (f_children g))); [|lia].
        clear - Hy. induction (f_children g) as [|w cs IHc]; [contradiction|].
        destruct Hy as [->|Hy]; simpl; [lia|]. specialize (IHc Hy). lia. }
      rewrite (size_unfold g) in Hsz. lia. }
    rewrite E. symmetry. apply cancel_mid, RA.
Qed.
