(** Index tables of a chain: frame numbering, ancestor lists, joint columns, ancestor mask. *)
From Coq Require Import String Bool Arith Lia List Permutation Sorted.
From Verif Require Import Prelude ExtF Tree ChainModel SpecFK ChainProofs.
Import ListNotations.

Lemma Permutation_filter' {X} (p : X -> bool) l l' : Permutation l l' -> Permutation (filter p l) (filter p l').
Proof.
  induction 1 as [|x l l' _ IH|x y l|l l' l'' _ IH1 _ IH2]; simpl; auto.
  - destruct (p x); auto.
  - destruct (p x), (p y); auto. apply perm_swap.
  - eapply Permutation_trans; eauto.
Qed.

Section Tables.
Context {T A S : Type} (O : Ops T A S).
Notation frame := (frame T A).

Lemma path_parents (root : frame) c : CTab O root c -> forall fs f, root_path root (fs ++ [f]) ->
  exists i par is, nth_error (items root) i = Some (f, par, length fs) /\
    nth_error (c_parents c) i = Some (is ++ [i]) /\
    Forall2 (fun k g => exists p d, nth_error (items root) k = Some (g, p, d)) (is ++ [i]) (fs ++ [f]) /\
    StronglySorted lt (is ++ [i]).
Proof.
  intros HC. induction fs as [|g fs IH] using rev_ind; intros f H.
  - apply root_path_here in H; subst. exists 0, None, []. split; [apply items_root|].
    destruct (ct_parents _ _ _ HC 0 _ (items_root root)) as (ps & Hp & Hq). simpl in Hq; subst ps.
    split; [exact Hp|]. split.
    + constructor; [|constructor]. exists None, 0. apply items_root.
    + repeat constructor.
  - rewrite <- app_assoc in H. apply root_path_unsnoc in H as [H Hc].
    destruct (IH _ H) as (i & par & is & Hi & Hp & HF & HS).
    destruct (items_child _ _ _ _ _ Hi f Hc) as [j Hj].
    exists j, (Some i), (is ++ [i]).
    split; [rewrite app_length, Nat.add_comm; exact Hj|].
    destruct (ct_parents _ _ _ HC j _ Hj) as (ps & Hp2 & Hq). simpl in Hq. rewrite Hp in Hq.
    inversion Hq; subst ps. split; [exact Hp2|]. split.
    + apply Forall2_app; [exact HF|]. constructor; [|constructor]. eauto.
    + destruct (items_some _ _ _ _ _ Hj) as (Hlt & _).
      clear - HS Hlt. assert (Hall : Forall (fun k => k < j) (is ++ [i])).
      { apply Forall_app. split; [|constructor; auto].
        apply Forall_forall. intros k Hk.
        assert (k < i); [|lia]. clear - HS Hk. induction is as [|x is IHs]; [contradiction|].
        simpl in HS. inversion HS as [|? ? HS' HF]; subst. destruct Hk as [->|Hk].
        - rewrite Forall_forall in HF. apply HF. apply in_or_app; right; left; reflexivity.
        - auto. }
      revert HS Hall. generalize (is ++ [i]) as l. clear. induction l as [|x l IH]; simpl; intros HS Ha.
      * repeat constructor.
      * inversion HS; subst; inversion Ha; subst. constructor; auto.
        apply Forall_app; split; auto.
Qed.

(** ** C06 *)
Theorem frame_index_spec (root : frame) c : distinct_frames root -> clean_names root ->
  chain_init O root = Ok c ->
  c_nf c = size root /\
  (* names to indices and back *)
  (forall n i, dget String.eqb n (c_f2i c) = Some i <-> dget Nat.eqb i (c_i2f c) = Some n) /\
  (forall i, i < size root <-> exists n, dget Nat.eqb i (c_i2f c) = Some n) /\
  (forall n, In n (map f_name (preorder root)) <-> exists i, dget String.eqb n (c_f2i c) = Some i) /\
  (* ancestors *)
  (forall fs f, root_path root (fs ++ [f]) ->
     exists i is, dget String.eqb (f_name f) (c_f2i c) = Some i /\
       nth_error (c_parents c) i = Some (is ++ [i]) /\
       map (fun k => dget Nat.eqb k (c_i2f c)) (is ++ [i]) = map (fun g => Some (f_name g)) (fs ++ [f]) /\
       StronglySorted lt (is ++ [i])).
Proof.
  intros Hd Hcl Hc. destruct (chain_init_ok O root) as (c' & Hc' & HC).
  rewrite Hc in Hc'; inversion Hc'; subst c'; clear Hc'.
  assert (I2F : forall i n, dget Nat.eqb i (c_i2f c) = Some n ->
                exists it, nth_error (items root) i = Some it /\ f_name (qf it) = n).
  { intros i n H. destruct (nth_error (items root) i) as [it|] eqn:E.
    - exists it; split; [reflexivity|]. rewrite (i2f_get O root c i it) in H by assumption. congruence.
    - exfalso. apply (dget_in Nat.eqb neqb_eq) in H. rewrite (ct_i2f _ _ _ HC) in H.
      apply in_combine_l in H. apply in_seq in H. apply nth_error_None in E. lia. }
  assert (F2I : forall n i, dget String.eqb n (c_f2i c) = Some i ->
                exists it, nth_error (items root) i = Some it /\ f_name (qf it) = n).
  { intros n i H. apply (dget_in String.eqb seqb_eq) in H.
    rewrite (f2i_spec O root c) in H by assumption. apply in_map_iff in H as ([k it] & E & Hin).
    simpl in E; inversion E; subst. apply combine_seq_nth in Hin as [_ Hin]. rewrite Nat.sub_0_r in Hin. eauto. }
  split; [rewrite (ct_nf _ _ _ HC); apply items_length|]. split; [|split; [|split]].
  - intros n i; split; intros H.
    + destruct (F2I _ _ H) as (it & Hi & <-). apply (i2f_get O root); assumption.
    + destruct (I2F _ _ H) as (it & Hi & <-). apply (f2i_get O root); assumption.
  - intros i. rewrite <- items_length. split.
    + intros Hi. destruct (nth_error (items root) i) as [it|] eqn:E; [|apply nth_error_None in E; lia].
      exists (f_name (qf it)). apply (i2f_get O root); assumption.
    + intros [n H]. destruct (I2F _ _ H) as (it & Hi & _). apply nth_error_Some; congruence.
  - intros n. split.
    + intros H. apply in_map_iff in H as (f & <- & Hf).
      destruct (preorder_in_items root f Hf) as (i & it & Hi & <-). exists i. apply (f2i_get O root); assumption.
    + intros [i H]. destruct (F2I _ _ H) as (it & Hi & <-). apply in_map, items_in_preorder.
      eapply nth_error_In, Hi.
  - intros fs f Hp. destruct (path_parents root c HC fs f Hp) as (i & par & is & Hi & Hpar & HF & HS).
    exists i, is. split; [exact (f2i_get O root c i (f, par, length fs) Hd Hcl HC Hi)|].
    split; [exact Hpar|]. split; [|exact HS].
    clear - HF HC Hcl. induction HF as [|k g l1 l2 (p & d & Hk) _ IH]; [reflexivity|].
    simpl. rewrite IH. f_equal. apply (i2f_get O root c k (g, p, d) Hcl HC Hk).
Qed.

(** ** C07: columns *)
Lemma limits_spec (root : frame) (param : joint T A -> option (F * F)) :
  get_joint_limits_of param root =
  (map (fun f => match param (f_joint f) with None => NInf | Some (l, _) => l end) (filter moving (preorder root)),
   map (fun f => match param (f_joint f) with None => PInf | Some (_, h) => h end) (filter moving (preorder root))).
Proof.
  unfold get_joint_limits_of. rewrite (get_joints_spec root), !map_map. reflexivity.
Qed.

Lemma dof_frames_aux (n : nat) (jidx : list (option nat)) : forall m acc, length acc = n ->
  m <= length jidx ->
  (forall i k ji, nth_error jidx i = Some (Some ji) -> nth_error jidx k = Some (Some ji) -> i = k) ->
  (forall i ji, nth_error jidx i = Some (Some ji) -> ji < n) ->
  length (fold_left (fun acc fi => match nth fi jidx None with Some ji => set_nth ji fi acc | None => acc end)
           (seq 0 m) acc) = n /\
  forall i ji, i < m -> nth_error jidx i = Some (Some ji) ->
    nth_error (fold_left (fun acc fi => match nth fi jidx None with Some ji => set_nth ji fi acc | None => acc end)
           (seq 0 m) acc) ji = Some i.
Proof.
  induction m as [|m IH]; intros acc Hl Hm Hinj Hb; [simpl; split; [exact Hl | intros; lia]|].
  destruct (IH acc Hl (Nat.lt_le_incl _ _ Hm) Hinj Hb) as [Hl2 Hn].
  rewrite seq_S, fold_left_app. simpl.
  destruct (nth m jidx None) as [jm|] eqn:E.
  - assert (Em : nth_error jidx m = Some (Some jm)) by (rewrite <- E; apply nth_error_nth'; lia).
    split; [rewrite set_nth_length; exact Hl2|].
    intros i ji Hi Hj. destruct (Nat.eq_dec i m) as [->|Hne].
    + rewrite Em in Hj; inversion Hj; subst. apply set_nth_same. rewrite Hl2. eapply Hb; eauto.
    + rewrite set_nth_other; [apply Hn; [lia | exact Hj]|].
      intros ->. apply Hne. eapply Hinj; eauto.
  - split; [exact Hl2|]. intros i ji Hi Hj. destruct (Nat.eq_dec i m) as [->|Hne]; [|apply Hn; [lia | exact Hj]].
    apply nth_error_nth with (d := None) in Hj. congruence.
Qed.

Lemma jidx_nth (root : frame) c i it : CTab O root c -> nth_error (items root) i = Some it ->
  nth_error (c_jidx c) i = Some (jix (moving_names root) (qf it)).
Proof. intros HC Hi. rewrite (ct_jidx _ _ _ HC), nth_error_map, Hi. reflexivity. Qed.

Lemma items_uniq_moving (root : frame) i k it it' : distinct_joints root ->
  nth_error (items root) i = Some it -> nth_error (items root) k = Some it' ->
  moving (qf it) = true -> moving (qf it') = true ->
  j_name (f_joint (qf it)) = j_name (f_joint (qf it')) -> i = k.
Proof.
  intros Hd Hi Hk Mi Mk E.
  (* the moving joint names along [items] are a permutation of [moving_names] *)
  assert (Hnd : NoDup (map (fun f => j_name (f_joint f)) (filter moving (map qf (items root))))).
  { eapply Permutation_NoDup; [|exact Hd]. apply Permutation_map, Permutation_sym.
    apply Permutation_filter'. apply items_perm. }
  clear Hd. revert i k Hi Hk Hnd. induction (items root) as [|x l IH]; intros [|i] [|k] Hi Hk Hnd; simpl in *;
    try discriminate; auto.
  - inversion Hi; subst x. rewrite Mi in Hnd. simpl in Hnd. inversion Hnd as [|? ? Hno _]; subst.
    exfalso; apply Hno. rewrite E. apply (in_map (fun f => j_name (f_joint f))). apply filter_In. split; [|exact Mk].
    apply in_map. eapply nth_error_In; eauto.
  - inversion Hk; subst x. rewrite Mk in Hnd. simpl in Hnd. inversion Hnd as [|? ? Hno _]; subst.
    exfalso; apply Hno. rewrite <- E. apply (in_map (fun f => j_name (f_joint f))). apply filter_In. split; [|exact Mi].
    apply in_map. eapply nth_error_In; eauto.
  - f_equal. apply IH; auto. destruct (moving (qf x)); [inversion Hnd; assumption | exact Hnd].
Qed.

Lemma jidx_inj (root : frame) c : distinct_joints root -> CTab O root c ->
  forall i k ji, nth_error (c_jidx c) i = Some (Some ji) -> nth_error (c_jidx c) k = Some (Some ji) -> i = k.
Proof.
  intros Hd HC i k ji Hi Hk. rewrite (ct_jidx _ _ _ HC) in Hi, Hk. rewrite nth_error_map in Hi, Hk.
  destruct (nth_error (items root) i) as [it|] eqn:Ei; [|discriminate].
  destruct (nth_error (items root) k) as [it'|] eqn:Ek; [|discriminate].
  simpl in Hi, Hk. inversion Hi as [Hi']. inversion Hk as [Hk'].
  destruct (jix_some _ _ _ Hi') as [M1 N1]. destruct (jix_some _ _ _ Hk') as [M2 N2].
  eapply items_uniq_moving; eauto. congruence.
Qed.

Lemma dof_frame_own (root : frame) c : distinct_joints root -> CTab O root c ->
  length (c_dof_frame c) = length (moving_names root) /\
  forall i it ji, nth_error (items root) i = Some it -> jix (moving_names root) (qf it) = Some ji ->
    nth_error (c_dof_frame c) ji = Some i.
Proof.
  intros Hd HC. rewrite (ct_dof _ _ _ HC). unfold dof_frames.
  destruct (dof_frames_aux (length (moving_names root)) (c_jidx c) (length (c_jidx c))
              (repeat 0 (length (moving_names root)))) as [Hl Hn].
  - apply repeat_length.
  - lia.
  - apply (jidx_inj root c Hd HC).
  - intros i ji Hi. rewrite (ct_jidx _ _ _ HC), nth_error_map in Hi.
    destruct (nth_error (items root) i) as [it|]; [|discriminate]. simpl in Hi. inversion Hi as [Hi'].
    apply jix_some in Hi' as [_ Hn]. apply nth_error_Some. congruence.
  - split; [exact Hl|]. intros i it ji Hi Hj. apply Hn.
    + rewrite (ct_jidx _ _ _ HC), map_length. apply nth_error_Some. congruence.
    + rewrite (jidx_nth root c i it HC Hi), Hj. reflexivity.
Qed.

(** every column belongs to one moving frame: its index, axis, limits and degree-of-freedom entry *)
Theorem column_spec (root : frame) c : distinct_joints root -> chain_init O root = Ok c ->
  c_names c = moving_names root /\ NoDup (c_names c) /\
  forall f, In f (preorder root) -> moving f = true ->
    exists j i, nth_error (c_names c) j = Some (j_name (f_joint f)) /\
      nth_error (c_axes c) j = Some (j_axis (f_joint f)) /\
      nth_error (c_low c) j = Some (match j_lim (f_joint f) with Some (l, _) => l | None => NInf end) /\
      nth_error (c_high c) j = Some (match j_lim (f_joint f) with Some (_, h) => h | None => PInf end) /\
      dget Nat.eqb i (c_i2f c) = Some (strip_nl (f_name f)) /\
      nth_error (c_jidx c) i = Some (Some j) /\
      nth_error (c_dof_frame c) j = Some i /\
      nth_error (c_dof_rev c) j = Some (jtype_eqb (j_type (f_joint f)) Revolute).
Proof.
  intros Hd Hc. destruct (chain_init_ok O root) as (c' & Hc' & HC).
  rewrite Hc in Hc'; inversion Hc'; subst c'; clear Hc'.
  rewrite (ct_names _ _ _ HC). split; [reflexivity|]. split; [exact Hd|].
  intros f Hf Hm. destruct (preorder_in_items root f Hf) as (i & it & Hi & Eq).
  destruct (jix_moving root f Hf Hm) as (j & Hj & Hlt). destruct (jix_some _ _ _ Hj) as [_ Hn].
  exists j, i. split; [exact Hn|]. split; [eapply axes_own; eauto|].
  (* the j-th moving frame is f *)
  assert (Hfj : nth_error (filter moving (preorder root)) j = Some f).
  { unfold moving_names in Hn. rewrite nth_error_map in Hn.
    destruct (nth_error (filter moving (preorder root)) j) as [g|] eqn:Eg; [|discriminate].
    simpl in Hn. inversion Hn as [En]. f_equal.
    pose proof (nth_error_In _ _ Eg) as Hg. apply filter_In in Hg as [Hg Mg].
    eapply (moving_inj root); eauto. }
  split; [rewrite (ct_low _ _ _ HC); unfold get_joint_limits; rewrite limits_spec; simpl;
          rewrite nth_error_map, Hfj; reflexivity|].
  split; [rewrite (ct_high _ _ _ HC); unfold get_joint_limits; rewrite limits_spec; simpl;
          rewrite nth_error_map, Hfj; reflexivity|].
  split.
  { apply (dget_nodup Nat.eqb neqb_eq).
    - rewrite (ct_i2f _ _ _ HC), map_fst_combine by (rewrite map_length; apply seq_length). apply seq_NoDup.
    - rewrite (ct_i2f _ _ _ HC).
      rewrite <- (map_length (fun it => strip_nl (f_name (qf it))) (items root)).
      apply combine_seq_nth. split; [lia|]. rewrite Nat.sub_0_r, nth_error_map, Hi, <- Eq. reflexivity. }
  split; [rewrite (jidx_nth root c i it HC Hi), Eq, Hj; reflexivity|].
  assert (Hdof : nth_error (c_dof_frame c) j = Some i).
  { apply (proj2 (dof_frame_own root c Hd HC)) with (it := it); [exact Hi | rewrite Eq; exact Hj]. }
  split; [exact Hdof|].
  rewrite (ct_dof_rev _ _ _ HC), nth_error_map, Hdof. simpl. f_equal.
  rewrite (ct_jtype _ _ _ HC).
  rewrite (nth_error_nth _ i 0 (x := type_index (j_type (f_joint f)))).
  - destruct (j_type (f_joint f)); reflexivity.
  - rewrite nth_error_map, Hi. simpl. rewrite Eq. reflexivity.
Qed.
End Tables.
