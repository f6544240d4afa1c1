(** Correctness of [Chain.__init__] and of the level-by-level forward kinematics. *)
From Coq Require Import String Bool Arith Lia List Permutation.
From Verif Require Import Prelude ExtF Tree ChainModel SpecFK.
Import ListNotations.

Section Proofs.
Context {T A S : Type} (O : Ops T A S).
Notation frame := (frame T A).
Notation qitem := (frame * option nat * nat)%type.
Notation bstate := (bstate T A).
Notation config := (@config S).
Implicit Types (root f g : frame).

Definition qf (it : qitem) : frame := fst (fst it).
Definition qpar (it : qitem) : option nat := snd (fst it).
Definition qdep (it : qitem) : nat := snd it.

(** ** Tree facts *)
Lemma preorder_unfold f : preorder f = f :: flat_map preorder (f_children f).
Proof. destruct f; reflexivity. Qed.

Lemma size_unfold (f : frame) : size f = 1 + list_sum (map size (f_children f)).
Proof. destruct f; reflexivity. Qed.

Lemma preorder_length (f : frame) : length (preorder f) = size f.
Proof.
  induction f as [n l j cs IH] using frame_rect'. simpl. f_equal.
  induction IH as [|c r Hc _ IHr]; simpl; [reflexivity|].
  rewrite app_length, Hc, IHr; reflexivity.
Qed.

Lemma get_joints_spec (root : frame) :
  get_joints true root = map f_joint (filter moving (preorder root)).
Proof.
  unfold get_joints. induction root as [n l j cs IH] using frame_rect'. simpl.
  assert (E : flat_map (get_joints_rec true) cs = map f_joint (filter moving (flat_map preorder cs))).
  { induction IH as [|c r Hc _ IHr]; simpl; [reflexivity|].
    rewrite filter_app, map_app, <- IHr, <- Hc; reflexivity. }
  rewrite E. unfold moving at 2; simpl. destruct (j_type j); reflexivity.
Qed.

Lemma joint_names_spec (root : frame) : get_joint_parameter_names true root = moving_names root.
Proof.
  unfold get_joint_parameter_names, moving_names. rewrite get_joints_spec.
  induction (preorder root) as [|f r IH]; simpl; [reflexivity|].
  destruct (moving f) eqn:E; simpl; [|exact IH].
  unfold moving in E. destruct (j_type (f_joint f)) eqn:Ej; simpl; try discriminate; f_equal; exact IH.
Qed.

Lemma frame_names_rec_spec (root : frame) :
  get_frame_names_rec false root = map f_name (preorder root).
Proof.
  induction root as [n l j cs IH] using frame_rect'. simpl. f_equal.
  induction IH as [|c r Hc _ IHr]; simpl; [reflexivity|].
  rewrite map_app, Hc, IHr; reflexivity.
Qed.

Lemma frame_names_spec root : distinct_frames root ->
  get_frame_names false root = map f_name (preorder root).
Proof.
  intros H. unfold get_frame_names. rewrite frame_names_rec_spec.
  apply dedup_id; [apply seqb_eq | exact H].
Qed.

(** ** The order in which frames are popped *)
Fixpoint bfs_items (fuel idx : nat) (queue : list qitem) : list qitem :=
  match fuel, queue with
  | Datatypes.S n, it :: q =>
      it :: bfs_items n (1 + idx) (q ++ map (fun c => (c, Some idx, 1 + qdep it)) (f_children (qf it)))
  | _, _ => []
  end.

Definition qsize (q : list qitem) : nat := list_sum (map (fun it => size (qf it)) q).

Lemma qsize_app a b : qsize (a ++ b) = qsize a + qsize b.
Proof. unfold qsize. rewrite map_app, list_sum_app; reflexivity. Qed.

Lemma qsize_children cs par d :
  qsize (map (fun c : frame => (c, par, d)) cs) = list_sum (map size cs).
Proof. unfold qsize. rewrite map_map. f_equal. Qed.

Lemma qsize_step it q idx :
  qsize (q ++ map (fun c => (c, Some idx, 1 + qdep it)) (f_children (qf it))) + 1 = qsize (it :: q).
Proof.
  rewrite qsize_app, qsize_children. unfold qsize at 2. simpl. rewrite (size_unfold (qf it)).
  fold (qsize q). lia.
Qed.

Fixpoint fold_visit (names : list (option string)) (st : bstate) (l : list qitem) : res bstate :=
  match l with
  | [] => Ok st
  | it :: r => do st' <- visit names st it; fold_visit names st' r
  end.

Lemma visit_idx names (st st' : bstate) it : visit names st it = Ok st' -> b_idx st' = 1 + b_idx st.
Proof.
  destruct it as [[f p] d]; unfold visit. intros H.
  apply rbind_ok in H as (path & _ & H). apply rbind_ok in H as (ja & _ & H).
  inversion H; subst; reflexivity.
Qed.

Lemma bfs_loop_items names fuel : forall (st : bstate) q, qsize q <= fuel ->
  bfs_loop fuel names st q = fold_visit names st (bfs_items fuel (b_idx st) q).
Proof.
  induction fuel as [|n IH]; intros st q Hq.
  - destruct q as [|it q]; [reflexivity|]. pose proof (qsize_step it q 0). lia.
  - destruct q as [|it q]; [reflexivity|]. cbn [bfs_loop bfs_items fold_visit].
    destruct (visit names st it) as [st'|e] eqn:E; cbn [rbind]; [|reflexivity].
    apply visit_idx in E.
    rewrite IH, E; [reflexivity|]. pose proof (qsize_step it q (b_idx st)).
    match goal with |- ?x <= _ =>
      change x with (qsize (q ++ map (fun c => (c, Some (b_idx st), 1 + qdep it)) (f_children (qf it)))) end.
    lia.
Qed.

(** ** Structure of the popped items *)
Record Inv (root : frame) (done queue : list qitem) : Prop := mkInv {
  inv_root : nth_error (done ++ queue) 0 = Some (root, None, 0);
  inv_parent : forall i c par d, nth_error (done ++ queue) (1 + i) = Some (c, par, d) ->
    exists p f pp d', par = Some p /\ p <= i /\ nth_error done p = Some (f, pp, d') /\
                      d = 1 + d' /\ In c (f_children f);
  inv_child : forall i f pp d, nth_error done i = Some (f, pp, d) ->
    forall c, In c (f_children f) -> exists j, nth_error (done ++ queue) j = Some (c, Some i, 1 + d);
  inv_perm : Permutation (map qf done ++ flat_map preorder (map qf queue)) (preorder root) }.

Lemma inv_init root : Inv root [] [(root, None, 0)].
Proof.
  constructor; simpl.
  - reflexivity.
  - intros i c par d H. destruct i; discriminate.
  - intros [|i]; discriminate.
  - rewrite app_nil_r. apply Permutation_refl.
Qed.

Lemma inv_step root done it q : Inv root done (it :: q) ->
  Inv root (done ++ [it]) (q ++ map (fun c => (c, Some (length done), 1 + qdep it)) (f_children (qf it))).
Proof.
  intros [H1 H2 H3 H4].
  set (new := map (fun c => (c, Some (length done), 1 + qdep it)) (f_children (qf it))).
  assert (E : (done ++ [it]) ++ q ++ new = (done ++ it :: q) ++ new).
  { rewrite <- !app_assoc; reflexivity. }
  constructor.
  - rewrite E. apply nth_error_app_some, H1.
  - intros i c par d Hn. rewrite E in Hn.
    destruct (lt_dec (1 + i) (length (done ++ it :: q))) as [Hl|Hl].
    + rewrite nth_error_app1 in Hn by exact Hl.
      destruct (H2 _ _ _ _ Hn) as (p & f & pp & d' & ? & ? & Hp & ? & ?).
      exists p, f, pp, d'. repeat split; auto. apply nth_error_app_some, Hp.
    + rewrite nth_error_app2 in Hn by lia.
      assert (Hin : In (c, par, d) new) by (eapply nth_error_In, Hn).
      unfold new in Hin. apply in_map_iff in Hin as (c' & Hc & Hin).
      inversion Hc; subst. destruct it as [[f pp] d'].
      exists (length done), f, pp, d'. repeat split; auto.
      * rewrite app_length in Hl; simpl in Hl. lia.
      * apply nth_error_app_last.
  - intros i f pp d Hn c Hc. rewrite E.
    destruct (lt_dec i (length done)) as [Hl|Hl].
    + rewrite nth_error_app1 in Hn by exact Hl.
      destruct (H3 _ _ _ _ Hn _ Hc) as [j Hj]. exists j. apply nth_error_app_some, Hj.
    + assert (i = length done).
      { assert (i < length (done ++ [it])) by (apply nth_error_Some; congruence).
        rewrite app_length in H; simpl in H; lia. }
      subst i. rewrite nth_error_app_last in Hn. inversion Hn; subst; clear Hn.
      unfold qf, qdep in new; simpl in new.
      destruct (In_nth_error _ _ Hc) as [k Hk].
      exists (length (done ++ (f, pp, d) :: q) + k).
      rewrite nth_error_app2 by lia. rewrite Nat.add_comm, Nat.add_sub.
      unfold new. rewrite nth_error_map, Hk; reflexivity.
  - rewrite map_app, flat_map_concat_map, map_app, map_app, concat_app, <- !flat_map_concat_map.
    eapply perm_trans; [|exact H4]. simpl. rewrite <- app_assoc; simpl.
    apply Permutation_app_head. rewrite preorder_unfold. simpl. constructor.
    unfold new. rewrite (map_map _ qf). unfold qf at 2; simpl. rewrite map_id.
    apply Permutation_app_comm.
Qed.

Lemma inv_final root fuel : forall done q, qsize q <= fuel -> Inv root done q ->
  Inv root (done ++ bfs_items fuel (length done) q) [].
Proof.
  induction fuel as [|n IH]; intros done q Hq HI.
  - destruct q as [|it q]; [simpl; rewrite app_nil_r; exact HI|].
    pose proof (qsize_step it q 0). lia.
  - destruct q as [|it q]; [simpl; rewrite app_nil_r; exact HI|].
    cbn [bfs_items]. apply inv_step in HI.
    pose proof (qsize_step it q (length done)) as Hs.
    match type of HI with Inv _ _ ?q' =>
      assert (Hq' : qsize q' <= n) by lia; specialize (IH (done ++ [it]) q' Hq' HI) end.
    rewrite app_length, Nat.add_comm in IH. cbn [length] in IH.
    rewrite <- app_assoc in IH; exact IH.
Qed.

(** the popped items of a tree *)
Definition items (root : frame) : list qitem := bfs_items (size root) 0 [(root, None, 0)].

Lemma items_inv root : Inv root (items root) [].
Proof.
  apply (inv_final root (size root) [] [(root, None, 0)]); [|apply inv_init].
  unfold qsize, qf; simpl; lia.
Qed.

Lemma items_root root : nth_error (items root) 0 = Some (root, None, 0).
Proof. pose proof (inv_root _ _ _ (items_inv root)) as H. rewrite app_nil_r in H; exact H. Qed.

Lemma items_parent root i c par d : nth_error (items root) (1 + i) = Some (c, par, d) ->
  exists p f pp d', par = Some p /\ p <= i /\ nth_error (items root) p = Some (f, pp, d') /\
                    d = 1 + d' /\ In c (f_children f).
Proof.
  intros H. pose proof (inv_parent _ _ _ (items_inv root)) as Hp. rewrite app_nil_r in Hp. eauto.
Qed.

Lemma items_child root i f pp d : nth_error (items root) i = Some (f, pp, d) ->
  forall c, In c (f_children f) -> exists j, nth_error (items root) j = Some (c, Some i, 1 + d).
Proof.
  intros H c Hc. pose proof (inv_child _ _ _ (items_inv root)) as Hp. rewrite app_nil_r in Hp. eauto.
Qed.

Lemma items_perm root : Permutation (map qf (items root)) (preorder root).
Proof.
  pose proof (inv_perm _ _ _ (items_inv root)) as H. simpl in H. rewrite app_nil_r in H; exact H.
Qed.

Lemma items_length root : length (items root) = size root.
Proof.
  rewrite <- preorder_length, <- (map_length qf). apply Permutation_length, items_perm.
Qed.

Lemma items_none root i f d : nth_error (items root) i = Some (f, None, d) -> i = 0 /\ f = root /\ d = 0.
Proof.
  destruct i as [|i]; intros H.
  - rewrite items_root in H; inversion H; auto.
  - apply items_parent in H as (p & ? & ? & ? & Hp & _); discriminate.
Qed.

Lemma items_some root i f p d : nth_error (items root) i = Some (f, Some p, d) ->
  p < i /\ exists g pp d', nth_error (items root) p = Some (g, pp, d') /\ d = 1 + d' /\ In f (f_children g).
Proof.
  destruct i as [|i]; intros H.
  - rewrite items_root in H; discriminate.
  - apply items_parent in H as (p' & g & pp & d' & Hp & Hle & Hn & Hd & Hin).
    inversion Hp; subst. split; [lia|]. exists g, pp, d'; auto.
Qed.

(** ** The tables as functions of the popped items *)
Definition jix (names : list (option string)) (f : frame) : option nat :=
  if moving f then index_of oseqb (j_name (f_joint f)) names else None.

Record Tab (names : list (option string)) (L : list qitem) (st : bstate) : Prop := mkTab {
  tab_idx : b_idx st = length L;
  tab_jidx : b_jidx st = map (fun it => jix names (qf it)) L;
  tab_loff : b_loff st = map (fun it => l_off (f_link (qf it))) L;
  tab_joff : b_joff st = map (fun it => j_off (f_joint (qf it))) L;
  tab_jtype : b_jtype st = map (fun it => type_index (j_type (f_joint (qf it)))) L;
  tab_dpar : b_dpar st = map qpar L;
  tab_depth : b_depth st = map qdep L;
  tab_f2i : b_f2i st = fold_left (fun d ik => dset String.eqb (strip_nl (f_name (qf (snd ik)))) (fst ik) d)
                                 (combine (seq 0 (length L)) L) [];
  tab_i2f : b_i2f st = combine (seq 0 (length L)) (map (fun it => strip_nl (f_name (qf it))) L);
  tab_plen : length (b_parents st) = length L;
  tab_parents : forall i it, nth_error L i = Some it ->
     exists ps, nth_error (b_parents st) i = Some (ps ++ [i]) /\
       match qpar it with
       | None => ps = []
       | Some p => nth_error (b_parents st) p = Some ps
       end;
  tab_alen : length (b_axes st) = length names;
  tab_axes : forall ji, ji < length names ->
     (exists it, In it L /\ jix names (qf it) = Some ji /\
                 nth_error (b_axes st) ji = Some (j_axis (f_joint (qf it))))
     \/ (forall it, In it L -> jix names (qf it) <> Some ji) }.

Lemma combine_app {X Y} (a : list X) (b : list Y) a' b' : length a = length b ->
  combine (a ++ a') (b ++ b') = combine a b ++ combine a' b'.
Proof.
  revert b; induction a; destruct b; simpl; intros H; try lia; auto. f_equal; auto.
Qed.

Lemma seq_snoc n : seq 0 (1 + n) = seq 0 n ++ [n].
Proof. simpl. change (0 :: seq 1 n) with (seq 0 (Datatypes.S n)). rewrite seq_S; reflexivity. Qed.

Lemma visit_tab names L st it :
  Tab names L st ->
  match qpar it with None => True | Some p => p < length L end ->
  (moving (qf it) = true -> In (j_name (f_joint (qf it))) names) ->
  exists st', visit names st it = Ok st' /\ Tab names (L ++ [it]) st'.
Proof.
  intros HT Hp Hn. destruct it as [[f par] d]. unfold qf, qpar in *; simpl in Hp, Hn.
  assert (Hpath : exists ps, (match par with
             | None => Ok [b_idx st]
             | Some p => do pp <- get (b_parents st) p; Ok (pp ++ [b_idx st])
             end) = Ok (ps ++ [b_idx st]) /\
             match par with None => ps = [] | Some p => nth_error (b_parents st) p = Some ps end).
  { destruct par as [p|]; [|exists []; auto].
    destruct (nth_error (b_parents st) p) as [ps|] eqn:E.
    - exists ps. split; [|reflexivity]. unfold get; rewrite E; reflexivity.
    - apply nth_error_None in E. rewrite (tab_plen _ _ _ HT) in E; lia. }
  destruct Hpath as (ps & Hps & Hps').
  assert (Hja : exists axes', (if is_fixed (j_type (f_joint f)) then Ok (None, b_axes st)
            else do ji <- of_opt ValueError (index_of oseqb (j_name (f_joint f)) names);
                 Ok (Some ji, set_nth ji (j_axis (f_joint f)) (b_axes st))) = Ok (jix names f, axes') /\
            match jix names f with
            | None => axes' = b_axes st
            | Some ji => ji < length names /\ axes' = set_nth ji (j_axis (f_joint f)) (b_axes st)
            end).
  { unfold jix. unfold moving in *. destruct (j_type (f_joint f)) eqn:Ej; cbn [is_fixed].
    - eexists; split; reflexivity.
    - destruct (index_of_in oseqb oseqb_eq _ _ (Hn eq_refl)) as [ji Hji]. rewrite Hji; simpl.
      eexists; split; [reflexivity|]. split; [|reflexivity]. eapply index_of_lt; [apply oseqb_eq | exact Hji].
    - destruct (index_of_in oseqb oseqb_eq _ _ (Hn eq_refl)) as [ji Hji]. rewrite Hji; simpl.
      eexists; split; [reflexivity|]. split; [|reflexivity]. eapply index_of_lt; [apply oseqb_eq | exact Hji]. }
  destruct Hja as (axes' & Hja & Hax).
  unfold visit. rewrite Hps. cbn [rbind]. rewrite Hja. cbn [rbind fst snd].
  eexists; split; [reflexivity|].
  destruct HT as [T1 T2 T3 T4 T5 T6 T7 T8 T9 T10 T11 T12 T13].
  assert (Hlen : length (L ++ [(f, par, d)]) = 1 + length L) by (rewrite app_length; simpl; lia).
  constructor; cbn [b_parents b_jidx b_axes b_loff b_joff b_jtype b_f2i b_i2f b_dpar b_depth b_idx].
  - rewrite T1, Hlen; reflexivity.
  - rewrite T2, map_app; reflexivity.
  - rewrite T3, map_app; reflexivity.
  - rewrite T4, map_app; reflexivity.
  - rewrite T5, map_app; reflexivity.
  - rewrite T6, map_app; reflexivity.
  - rewrite T7, map_app; reflexivity.
  - rewrite Hlen, seq_snoc, combine_app by apply seq_length.
    rewrite fold_left_app, <- T8, T1; reflexivity.
  - rewrite Hlen, seq_snoc, map_app, combine_app by (rewrite map_length; apply seq_length).
    rewrite <- T9, T1. simpl. apply dset_fresh; [apply neqb_eq|].
    rewrite T9. intros Hin. apply in_map_iff in Hin as ([i s] & Hi & Hin). simpl in Hi; subst i.
    apply in_combine_l, in_seq in Hin. lia.
  - rewrite app_length, T10, Hlen; simpl; lia.
  - intros i it Hit. destruct (lt_dec i (length L)) as [Hl|Hl].
    + rewrite nth_error_app1 in Hit by exact Hl. destruct (T11 _ _ Hit) as (ps' & H1 & H2).
      exists ps'. split; [apply nth_error_app_some, H1|].
      destruct (qpar it); [apply nth_error_app_some, H2 | exact H2].
    + assert (i < length (L ++ [(f, par, d)])) by (apply nth_error_Some; congruence).
      assert (i = length L) by lia. subst i.
      rewrite nth_error_app_last in Hit. inversion Hit; subst; clear Hit.
      exists ps. split.
      * rewrite <- T10 at 1. rewrite nth_error_app_last, T1; reflexivity.
      * unfold qpar; simpl. destruct par; [apply nth_error_app_some, Hps' | exact Hps'].
  - destruct (jix names f) as [ji|]; [destruct Hax as [_ ->]; rewrite set_nth_length|subst axes']; exact T12.
  - intros ji Hji. destruct (jix names f) as [k|] eqn:Ek.
    + destruct Hax as [Hk ->]. destruct (Nat.eq_dec k ji) as [->|Hne].
      * left. exists (f, par, d). split; [apply in_or_app; right; left; reflexivity|].
        split; [exact Ek|]. apply set_nth_same. rewrite T12; exact Hji.
      * destruct (T13 ji Hji) as [(it & H1 & H2 & H3)|H].
        -- left. exists it. split; [apply in_or_app; auto|]. split; [exact H2|].
           rewrite set_nth_other by auto. exact H3.
        -- right. intros it Hin. apply in_app_or in Hin as [Hin|[<-|[]]]; [auto|].
           unfold qf; simpl. rewrite Ek; congruence.
    + subst axes'. destruct (T13 ji Hji) as [(it & H1 & H2 & H3)|H].
      * left. exists it. split; [apply in_or_app; auto|]. auto.
      * right. intros it Hin. apply in_app_or in Hin as [Hin|[<-|[]]]; [auto|].
        unfold qf; simpl. rewrite Ek; discriminate.
Qed.

Lemma fold_visit_tab names R : forall L st,
  Tab names L st ->
  (forall i it, nth_error (L ++ R) i = Some it -> match qpar it with None => True | Some p => p < i end) ->
  (forall it, In it (L ++ R) -> moving (qf it) = true -> In (j_name (f_joint (qf it))) names) ->
  exists st', fold_visit names st R = Ok st' /\ Tab names (L ++ R) st'.
Proof.
  induction R as [|it R IH]; intros L st HT Hp Hn.
  - exists st. rewrite app_nil_r. auto.
  - destruct (visit_tab names L st it HT) as (st1 & Hv & HT1).
    + apply (Hp (length L) it). rewrite nth_error_app2, Nat.sub_diag by lia; reflexivity.
    + apply Hn, in_or_app; right; left; reflexivity.
    + destruct (IH (L ++ [it]) st1 HT1) as (st2 & H2 & HT2).
      * rewrite <- app_assoc; exact Hp.
      * rewrite <- app_assoc; exact Hn.
      * exists st2. cbn [fold_visit]. rewrite Hv; cbn [rbind]. split; [exact H2|].
        rewrite <- app_assoc in HT2; exact HT2.
Qed.

Definition st0 (names : list (option string)) : bstate :=
  mkB [] [] (repeat (t_ax0 O) (length names)) [] [] [] [] [] [] [] 0.

Lemma tab_init names : Tab names [] (st0 names).
Proof.
  constructor; simpl; auto.
  - intros i it H; destruct i; discriminate.
  - apply repeat_length.
Qed.

Lemma in_preorder_names root f : In f (preorder root) -> moving f = true ->
  In (j_name (f_joint f)) (moving_names root).
Proof.
  intros H1 H2. unfold moving_names. apply in_map_iff. exists f. split; [reflexivity|].
  apply filter_In; auto.
Qed.

Lemma items_in_preorder root it : In it (items root) -> In (qf it) (preorder root).
Proof.
  intros H. eapply Permutation_in; [apply items_perm|]. apply in_map, H.
Qed.

Lemma preorder_in_items root f : In f (preorder root) ->
  exists i it, nth_error (items root) i = Some it /\ qf it = f.
Proof.
  intros H. apply (Permutation_in f (Permutation_sym (items_perm root))) in H.
  apply in_map_iff in H as (it & E & Hin). apply In_nth_error in Hin as [i Hi]. eauto.
Qed.

Lemma build_ok root :
  exists st, bfs_loop (size root) (moving_names root) (st0 (moving_names root)) [(root, None, 0)] = Ok st
             /\ Tab (moving_names root) (items root) st.
Proof.
  rewrite bfs_loop_items by (unfold qsize, qf; simpl; lia). cbn [b_idx st0].
  destruct (fold_visit_tab (moving_names root) (items root) [] (st0 _) (tab_init _)) as (st & H1 & H2).
  - simpl. intros i [[f p] d] H. unfold qpar; simpl. destruct p as [p|]; [|exact I].
    apply items_some in H; tauto.
  - simpl. intros it Hin Hm. apply in_preorder_names; [apply items_in_preorder, Hin | exact Hm].
  - exists st; auto.
Qed.

(** [chain_init] never fails, and its tables are those of [items root] *)
Record CTab (root : frame) (c : chain T A) : Prop := mkCTab {
  ct_root : c_root c = root;
  ct_low : c_low c = fst (get_joint_limits root);
  ct_high : c_high c = snd (get_joint_limits root);
  ct_names : c_names c = moving_names root;
  ct_nf : c_nf c = length (items root);
  ct_jidx : c_jidx c = map (fun it => jix (moving_names root) (qf it)) (items root);
  ct_jtype : c_jtype c = map (fun it => type_index (j_type (f_joint (qf it)))) (items root);
  ct_dpar : c_dpar c = map qpar (items root);
  ct_levels : c_levels c = bfs_levels (map qdep (items root));
  ct_static : c_static c = map (fun it => static_offset O (l_off (f_link (qf it))) (j_off (f_joint (qf it)))) (items root);
  ct_jclamp : c_jclamp c = map (fun it => match jix (moving_names root) (qf it) with Some j => j | None => 0 end) (items root);
  ct_has_rev : c_has_rev c = existsb (Nat.eqb 1) (c_jtype c);
  ct_has_pris : c_has_pris c = existsb (Nat.eqb 2) (c_jtype c);
  ct_f2i : c_f2i c = fold_left (fun d ik => dset String.eqb (strip_nl (f_name (qf (snd ik)))) (fst ik) d)
                               (combine (seq 0 (length (items root))) (items root)) [];
  ct_i2f : c_i2f c = combine (seq 0 (length (items root))) (map (fun it => strip_nl (f_name (qf it))) (items root));
  ct_plen : length (c_parents c) = length (items root);
  ct_parents : forall i it, nth_error (items root) i = Some it ->
     exists ps, nth_error (c_parents c) i = Some (ps ++ [i]) /\
       match qpar it with
       | None => ps = []
       | Some p => nth_error (c_parents c) p = Some ps
       end;
  ct_alen : length (c_axes c) = length (moving_names root);
  ct_axes : forall ji, ji < length (moving_names root) ->
     (exists it, In it (items root) /\ jix (moving_names root) (qf it) = Some ji /\
                 nth_error (c_axes c) ji = Some (j_axis (f_joint (qf it))))
     \/ (forall it, In it (items root) -> jix (moving_names root) (qf it) <> Some ji);
  ct_dof : c_dof_frame c = dof_frames (length (moving_names root)) (c_jidx c);
  ct_mask : c_mask c = ancestor_mask (c_dof_frame c) (c_parents c);
  ct_dof_rev : c_dof_rev c = map (fun fi => Nat.eqb (nth fi (c_jtype c) 0) 1) (c_dof_frame c) }.

Lemma zip_with_map {X Y Z W} (g : Y -> Z -> W) (f1 : X -> Y) (f2 : X -> Z) l :
  zip_with g (map f1 l) (map f2 l) = map (fun x => g (f1 x) (f2 x)) l.
Proof. induction l; simpl; [|f_equal]; auto. Qed.

Theorem chain_init_ok root : exists c, chain_init O root = Ok c /\ CTab root c.
Proof.
  destruct (build_ok root) as (st & Hst & HT).
  unfold chain_init. destruct (get_joint_limits root) as [low high] eqn:El.
  rewrite joint_names_spec. fold (st0 (moving_names root)). rewrite Hst. cbn [rbind].
  eexists; split; [reflexivity|].
  destruct HT as [T1 T2 T3 T4 T5 T6 T7 T8 T9 T10 T11 T12 T13].
  constructor; try (rewrite El; reflexivity); cbn; auto.
  - rewrite T7; reflexivity.
  - rewrite T3, T4. apply zip_with_map.
  - rewrite T2, map_map; reflexivity.
Qed.

(** ** Axes: with distinct joint names, each joint reads its own axis *)
Lemma NoDup_map_inj {X Y} (g : X -> Y) l a b :
  NoDup (map g l) -> In a l -> In b l -> g a = g b -> a = b.
Proof.
  induction l as [|x r IH]; simpl; intros H Ha Hb E; [contradiction|].
  inversion H; subst. destruct Ha as [<-|Ha], Hb as [<-|Hb]; auto.
  - exfalso; apply H2. rewrite E. apply in_map, Hb.
  - exfalso; apply H2. rewrite <- E. apply in_map, Ha.
Qed.

Lemma moving_inj root f g : distinct_joints root -> In f (preorder root) -> In g (preorder root) ->
  moving f = true -> moving g = true -> j_name (f_joint f) = j_name (f_joint g) -> f = g.
Proof.
  intros H Hf Hg Mf Mg E. eapply (NoDup_map_inj (fun f => j_name (f_joint f))).
  - exact H.
  - apply filter_In; auto.
  - apply filter_In; auto.
  - exact E.
Qed.

Lemma jix_some names f ji : jix names f = Some ji ->
  moving f = true /\ nth_error names ji = Some (j_name (f_joint f)).
Proof.
  unfold jix. destruct (moving f); [|discriminate]. intros H. split; [reflexivity|].
  eapply index_of_some; [apply oseqb_eq | exact H].
Qed.

Lemma jix_moving root f : In f (preorder root) -> moving f = true ->
  exists ji, jix (moving_names root) f = Some ji /\ ji < length (moving_names root).
Proof.
  intros Hin Hm. unfold jix. rewrite Hm.
  destruct (index_of_in oseqb oseqb_eq _ _ (in_preorder_names root f Hin Hm)) as [ji Hji].
  exists ji. split; [exact Hji|]. eapply index_of_lt; [apply oseqb_eq | exact Hji].
Qed.

Lemma axes_own root c f ji : distinct_joints root -> CTab root c -> In f (preorder root) ->
  jix (moving_names root) f = Some ji -> nth_error (c_axes c) ji = Some (j_axis (f_joint f)).
Proof.
  intros Hd HC Hin Hj.
  destruct (jix_some _ _ _ Hj) as [Hm Hn].
  assert (Hlt : ji < length (moving_names root)) by (apply nth_error_Some; congruence).
  destruct (ct_axes _ _ HC ji Hlt) as [(it & Hit & Hji & Hax)|H].
  - apply items_in_preorder in Hit. destruct (jix_some _ _ _ Hji) as [Hm' Hn'].
    rewrite Hn in Hn'; inversion Hn'.
    rewrite (moving_inj root f (qf it)); auto.
  - destruct (preorder_in_items root f Hin) as (i & it & Hi & E).
    exfalso. apply (H it); [eapply nth_error_In, Hi | rewrite E; exact Hj].
Qed.

(** ** Joint transforms per frame *)
Lemma map_ext_in' {X Y} (f g : X -> Y) l : (forall x, In x l -> f x = g x) -> map f l = map g l.
Proof. apply map_ext_in. Qed.

Lemma repeat_map {X Y} (x : X) (l : list Y) : repeat x (length l) = map (fun _ => x) l.
Proof. induction l; simpl; f_equal; auto. Qed.

Lemma per_frame_ok (motion : A -> S -> T) root c vs : CTab root c ->
  (length (moving_names root) <> 0) ->
  exists g : frame -> config -> T,
    per_frame motion (c_axes c) (c_jclamp c) (config_tensor root vs)
      = Ok (map (fun it => map (g (qf it)) vs) (items root)) /\
    (forall (f : frame) v a, In f (preorder root) ->
       match jix (moving_names root) f with
       | Some ji => nth_error (c_axes c) ji = Some a -> g f v = motion a (v (j_name (f_joint f)))
       | None => True
       end).
Proof.
  intros HC Hn.
  set (names := moving_names root) in *.
  set (kof := fun f => match jix names f with Some j => j | None => 0 end).
  exists (fun f v => motion (nth (kof f) (c_axes c) (t_ax0 O)) (v (nth (kof f) names None))).
  split.
  - unfold per_frame, config_tensor; cbn [th_rows]. fold names.
    rewrite (rmap_ok _ _ (fun row => zip_with motion (c_axes c) row)).
    2:{ intros row Hr. apply in_map_iff in Hr as (v & <- & _). unfold joint_row.
        rewrite map_length, (ct_alen _ _ HC). fold names. rewrite Nat.eqb_refl; reflexivity. }
    cbn [rbind]. rewrite map_map, (ct_jclamp _ _ HC). fold names.
    rewrite (rmap_ok _ _ (fun k => map (fun v : config => motion (nth k (c_axes c) (t_ax0 O)) (v (nth k names None))) vs)).
    + rewrite map_map. f_equal.
    + intros k Hk. apply in_map_iff in Hk as (it & <- & Hit).
      rewrite <- (map_map (fun v : config => map v names) (fun row => zip_with motion (c_axes c) row)).
      assert (Hlt : kof (qf it) < length names).
      { unfold kof. destruct (jix names (qf it)) as [ji|] eqn:E; [|lia].
        apply jix_some in E as [_ E]. apply nth_error_Some; congruence. }
      fold (kof (qf it)). rewrite map_map.
      induction vs as [|v vs IH]; [reflexivity|]. simpl.
      replace (get (zip_with motion (c_axes c) (map v names)) (kof (qf it)))
        with (Ok (motion (nth (kof (qf it)) (c_axes c) (t_ax0 O)) (v (nth (kof (qf it)) names None)))).
      2:{ symmetry. apply get_ok. apply zip_with_nth.
          - apply nth_error_nth'. rewrite (ct_alen _ _ HC); exact Hlt.
          - rewrite nth_error_map, (nth_error_nth' names None Hlt); reflexivity. }
      cbn [rbind]. rewrite IH; reflexivity.
  - intros f v a Hf. unfold kof. destruct (jix names f) as [ji|] eqn:E; [|exact I].
    intros Ha. apply jix_some in E as [_ E].
    rewrite (nth_error_nth _ _ _ Ha), (nth_error_nth _ _ _ E); reflexivity.
Qed.

Lemma where_frames_map {X} (L : list X) (m : X -> bool) (f1 f2 : X -> list T) :
  where_frames (map m L) (map f1 L) (map f2 L) = map (fun x => if m x then f1 x else f2 x) L.
Proof.
  unfold where_frames. rewrite (zip_with_map pair), (zip_with_map _ m). reflexivity.
Qed.

Lemma existsb_type root k :
  existsb (Nat.eqb k) (map (fun it => type_index (j_type (f_joint (qf it)))) (items root)) = false ->
  forall it, In it (items root) -> type_index (j_type (f_joint (qf it))) <> k.
Proof.
  intros H it Hin E.
  assert (existsb (Nat.eqb k) (map (fun it => type_index (j_type (f_joint (qf it)))) (items root)) = true).
  { apply existsb_exists. exists k. split; [|apply Nat.eqb_refl].
    apply in_map_iff. exists it; auto. }
  congruence.
Qed.

Lemma existsb_type_n root k : k <> 0 ->
  existsb (Nat.eqb k) (map (fun it => type_index (j_type (f_joint (qf it)))) (items root)) = true ->
  length (moving_names root) <> 0.
Proof.
  intros Hk H. apply existsb_exists in H as (x & Hx & E). apply Nat.eqb_eq in E; subst x.
  apply in_map_iff in Hx as (it & E & Hin).
  assert (Hm : moving (qf it) = true).
  { unfold moving. destruct (j_type (f_joint (qf it))); try reflexivity. simpl in E; congruence. }
  pose proof (in_preorder_names root _ (items_in_preorder _ _ Hin) Hm) as Hi.
  destruct (moving_names root); [contradiction | discriminate].
Qed.

Lemma joint_transforms_ok root c vs : distinct_joints root -> CTab root c ->
  joint_transforms O (config_tensor root vs) (c_jclamp c) (c_jtype c) (c_axes c)
                   (c_has_rev c) (c_has_pris c) (c_nf c)
  = Ok (map (fun it => map (fun v => joint_motion O v (f_joint (qf it))) vs) (items root)).
Proof.
  intros Hd HC. unfold joint_transforms.
  rewrite (ct_nf _ _ HC), (ct_has_rev _ _ HC), (ct_has_pris _ _ HC), (ct_jtype _ _ HC).
  set (tys := map (fun it => type_index (j_type (f_joint (qf it)))) (items root)).
  assert (Heye : repeat (repeat (t_one O) (length (th_rows (config_tensor root vs)))) (length (items root))
                 = map (fun _ => map (fun _ : config => t_one O) vs) (items root)).
  { unfold config_tensor; cbn [th_rows]. rewrite map_length, <- !repeat_map; reflexivity. }
  rewrite Heye. unfold config_tensor at 1 3. cbn [th_cols].
  (* value of a gathered transform on the frames of its own type *)
  assert (Hown : forall (motion : A -> S -> T) (g : frame -> config -> T),
     (forall (f : frame) v a, In f (preorder root) ->
       match jix (moving_names root) f with
       | Some ji => nth_error (c_axes c) ji = Some a -> g f v = motion a (v (j_name (f_joint f)))
       | None => True
       end) ->
     forall it v, In it (items root) -> moving (qf it) = true ->
       g (qf it) v = motion (j_axis (f_joint (qf it))) (v (j_name (f_joint (qf it))))).
  { intros motion g Hg it v Hin Hm. apply items_in_preorder in Hin.
    destruct (jix_moving root (qf it) Hin Hm) as (ji & Hji & _).
    specialize (Hg (qf it) v (j_axis (f_joint (qf it))) Hin). rewrite Hji in Hg.
    apply Hg. apply (axes_own root c); auto. }
  destruct (existsb (Nat.eqb 1) tys) eqn:E1; destruct (existsb (Nat.eqb 2) tys) eqn:E2.
  - assert (Hn : length (moving_names root) <> 0) by (eapply (existsb_type_n root 1); [lia | exact E1]).
    replace (Nat.ltb 0 (length (moving_names root))) with true by (symmetry; apply Nat.ltb_lt; lia).
    destruct (per_frame_ok (t_rev O) root c vs HC Hn) as (g1 & P1 & G1).
    destruct (per_frame_ok (t_pris O) root c vs HC Hn) as (g2 & P2 & G2).
    simpl andb. cbv iota. rewrite P1, P2. cbn [rbind of_opt negb andb].
    unfold tys. rewrite !map_map, !where_frames_map. f_equal.
    apply map_ext_in. intros it Hin. specialize (Hown _ _ G1 it) as O1. specialize (Hown _ _ G2 it) as O2.
    unfold moving in *. unfold joint_motion.
    destruct (j_type (f_joint (qf it))); cbn [type_index Nat.eqb]; apply map_ext; intros v; auto.
  - assert (Hn : length (moving_names root) <> 0) by (eapply (existsb_type_n root 1); [lia | exact E1]).
    replace (Nat.ltb 0 (length (moving_names root))) with true by (symmetry; apply Nat.ltb_lt; lia).
    destruct (per_frame_ok (t_rev O) root c vs HC Hn) as (g1 & P1 & G1).
    simpl andb. cbv iota. rewrite P1. cbn [rbind of_opt negb andb].
    unfold tys. rewrite !map_map, !where_frames_map. f_equal.
    apply map_ext_in. intros it Hin. specialize (Hown _ _ G1 it) as O1.
    pose proof (existsb_type root 2 E2 it Hin) as Hno.
    unfold moving in *. unfold joint_motion.
    destruct (j_type (f_joint (qf it))); cbn [type_index Nat.eqb] in *; try congruence; apply map_ext; intros v; auto.
  - assert (Hn : length (moving_names root) <> 0) by (eapply (existsb_type_n root 2); [lia | exact E2]).
    replace (Nat.ltb 0 (length (moving_names root))) with true by (symmetry; apply Nat.ltb_lt; lia).
    destruct (per_frame_ok (t_pris O) root c vs HC Hn) as (g2 & P2 & G2).
    simpl andb. cbv iota. rewrite P2. cbn [rbind of_opt negb andb].
    unfold tys. rewrite !map_map, !where_frames_map. f_equal.
    apply map_ext_in. intros it Hin. specialize (Hown _ _ G2 it) as O2.
    pose proof (existsb_type root 1 E1 it Hin) as Hno.
    unfold moving in *. unfold joint_motion.
    destruct (j_type (f_joint (qf it))); cbn [type_index Nat.eqb] in *; try congruence; apply map_ext; intros v; auto.
  - rewrite !andb_false_r. cbn [rbind andb negb]. f_equal.
    apply map_ext_in. intros it Hin.
    pose proof (existsb_type root 1 E1 it Hin). pose proof (existsb_type root 2 E2 it Hin).
    unfold joint_motion. destruct (j_type (f_joint (qf it))); cbn [type_index] in *; try congruence.
Qed.

(** ** Local transforms *)
Lemma rel_pose_static v f :
  t_mul O (static_offset O (l_off (f_link f)) (j_off (f_joint f))) (joint_motion O v (f_joint f))
  = rel_pose O v f.
Proof. reflexivity. Qed.

Lemma locals_ok root c vs : CTab root c ->
  zip_with (fun so row => map (t_mul O so) row) (c_static c)
    (map (fun it => map (fun v => joint_motion O v (f_joint (qf it))) vs) (items root))
  = map (fun it => map (fun v => rel_pose O v (qf it)) vs) (items root).
Proof.
  intros HC. rewrite (ct_static _ _ HC), zip_with_map. apply map_ext. intros it.
  rewrite map_map. reflexivity.
Qed.

(** ** World transforms, as the level loop accumulates them *)
Inductive World (L : list qitem) (loc : nat -> list T) : nat -> list T -> Prop :=
| W_root i f d : nth_error L i = Some (f, None, d) -> World L loc i (loc i)
| W_child i f p d w : nth_error L i = Some (f, Some p, d) -> World L loc p w ->
    World L loc i (zip_with (t_mul O) w (loc i)).

Lemma world_fun L loc i w1 : World L loc i w1 -> forall w2, World L loc i w2 -> w1 = w2.
Proof.
  induction 1 as [i f d H | i f p d w H HW IH]; intros w2 H2; inversion H2; subst; try congruence.
  assert (p0 = p) by congruence. subst. f_equal. apply IH; assumption.
Qed.

Lemma world_ex root loc i : i < length (items root) -> exists w, World (items root) loc i w.
Proof.
  induction i as [i IH] using lt_wf_ind. intros Hi.
  destruct (nth_error (items root) i) as [[[f [p|]] d]|] eqn:E.
  - pose proof (items_some _ _ _ _ _ E) as [Hp _].
    destruct (IH p Hp) as [w Hw]; [lia|]. eexists. eapply W_child; eauto.
  - eexists. eapply W_root; eauto.
  - apply nth_error_None in E; lia.
Qed.

(** *** scatter *)
Lemma scatter_length {X} idxs : forall (vals : list X) arr, length (scatter idxs vals arr) = length arr.
Proof.
  induction idxs as [|i ir IH]; destruct vals; simpl; intros; auto.
  rewrite IH, set_nth_length; reflexivity.
Qed.

Lemma scatter_other {X} idxs : forall (vals : list X) arr k, ~ In k idxs ->
  nth_error (scatter idxs vals arr) k = nth_error arr k.
Proof.
  induction idxs as [|i ir IH]; destruct vals; simpl; intros arr k Hk; auto.
  rewrite IH by tauto. apply set_nth_other. tauto.
Qed.

Lemma scatter_in {X} idxs : forall (vals : list X) arr k v, NoDup idxs -> length vals = length idxs ->
  (forall i, In i idxs -> i < length arr) ->
  forall m, nth_error idxs m = Some k -> nth_error vals m = Some v ->
  nth_error (scatter idxs vals arr) k = Some (Some v).
Proof.
  induction idxs as [|i ir IH]; destruct vals as [|x vals]; simpl; intros arr k v Hnd Hl Hb m Hi Hv;
    try (destruct m; discriminate).
  inversion Hnd; subst. destruct m as [|m]; simpl in *.
  - inversion Hi; inversion Hv; subst. rewrite scatter_other by assumption.
    apply set_nth_same. apply Hb; auto.
  - apply (IH vals (set_nth i (Some x) arr) k v) with (m := m); auto.
    intros j Hj. rewrite set_nth_length. apply Hb; auto.
Qed.

(** *** levels *)
Definition depth_of root i : nat := nth i (map qdep (items root)) 0.

Lemma depth_of_nth root i f p d : nth_error (items root) i = Some (f, p, d) -> depth_of root i = d.
Proof.
  intros H. unfold depth_of. erewrite nth_error_nth; [reflexivity|].
  rewrite nth_error_map, H; reflexivity.
Qed.

Definition level root d : list nat :=
  filter (fun i => Nat.eqb (nth i (map qdep (items root)) 0) d) (seq 0 (length (map qdep (items root)))).

Lemma level_in root d i : In i (level root d) <-> i < length (items root) /\ depth_of root i = d.
Proof.
  unfold level. rewrite filter_In, in_seq, map_length, Nat.eqb_eq. unfold depth_of. simpl.
  split; intros [? ?]; split; auto; lia.
Qed.

Lemma level_nodup root d : NoDup (level root d).
Proof. apply NoDup_filter, seq_NoDup. Qed.

Lemma levels_eq root : bfs_levels (map qdep (items root)) =
  map (level root) (seq 0 (1 + list_max (map qdep (items root)))).
Proof. reflexivity. Qed.

Lemma depth_le_max root i : i < length (items root) ->
  depth_of root i <= list_max (map qdep (items root)).
Proof.
  intros Hi. unfold depth_of.
  pose proof (proj1 (list_max_le (map qdep (items root)) (list_max (map qdep (items root)))) (le_n _)) as H.
  rewrite Forall_forall in H. apply H. apply nth_In. rewrite map_length; exact Hi.
Qed.

(** array state when all frames shallower than [d] are written *)
Definition Filled root (loc : nat -> list T) (d : nat) (arr : list (option (list T))) : Prop :=
  length arr = length (items root) /\
  forall i, i < length (items root) ->
    if depth_of root i <? d then exists w, nth_error arr i = Some (Some w) /\ World (items root) loc i w
    else nth_error arr i = Some None.

Lemma filled_write root loc d arr vals :
  Filled root loc d arr -> length vals = length (level root d) ->
  (forall m i, nth_error (level root d) m = Some i ->
     exists w, nth_error vals m = Some w /\ World (items root) loc i w) ->
  Filled root loc (1 + d) (scatter (level root d) vals arr).
Proof.
  intros [Hl Hf] Hv Hw. split; [rewrite scatter_length; exact Hl|].
  intros i Hi. destruct (Nat.eq_dec (depth_of root i) d) as [E|E].
  - replace (depth_of root i <? 1 + d) with true by (symmetry; apply Nat.ltb_lt; lia).
    assert (Hin : In i (level root d)) by (apply level_in; auto).
    destruct (In_nth_error _ _ Hin) as [m Hm]. destruct (Hw _ _ Hm) as (w & Hvm & HW).
    exists w. split; [|exact HW].
    eapply scatter_in; eauto using level_nodup.
    intros j Hj. apply level_in in Hj. lia.
  - rewrite scatter_other by (rewrite level_in; tauto).
    specialize (Hf i Hi).
    destruct (depth_of root i <? d) eqn:E1.
    + apply Nat.ltb_lt in E1. replace (depth_of root i <? 1 + d) with true by (symmetry; apply Nat.ltb_lt; lia).
      exact Hf.
    + apply Nat.ltb_ge in E1. replace (depth_of root i <? 1 + d) with false by (symmetry; apply Nat.ltb_ge; lia).
      exact Hf.
Qed.

Lemma rmap_exists {X Y} (g : X -> res Y) l (P : X -> Y -> Prop) :
  (forall x, In x l -> exists y, g x = Ok y /\ P x y) ->
  exists ys, rmap g l = Ok ys /\ length ys = length l /\
  forall m x, nth_error l m = Some x -> exists y, nth_error ys m = Some y /\ P x y.
Proof.
  induction l as [|x r IH]; simpl; intros H.
  - exists []. repeat split; auto. intros m x Hm; destruct m; discriminate.
  - destruct (H x (or_introl eq_refl)) as (y & Hy & Py).
    destruct IH as (ys & Hys & Hl & Hn); [auto|].
    exists (y :: ys). rewrite Hy; cbn [rbind]. rewrite Hys; cbn [rbind]. repeat split; auto.
    + simpl; congruence.
    + intros [|m] z Hm; simpl in *; [inversion Hm; subst; eauto | eauto].
Qed.

Lemma fk_level_ok root (locals : list (list T)) loc d arr :
  length locals = length (items root) ->
  (forall i, i < length (items root) -> nth_error locals i = Some (loc i)) ->
  Filled root loc (1 + d) arr ->
  exists arr', fk_level O (map qpar (items root)) locals arr (level root (1 + d)) = Ok arr' /\
  Filled root loc (2 + d) arr'.
Proof.
  intros Hll Hloc HF. unfold fk_level.
  match goal with |- context [rmap ?g (level root (1 + d))] => set (step := g) end.
  destruct (rmap_exists step (level root (1 + d)) (fun i w => World (items root) loc i w)) as (vals & Hr & Hl & Hn).
  - intros i Hi. apply level_in in Hi as [Hi Hd].
    destruct (nth_error (items root) i) as [[[f par] dd]|] eqn:E; [|apply nth_error_None in E; lia].
    rewrite (depth_of_nth _ _ _ _ _ E) in Hd. subst dd.
    destruct par as [p|].
    + destruct (items_some _ _ _ _ _ E) as (Hlt & g & pp & d' & Hg & Hd' & _).
      assert (Hp : p < length (items root)) by lia.
      destruct HF as [_ HF]. specialize (HF p Hp). rewrite (depth_of_nth _ _ _ _ _ Hg) in HF.
      replace (d' <? 1 + d) with true in HF by (symmetry; apply Nat.ltb_lt; lia).
      destruct HF as (w & Hw & HW).
      exists (zip_with (t_mul O) w (loc i)). split.
      * unfold step, get. rewrite nth_error_map, E. cbn [option_map of_opt rbind qpar fst snd].
        unfold read_slot, get. rewrite Hw. cbn [of_opt rbind]. rewrite Hloc by exact Hi. reflexivity.
      * eapply W_child; eauto.
    + apply items_none in E as (_ & _ & E). discriminate.
  - rewrite Hr. cbn [rbind]. eexists; split; [reflexivity|].
    apply filled_write; auto.
Qed.

Lemma fk_levels_ok root (locals : list (list T)) loc :
  length locals = length (items root) ->
  (forall i, i < length (items root) -> nth_error locals i = Some (loc i)) ->
  forall n d arr, Filled root loc (1 + d) arr ->
  exists arr', fk_levels O (map qpar (items root)) locals arr (map (level root) (seq (1 + d) n)) = Ok arr' /\
  Filled root loc (1 + d + n) arr'.
Proof.
  intros Hll Hloc. induction n as [|n IH]; intros d arr HF.
  - exists arr. split; [reflexivity|]. rewrite Nat.add_0_r; exact HF.
  - destruct (fk_level_ok root locals loc d arr Hll Hloc HF) as (arr1 & H1 & HF1).
    destruct (IH (1 + d) arr1 HF1) as (arr2 & H2 & HF2).
    exists arr2. split.
    + cbn [seq map fk_levels]. change (Datatypes.S (1 + d)) with (1 + (1 + d)).
      rewrite H1. cbn [rbind]. exact H2.
    + replace (1 + d + Datatypes.S n) with (1 + (1 + d) + n) by lia. exact HF2.
Qed.

(** the level loop fills every slot with the accumulated world transform *)
Lemma fk_tensor_world root c vs : distinct_joints root -> CTab root c ->
  exists arr, forward_kinematics_tensor O c (config_tensor root vs) = Ok arr /\
  length arr = length (items root) /\
  forall i, i < length (items root) -> exists w, nth_error arr i = Some (Some w) /\
  World (items root) (fun i => map (fun v => rel_pose O v (qf (nth i (items root) (root, None, 0)))) vs) i w.
Proof.
  intros Hd HC. unfold forward_kinematics_tensor, fk_impl.
  rewrite joint_transforms_ok by assumption. cbn [rbind].
  rewrite locals_ok by assumption.
  set (locals := map (fun it => map (fun v => rel_pose O v (qf it)) vs) (items root)).
  set (loc := fun i => map (fun v => rel_pose O v (qf (nth i (items root) (root, None, 0)))) vs).
  assert (Hll : length locals = length (items root)) by apply map_length.
  assert (Hloc : forall i, i < length (items root) -> nth_error locals i = Some (loc i)).
  { intros i Hi. unfold locals, loc. rewrite nth_error_map, (nth_error_nth' _ (root, None, 0) Hi). reflexivity. }
  rewrite (ct_levels _ _ HC), levels_eq, (ct_dpar _ _ HC), (ct_nf _ _ HC).
  change (seq 0 (1 + list_max (map qdep (items root)))) with (0 :: seq 1 (list_max (map qdep (items root)))).
  cbn [map]. unfold get at 1. cbn [nth_error of_opt rbind tl].
  assert (HF0 : Filled root loc 0 (repeat None (length (items root)))).
  { split; [apply repeat_length|]. intros i Hi. simpl. apply nth_error_repeat; exact Hi. }
  destruct (rmap_exists (get locals) (level root 0) (fun i w => World (items root) loc i w)) as (v0 & Hr & Hl & Hn).
  { intros i Hi. apply level_in in Hi as [Hi Hd0]. exists (loc i). split.
    - apply get_ok, Hloc, Hi.
    - destruct (nth_error (items root) i) as [[[f par] dd]|] eqn:E; [|apply nth_error_None in E; lia].
      rewrite (depth_of_nth _ _ _ _ _ E) in Hd0. subst dd. destruct par as [p|].
      + apply items_some in E as (_ & ? & ? & ? & _ & ? & _); discriminate.
      + eapply W_root; eauto. }
  rewrite Hr. cbn [rbind].
  destruct (fk_levels_ok root locals loc Hll Hloc (list_max (map qdep (items root))) 0
              (scatter (level root 0) v0 (repeat None (length (items root))))) as (arr & Ha & HF).
  { apply (filled_write root loc 0); auto. }
  exists arr. split; [exact Ha|]. destruct HF as [Hlen HF]. split; [exact Hlen|].
  intros i Hi. specialize (HF i Hi).
  replace (depth_of root i <? 1 + 0 + list_max (map qdep (items root))) with true in HF; [exact HF|].
  symmetry; apply Nat.ltb_lt. pose proof (depth_le_max root i Hi). lia.
Qed.

(** ** World transforms are path products *)
Lemma root_path_here root f : root_path root [f] -> f = root.
Proof. intros H. inversion H as [|? ? ? ? Hp]; subst; auto. Qed.

Lemma root_path_snoc fs : forall root f c, root_path root (fs ++ [f]) -> In c (f_children f) ->
  root_path root (fs ++ [f] ++ [c]).
Proof.
  induction fs as [|g fs IH]; simpl; intros root f c H Hc.
  - apply root_path_here in H; subst. econstructor; [exact Hc | constructor].
  - inversion H as [? E|? x ? Hx Hp]; subst; [try (destruct fs; discriminate)|]; try match goal with E : [] = _ ++ _ |- _ => destruct fs; discriminate E end.
    econstructor; [exact Hx|]. apply IH; assumption.
Qed.

Lemma root_path_unsnoc fs : forall root f c, root_path root (fs ++ [f] ++ [c]) ->
  root_path root (fs ++ [f]) /\ In c (f_children f).
Proof.
  induction fs as [|g fs IH]; simpl; intros root f c H.
  - inversion H as [|? x ? Hx Hp]; subst. apply root_path_here in Hp; subst.
    split; [constructor | exact Hx].
  - inversion H as [? E|? x ? Hx Hp]; subst; [try (destruct fs; discriminate)|]; try match goal with E : [] = _ ++ _ |- _ => destruct fs; discriminate E end.
    destruct (IH _ _ _ Hp) as [H1 H2]. split; [econstructor; eauto | exact H2].
Qed.

Lemma path_pose_snoc v fs f : path_pose O v (fs ++ [f]) = t_mul O (path_pose O v fs) (rel_pose O v f).
Proof. unfold path_pose. rewrite fold_left_app; reflexivity. Qed.

Definition loc_of root (vs : list config) : nat -> list T :=
  fun i => map (fun v => rel_pose O v (qf (nth i (items root) (root, None, 0)))) vs.

Lemma loc_of_nth root vs i it : nth_error (items root) i = Some it ->
  loc_of root vs i = map (fun v => rel_pose O v (qf it)) vs.
Proof. intros H. unfold loc_of. rewrite (nth_error_nth _ _ _ H); reflexivity. Qed.

(** the product as the level loop forms it: it starts from the root's own transform, not from the identity *)
Definition path_pose1 (v : config) (fs : list frame) : T :=
  match fs with [] => t_one O | r :: fs => fold_left (fun acc f => t_mul O acc (rel_pose O v f)) fs (rel_pose O v r) end.

Lemma path_pose1_pose v fs : MonoidLaws O -> path_pose1 v fs = path_pose O v fs.
Proof. intros HM. destruct fs as [|r fs]; [reflexivity|]. unfold path_pose; cbn [path_pose1 fold_left]. rewrite (law_1_l _ HM); reflexivity. Qed.

Lemma path_world1 root vs : forall fs f, root_path root (fs ++ [f]) ->
  exists i par, nth_error (items root) i = Some (f, par, length fs) /\
    World (items root) (loc_of root vs) i (map (fun v => path_pose1 v (fs ++ [f])) vs).
Proof.
  induction fs as [|g fs IH] using rev_ind; intros f H.
  - apply root_path_here in H; subst. exists 0, None. split; [apply items_root|].
    replace (map (fun v => path_pose1 v ([] ++ [root])) vs) with (loc_of root vs 0).
    + eapply W_root, items_root.
    + rewrite (loc_of_nth root vs 0 _ (items_root root)). reflexivity.
  - rewrite <- app_assoc in H. apply root_path_unsnoc in H as [H Hc].
    destruct (IH _ H) as (i & par & Hi & HW).
    destruct (items_child _ _ _ _ _ Hi f Hc) as [j Hj].
    exists j, (Some i). split.
    + rewrite app_length, Nat.add_comm; exact Hj.
    + replace (map (fun v => path_pose1 v ((fs ++ [g]) ++ [f])) vs)
        with (zip_with (t_mul O) (map (fun v => path_pose1 v (fs ++ [g])) vs) (loc_of root vs j)).
      * eapply W_child; eauto.
      * rewrite (loc_of_nth _ _ _ _ Hj), zip_with_map. apply map_ext. intros v.
        destruct fs as [|r fs]; cbn [app path_pose1 qf fst]; [reflexivity|].
        rewrite (fold_left_app _ (fs ++ [g])); reflexivity.
Qed.

Lemma path_world root vs : MonoidLaws O -> forall fs f, root_path root (fs ++ [f]) ->
  exists i par, nth_error (items root) i = Some (f, par, length fs) /\
    World (items root) (loc_of root vs) i (map (fun v => path_pose O v (fs ++ [f])) vs).
Proof.
  intros HM fs f H. destruct (path_world1 root vs fs f H) as (i & par & H1 & H2). exists i, par. split; [exact H1|].
  erewrite map_ext; [exact H2|]. intros v. symmetry. apply path_pose1_pose, HM.
Qed.

(** every frame is reached by a path *)
Lemma preorder_path root f : In f (preorder root) -> exists fs, root_path root (fs ++ [f]).
Proof.
  induction root as [n l j cs IH] using frame_rect'. simpl. intros [<-|H].
  - exists []. constructor.
  - apply in_flat_map in H as (c & Hc & Hf). rewrite Forall_forall in IH.
    destruct (IH c Hc Hf) as [fs Hp]. exists (Frame n l j cs :: fs). simpl.
    econstructor; [exact Hc | exact Hp].
Qed.

Lemma root_path_in root fs f : root_path root (fs ++ [f]) -> In f (preorder root).
Proof.
  revert root; induction fs as [|g fs IH]; simpl; intros root H.
  - apply root_path_here in H; subst. rewrite preorder_unfold; left; reflexivity.
  - inversion H as [? E|? x ? Hx Hp]; subst; [try (destruct fs; discriminate)|]; try match goal with E : [] = _ ++ _ |- _ => destruct fs; discriminate E end.
    rewrite preorder_unfold. right. apply in_flat_map. exists x; auto.
Qed.

(** with distinct frame names the index of a frame is unique *)
Lemma items_names_nodup root : distinct_frames root -> NoDup (map (fun it => f_name (qf it)) (items root)).
Proof.
  intros H. rewrite <- (map_map qf f_name).
  eapply Permutation_NoDup; [apply Permutation_map, Permutation_sym, items_perm | exact H].
Qed.

Lemma strip_items root : clean_names root ->
  map (fun it => strip_nl (f_name (qf it))) (items root) = map (fun it => f_name (qf it)) (items root).
Proof.
  intros H. apply map_ext_in. intros it Hin. apply H, items_in_preorder, Hin.
Qed.

Lemma NoDup_nth_inj {X} (l : list X) i j x : NoDup l -> nth_error l i = Some x -> nth_error l j = Some x -> i = j.
Proof.
  intros H Hi Hj. apply (proj1 (NoDup_nth_error l) H); [apply nth_error_Some; congruence | congruence].
Qed.

Lemma index_unique root i j it it' : distinct_frames root ->
  nth_error (items root) i = Some it -> nth_error (items root) j = Some it' ->
  f_name (qf it) = f_name (qf it') -> i = j.
Proof.
  intros Hd Hi Hj E. eapply (NoDup_nth_inj _ i j (f_name (qf it)) (items_names_nodup root Hd)).
  - rewrite nth_error_map, Hi; reflexivity.
  - rewrite nth_error_map, Hj, E; reflexivity.
Qed.

Lemma fold_dset_fresh {X V} (key : nat * X -> string) (val : nat * X -> V) : forall l d,
  NoDup (map fst d ++ map key l) ->
  fold_left (fun d x => dset String.eqb (key x) (val x) d) l d = d ++ map (fun x => (key x, val x)) l.
Proof.
  induction l as [|x r IH]; simpl; intros d H; [rewrite app_nil_r; reflexivity|].
  rewrite (dset_fresh String.eqb seqb_eq).
  - rewrite IH.
    + rewrite <- app_assoc; reflexivity.
    + rewrite map_app, <- app_assoc; exact H.
  - apply NoDup_remove_2 in H. intros Hc. apply H. apply in_or_app; auto.
Qed.

Lemma map_combine_snd {X Y Z} (g : Y -> Z) (a : list X) (b : list Y) : length a = length b ->
  map (fun p => g (snd p)) (combine a b) = map g b.
Proof. revert b; induction a; destruct b; simpl; intros H; try lia; auto. f_equal; auto. Qed.

Lemma f2i_spec root c : distinct_frames root -> clean_names root -> CTab root c ->
  c_f2i c = map (fun ik => (f_name (qf (snd ik)), fst ik)) (combine (seq 0 (length (items root))) (items root)).
Proof.
  intros Hd Hc HC. rewrite (ct_f2i _ _ HC).
  rewrite (fold_dset_fresh (fun ik : nat * qitem => strip_nl (f_name (qf (snd ik)))) fst).
  - simpl. apply map_ext_in. intros [i it] Hin. simpl. apply in_combine_r in Hin.
    rewrite (Hc (qf it)) by apply items_in_preorder, Hin. reflexivity.
  - simpl. rewrite (map_combine_snd (fun it => strip_nl (f_name (qf it)))) by apply seq_length.
    rewrite strip_items by assumption. apply items_names_nodup, Hd.
Qed.

Lemma combine_seq_nth {X} (l : list X) : forall k i x,
  In (i, x) (combine (seq k (length l)) l) <-> (k <= i /\ nth_error l (i - k) = Some x).
Proof.
  induction l as [|y r IH]; intros k i x; simpl.
  - split; [tauto|]. intros [_ H]. destruct (i - k); discriminate.
  - rewrite IH. split.
    + intros [H|[H1 H2]].
      * inversion H; subst. split; [lia|]. rewrite Nat.sub_diag; reflexivity.
      * split; [lia|]. replace (i - k) with (Datatypes.S (i - Datatypes.S k)) by lia. exact H2.
    + intros [H1 H2]. destruct (Nat.eq_dec i k) as [->|Hn].
      * left. rewrite Nat.sub_diag in H2. inversion H2; reflexivity.
      * right. split; [lia|]. replace (i - k) with (Datatypes.S (i - Datatypes.S k)) in H2 by lia. exact H2.
Qed.

Lemma f2i_get root c i it : distinct_frames root -> clean_names root -> CTab root c ->
  nth_error (items root) i = Some it -> dget String.eqb (f_name (qf it)) (c_f2i c) = Some i.
Proof.
  intros Hd Hc HC Hi. apply (dget_nodup String.eqb seqb_eq).
  - rewrite (f2i_spec root) by assumption. rewrite map_map. simpl.
    rewrite (map_combine_snd (fun it => f_name (qf it))) by apply seq_length.
    apply items_names_nodup, Hd.
  - rewrite (f2i_spec root) by assumption. apply in_map_iff. exists (i, it). split; [reflexivity|].
    apply combine_seq_nth. rewrite Nat.sub_0_r. split; [lia | exact Hi].
Qed.

Lemma f2i_keys root c n : distinct_frames root -> clean_names root -> CTab root c ->
  dget String.eqb n (c_f2i c) = None <-> ~ In n (map f_name (preorder root)).
Proof.
  intros Hd Hc HC. rewrite (dget_none String.eqb seqb_eq).
  rewrite (f2i_spec root) by assumption. rewrite map_map. simpl.
  rewrite (map_combine_snd (fun it => f_name (qf it))) by apply seq_length.
  rewrite <- (map_map qf f_name).
  split; intros H Hn; apply H.
  - eapply Permutation_in; [apply Permutation_map, Permutation_sym, items_perm | exact Hn].
  - eapply Permutation_in; [apply Permutation_map, items_perm | exact Hn].
Qed.

Lemma map_fst_combine {X Y} (a : list X) (b : list Y) : length a = length b -> map fst (combine a b) = a.
Proof. revert b; induction a; destruct b; simpl; intros H; try lia; auto. f_equal; auto. Qed.

Lemma i2f_get root c i it : clean_names root -> CTab root c ->
  nth_error (items root) i = Some it -> dget Nat.eqb i (c_i2f c) = Some (f_name (qf it)).
Proof.
  intros Hc HC Hi. apply (dget_nodup Nat.eqb neqb_eq).
  - rewrite (ct_i2f _ _ HC), map_fst_combine by (rewrite map_length; apply seq_length). apply seq_NoDup.
  - rewrite (ct_i2f _ _ HC), strip_items by assumption.
    rewrite <- (map_length (fun it => f_name (qf it)) (items root)).
    apply combine_seq_nth. split; [lia|]. rewrite Nat.sub_0_r, nth_error_map, Hi; reflexivity.
Qed.

(** ** Tensor result: one filled slot per frame, holding the path product *)
Theorem fk_tensor_spec root c vs :
  MonoidLaws O -> distinct_joints root -> chain_init O root = Ok c ->
  exists arr, forward_kinematics_tensor O c (config_tensor root vs) = Ok arr /\
    length arr = size root /\ (forall i, i < size root -> exists w, nth_error arr i = Some (Some w)) /\
    forall fs f, root_path root (fs ++ [f]) ->
      exists i, i < size root /\ dget Nat.eqb i (c_i2f c) = Some (strip_nl (f_name f)) /\
        nth_error arr i = Some (Some (map (fun v => path_pose O v (fs ++ [f])) vs)).
Proof.
  intros HM Hd Hi. destruct (chain_init_ok root) as (c' & Hc' & HC).
  rewrite Hi in Hc'; inversion Hc'; subst c'; clear Hc'.
  destruct (fk_tensor_world root c vs Hd HC) as (arr & Ha & Hl & Hw).
  exists arr. split; [exact Ha|]. rewrite Hl, items_length. split; [reflexivity|].
  split.
  - intros i Hlt. rewrite <- items_length in Hlt. destruct (Hw i Hlt) as (w & H & _); eauto.
  - intros fs f Hp. destruct (path_world root vs HM fs f Hp) as (i & par & Hit & HW).
    assert (Hlt : i < length (items root)) by (apply nth_error_Some; congruence).
    exists i. split; [rewrite <- items_length; exact Hlt|]. split.
    + apply (dget_nodup Nat.eqb neqb_eq).
      * rewrite (ct_i2f _ _ HC), map_fst_combine by (rewrite map_length; apply seq_length). apply seq_NoDup.
      * rewrite (ct_i2f _ _ HC).
        rewrite <- (map_length (fun it => strip_nl (f_name (qf it))) (items root)).
        apply combine_seq_nth. split; [lia|]. rewrite Nat.sub_0_r, nth_error_map, Hit; reflexivity.
    + destruct (Hw i Hlt) as (w & H & HW2). rewrite H. do 2 f_equal.
      eapply world_fun; [exact HW2 | exact HW].
Qed.

(** ** Dictionary result *)
(** pose of every frame, by name *)
Lemma fk_dict_ok root c arr (pose : frame -> list T) :
  clean_names root -> CTab root c ->
  (forall i it, nth_error (items root) i = Some it -> nth_error arr i = Some (Some (pose (qf it)))) ->
  forall idxs its acc, Forall2 (fun i it => nth_error (items root) i = Some it) idxs its ->
  fk_dict c arr idxs acc
  = Ok (fold_left (fun d it => dset String.eqb (f_name (qf it)) (pose (qf it)) d) its acc).
Proof.
  intros Hc HC Ha. induction idxs as [|i idxs IH]; intros its acc H; inversion H as [|? it ? its' H1 H2]; subst.
  - reflexivity.
  - cbn [fk_dict fold_left]. rewrite (i2f_get root c i it) by assumption. cbn [of_opt rbind].
    unfold read_slot, get. rewrite (Ha _ _ H1). cbn [of_opt rbind]. apply IH, H2.
Qed.

Lemma fold_dset_get {X V} (key : X -> string) (val : X -> V) l : forall d x,
  (forall a b, In a l -> In b l -> key a = key b -> val a = val b) -> In x l ->
  dget String.eqb (key x) (fold_left (fun d x => dset String.eqb (key x) (val x) d) l d) = Some (val x).
Proof.
  induction l as [|y r IH] using rev_ind; intros d x Hinj Hx; [contradiction|].
  rewrite fold_left_app; simpl.
  destruct (string_dec (key x) (key y)) as [E|E].
  - rewrite E, (dget_dset_same String.eqb seqb_eq). f_equal.
    apply Hinj; [apply in_or_app; right; left; reflexivity | exact Hx | congruence].
  - rewrite (dget_dset_other String.eqb seqb_eq) by exact E.
    apply IH.
    + intros a b Hal Hbl. apply Hinj; apply in_or_app; auto.
    + apply in_app_or in Hx as [Hx|[->|[]]]; [exact Hx | contradiction].
Qed.

Lemma fold_dset_keys {X V} (key : X -> string) (val : X -> V) l : forall d n,
  In n (map fst (fold_left (fun d x => dset String.eqb (key x) (val x) d) l d))
  <-> In n (map fst d) \/ In n (map key l).
Proof.
  induction l as [|y r IH] using rev_ind; intros d n; [simpl; tauto|].
  rewrite fold_left_app; simpl. rewrite (dset_keys_in String.eqb seqb_eq), IH, map_app, in_app_iff; simpl.
  intuition.
Qed.

Lemma fold_dset_fresh' {X V} (key : X -> string) (val : X -> V) : forall l d,
  NoDup (map fst d ++ map key l) ->
  fold_left (fun d x => dset String.eqb (key x) (val x) d) l d = d ++ map (fun x => (key x, val x)) l.
Proof.
  induction l as [|x r IH]; simpl; intros d H; [rewrite app_nil_r; reflexivity|].
  rewrite (dset_fresh String.eqb seqb_eq).
  - rewrite IH.
    + rewrite <- app_assoc; reflexivity.
    + rewrite map_app, <- app_assoc; exact H.
  - apply NoDup_remove_2 in H. intros Hc. apply H. apply in_or_app; auto.
Qed.

(** frames of a list of names *)
Lemma names_items root c ns : distinct_frames root -> clean_names root -> CTab root c ->
  (forall n, In n ns -> In n (map f_name (preorder root))) ->
  exists idxs its, get_frame_indices c ns = Ok idxs /\
    Forall2 (fun i it => nth_error (items root) i = Some it) idxs its /\
    map (fun it => f_name (qf it)) its = ns.
Proof.
  intros Hd Hc HC. unfold get_frame_indices. induction ns as [|n ns IH]; intros H.
  - exists [], []. repeat split; constructor.
  - destruct IH as (idxs & its & H1 & H2 & H3); [intros; apply H; right; assumption|].
    assert (Hn := H n (or_introl eq_refl)). apply in_map_iff in Hn as (f & Ef & Hf).
    destruct (preorder_in_items root f Hf) as (i & it & Hi & Eq).
    exists (i :: idxs), (it :: its). split; [|split].
    + cbn [rmap]. rewrite <- Ef, <- Eq, (f2i_get root c i it) by assumption. cbn [of_opt rbind].
      rewrite H1; reflexivity.
    + constructor; assumption.
    + simpl. rewrite H3, Eq, Ef; reflexivity.
Qed.

Lemma forall2_in_r {X Y} (P : X -> Y -> Prop) l1 l2 y : Forall2 P l1 l2 -> In y l2 -> exists x, In x l1 /\ P x y.
Proof.
  induction 1 as [|a b l1 l2 Hab _ IH]; simpl; intros H; [contradiction|].
  destruct H as [<-|H]; [eauto|]. destruct (IH H) as (x & ? & ?); eauto.
Qed.

(** requesting frames by name: the dictionary holds exactly these frames, each with its path product;
    no law of the operations is needed *)
Theorem fk_names_raw root c vs ns :
  distinct_joints root -> distinct_frames root -> clean_names root ->
  chain_init O root = Ok c ->
  (forall n, In n ns -> In n (map f_name (preorder root))) ->
  exists idxs d, get_frame_indices c ns = Ok idxs /\
    forward_kinematics O c (config_tensor root vs) (Some idxs) = Ok d /\
    (forall n, In n (map fst d) <-> In n ns) /\
    (NoDup ns -> map fst d = ns) /\
    forall fs f, root_path root (fs ++ [f]) -> In (f_name f) ns ->
      dget String.eqb (f_name f) d = Some (map (fun v => path_pose1 v (fs ++ [f])) vs).
Proof.
  intros Hdj Hdf Hcl Hi Hns. destruct (chain_init_ok root) as (c' & Hc' & HC).
  rewrite Hi in Hc'; inversion Hc'; subst c'; clear Hc'.
  destruct (names_items root c ns Hdf Hcl HC Hns) as (idxs & its & Hx & HF & Hnm).
  destruct (fk_tensor_world root c vs Hdj HC) as (arr & Ha & Hl & Hw).
  set (pose := fun f => match find (fun ix => String.eqb (f_name (qf (snd ix))) (f_name f))
                                   (combine (seq 0 (length (items root))) (items root)) with
                        | Some ix => match nth_error arr (fst ix) with Some (Some w) => w | _ => [] end
                        | None => []
                        end).
  assert (Hpose : forall i it, nth_error (items root) i = Some it ->
                  nth_error arr i = Some (Some (pose (qf it))) /\
                  World (items root) (loc_of root vs) i (pose (qf it))).
  { intros i it Hit. unfold pose.
    destruct (find _ _) as [[k it']|] eqn:E.
    - apply find_some in E as [E1 E2]. apply combine_seq_nth in E1 as [_ E1]. rewrite Nat.sub_0_r in E1.
      simpl in E2. apply String.eqb_eq in E2.
      assert (k = i) by (eapply (index_unique root); eauto). subst k. simpl.
      destruct (Hw i) as (w & H1 & H2); [apply nth_error_Some; congruence|].
      rewrite H1. split; [reflexivity | exact H2].
    - exfalso. assert (Hin : In (i, it) (combine (seq 0 (length (items root))) (items root))).
      { apply combine_seq_nth. rewrite Nat.sub_0_r. split; [lia | exact Hit]. }
      pose proof (find_none _ _ E _ Hin) as Hno. simpl in Hno. rewrite String.eqb_refl in Hno; discriminate. }
  set (d := fold_left (fun d it => dset String.eqb (f_name (qf it)) (pose (qf it)) d) its []).
  exists idxs, d. split; [exact Hx|]. split.
  - unfold forward_kinematics. cbn [rbind]. rewrite Ha. cbn [rbind].
    apply (fk_dict_ok root c arr pose Hcl HC); [|exact HF].
    intros i it Hit. apply Hpose, Hit.
  - split; [|split].
    + intros n. unfold d. rewrite (fold_dset_keys (fun it => f_name (qf it)) (fun it => pose (qf it))).
      rewrite Hnm. simpl. tauto.
    + intros Hnd. unfold d.
      rewrite (fold_dset_fresh' (fun it => f_name (qf it)) (fun it => pose (qf it))).
      * simpl. rewrite map_map. simpl. exact Hnm.
      * simpl. rewrite Hnm; exact Hnd.
    + intros fs f Hp Hin. destruct (path_world1 root vs fs f Hp) as (i & par & Hit & HW).
      rewrite <- Hnm in Hin. apply in_map_iff in Hin as (it & En & Hin).
      destruct (forall2_in_r _ _ _ _ HF Hin) as (k & _ & Hk).
      assert (k = i) by (eapply (index_unique root); eauto). subst k.
      unfold d. rewrite <- En.
      rewrite (fold_dset_get (fun it => f_name (qf it)) (fun it => pose (qf it))); [|  | exact Hin].
      * f_equal. destruct (Hpose i it Hk) as [_ HW2]. eapply world_fun; [exact HW2 | exact HW].
      * intros a b Hal Hbl Hab. destruct (forall2_in_r _ _ _ _ HF Hal) as (ka & _ & Hka).
        destruct (forall2_in_r _ _ _ _ HF Hbl) as (kb & _ & Hkb).
        assert (ka = kb) by (eapply (index_unique root); eauto). congruence.
Qed.

(** requesting frames by name: the dictionary holds exactly these frames, each with its path product *)
Theorem fk_names_spec root c vs ns :
  MonoidLaws O -> distinct_joints root -> distinct_frames root -> clean_names root ->
  chain_init O root = Ok c ->
  (forall n, In n ns -> In n (map f_name (preorder root))) ->
  exists idxs d, get_frame_indices c ns = Ok idxs /\
    forward_kinematics O c (config_tensor root vs) (Some idxs) = Ok d /\
    (forall n, In n (map fst d) <-> In n ns) /\
    (NoDup ns -> map fst d = ns) /\
    forall fs f, root_path root (fs ++ [f]) -> In (f_name f) ns ->
      dget String.eqb (f_name f) d = Some (map (fun v => path_pose O v (fs ++ [f])) vs).
Proof.
  intros HM Hdj Hdf Hcl Hi Hns.
  destruct (fk_names_raw root c vs ns Hdj Hdf Hcl Hi Hns) as (idxs & d & H1 & H2 & H3 & H4 & H5).
  exists idxs, d. repeat (split; [assumption|]). intros fs f Hp Hin. rewrite (H5 fs f Hp Hin).
  f_equal. apply map_ext. intros v. apply path_pose1_pose, HM.
Qed.

(** all frames: keys are the frame names in depth-first order *)
Theorem fk_all_raw root c vs :
  distinct_joints root -> distinct_frames root -> clean_names root ->
  chain_init O root = Ok c ->
  exists d, forward_kinematics O c (config_tensor root vs) None = Ok d /\
    map fst d = map f_name (preorder root) /\
    forall fs f, root_path root (fs ++ [f]) ->
      dget String.eqb (f_name f) d = Some (map (fun v => path_pose1 v (fs ++ [f])) vs).
Proof.
  intros Hdj Hdf Hcl Hi.
  destruct (fk_names_raw root c vs (map f_name (preorder root)) Hdj Hdf Hcl Hi) as
    (idxs & d & H1 & H2 & _ & H3 & H4); [auto|].
  exists d. split; [|split].
  - unfold forward_kinematics in *. cbn [rbind] in H2. unfold get_all_frame_indices.
    destruct (chain_init_ok root) as (c' & Hc' & HC). rewrite Hi in Hc'; inversion Hc'; subst c'; clear Hc'.
    rewrite (ct_root _ _ HC), frame_names_spec by exact Hdf. rewrite H1. cbn [rbind]. exact H2.
  - apply H3, Hdf.
  - intros fs f Hp. apply (H4 fs f Hp). apply in_map, root_path_in with (fs := fs), Hp.
Qed.

Theorem fk_all_spec root c vs :
  MonoidLaws O -> distinct_joints root -> distinct_frames root -> clean_names root ->
  chain_init O root = Ok c ->
  exists d, forward_kinematics O c (config_tensor root vs) None = Ok d /\
    map fst d = map f_name (preorder root) /\
    forall fs f, root_path root (fs ++ [f]) ->
      dget String.eqb (f_name f) d = Some (map (fun v => path_pose O v (fs ++ [f])) vs).
Proof.
  intros HM Hdj Hdf Hcl Hi. destruct (fk_all_raw root c vs Hdj Hdf Hcl Hi) as (d & H1 & H2 & H3).
  exists d. repeat (split; [assumption|]). intros fs f Hp. rewrite (H3 fs f Hp).
  f_equal. apply map_ext. intros v. apply path_pose1_pose, HM.
Qed.
End Proofs.
