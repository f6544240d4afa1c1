(** The tensor program of forward kinematics for a chain built from a tree, and with joint tensors of a wrong width. *)
From Coq Require Import Reals Lra Bool Arith Lia List.
From Verif Require Import Prelude ExtF Lin Trig RotModel TorchModel RotTorchModel SpecTorch SpecFkTorch TorchProofs RotTorch Tree SpecFK ChainModel ChainProofs ChainInst SerialModel FkTorchModel FkTorch.
Import ListNotations.
Local Open Scope nat_scope.

Lemma chain_tab (root : mframe) c : chain_init mops root = Ok c -> CTab mops root c.
Proof. intros H. destruct (chain_init_ok mops root) as (c' & Hc & T). rewrite H in Hc. injection Hc as ->. exact T. Qed.
Lemma jclamp_lt (root : mframe) c : CTab mops root c -> c_has_rev c || c_has_pris c = true -> Forall (fun k => k < length (c_axes c)) (c_jclamp c).
Proof.
  intros T H. assert (N : length (moving_names root) <> 0).
  { rewrite (ct_has_rev _ _ _ T), (ct_has_pris _ _ _ T), (ct_jtype _ _ _ T) in H. apply orb_true_iff in H as [H | H]; [exact (existsb_type_n root 1 ltac:(lia) H) | exact (existsb_type_n root 2 ltac:(lia) H)]. }
  rewrite (ct_alen _ _ _ T), (ct_jclamp _ _ _ T). apply Forall_forall. intros k I. apply in_map_iff in I as (it & <- & _). destruct (jix (moving_names root) (qf it)) as [ji|] eqn:E; [|lia].
  apply jix_some in E as [_ E]. apply nth_error_Some. congruence.
Qed.
Lemma fk_chain_sim (root : mframe) c static axes th cols B junk arr : chain_init mops root = Ok c -> holds_m4 static (c_static c) -> holds_v3 axes (c_axes c) -> shape th = [cols; B] ->
  0 < B \/ cols = length (c_axes c) -> forward_kinematics_tensor mops c (rows_of th cols B) = Ok arr ->
  exists W, agrees (c_nf c) B arr W /\ M2 (fk_t junk c static axes th) B (c_nf c) W.
Proof.
  intros Hc (S1 & H1) (S2 & H2) E PB H. pose proof (chain_tab root c Hc) as T. unfold forward_kinematics_tensor in H. unfold fk_t.
  assert (L1 : length (c_static c) = c_nf c) by (rewrite (ct_static _ _ _ T), (ct_nf _ _ _ T), map_length; reflexivity). rewrite L1 in S1.
  refine (fk_sim th static axes (c_static c) (c_axes c) (c_jclamp c) (c_jtype c) (c_dpar c) (c_has_rev c) (c_has_pris c) (c_nf c) (length (c_axes c)) cols B E S2 eq_refl _ S1 L1 _ _ _ _ PB junk (c_levels c) arr H).
  - intros j L. apply H2, nth_error_nth', L.
  - intros f L. apply H1, nth_error_nth'. rewrite L1. exact L.
  - rewrite (ct_jclamp _ _ _ T), (ct_nf _ _ _ T), map_length. reflexivity.
  - rewrite (ct_jtype _ _ _ T), (ct_nf _ _ _ T), map_length. reflexivity.
  - exact (jclamp_lt root c T).
Qed.

(** ** A wrong width *)
Lemma not_tog n cols B C : cols <> n -> cols <> 1 -> n <> 1 -> ~ together [n; B] [cols; B] C.
Proof. intros H1 H2 H3 T. inversion T; subst; congruence. Qed.
Lemma bad_33' t u A B : shape t = 3 :: A -> shape u = B -> (forall C, ~ together A B C) -> axis_and_angle_to_matrix_33_t (Ok t) (Ok u) = Err RuntimeError.
Proof.
  intros E1 E2 N. unfold axis_and_angle_to_matrix_33_t, stack2, stack, one. cbv zeta. cbn [all_ok]. rewrite !(unb_ok t 3 _ A E1).
  assert (P : exists p, op2 Rmult (Ok (mkT A (fun i => at_ t (0 :: i)))) (Ok (mkT A (fun i => at_ t (0 :: i)))) = Ok p /\ shape p = A).
  { assert (G : is_t (op2 Rmult (Ok (mkT A (fun i => at_ t (0 :: i)))) (Ok (mkT A (fun i => at_ t (0 :: i))))) A (fun i => Rmult (at_ t (0 :: i)) (at_ t (0 :: i)))) by (apply t_op2_same; apply is_in; reflexivity).
    destruct G as (p & Ep & Sp & _). eauto. }
  assert (O : exists o, op2 Rminus (num 1) (op1 cos (Ok u)) = Ok o /\ shape o = B).
  { assert (G : is_t (op2 Rminus (num 1) (op1 cos (Ok u))) B (fun i => (1 - cos (at_ u i))%R)) by (apply t_op2_num_l, t_op1, is_in, E2). destruct G as (p & Ep & Sp & _). eauto. }
  destruct P as (p & -> & Sp). destruct O as (o & -> & So). rewrite (bad_op2 Rmult p o) by (rewrite Sp, So; exact N). reflexivity.
Qed.
Definition badlaw (mt : ten R -> ten R -> ten R) : Prop :=
  forall t u n cols B, shape t = [3; n; B] -> shape u = [cols; B] -> cols <> n -> cols <> 1 -> mt (Ok t) (Ok u) = Err RuntimeError.
Lemma tog_11 cols B : together [1; B] [cols; B] [cols; B]. Proof. apply tg_one_l, tog_refl. Qed.
Lemma badlaw_44 : badlaw axis_and_angle_to_matrix_44_t.
Proof.
  intros t u n cols B E1 E2 H1 H2. unfold axis_and_angle_to_matrix_44_t. cbv zeta. cbn [rbind]. destruct (Nat.eq_dec n 1) as [-> | N].
  - destruct (row_33 t u [1; B] [cols; B] [cols; B] E1 E2 (tog_11 cols B)) as (r & -> & Sr & _). unfold full. rewrite (put_bad block33); [reflexivity|]. rewrite Sr, E1. cbn [shape app tl block33_shape fits Nat.eqb orb andb].
    rewrite (proj2 (Nat.eqb_neq cols 1) H2). reflexivity.
  - rewrite (bad_33' t u [n; B] [cols; B] E1 E2 (fun C => not_tog n cols B C H1 H2 N)). unfold full. reflexivity.
Qed.
Lemma badlaw_pris : badlaw axis_and_d_to_pris_matrix_t.
Proof.
  intros t u n cols B E1 E2 H1 H2. unfold axis_and_d_to_pris_matrix_t, one. cbv zeta. cbn [rbind]. rewrite E1. cbn [tl].
  assert (G : exists m, put (cell 3) cell_shape (put (cell 2) cell_shape (put (cell 1) cell_shape (put (cell 0) cell_shape (full [4; 4; n; B] 0%R) (num 1)) (num 1)) (num 1)) (num 1) = Ok m /\ shape m = [4; 4; n; B]).
  { assert (X : exists f, is_t (put (cell 3) cell_shape (put (cell 2) cell_shape (put (cell 1) cell_shape (put (cell 0) cell_shape (full [4; 4; n; B] 0%R) (num 1)) (num 1)) (num 1)) (num 1)) [4; 4; n; B] f) by (eexists; tt).
    destruct X as (f & m & Em & Sm & _). eauto. }
  destruct G as (m & -> & Sm). destruct (Nat.eq_dec n 1) as [-> | N].
  - assert (G : exists p, op2 Rmult (Ok t) (unsqueeze (Ok u)) = Ok p /\ shape p = [3; cols; B]).
    { pose proof (tog_11 cols B) as T. assert (X : exists f, is_t (op2 Rmult (Ok t) (unsqueeze (Ok u))) [3; cols; B] f) by (eexists; tt). destruct X as (f & p & Ep & Sp & _). eauto. }
    destruct G as (p & -> & Sp). apply put_bad. rewrite Sp, Sm. cbn [col3_shape tl fits Nat.eqb orb andb]. rewrite (proj2 (Nat.eqb_neq cols 1) H2). reflexivity.
  - unfold unsqueeze. cbn [rbind]. rewrite bad_op2; [reflexivity|]. intros s T. rewrite E1 in T. cbn [shape] in T. rewrite E2 in T. inversion T; subst; eapply (not_tog n cols B); eassumption.
Qed.
Lemma per_frame_bad mt axes th n cols B jidx : badlaw mt -> shape axes = [3; n] -> shape th = [cols; B] -> cols <> n -> cols <> 1 ->
  per_frame_t mt axes th n cols B jidx true = if cols =? 0 then None else Some (Err RuntimeError).
Proof.
  intros L E1 E2 H1 H2. unfold per_frame_t. rewrite andb_true_r. destruct cols as [|cols]; [reflexivity|]. cbn [Nat.ltb Nat.leb Nat.eqb]. destruct (axes_exp axes n B E1) as (t & -> & St & _). rewrite (L t th n (S cols) B St E2 H1 H2). reflexivity.
Qed.
Lemma jt_bad th axes n cols B jidx jtypes hr hp nf : shape axes = [3; n] -> shape th = [cols; B] -> cols <> n -> cols <> 1 -> hr || hp = true ->
  joint_transforms_t th axes n cols B jidx jtypes hr hp nf = Err (if cols =? 0 then UnboundLocalError else RuntimeError).
Proof.
  intros E1 E2 H1 H2 H. unfold joint_transforms_t. cbv zeta. assert (OK1 : forall g, exists t, reshape [1; 1; 1; length jtypes] (op1 g (vec 0 jtypes)) = Ok (t : tensor bool)) by (intros g; destruct (t_flag4 g jtypes) as (t & -> & _); eauto).
  assert (U : forall g (a b : ten R), (exists x, a = Err x) -> where_ (reshape [1; 1; 1; length jtypes] (op1 g (vec 0 jtypes))) a b = a).
  { intros g a b (x & ->). unfold where_. destruct (OK1 g) as (t & ->). reflexivity. }
  destruct hr, hp; try discriminate; cbn [andb negb]; rewrite ?(per_frame_bad _ axes th n cols B jidx badlaw_44 E1 E2 H1 H2), ?(per_frame_bad _ axes th n cols B jidx badlaw_pris E1 E2 H1 H2); destruct (cols =? 0); cbn [after bound rbind]; try reflexivity.
  all: try (unfold per_frame_t; rewrite andb_false_r; cbn [after bound rbind]); first [reflexivity | apply U; eauto].
Qed.
Lemma fk_bad (root : mframe) c static axes th cols B junk : chain_init mops root = Ok c -> holds_v3 axes (c_axes c) -> shape th = [cols; B] -> moving_names root <> [] -> cols <> length (c_axes c) -> cols <> 1 ->
  fk_t junk c static axes th = Err (if cols =? 0 then UnboundLocalError else RuntimeError).
Proof.
  intros Hc (S2 & _) E N H1 H2. pose proof (chain_tab root c Hc) as T. unfold fk_t, fk_impl_t. rewrite E, S2. rewrite (jt_bad th axes _ cols B _ _ _ _ _ S2 E H1 H2); [destruct (cols =? 0); reflexivity|].
  rewrite (ct_has_rev _ _ _ T), (ct_has_pris _ _ _ T), (ct_jtype _ _ _ T). destruct (existsb (Nat.eqb 1) _) eqn:Q1; [reflexivity|]. destruct (existsb (Nat.eqb 2) _) eqn:Q2; [reflexivity|]. exfalso. apply N.
  pose proof (existsb_type root 1 Q1) as X1. pose proof (existsb_type root 2 Q2) as X2. destruct (moving_names root) as [|x r] eqn:M; [reflexivity|].
  assert (I : In x (moving_names root)) by (rewrite M; left; reflexivity). unfold moving_names in I. apply in_map_iff in I as (f & _ & I). apply filter_In in I as (I & Mf). destruct (preorder_in_items root f I) as (i & it & Hi & Ei). apply nth_error_In in Hi.
  specialize (X1 it Hi). specialize (X2 it Hi). rewrite Ei in X1, X2. unfold moving in Mf. destruct (j_type (f_joint f)); cbn in X1, X2, Mf; congruence.
Qed.
