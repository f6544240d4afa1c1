(** Proofs about dtypes and devices. *)
From Coq Require Import String Bool Arith Lia List.
From Verif Require Import Prelude ExtF Tree ChainModel SpecFK ChainProofs SerialModel SerialProofs DevModel SpecDev.
Import ListNotations.
Local Open Scope nat_scope.

Lemma dtype_eqb_refl d : dtype_eqb d d = true.
Proof. destruct d; reflexivity. Qed.
Lemma dtype_eqb_eq a b : dtype_eqb a b = true -> a = b.
Proof. destruct a, b; simpl; congruence. Qed.
Lemma tensor_eta t : mkT (t_dt t) (t_dev t) = t.
Proof. destruct t; reflexivity. Qed.

Section Dev.
Variable promo : dtype -> dtype -> res dtype.
Variable conv : dtype -> dtype -> bool.
Hypothesis HT : torch_like promo conv.

Lemma matmul_same t : matmul t t = Ok t.
Proof. unfold matmul. rewrite Nat.eqb_refl, dtype_eqb_refl. reflexivity. Qed.
Lemma matmul_inv a b r : matmul a b = Ok r -> a = b /\ r = a.
Proof.
  unfold matmul. destruct (Nat.eqb_spec (t_dev a) (t_dev b)) as [E|E]; [|discriminate].
  destruct (dtype_eqb (t_dt a) (t_dt b)) eqn:D; [|discriminate]. apply dtype_eqb_eq in D.
  simpl. intros H. injection H as <-. split; [|reflexivity]. destruct a, b; simpl in *; congruence.
Qed.
Lemma matmul_diff a b : a <> b -> matmul a b = Err RuntimeError.
Proof.
  intros H. destruct (matmul a b) as [r|e] eqn:E.
  - apply matmul_inv in E. tauto.
  - unfold matmul in E. destruct (_ && _)%bool; congruence.
Qed.
Lemma join_same t : join promo t t = Ok t.
Proof. unfold join. rewrite Nat.eqb_refl. rewrite (proj1 (HT (t_dt t))). cbn [rbind]. rewrite tensor_eta. reflexivity. Qed.
Lemma stack_same t l : l <> [] -> (forall x, In x l -> x = t) -> stack promo l = Ok t.
Proof.
  induction l as [|a r IH]; intros Hn H; [congruence|].
  assert (a = t) by (apply H; left; reflexivity). subst a.
  destruct r as [|b r]; [reflexivity|]. change (stack promo (t :: b :: r)) with (do x <- stack promo (b :: r); join promo t x).
  rewrite IH; [|discriminate|intros; apply H; right; assumption]. cbn [rbind]. apply join_same.
Qed.
Lemma where_same c t : t_dev c = t_dev t -> where_ promo c t t = Ok t.
Proof. intros H. unfold where_. rewrite join_same. cbn [rbind]. rewrite H, Nat.eqb_refl. reflexivity. Qed.
Lemma gather_same a i : t_dev i = t_dev a -> gather a i = Ok a.
Proof. intros H. unfold gather. rewrite H, Nat.eqb_refl, orb_true_r. reflexivity. Qed.
Lemma gather_inv a i r : gather a i = Ok r -> r = a.
Proof. unfold gather. destruct (_ || _)%bool; congruence. Qed.
Lemma iput_same a i : t_dev i = t_dev a -> iput conv a i a = Ok a.
Proof.
  intros H. unfold iput. rewrite gather_same by exact H. cbn [rbind].
  rewrite Nat.eqb_refl, (proj2 (HT (t_dt a))). reflexivity.
Qed.
Lemma iput_inv a i b r : iput conv a i b = Ok r -> r = a.
Proof.
  unfold iput. destruct (gather a i) as [x|e]; cbn [rbind]; [|discriminate]. destruct (_ && _)%bool; congruence.
Qed.
Lemma joint_matrices_same t : joint_matrices t t = Ok t.
Proof. unfold joint_matrices. rewrite Nat.eqb_refl. reflexivity. Qed.

(** ** [to] *)
Lemma trans_to_at dt dv m : honest m -> trans_to dt dv m = mkTr dt dv (mkT dt dv).
Proof.
  unfold trans_to, honest. destruct (dtype_eqb (a_dt m) dt) eqn:D; simpl; [|reflexivity].
  destruct (Nat.eqb_spec (a_dev m) dv) as [E|E]; [|reflexivity].
  apply dtype_eqb_eq in D. intros H. destruct m as [x y z]; simpl in *. subst. reflexivity.
Qed.
Lemma preorder_to dt dv (f : tframe) : preorder (frame_to dt dv f) = map (frame_to dt dv) (preorder f).
Proof.
  induction f as [n l j cs IH] using frame_rect'. cbn [frame_to preorder map]. f_equal.
  induction IH as [|c r Hc _ IH]; cbn [map flat_map]; [reflexivity|]. rewrite map_app, Hc, IH. reflexivity.
Qed.
Lemma frame_to_at root t : honest_tree root -> tree_at (frame_to (t_dt t) (t_dev t) root) t.
Proof.
  intros Hh f Hf. rewrite preorder_to in Hf. apply in_map_iff in Hf as (g & <- & Hg).
  destruct g as [n l j cs]. cbn [frame_to f_joint f_link link_to joint_to j_axis l_off j_off ten_to].
  split; [apply tensor_eta|]. intros m [Hm|Hm].
  - destruct (l_off l) as [o|] eqn:E; simpl in Hm; [|discriminate]. injection Hm as <-.
    rewrite trans_to_at by (apply (Hh _ o Hg); left; exact E). rewrite tensor_eta. reflexivity.
  - destruct (j_off j) as [o|] eqn:E; simpl in Hm; [|discriminate]. injection Hm as <-.
    rewrite trans_to_at by (apply (Hh _ o Hg); right; exact E). rewrite tensor_eta. reflexivity.
Qed.
Lemma tree_at_honest root t : tree_at root t -> honest_tree root.
Proof.
  intros H f m Hf Hm. destruct (H f Hf) as [_ Hx]. rewrite (Hx m Hm). unfold honest. cbn. rewrite tensor_eta. reflexivity.
Qed.

Lemma to_at c dt dv : let d := match dt with Some d => d | None => k_dtype c end in
  let v := match dv with Some v => v | None => k_device c end in chain_at (tag_to c dt dv) (mkT d v).
Proof.
  cbv zeta. set (d := match dt with Some d => d | None => k_dtype c end). set (v := match dv with Some v => v | None => k_device c end).
  split; [reflexivity|]. split; [reflexivity|]. split.
  - intros x Hx. unfold float_tensors in Hx. apply in_app_or in Hx as [Hx|Hx].
    + cbn [tag_to k_identity k_low k_high k_axes k_static k_mask] in Hx. fold d v in Hx. unfold ten_to in Hx.
      repeat (destruct Hx as [Hx|Hx]; [symmetry; exact Hx|]). destruct Hx.
    + cbn [tag_to k_loff k_joff] in Hx. fold d v in Hx. rewrite <- map_app in Hx. apply in_flat_map in Hx as (o & Ho & Hx).
      apply in_map_iff in Ho as (o' & <- & _). destruct o' as [t|]; simpl in Hx; [|tauto]. destruct Hx as [<-|[]]. reflexivity.
  - intros x Hx. unfold index_tensors in Hx. cbn [tag_to k_parents k_levels k_jtype k_jidx k_dpar k_jclamp k_dof_frame k_dof_rev] in Hx.
    fold d v in Hx. apply in_app_or in Hx as [Hx|Hx]; [apply in_map_iff in Hx as (y & <- & _); reflexivity|].
    apply in_app_or in Hx as [Hx|Hx]; [apply in_map_iff in Hx as (y & <- & _); reflexivity|].
    repeat (destruct Hx as [Hx|Hx]; [subst x; reflexivity|]). destruct Hx.
Qed.

(** ** Construction *)
Lemma visited_in root f : In f (visited root) <-> In f (preorder root).
Proof.
  unfold visited. split; intros H.
  - apply in_map_iff in H as (it & <- & Hi). apply items_in_preorder, Hi.
  - destruct (preorder_in_items root f H) as (i & it & Hi & <-). apply in_map, nth_error_In with i, Hi.
Qed.
Lemma visited_nonempty root : visited root <> [].
Proof.
  intros E. assert (H : In root (visited root)) by (apply visited_in; rewrite preorder_unfold; left; reflexivity).
  rewrite E in H. destruct H.
Qed.
Lemma static_error eye f e : static_tensor eye f = Err e -> e = RuntimeError.
Proof. unfold static_tensor, matmul. destruct (_ && _)%bool; congruence. Qed.
Lemma rmap_error {X Y} (g : X -> res Y) (P : exn -> Prop) l x e0 : (forall y e, In y l -> g y = Err e -> P e) ->
  In x l -> g x = Err e0 -> exists e, rmap g l = Err e /\ P e.
Proof.
  intros HP. induction l as [|y r IH]; intros Hx He; [destruct Hx|]. cbn [rmap].
  destruct (g y) as [b|e] eqn:E.
  - destruct Hx as [->|Hx]; [congruence|]. destruct IH as (e & H1 & H2); [intros; eapply HP; [right|]; eassumption|assumption..|].
    exists e. rewrite H1. split; [reflexivity|exact H2].
  - exists e. split; [reflexivity|]. eapply HP; [left; reflexivity|exact E].
Qed.
Lemma stack_error l e : (forall a b x, promo a b = Err x -> x = RuntimeError) -> stack promo l = Err e -> e = RuntimeError.
Proof.
  intros Hp. induction l as [|a r IH]; [simpl; congruence|]. destruct r as [|b r]; [discriminate|].
  change (stack promo (a :: b :: r)) with (do x <- stack promo (b :: r); join promo a x).
  destruct (stack promo (b :: r)) as [x|x]; cbn [rbind]; [|intros H; apply IH; exact H].
  unfold join. destruct (Nat.eqb _ _); [|congruence]. destruct (promo (t_dt a) (t_dt x)) eqn:E; cbn [rbind]; [discriminate|].
  intros H. injection H as <-. eapply Hp, E.
Qed.

(** a frame with exactly one offset, on another dtype or device, stops the construction *)
Lemma init_mixed root f m dt dv : In f (preorder root) ->
  (l_off (f_link f) = Some m /\ j_off (f_joint f) = None \/ l_off (f_link f) = None /\ j_off (f_joint f) = Some m) ->
  a_mat m <> mkT dt dv -> tag_init promo root dt dv = Err RuntimeError.
Proof.
  intros Hf Ho Hd. unfold tag_init. destruct (chain_init_ok shape_ops root) as (c & Hc & _). rewrite Hc. cbn [rbind].
  destruct (rmap_error (static_tensor (mkT dt dv)) (fun e => e = RuntimeError) (visited root) f RuntimeError) as (e & He & ->).
  - intros y e _ H. eapply static_error, H.
  - apply visited_in, Hf.
  - unfold static_tensor, link_matrix, joint_matrix. destruct Ho as [[-> ->]|[-> ->]]; cbn [option_map]; apply matmul_diff; congruence.
  - rewrite He. reflexivity.
Qed.
(** no device but the CPU *)
Lemma init_device root dt dv : dv <> cpu -> (forall a b x, promo a b = Err x -> x = RuntimeError) ->
  tag_init promo root dt dv = Err RuntimeError.
Proof.
  intros Hd Hp. unfold tag_init. destruct (chain_init_ok shape_ops root) as (c & Hc & _). rewrite Hc. cbn [rbind].
  destruct (rmap (static_tensor (mkT dt dv)) (visited root)) as [so|e] eqn:E1; cbn [rbind].
  - destruct (stack promo so) as [st|e] eqn:E2; cbn [rbind]; [|f_equal; eapply stack_error; eassumption].
    unfold gather. cbn [t_dev]. apply Nat.eqb_neq in Hd. rewrite Hd. reflexivity.
  - f_equal. clear - E1. revert e E1. induction (visited root) as [|f r IH]; intros e E1; cbn [rmap] in E1; [discriminate|].
    destruct (static_tensor (mkT dt dv) f) as [x|x] eqn:E; cbn [rbind] in E1.
    + destruct (rmap (static_tensor (mkT dt dv)) r) as [y|y]; cbn [rbind] in E1; [discriminate|]. apply IH. congruence.
    + apply static_error in E. congruence.
Qed.

Definition offsets_at (root : tframe) (t : tensor) : Prop := forall f m, In f (preorder root) ->
  l_off (f_link f) = Some m \/ j_off (f_joint f) = Some m -> a_mat m = t.
Lemma static_at root t f : offsets_at root t -> In f (preorder root) -> static_tensor t f = Ok t.
Proof.
  intros Ho Hf. unfold static_tensor, link_matrix, joint_matrix.
  replace (match option_map a_mat (l_off (f_link f)) with Some m => m | None => t end) with t.
  2:{ destruct (l_off (f_link f)) as [m|] eqn:E; cbn [option_map]; [|reflexivity]. symmetry. apply (Ho f m Hf); auto. }
  replace (match option_map a_mat (j_off (f_joint f)) with Some m => m | None => t end) with t.
  2:{ destruct (j_off (f_joint f)) as [m|] eqn:E; cbn [option_map]; [|reflexivity]. symmetry. apply (Ho f m Hf); auto. }
  apply matmul_same.
Qed.
Lemma init_at root dt : offsets_at root (mkT dt cpu) ->
  exists c, tag_init promo root dt cpu = Ok c /\ chain_at c (mkT dt cpu) /\ k_root c = root /\ chain_init shape_ops root = Ok (k_shape c).
Proof.
  intros Ho. set (t := mkT dt cpu) in *. unfold tag_init. destruct (chain_init_ok shape_ops root) as (c & Hc & _). rewrite Hc. cbn [rbind].
  assert (E1 : rmap (static_tensor t) (visited root) = Ok (map (fun _ => t) (visited root))).
  { apply rmap_ok_forall2. assert (Hv : forall f, In f (visited root) -> static_tensor t f = Ok t) by (intros; apply (static_at root); [exact Ho|apply visited_in; assumption]).
    clear - Hv. induction (visited root) as [|f r IH]; simpl; constructor; [apply Hv; left; reflexivity|apply IH; intros; apply Hv; right; assumption]. }
  fold t. rewrite E1. cbn [rbind].
  rewrite (stack_same t).
  2:{ intros E. apply map_eq_nil in E. exact (visited_nonempty root E). }
  2:{ intros x Hx. apply in_map_iff in Hx as (y & <- & _). reflexivity. }
  cbn [rbind]. unfold gather. cbn [t_dev cpu Nat.eqb orb rbind]. eexists. split; [reflexivity|]. split; [|split; reflexivity].
  split; [reflexivity|]. split; [reflexivity|]. split.
  - intros x Hx. unfold float_tensors in Hx. cbn [k_identity k_low k_high k_axes k_static k_mask k_loff k_joff] in Hx.
    apply in_app_or in Hx as [Hx|Hx]; [repeat (destruct Hx as [Hx|Hx]; [symmetry; exact Hx|]); destruct Hx|].
    apply in_flat_map in Hx as (o & Hoo & Hx). destruct o as [y|]; [|destruct Hx]. destruct Hx as [<-|[]].
    apply in_app_or in Hoo as [Hoo|Hoo]; apply in_map_iff in Hoo as (f & Ef & Hf); apply visited_in in Hf.
    + unfold link_matrix in Ef. destruct (l_off (f_link f)) as [m|] eqn:Em; cbn [option_map] in Ef; [|discriminate].
      injection Ef as <-. apply (Ho f m Hf); auto.
    + unfold joint_matrix in Ef. destruct (j_off (f_joint f)) as [m|] eqn:Em; cbn [option_map] in Ef; [|discriminate].
      injection Ef as <-. apply (Ho f m Hf); auto.
  - intros x Hx. unfold index_tensors in Hx. cbn [k_parents k_levels k_jtype k_jidx k_dpar k_jclamp k_dof_frame k_dof_rev] in Hx.
    apply in_app_or in Hx as [Hx|Hx]; [apply in_map_iff in Hx as (y & <- & _); reflexivity|].
    apply in_app_or in Hx as [Hx|Hx]; [apply in_map_iff in Hx as (y & <- & _); reflexivity|].
    repeat (destruct Hx as [Hx|Hx]; [subst x; reflexivity|]). destruct Hx.
Qed.

(** ** Forward kinematics *)
Lemma held_levels c : held promo c -> k_levels c <> [].
Proof.
  induction 1 as [root dt dv c H|c dt dv H IH].
  - unfold tag_init in H. destruct (chain_init_ok shape_ops root) as (c' & Hc & HC). rewrite Hc in H. cbn [rbind] in H.
    destruct (rmap _ _) as [so|]; cbn [rbind] in H; [|discriminate]. destruct (stack promo so) as [st|]; cbn [rbind] in H; [|discriminate].
    destruct (gather _ _) as [jt|]; cbn [rbind] in H; [|discriminate]. injection H as <-. cbn [k_levels].
    intros E. apply map_eq_nil in E. rewrite (ct_levels _ _ _ HC) in E. unfold bfs_levels in E. apply map_eq_nil in E. discriminate.
  - cbn [tag_to k_levels]. intros E. apply map_eq_nil in E. auto.
Qed.

Lemma at_floats c t : chain_at c t -> k_axes c = t /\ k_static c = t /\ k_mask c = t.
Proof. intros (_ & _ & H & _). repeat split; apply H; unfold float_tensors; apply in_or_app; left; simpl; tauto. Qed.
Lemma at_index c t : chain_at c t -> t_dev (k_jtype c) = t_dev t /\ t_dev (k_dpar c) = t_dev t /\ t_dev (k_jclamp c) = t_dev t /\
  t_dev (k_dof_frame c) = t_dev t /\ t_dev (k_dof_rev c) = t_dev t /\ (forall l, In l (k_levels c) -> t_dev l = t_dev t).
Proof.
  intros (_ & _ & _ & H). unfold index_tensors in H.
  repeat split; try (apply H; apply in_or_app; right; apply in_or_app; right; simpl; tauto).
  intros l Hl. apply H. apply in_or_app; right; apply in_or_app; left; exact Hl.
Qed.
Lemma levels_same dpar t ls : t_dev dpar = t_dev t -> (forall l, In l ls -> t_dev l = t_dev t) ->
  level_tensors conv dpar t t ls = Ok t.
Proof.
  intros Hp. induction ls as [|l r IH]; intros H; [reflexivity|]. cbn [level_tensors].
  assert (Hl : t_dev l = t_dev t) by (apply H; left; reflexivity).
  rewrite (gather_same dpar) by congruence. cbn [rbind]. rewrite (gather_same t dpar) by congruence. cbn [rbind].
  rewrite gather_same by congruence. cbn [rbind]. rewrite matmul_same. cbn [rbind]. rewrite iput_same by exact Hl. cbn [rbind].
  apply IH. intros; apply H; right; assumption.
Qed.
Lemma joints_same c t : chain_at c t -> joint_tensors promo c t = Ok t.
Proof.
  intros Hc. destruct (at_floats _ _ Hc) as (Ha & _). destruct (at_index _ _ Hc) as (H1 & _ & H3 & _).
  unfold joint_tensors. rewrite Ha, joint_matrices_same. cbn [rbind]. rewrite gather_same by congruence. cbn [rbind].
  destruct (c_has_rev _), (c_has_pris _); cbn [rbind]; rewrite ?where_same by congruence; cbn [rbind]; rewrite ?where_same by congruence; reflexivity.
Qed.
Lemma fk_same c t : k_levels c <> [] -> chain_at c t -> fk_tensor promo conv c t = Ok t.
Proof.
  intros Hn Hc. unfold fk_tensor. rewrite joints_same by exact Hc. cbn [rbind].
  destruct (at_floats _ _ Hc) as (_ & Hs & _). destruct (at_index _ _ Hc) as (_ & H2 & _ & _ & _ & H6).
  rewrite Hs, matmul_same. cbn [rbind]. destruct (k_levels c) as [|l0 r]; [congruence|].
  assert (Hl : t_dev l0 = t_dev t) by (apply H6; left; reflexivity).
  rewrite gather_same by exact Hl. cbn [rbind]. rewrite iput_same by exact Hl. cbn [rbind].
  apply levels_same; [exact H2|intros; apply H6; right; assumption].
Qed.
Lemma levels_result dpar loc ls : forall w r, level_tensors conv dpar w loc ls = Ok r -> r = w /\ (ls <> [] -> loc = w).
Proof.
  induction ls as [|l ls IH]; intros w r H; cbn [level_tensors] in H; [injection H as <-; split; congruence|].
  destruct (gather dpar l) as [p|]; cbn [rbind] in H; [|discriminate].
  destruct (gather w p) as [w'|] eqn:E1; cbn [rbind] in H; [|discriminate]. apply gather_inv in E1. subst w'.
  destruct (gather loc l) as [x|] eqn:E2; cbn [rbind] in H; [|discriminate]. apply gather_inv in E2. subst x.
  destruct (matmul w loc) as [m|] eqn:E3; cbn [rbind] in H; [|discriminate]. apply matmul_inv in E3 as [E3 ->].
  destruct (iput conv w l w) as [v|] eqn:E4; cbn [rbind] in H; [|discriminate]. apply iput_inv in E4. subst v.
  apply IH in H as [H _]. split; [exact H|]. intros _. congruence.
Qed.
(** a result always has the dtype and device of the joint values *)
Lemma fk_result c th r : fk_tensor promo conv c th = Ok r -> r = th /\ (length (k_levels c) > 1 -> k_static c = th).
Proof.
  unfold fk_tensor. destruct (joint_tensors promo c th) as [j|]; cbn [rbind]; [|discriminate].
  destruct (matmul (k_static c) j) as [loc|] eqn:E1; cbn [rbind]; [|discriminate]. apply matmul_inv in E1 as [_ ->].
  destruct (k_levels c) as [|l0 ls]; [discriminate|].
  destruct (gather (k_static c) l0) as [x|] eqn:E2; cbn [rbind]; [|discriminate]. apply gather_inv in E2. subst x.
  destruct (iput conv th l0 (k_static c)) as [w|] eqn:E3; cbn [rbind]; [|discriminate]. apply iput_inv in E3. subst w.
  intros H. apply levels_result in H as [H1 H2]. split; [exact H1|]. cbn [length]. intros Hl. apply H2. destruct ls; [simpl in Hl; lia|discriminate].
Qed.
Lemma fk_one_level c th r : fk_tensor promo conv c th = Ok r -> conv (t_dt th) (t_dt (k_static c)) = true.
Proof.
  unfold fk_tensor. destruct (joint_tensors promo c th) as [j|]; cbn [rbind]; [|discriminate].
  destruct (matmul (k_static c) j) as [loc|] eqn:E1; cbn [rbind]; [|discriminate]. apply matmul_inv in E1 as [_ ->].
  destruct (k_levels c) as [|l0 ls]; [discriminate|].
  destruct (gather (k_static c) l0) as [x|] eqn:E2; cbn [rbind]; [|discriminate]. apply gather_inv in E2. subst x.
  unfold iput. destruct (gather th l0); cbn [rbind]; [|discriminate].
  destruct (Nat.eqb (t_dev th) (t_dev (k_static c))); cbn [andb rbind]; [|discriminate]. destruct (conv _ _); [reflexivity|discriminate].
Qed.

Lemma backward_same c t : chain_at c t -> backward_tensor promo c t t = Ok t.
Proof.
  intros Hc. destruct (at_floats _ _ Hc) as (Ha & _ & Hm). destruct (at_index _ _ Hc) as (_ & _ & _ & H4 & H5 & _).
  unfold backward_tensor. rewrite Ha, Hm, matmul_same. cbn [rbind]. rewrite gather_same by exact H4. cbn [rbind].
  repeat ((rewrite matmul_same || rewrite join_same); cbn [rbind]).
  apply where_same, H5.
Qed.
Lemma jacobian_same s t : k_levels (ks_chain s) <> [] -> serial_at s t -> jacobian_tensor_t promo conv s t = Ok t.
Proof.
  intros Hn (Hc & Ha & Hf & Ht). unfold jacobian_tensor_t. rewrite fk_same by assumption. cbn [rbind].
  rewrite gather_same by exact Hf. cbn [rbind]. rewrite Ha, matmul_same. cbn [rbind]. repeat (rewrite join_same; cbn [rbind]).
  rewrite where_same by exact Ht. cbn [rbind]. apply join_same.
Qed.
Lemma serial_to_at s dt dv : let d := match dt with Some d => d | None => k_dtype (ks_chain s) end in
  let v := match dv with Some v => v | None => k_device (ks_chain s) end in serial_at (serial_to s dt dv) (mkT d v).
Proof. cbv zeta. split; [apply to_at|]. repeat split. Qed.

(** ** Serial chains *)
Lemma tree_at_sroot z (r : tframe) fs t : (forall f, In f fs -> forall m, l_off (f_link f) = Some m \/ j_off (f_joint f) = Some m -> a_mat m = t) ->
  offsets_at (sroot z r fs) t.
Proof.
  intros H f m Hf Hm. rewrite sroot_preorder in Hf. destruct Hf as [<-|Hf].
  - unfold sroot in Hm. destruct (nest r fs) as [n l j cs]. cbn [reset_root f_link f_joint l_off j_off default_joint] in Hm. destruct Hm; discriminate.
  - assert (Hin : In (l_off (f_link f), j_off (f_joint f)) (map (fun g => (l_off (f_link g), j_off (f_joint g))) fs)).
    { pose proof (stail_map (T := ttrans) (A := tensor) (fun _ l j => (l_off l, j_off j)) fs) as E.
      cbv beta in E. rewrite <- E. apply in_map_iff. exists f. split; [reflexivity|exact Hf]. }
    apply in_map_iff in Hin as (g & Eg & Hg). injection Eg as E1 E2. apply (H g Hg). rewrite E1, E2. exact Hm.
Qed.
Lemma serial_built c root rn r fs dt : k_root c = root -> distinct_frames root -> clean_names root ->
  root_choice root r rn -> root_path r (r :: fs) -> tree_at root (mkT dt cpu) ->
  exists s, tag_serial promo c (f_name (last (r :: fs) r)) rn dt cpu = Ok s /\ serial_at s (mkT dt cpu) /\
    held promo (ks_chain s) /\ k_root (ks_chain s) = sroot (mkT DFloat cpu) r fs.
Proof.
  intros Hk Hd Hcl Hr Hp Ht.
  assert (Hin : In r (preorder root)).
  { destruct Hr as [[_ ->]|[_ [_ H]]]; [rewrite preorder_unfold; left; reflexivity | exact H]. }
  assert (Hrf : (if String.eqb rn "" then Ok (k_root c) else of_opt ValueError (find_frame rn (k_root c))) = Ok r).
  { rewrite Hk. destruct Hr as [[-> ->]|[Hne [-> _]]]; [reflexivity|].
    destruct (String.eqb_spec (f_name r) "") as [E|E]; [contradiction|]. rewrite find_frame_own by assumption. reflexivity. }
  unfold tag_serial. rewrite Hrf. cbn [rbind].
  assert (Hof : forall f, In f (preorder r) -> In f (preorder root)) by (intros f; apply sub_preorder, Hin).
  destruct (init_at r dt) as (c1 & Hc1 & _ & _ & Hs1).
  { intros f m Hf Hm. destruct (Ht f (Hof f Hf)) as [_ Hx]. rewrite (Hx m Hm). reflexivity. }
  rewrite Hc1. cbn [rbind].
  destruct (serial_ok shape_ops (mkT DFloat cpu) r (k_shape c1) "" r fs Hs1) as (s & Hs & Htab);
    [eapply sub_distinct_frames; eassumption|eapply sub_clean; eassumption|left; split; reflexivity|exact Hp|].
  rewrite Hs. cbn [rbind]. destruct Htab as (Hi & _ & Hax & _).
  assert (Hfs : forall f, In f fs -> In f (preorder root)) by (intros f Hf; apply Hof; apply (path_incl r _ Hp); right; exact Hf).
  pose proof (ct_root _ _ _ (chain_root _ _ _ Hi)) as Er. rewrite Er.
  destruct (init_at (sroot (mkT DFloat cpu) r fs) dt) as (c2 & Hc2 & Hat & Hkr & _).
  { apply tree_at_sroot. intros f Hf m Hm. destruct (Ht f (Hfs f Hf)) as [_ Hx]. rewrite (Hx m Hm). reflexivity. }
  rewrite Hc2. cbn [rbind].
  assert (Est : (match s_dof_axes s with [] => Ok (mkT dt cpu) | l => stack promo l end) = Ok (mkT dt cpu)).
  { destruct (s_dof_axes s) as [|a l] eqn:E; [reflexivity|]. apply stack_same; [discriminate|].
    intros x Hx. rewrite Hax in Hx. apply in_map_iff in Hx as (f & <- & Hf). apply filter_In in Hf as [Hf _].
    apply (Ht f (Hfs f Hf)). }
  rewrite Est. cbn [rbind]. eexists. split; [reflexivity|]. split; [|split; [exact (held_init promo _ _ _ _ Hc2)|exact Hkr]].
  split; [exact Hat|]. repeat split.
Qed.
End Dev.
