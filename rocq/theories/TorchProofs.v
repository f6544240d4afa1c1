(** Facts about the tensor operations. *)
From Coq Require Import Reals Lra Bool Arith Lia List.
From Verif Require Import Prelude ExtF Lin RotModel TorchModel SpecTorch.
Import ListNotations.
Local Open Scope nat_scope.

(** ** Broadcasting *)
Lemma bshape_tog A B C : bshape A B = Some C <-> together A B C.
Proof.
  split.
  - revert B C. induction A as [|x A IH]; intros B C H; cbn [bshape] in H; [injection H as <-; constructor|]. destruct B as [|y B]; [injection H as <-; constructor|].
    destruct (bshape A B) as [r|] eqn:E; [|discriminate]. specialize (IH B r E). destruct (x =? y) eqn:E1; [apply Nat.eqb_eq in E1; subst; injection H as <-; constructor; exact IH|].
    destruct (x =? 1) eqn:E2; [apply Nat.eqb_eq in E2; subst; injection H as <-; constructor; exact IH|]. destruct (y =? 1) eqn:E3; [|discriminate]. apply Nat.eqb_eq in E3; subst; injection H as <-; constructor; exact IH.
  - intros H. induction H as [B|B|n A B C H IH|n A B C H IH|n A B C H IH]; cbn [bshape].
    + destruct B; reflexivity.
    + reflexivity.
    + rewrite IH, Nat.eqb_refl. reflexivity.
    + rewrite IH. destruct (1 =? n) eqn:E; [apply Nat.eqb_eq in E; subst; reflexivity | reflexivity].
    + rewrite IH. destruct (n =? 1) eqn:E; [apply Nat.eqb_eq in E; subst; reflexivity | reflexivity].
Qed.
Lemma bs_refl B : bshape B B = Some B. Proof. induction B as [|n B IH]; cbn [bshape]; [reflexivity|]. rewrite IH, Nat.eqb_refl. reflexivity. Qed.
Lemma bs_nil_l B : bshape [] B = Some B. Proof. reflexivity. Qed.
Lemma bs_nil_r B : bshape B [] = Some B. Proof. destruct B; reflexivity. Qed.
Lemma bs_cons n A B C : bshape A B = Some C -> bshape (n :: A) (n :: B) = Some (n :: C). Proof. intros H. cbn [bshape]. rewrite H, Nat.eqb_refl. reflexivity. Qed.
Lemma bs_one_r n A B C : bshape A B = Some C -> bshape (n :: A) (1 :: B) = Some (n :: C).
Proof. intros H. apply bshape_tog. constructor. apply bshape_tog, H. Qed.
Lemma bs_one_l n A B C : bshape A B = Some C -> bshape (1 :: A) (n :: B) = Some (n :: C).
Proof. intros H. apply bshape_tog. constructor. apply bshape_tog, H. Qed.
Lemma tog_l A B C : together A B C -> together A C C.
Proof. intros H. induction H; try (constructor; assumption); [clear; induction B as [|n B IH]; [constructor | apply tg_same; exact IH]]. Qed.
Lemma tog_sym A B C : together A B C -> together B A C. Proof. intros H. induction H; constructor; assumption. Qed.
Lemma tog_r A B C : together A B C -> together C B C. Proof. intros H. apply tog_sym, (tog_l B A C), tog_sym, H. Qed.
Lemma tog_r' A B C : together A B C -> together B C C. Proof. intros H. apply (tog_l B A C), tog_sym, H. Qed.
Lemma tog_l' A B C : together A B C -> together C A C. Proof. intros H. apply tog_sym, (tog_l A B C), H. Qed.
Lemma bidx_id s i : valid s i -> bidx s i = i.
Proof. intros H. induction H as [|i n is s Hi H IH]; cbn [bidx hd tl]; [reflexivity|]. rewrite IH. destruct (n =? 1) eqn:E; [|reflexivity]. apply Nat.eqb_eq in E. subst. f_equal. lia. Qed.
Lemma bidx_bidx A B C i : together A B C -> bidx A (bidx C i) = bidx A i.
Proof.
  intros H. revert i. induction H as [B|B|n A B C H IH|n A B C H IH|n A B C H IH]; intros i; cbn [bidx hd tl]; rewrite ?IH; try reflexivity.
  - revert i. induction B as [|n B IH]; intros i; cbn [bidx hd tl]; [reflexivity|]. rewrite IH. destruct (n =? 1); reflexivity.
  - destruct (n =? 1); reflexivity.
  - destruct (n =? 1); reflexivity.
Qed.
Lemma bidx_valid A B C i : together A B C -> valid C i -> valid A (bidx A i).
Proof.
  intros H. revert i. induction H as [B|B|n A B C H IH|n A B C H IH|n A B C H IH]; intros i V; try (inversion V; subst; clear V; cbn [bidx hd tl]; constructor; [|apply IH; assumption]).
  - rewrite bidx_id by exact V. exact V.
  - constructor.
  - destruct (n =? 1) eqn:E; [apply Nat.eqb_eq in E; lia | assumption].
  - cbn. lia.
  - destruct (n =? 1) eqn:E; [apply Nat.eqb_eq in E; lia | assumption].
Qed.
Lemma eqb_list_refl s : eqb_list s s = true. Proof. induction s as [|n s IH]; cbn; [reflexivity|]. rewrite Nat.eqb_refl, IH. reflexivity. Qed.
Lemma fits_tog A C : together A C C -> fits A C = true.
Proof.
  revert C. induction A as [|x A IH]; intros C H; [reflexivity|]. destruct C as [|n C]; [inversion H|]. cbn [fits]. apply andb_true_iff. inversion H; subst; split; try (apply IH; assumption); apply orb_true_iff;
    try (left; apply Nat.eqb_refl); try (right; apply Nat.eqb_refl).
Qed.

(** ** Knowing a tensor *)
Definition is_t {A} (e : ten A) (s : list nat) (f : list nat -> A) : Prop := exists t, e = Ok t /\ shape t = s /\ forall i, valid s i -> at_ t i = f i.
(** read through broadcasting to [S0] *)
Definition is_b {A} (S0 : list nat) (e : ten A) (s : list nat) (f : list nat -> A) : Prop :=
  together s S0 S0 /\ exists t, e = Ok t /\ shape t = s /\ forall i, valid S0 i -> at_ t (bidx s i) = f i.
Lemma is_ok {A} (t : tensor A) : is_t (Ok t) (shape t) (at_ t). Proof. exists t. auto. Qed.
Lemma t_ext {A} (e : ten A) s f g : is_t e s f -> (forall i, valid s i -> f i = g i) -> is_t e s g.
Proof. intros (t & E & Es & H) X. exists t. split; [exact E|]. split; [exact Es|]. intros i V. rewrite H by exact V. apply X, V. Qed.
Lemma t_b {A} (e : ten A) s S0 f : is_t e s f -> together s S0 S0 -> is_b S0 e s (fun i => f (bidx s i)).
Proof. intros (t & E & Es & H) T. split; [exact T|]. exists t. split; [exact E|]. split; [exact Es|]. intros i V. apply H, (bidx_valid _ _ _ _ T V). Qed.
Lemma tog_refl s : together s s s. Proof. apply bshape_tog, bs_refl. Qed.
Lemma b_t {A} (e : ten A) s f : is_b s e s f -> is_t e s f.
Proof. intros (_ & t & E & Es & H). exists t. split; [exact E|]. split; [exact Es|]. intros i V. rewrite <- (bidx_id s i V) at 1. apply H, V. Qed.
Lemma b_ext {A} S0 (e : ten A) s f g : is_b S0 e s f -> (forall i, valid S0 i -> f i = g i) -> is_b S0 e s g.
Proof. intros (T & t & E & Es & H) X. split; [exact T|]. exists t. split; [exact E|]. split; [exact Es|]. intros i V. rewrite H by exact V. apply X, V. Qed.
Inductive emb : list nat -> list nat -> Prop :=
| emb_nil B : emb [] B
| emb_cons n m A B : n = m \/ n = 1 -> emb A B -> emb (n :: A) (m :: B).
Lemma emb_tog A B : together A B B <-> emb A B.
Proof.
  split.
  - revert B. induction A as [|n A IH]; intros B H; [constructor|]. destruct B as [|m B]; [inversion H|]. inversion H; subst; constructor; auto.
  - intros H. induction H as [B|n m A B [->| ->] H IH]; constructor; exact IH.
Qed.
Lemma tog_join A B C S0 : together A S0 S0 -> together B S0 S0 -> together A B C -> together C S0 S0.
Proof.
  rewrite !emb_tog. intros HA HB H. revert S0 HA HB. induction H as [B|B|n A B C H IH|n A B C H IH|n A B C H IH]; intros S0 HA HB; try assumption;
    inversion HA; subst; inversion HB; subst; constructor; auto.
Qed.

(** ** Rules: elementwise operations *)
Lemma t_op1 {A B} (g : A -> B) e s f : is_t e s f -> is_t (op1 g e) s (fun i => g (f i)).
Proof. intros (t & -> & <- & H). eexists. split; [reflexivity|]. split; [reflexivity|]. intros i V. cbn [at_]. rewrite H by exact V. reflexivity. Qed.
Lemma b_op1 {A B} S0 (g : A -> B) e s f : is_b S0 e s f -> is_b S0 (op1 g e) s (fun i => g (f i)).
Proof. intros (T & t & -> & <- & H). split; [exact T|]. eexists. split; [reflexivity|]. split; [reflexivity|]. intros i V. cbn [at_]. rewrite H by exact V. reflexivity. Qed.
Lemma b_op2 {A B C} S0 (g : A -> B -> C) e1 e2 s1 s2 s f1 f2 : is_b S0 e1 s1 f1 -> is_b S0 e2 s2 f2 -> together s1 s2 s -> is_b S0 (op2 g e1 e2) s (fun i => g (f1 i) (f2 i)).
Proof.
  intros (T1 & t & -> & <- & H1) (T2 & u & -> & <- & H2) E. split; [exact (tog_join _ _ _ _ T1 T2 E)|]. unfold op2. cbn [rbind].
  rewrite (proj2 (bshape_tog _ _ _) E). eexists. split; [reflexivity|]. split; [reflexivity|]. intros i V. cbn [at_].
  rewrite (bidx_bidx _ _ _ i E), (bidx_bidx _ _ _ i (tog_sym _ _ _ E)), H1, H2 by exact V. reflexivity.
Qed.
Lemma t_op2 {A B C} (g : A -> B -> C) e1 e2 s1 s2 s f1 f2 : is_t e1 s1 f1 -> is_t e2 s2 f2 -> together s1 s2 s -> is_t (op2 g e1 e2) s (fun i => g (f1 (bidx s1 i)) (f2 (bidx s2 i))).
Proof. intros H1 H2 E. apply b_t. eapply b_op2; [apply t_b; [exact H1 | exact (tog_l _ _ _ E)] | apply t_b; [exact H2 | exact (tog_r' _ _ _ E)] | exact E]. Qed.
Lemma t_op2_same {A B C} (g : A -> B -> C) e1 e2 s f1 f2 : is_t e1 s f1 -> is_t e2 s f2 -> is_t (op2 g e1 e2) s (fun i => g (f1 i) (f2 i)).
Proof. intros H1 H2. eapply t_ext; [eapply t_op2; [exact H1 | exact H2 | apply tog_refl]|]. intros i V. cbv beta. rewrite bidx_id by exact V. reflexivity. Qed.
Lemma t_op2_num_l {B C} (g : R -> B -> C) r e s f : is_t e s f -> is_t (op2 g (num r) e) s (fun i => g r (f i)).
Proof. intros H. eapply t_ext; [eapply t_op2; [exact (is_ok (mkT [] (fun _ => r))) | exact H | constructor]|]. intros i V. cbv beta. cbn [at_]. rewrite bidx_id by exact V. reflexivity. Qed.
Lemma t_op2_num_r {A C} (g : A -> R -> C) r e s f : is_t e s f -> is_t (op2 g e (num r)) s (fun i => g (f i) r).
Proof. intros H. eapply t_ext; [eapply t_op2; [exact H | exact (is_ok (mkT [] (fun _ => r))) | constructor]|]. intros i V. cbv beta. cbn [at_]. rewrite bidx_id by exact V. reflexivity. Qed.
(** a tensor whose last dimension was kept at size one *)
Lemma t_op2_keep {A B C} (g : A -> B -> C) e1 e2 n s f1 f2 : is_t e1 (n :: s) f1 -> is_t e2 (1 :: s) f2 -> is_t (op2 g e1 e2) (n :: s) (fun i => g (f1 i) (f2 (0 :: tl i))).
Proof.
  intros H1 H2. eapply t_ext; [eapply t_op2; [exact H1 | exact H2 | apply tg_one_r, tog_refl]|]. intros i V. cbv beta. rewrite (bidx_id _ _ V).
  inversion V; subst. cbn [bidx Nat.eqb tl]. rewrite bidx_id by assumption. reflexivity.
Qed.
Lemma t_op2_keep_l {A B C} (g : A -> B -> C) e1 e2 n s f1 f2 : is_t e1 (1 :: s) f1 -> is_t e2 (n :: s) f2 -> is_t (op2 g e1 e2) (n :: s) (fun i => g (f1 (0 :: tl i)) (f2 i)).
Proof.
  intros H1 H2. eapply t_ext; [eapply t_op2; [exact H1 | exact H2 | apply tg_one_l, tog_refl]|]. intros i V. cbv beta. rewrite (bidx_id _ _ V).
  inversion V; subst. cbn [bidx Nat.eqb tl]. rewrite bidx_id by assumption. reflexivity.
Qed.
Lemma b_num S0 r : is_b S0 (num r) [] (fun _ => r).
Proof. split; [constructor|]. eexists. split; [reflexivity|]. split; reflexivity. Qed.

(** ** Rules: taking apart and putting together *)
Lemma t_unb {A} (e : ten A) n k s f : is_t e (n :: s) f -> k < n -> is_t (unb n k e) s (fun i => f (k :: i)).
Proof.
  intros (t & -> & Es & H) L. unfold unb. cbn [rbind]. rewrite Es, Nat.eqb_refl. eexists. split; [reflexivity|]. split; [reflexivity|]. intros i V. cbn [at_]. apply H. constructor; assumption.
Qed.
Lemma t_sel {A} (e : ten A) n k s f : is_t e (n :: s) f -> k < n -> is_t (sel k e) s (fun i => f (k :: i)).
Proof.
  intros (t & -> & Es & H) L. unfold sel. cbn [rbind]. rewrite Es, (proj2 (Nat.ltb_lt k n) L). eexists. split; [reflexivity|]. split; [reflexivity|]. intros i V. cbn [at_]. apply H. constructor; assumption.
Qed.
Lemma t_sel2 {A} (e : ten A) n m k s f : is_t e (n :: m :: s) f -> k < m -> is_t (sel2 k e) (n :: s) (fun i => f (hd 0 i :: k :: tl i)).
Proof.
  intros (t & -> & Es & H) L. unfold sel2. cbn [rbind]. rewrite Es, (proj2 (Nat.ltb_lt k m) L). eexists. split; [reflexivity|]. split; [reflexivity|]. intros i V. cbn [at_]. apply H.
  inversion V; subst. cbn [hd tl]. constructor; [assumption|]. constructor; assumption.
Qed.
Lemma t_sel_end {A} (e : ten A) n s f : is_t e (S n :: s) f -> is_t (sel_end e) s (fun i => f (n :: i)).
Proof.
  intros (t & -> & Es & H). unfold sel_end. cbn [rbind]. rewrite Es. eexists. split; [reflexivity|]. split; [reflexivity|]. intros i V. cbn [at_]. apply H. constructor; [lia | assumption].
Qed.
Lemma t_slice {A} (e : ten A) lo hi n s f : is_t e (n :: s) f -> lo <= hi -> hi <= n -> is_t (slice lo hi e) (hi - lo :: s) (fun i => f (lo + hd 0 i :: tl i)).
Proof.
  intros (t & -> & Es & H) L1 L2. unfold slice. cbn [rbind]. rewrite Es, (Nat.min_l hi n), (Nat.min_l lo n) by lia. eexists. split; [reflexivity|]. split; [reflexivity|]. intros i V. cbn [at_]. apply H.
  inversion V; subst. cbn [hd tl]. constructor; [lia | assumption].
Qed.
Lemma t_slice2 {A} (e : ten A) lo hi n m s f : is_t e (n :: m :: s) f -> lo <= hi -> hi <= m -> is_t (slice2 lo hi e) (n :: hi - lo :: s) (fun i => f (hd 0 i :: lo + hd 0 (tl i) :: tl (tl i))).
Proof.
  intros (t & -> & Es & H) L1 L2. unfold slice2. cbn [rbind]. rewrite Es, (Nat.min_l hi m), (Nat.min_l lo m) by lia. eexists. split; [reflexivity|]. split; [reflexivity|]. intros i V. cbn [at_]. apply H.
  inversion V as [|i0 n0 l s0 Hi V' E]; subst. inversion V'; subst. cbn [hd tl]. constructor; [assumption|]. constructor; [lia | assumption].
Qed.
Lemma t_from {A} (e : ten A) lo n s f : is_t e (n :: s) f -> lo <= n -> is_t (from lo e) (n - lo :: s) (fun i => f (lo + hd 0 i :: tl i)).
Proof. intros H L. pose proof H as (t & E & Es & _). unfold from. rewrite E. cbn [rbind]. rewrite Es, <- E. apply (t_slice e lo n n s f); [exact H | exact L | lia]. Qed.
Lemma t_unsq {A} (e : ten A) s f : is_t e s f -> is_t (unsqueeze e) (1 :: s) (fun i => f (tl i)).
Proof. intros (t & -> & <- & H). eexists. split; [reflexivity|]. split; [reflexivity|]. intros i V. cbn [at_]. apply H. inversion V; subst. assumption. Qed.
Lemma t_squeeze2 {A} (e : ten A) n s f : is_t e (n :: 1 :: s) f -> is_t (squeeze2 e) (n :: s) (fun i => f (hd 0 i :: 0 :: tl i)).
Proof.
  intros (t & -> & Es & H). unfold squeeze2. cbn [rbind]. rewrite Es. eexists. split; [reflexivity|]. split; [reflexivity|]. intros i V. cbn [at_]. apply H.
  inversion V; subst. cbn [hd tl]. constructor; [assumption|]. constructor; [lia | assumption].
Qed.
Lemma all_ok_t {A} (es : list (ten A)) s fs : Forall2 (fun e f => is_t e s f) es fs ->
  exists ts, all_ok es = Ok ts /\ Forall2 (fun t f => shape t = s /\ forall i, valid s i -> at_ t i = f i) ts fs.
Proof.
  intros H. induction H as [|e f es fs (t & -> & Es & Ht) H (ts & E & IH)]; cbn [all_ok rbind]; [exists []; split; [reflexivity | constructor]|]. rewrite E. cbn [rbind]. eexists. split; [reflexivity|]. constructor; [split; assumption | exact IH].
Qed.
Lemma f2_at {A} (ts : list (tensor A)) s fs k d df : Forall2 (fun t f => shape t = s /\ forall i, valid s i -> at_ t i = f i) ts fs -> k < length ts ->
  forall i, valid s i -> at_ (nth k ts d) i = nth k fs df i.
Proof. intros H. revert k. induction H as [|t f ts fs [_ Ht] H IH]; intros k L i V; cbn in *; [lia|]. destruct k as [|k]; [apply Ht, V | apply IH; [lia | exact V]]. Qed.
Lemma f2_sh {A} (ts : list (tensor A)) s (t0 : tensor A) fs : shape t0 = s -> Forall2 (fun t f => shape t = s /\ forall i, valid s i -> at_ t i = f i) ts fs -> forallb (fun u => eqb_list (shape u) (shape t0)) ts = true.
Proof. intros E H. apply forallb_forall. intros u Hu. rewrite E. induction H as [|t f ts fs [Es _] H IH]; [destruct Hu|]. destruct Hu as [<-|Hu]; [rewrite Es; apply eqb_list_refl | apply IH, Hu]. Qed.
Lemma f2_ln {A B} (P : A -> B -> Prop) l m : Forall2 P l m -> length l = length m. Proof. intros H. induction H; cbn; congruence. Qed.
Lemma t_stack {A} (es : list (ten A)) s f0 fs0 : Forall2 (fun e f => is_t e s f) es (f0 :: fs0) -> is_t (stack es) (length es :: s) (fun i => nth (hd 0 i) (f0 :: fs0) f0 (tl i)).
Proof.
  intros H. assert (N : es <> []) by (intros ->; inversion H). remember (f0 :: fs0) as fs. clear Heqfs. destruct (all_ok_t es s fs H) as (ts & E & Ht). unfold stack. rewrite E. cbn [rbind]. pose proof (f2_ln _ _ _ H) as L1. pose proof (f2_ln _ _ _ Ht) as L2.
  destruct ts as [|t ts]; [destruct fs; [destruct es; [contradiction | discriminate] | discriminate]|]. assert (Es : shape t = s) by (inversion Ht; tauto).
  rewrite (f2_sh _ s t fs Es Ht). eexists. split; [reflexivity|]. split; [cbn [shape]; rewrite Es; f_equal; congruence|]. intros i V. cbn [at_]. inversion V; subst. cbn [hd tl].
  apply (f2_at _ _ _ _ _ _ Ht); [lia | assumption].
Qed.
Lemma t_stack2 {A} (es : list (ten A)) n s f0 fs0 : Forall2 (fun e f => is_t e (n :: s) f) es (f0 :: fs0) ->
  is_t (stack2 es) (n :: length es :: s) (fun i => nth (hd 0 (tl i)) (f0 :: fs0) f0 (hd 0 i :: tl (tl i))).
Proof.
  intros H. assert (N : es <> []) by (intros ->; inversion H). remember (f0 :: fs0) as fs. clear Heqfs. destruct (all_ok_t es _ fs H) as (ts & E & Ht). unfold stack2. rewrite E. cbn [rbind]. pose proof (f2_ln _ _ _ H) as L1. pose proof (f2_ln _ _ _ Ht) as L2.
  destruct ts as [|t ts]; [destruct fs; [destruct es; [contradiction | discriminate] | discriminate]|]. assert (Es : shape t = n :: s) by (inversion Ht; tauto).
  rewrite Es at 1. rewrite (f2_sh _ _ t fs Es Ht). eexists. split; [reflexivity|]. split; [cbn [shape]; repeat f_equal; congruence|]. intros i V. cbn [at_].
  inversion V as [|i0 n0 l s0 Hi V' E0]; subst. inversion V'; subst. cbn [hd tl]. apply (f2_at _ _ _ _ _ _ Ht); [lia | constructor; assumption].
Qed.
Lemma t_cat {A} (e1 e2 : ten A) n m s f1 f2 : is_t e1 (n :: s) f1 -> is_t e2 (m :: s) f2 -> is_t (cat e1 e2) (n + m :: s) (fun i => if hd 0 i <? n then f1 i else f2 (hd 0 i - n :: tl i)).
Proof.
  intros (t & -> & E1 & H1) (u & -> & E2 & H2). unfold cat. cbn [rbind]. rewrite E1, E2, eqb_list_refl. eexists. split; [reflexivity|]. split; [reflexivity|]. intros i V. cbn [at_].
  inversion V; subst. cbn [hd tl]. destruct (_ <? n) eqn:L; [apply Nat.ltb_lt in L; apply H1; constructor; assumption | apply Nat.ltb_ge in L; apply H2; constructor; [lia | assumption]].
Qed.
Lemma unravel_ravel s i : valid s i -> unravel s (ravel s i) = i.
Proof. intros H. induction H as [|i n is s L H IH]; cbn [ravel unravel hd tl]; [reflexivity|]. rewrite Nat.mul_comm, Nat.mod_add, Nat.mod_small, Nat.div_add, Nat.div_small, Nat.add_0_l, IH by lia. reflexivity. Qed.
Lemma t_split {A} (e : ten A) n m s f : is_t e (n * m :: s) f -> is_t (reshape (n :: m :: s) e) (n :: m :: s) (fun i => f (hd 0 i + n * hd 0 (tl i) :: tl (tl i))).
Proof.
  intros (t & -> & Es & H). unfold reshape. cbn [rbind]. rewrite Es. cbn [prod]. rewrite Nat.mul_assoc, Nat.eqb_refl. eexists. split; [reflexivity|]. split; [reflexivity|]. intros i V. cbn [at_].
  inversion V as [|i0 n0 l s0 Hi V' E0]; subst. inversion V' as [|i1 n1 l1 s1 Hi1 V1 E1]; subst. cbn [ravel unravel hd tl].
  replace (i0 + n * (i1 + m * ravel s l1)) with ((i0 + n * i1) + ravel s l1 * (n * m)) by ring. assert (i0 + n * i1 < n * m) by nia.
  rewrite Nat.mod_add, Nat.mod_small, Nat.div_add, Nat.div_small, Nat.add_0_l, unravel_ravel by (assumption || lia). apply H. constructor; assumption.
Qed.
Lemma t_join {A} (e : ten A) n m s f : is_t e (n :: m :: s) f -> is_t (reshape (n * m :: s) e) (n * m :: s) (fun i => f (hd 0 i mod n :: hd 0 i / n :: tl i)).
Proof.
  intros (t & -> & Es & H). unfold reshape. cbn [rbind]. rewrite Es. cbn [prod]. rewrite Nat.mul_assoc, Nat.eqb_refl. eexists. split; [reflexivity|]. split; [reflexivity|]. intros i V. cbn [at_].
  inversion V as [|i0 n0 l s0 Hi V' E0]; subst. cbn [ravel unravel hd tl]. assert (n <> 0) by (intros ->; cbn in Hi; lia). assert (m <> 0) by (intros ->; rewrite Nat.mul_0_r in Hi; lia).
  assert (D : i0 / n < m) by (apply Nat.div_lt_upper_bound; lia). assert (M : i0 mod n < n) by (apply Nat.mod_upper_bound; lia).
  replace (i0 + n * m * ravel s l) with (i0 + m * ravel s l * n) by ring. rewrite Nat.mod_add, Nat.div_add by assumption. replace (i0 / n + m * ravel s l) with (i0 / n + ravel s l * m) by ring.
  rewrite Nat.mod_add, (Nat.mod_small (i0 / n) m), Nat.div_add, (Nat.div_small (i0 / n) m), Nat.add_0_l, unravel_ravel by assumption. apply H. constructor; [exact M|]. constructor; assumption.
Qed.
Lemma t_sum (e : ten R) n s f : is_t e (n :: s) f -> is_t (sum_last e) s (fun i => rsum n (fun k => f (k :: i))).
Proof.
  intros (t & -> & Es & H). unfold sum_last. cbn [rbind]. rewrite Es. eexists. split; [reflexivity|]. split; [reflexivity|]. intros i V. cbn [at_].
  assert (G : forall k, k <= n -> rsum k (fun k => at_ t (k :: i)) = rsum k (fun k => f (k :: i))); [|apply G; lia].
  induction k as [|k IH]; intros L; cbn [rsum]; [reflexivity|]. rewrite IH by lia. rewrite H by (constructor; [lia | assumption]). reflexivity.
Qed.
Lemma is_in {A} (t : tensor A) s : shape t = s -> is_t (Ok t) s (at_ t). Proof. intros E. exists t. auto. Qed.
Lemma t_num r : is_t (num r) [] (fun _ => r). Proof. eexists. split; [reflexivity|]. split; reflexivity. Qed.
Lemma t_full {A} s (x : A) : is_t (full s x) s (fun _ => x). Proof. eexists. split; [reflexivity|]. split; reflexivity. Qed.
Lemma t_eyes s : is_t (eyes s) (4 :: 4 :: s) (fun i => if hd 0 i =? hd 0 (tl i) then 1%R else 0%R). Proof. eexists. split; [reflexivity|]. split; reflexivity. Qed.
Lemma t_argmax e s f : is_t e (4 :: s) f -> is_t (argmax_last e) s (fun i => argmax4 (fun k => f (k :: i))).
Proof.
  intros (t & -> & Es & H). unfold argmax_last. cbn [rbind]. rewrite Es. eexists. split; [reflexivity|]. split; [reflexivity|]. intros i V. cbn [at_ seq fold_left].
  assert (G : forall k, k < 4 -> at_ t (k :: i) = f (k :: i)) by (intros k L; apply H; constructor; assumption). rewrite !(G 0), !(G 1), !(G 2), !(G 3) by lia. unfold argmax4.
  destruct (Rltb (f (0 :: i)) (f (1 :: i))); rewrite ?(G 0), ?(G 1) by lia; [destruct (Rltb (f (1 :: i)) (f (2 :: i))) | destruct (Rltb (f (0 :: i)) (f (2 :: i)))]; rewrite ?(G 0), ?(G 1), ?(G 2) by lia; reflexivity.
Qed.
Lemma argmax4_lt f : argmax4 f < 4. Proof. unfold argmax4. cbv zeta. repeat match goal with |- context [if ?c then _ else _] => destruct c end; lia. Qed.
Lemma t_gather {A} (e : ten A) idx n m k s f g : is_t e (n :: m :: s) f -> is_t idx (n :: k :: s) g -> (forall i, valid (n :: k :: s) i -> g i < m) ->
  is_t (gather2 e idx) (n :: k :: s) (fun i => f (hd 0 i :: g i :: tl (tl i))).
Proof.
  intros (t & -> & E1 & H1) (u & -> & E2 & H2) L. unfold gather2. cbn [rbind]. rewrite E1, E2, Nat.eqb_refl, eqb_list_refl. cbn [andb]. eexists. split; [reflexivity|]. split; [reflexivity|]. intros i V. cbn [at_].
  rewrite H2 by exact V. apply H1. pose proof (L i V). inversion V as [|i0 n0 l s0 Hi V' E0]; subst. inversion V'; subst. cbn [hd tl]. constructor; [assumption|]. constructor; assumption.
Qed.
Lemma tog_len A C : together A C C -> length A <= length C. Proof. rewrite emb_tog. intros H. induction H; cbn; lia. Qed.
Lemma t_expand {A} (e : ten A) s S0 f : is_t e s f -> together s S0 S0 -> is_t (expand S0 e) S0 (fun i => f (bidx s i)).
Proof.
  intros (t & -> & <- & H) T. unfold expand. cbn [rbind]. rewrite (fits_tog _ _ T), (proj2 (Nat.leb_le _ _) (tog_len _ _ T)). cbn [andb]. eexists. split; [reflexivity|]. split; [reflexivity|].
  intros i V. cbn [at_]. apply H, (bidx_valid _ _ _ _ T V).
Qed.
Lemma t_put {A} reg rs (e v : ten A) s sv f g : is_t e s f -> is_t v sv g -> together sv (rs s) (rs s) -> (forall i j, valid s i -> reg i = Some j -> valid (rs s) j) ->
  is_t (put reg rs e v) s (fun i => match reg i with Some j => g (bidx sv j) | None => f i end).
Proof.
  intros (t & -> & <- & H1) (u & -> & <- & H2) T L. unfold put. cbn [rbind]. rewrite (fits_tog _ _ T). eexists. split; [reflexivity|]. split; [reflexivity|]. intros i V. cbn [at_].
  destruct (reg i) as [j|] eqn:E; [apply H2, (bidx_valid _ _ _ _ T), (L i j V E) | apply H1, V].
Qed.
Lemma block33_ok s i j : valid (4 :: 4 :: s) i -> block33 i = Some j -> valid (block33_shape (4 :: 4 :: s)) j.
Proof.
  intros V E. inversion V as [|i0 n0 l s0 Hi V' E0]; subst. inversion V'; subst. cbn [block33] in E. destruct (_ && _)%bool eqn:C; [|discriminate]. injection E as <-. apply andb_prop in C. destruct C as [C1 C2].
  apply Nat.ltb_lt in C1. apply Nat.ltb_lt in C2. cbn [block33_shape tl]. constructor; [assumption|]. constructor; assumption.
Qed.
Lemma col3_ok s i j : valid (4 :: 4 :: s) i -> col3 i = Some j -> valid (col3_shape (4 :: 4 :: s)) j.
Proof.
  intros V E. inversion V as [|i0 n0 l s0 Hi V' E0]; subst. inversion V'; subst. cbn [col3] in E. destruct (_ && _)%bool eqn:C; [|discriminate]. injection E as <-. apply andb_prop in C. destruct C as [C1 C2].
  apply Nat.ltb_lt in C2. cbn [col3_shape tl]. constructor; assumption.
Qed.
Lemma cell_ok k s i j : valid (4 :: 4 :: s) i -> cell k i = Some j -> valid (cell_shape (4 :: 4 :: s)) j.
Proof. intros V E. inversion V as [|i0 n0 l s0 Hi V' E0]; subst. inversion V'; subst. cbn [cell] in E. destruct (_ && _)%bool eqn:C; [|discriminate]. injection E as <-. assumption. Qed.
Lemma rsum_ext n f g : (forall k, k < n -> f k = g k) -> rsum n f = rsum n g.
Proof. induction n as [|n IH]; intros H; cbn [rsum]; [reflexivity|]. rewrite IH, H by (intros; try apply H; lia). reflexivity. Qed.
Lemma t_matmul e1 e2 n m p s f1 f2 : is_t e1 (n :: m :: s) f1 -> is_t e2 (p :: n :: s) f2 ->
  is_t (matmul e1 e2) (p :: m :: s) (fun i => rsum n (fun k => Rmult (f1 (k :: hd 0 (tl i) :: tl (tl i))) (f2 (hd 0 i :: k :: tl (tl i))))).
Proof.
  intros (t & -> & E1 & H1) (u & -> & E2 & H2). unfold matmul. cbn [rbind]. rewrite E1, E2, Nat.eqb_refl, bs_refl. eexists. split; [reflexivity|]. split; [reflexivity|]. intros i V. cbn [at_].
  inversion V as [|i0 n0 l s0 Hi V' E0]; subst. inversion V'; subst. cbn [hd tl]. apply rsum_ext. intros k L. rewrite bidx_id, H1, H2 by (repeat constructor; assumption). reflexivity.
Qed.
Lemma t_cross e1 e2 s f1 f2 : is_t e1 (3 :: s) f1 -> is_t e2 (3 :: s) f2 ->
  is_t (cross e1 e2) (3 :: s) (fun i => let d j k := (f1 (j :: tl i) * f2 (k :: tl i) - f1 (k :: tl i) * f2 (j :: tl i))%R in match hd 0 i with 0 => d 1 2 | 1 => d 2 0 | _ => d 0 1 end).
Proof.
  intros (t & -> & E1 & H1) (u & -> & E2 & H2). unfold cross. cbn [rbind]. rewrite E1, E2, bs_refl. eexists. split; [reflexivity|]. split; [reflexivity|]. intros i V. cbn [at_ tl].
  inversion V as [|i0 n0 l s0 Hi V' E0]; subst. cbn [hd tl]. rewrite bidx_id by assumption. assert (G1 : forall k, k < 3 -> at_ t (k :: l) = f1 (k :: l)) by (intros; apply H1; constructor; assumption).
  assert (G2 : forall k, k < 3 -> at_ u (k :: l) = f2 (k :: l)) by (intros; apply H2; constructor; assumption). rewrite !(G1 0), !(G1 1), !(G1 2), !(G2 0), !(G2 1), !(G2 2) by lia. reflexivity.
Qed.

(** ** Rows *)
Definition local {A X} (read : tensor A -> list nat -> X) (tail : list nat) : Prop :=
  forall B t u b, valid B b -> (forall i, valid (tail ++ B) i -> at_ t i = at_ u i) -> read t b = read u b.
Lemma row_t {A X} (read : tensor A -> list nat -> X) tail B e s f g : local read tail -> is_t e s f -> s = tail ++ B -> (forall b, valid B b -> read (mkT (tail ++ B) f) b = g b) -> rowwise read tail B e g.
Proof. intros L (t & E & Es & H) -> X0. exists t. split; [exact E|]. split; [exact Es|]. intros b V. rewrite <- (X0 b V). apply (L B); [exact V | exact H]. Qed.
Ltac loc := intros B t u b V H; cbn [app] in H; unfold q_at, v_at, v4_at, f3_at, nine_at, six_at, m3_at, m4_at; cbv zeta; rewrite !H by (repeat constructor; assumption); reflexivity.
Lemma loc_q : local q_at [4]. Proof. loc. Qed.
Lemma loc_v : local v_at [3]. Proof. loc. Qed.
Lemma loc_v4 : local v4_at [4]. Proof. loc. Qed.
Lemma loc_f3 : local f3_at [3]. Proof. loc. Qed.
Lemma loc_6 : local six_at [6]. Proof. loc. Qed.
Lemma loc_9 : local nine_at [9]. Proof. loc. Qed.
Lemma loc_m3 : local m3_at [3; 3]. Proof. loc. Qed.
Lemma loc_m4 : local m4_at [4; 4]. Proof. loc. Qed.
Lemma reads_bidx A B C b : together A B C -> valid C b -> reads A b (bidx A b).
Proof.
  intros T. apply tog_l in T. rewrite emb_tog in T. revert b. induction T as [C|n m A C D T IH]; intros b V; [constructor|]. inversion V; subst. cbn [bidx hd tl].
  destruct (n =? 1) eqn:E; [apply Nat.eqb_eq in E; subst; constructor; apply IH; assumption | apply Nat.eqb_neq in E; constructor; [exact E | apply IH; assumption]].
Qed.
Lemma reads_fun A b a : reads A b a -> a = bidx A b.
Proof. intros H. induction H as [b|A i b a H IH|n A i b a N H IH]; cbn [bidx hd tl]; [reflexivity| rewrite <- IH; reflexivity|]. rewrite (proj2 (Nat.eqb_neq n 1) N), <- IH. reflexivity. Qed.
Lemma row2_t {A X} (read : tensor A -> list nat -> X) tail A1 A2 C e s f g : local read tail -> is_t e s f -> s = tail ++ C ->
  (forall b, valid C b -> read (mkT (tail ++ C) f) b = g (bidx A1 b) (bidx A2 b)) -> rowwise2 read tail A1 A2 C e g.
Proof.
  intros L (t & E & Es & H) -> X0. exists t. split; [exact E|]. split; [exact Es|]. intros b a1 a2 V R1 R2. rewrite (reads_fun _ _ _ R1), (reads_fun _ _ _ R2), <- (X0 b V). apply (L C); [exact V | exact H].
Qed.
Lemma t_shape {A} (e : ten A) s s' f : is_t e s f -> s = s' -> is_t e s' f. Proof. intros H <-. exact H. Qed.
Ltac rdc := cbn [length Nat.add Nat.mul Nat.sub]; reflexivity.
Ltac tog := first [eassumption | apply tog_refl | apply tg_left | apply tg_right | apply tg_one_r; tog | apply tg_one_l; tog | apply tg_same; tog | eapply tog_r'; eassumption | eapply tog_l'; eassumption | eapply tog_l; eassumption | eapply tog_r; eassumption].
Ltac tt := cbv zeta; lazymatch goal with
  | |- is_t (Ok _) _ _ => apply is_in; cbn [app]; (eassumption || reflexivity)
  | |- is_t (num _) _ _ => apply t_num
  | |- is_t (full _ _) _ _ => apply t_full
  | |- is_t (eyes _) _ _ => apply t_eyes
  | |- is_t (op1 _ _) _ _ => eapply t_op1; tt
  | |- is_t (op2 _ _ _) _ _ => eapply t_op2; [tt | tt | tog]
  | |- is_t (where_ _ _ _) _ _ => unfold where_; tt
  | |- is_t (unb _ _ _) _ _ => eapply t_unb; [tt | lia]
  | |- is_t (sel _ _) _ _ => eapply t_sel; [tt | lia]
  | |- is_t (sel2 _ _) _ _ => eapply t_sel2; [tt | lia]
  | |- is_t (sel_end _) _ _ => eapply t_shape; [eapply t_sel_end; tt | rdc]
  | |- is_t (slice _ _ _) _ _ => eapply t_shape; [eapply t_slice; [tt | lia | lia] | rdc]
  | |- is_t (slice2 _ _ _) _ _ => eapply t_shape; [eapply t_slice2; [tt | lia | lia] | rdc]
  | |- is_t (from _ _) _ _ => eapply t_shape; [eapply t_from; [tt | lia] | rdc]
  | |- is_t (unsqueeze _) _ _ => eapply t_unsq; tt
  | |- is_t (squeeze2 _) _ _ => eapply t_squeeze2; tt
  | |- is_t (stack _) _ _ => eapply t_shape; [eapply t_stack; repeat (first [apply Forall2_nil | eapply Forall2_cons; [tt|]]) | rdc]
  | |- is_t (stack2 _) _ _ => eapply t_shape; [eapply t_stack2; repeat (first [apply Forall2_nil | eapply Forall2_cons; [tt|]]) | rdc]
  | |- is_t (cat _ _) _ _ => eapply t_shape; [eapply t_cat; [tt | tt] | rdc]
  | |- is_t (reshape (3 :: 3 :: ?s) _) _ _ => eapply t_shape; [eapply (t_split _ 3 3 s); tt | rdc]
  | |- is_t (reshape (9 :: ?s) _) _ _ => eapply t_shape; [eapply (t_join _ 3 3 s); tt | rdc]
  | |- is_t (reshape (6 :: ?s) _) _ _ => eapply t_shape; [eapply (t_join _ 3 2 s); tt | rdc]
  | |- is_t (sum_last _) _ _ => eapply t_sum; tt
  | |- is_t (sum_keep _) _ _ => unfold sum_keep; tt
  | |- is_t (norm_keep _) _ _ => unfold norm_keep; tt
  | |- is_t (normalize_last _) _ _ => unfold normalize_last; tt
  | |- is_t (argmax_last _) _ _ => eapply t_argmax; tt
  | |- is_t (gather2 _ _) _ _ => eapply t_gather; [tt | tt | ]
  | |- is_t (expand ?s _) _ _ => eapply t_expand; [tt | tog]
  | |- is_t (put block33 _ _ _) _ _ => eapply t_put; [tt | tt | cbn [block33_shape tl]; tog | apply block33_ok]
  | |- is_t (put col3 _ _ _) _ _ => eapply t_put; [tt | tt | cbn [col3_shape tl]; tog | apply col3_ok]
  | |- is_t (put (cell _) _ _ _) _ _ => eapply t_put; [tt | tt | cbn [cell_shape tl]; tog | apply cell_ok]
  | |- is_t (matmul _ _) _ _ => eapply t_matmul; [tt | tt]
  | |- is_t (cross _ _) _ _ => eapply t_cross; [tt | tt]
  end.
Ltac see := cbv [q_at v_at v4_at f3_at nine_at six_at m3_at m4_at]; cbn [q_at v_at v4_at f3_at nine_at six_at m3_at m4_at at_ nth hd tl app length bidx Nat.eqb Nat.ltb Nat.leb Nat.add Nat.mul Nat.sub Nat.modulo Nat.div Nat.divmod fst snd rsum
  block33 col3 cell block33_shape col3_shape cell_shape andb qw qx qy qz vx vy vz v0 v1 v2 v3].
