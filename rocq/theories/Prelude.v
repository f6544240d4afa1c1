(** Python-level data: exceptions as values, lists, dictionaries, strings. *)
From Coq Require Import String Ascii Bool Arith Lia List.
Import ListNotations.

(** Python exceptions that the modelled code can raise. [OutOfFuel] is not a Python
    exception: it marks a loop that used up its fuel, and is shown unreachable. *)
Inductive exn :=
| ValueError | KeyError | IndexError | TypeError | RuntimeError | AttributeError
| UnboundLocalError | NotImplementedError | RecursionError | AssertionError | ParseError | OutOfFuel.

Inductive res (A : Type) := Ok (a : A) | Err (e : exn).
Arguments Ok {A}. Arguments Err {A}.

Definition rbind {A B} (x : res A) (f : A -> res B) : res B :=
  match x with Ok a => f a | Err e => Err e end.
Notation "'do' x <- e ; f" := (rbind e (fun x => f))
  (at level 200, x binder, e at level 100, f at level 200).

(** all results, or the first error *)
Fixpoint rmap {A B} (f : A -> res B) (l : list A) : res (list B) :=
  match l with
  | [] => Ok []
  | x :: r => do y <- f x; do ys <- rmap f r; Ok (y :: ys)
  end.

Definition of_opt {A} (e : exn) (o : option A) : res A :=
  match o with Some a => Ok a | None => Err e end.

(** [l[i]] for a non-negative index *)
Definition get {A} (l : list A) (i : nat) : res A := of_opt IndexError (nth_error l i).

(** [l.index(x)]: position of the first element equal to x *)
Fixpoint index_of {A} (eqb : A -> A -> bool) (x : A) (l : list A) : option nat :=
  match l with
  | [] => None
  | y :: r => if eqb x y then Some 0 else option_map S (index_of eqb x r)
  end.

(** [l[i] = v] *)
Fixpoint set_nth {A} (i : nat) (v : A) (l : list A) : list A :=
  match l, i with
  | [], _ => []
  | _ :: r, 0 => v :: r
  | x :: r, S k => x :: set_nth k v r
  end.

(** [sorted(set(l), key=l.index)]: distinct elements in order of first occurrence *)
Fixpoint dedup {A} (eqb : A -> A -> bool) (l : list A) : list A :=
  match l with
  | [] => []
  | x :: r => x :: filter (fun y => negb (eqb x y)) (dedup eqb r)
  end.

(** Python dictionaries: insertion-ordered association lists with one entry per key *)
Definition dict (K V : Type) := list (K * V).
Fixpoint dset {K V} (eqb : K -> K -> bool) (k : K) (v : V) (d : dict K V) : dict K V :=
  match d with
  | [] => [(k, v)]
  | (k', v') :: r => if eqb k k' then (k', v) :: r else (k', v') :: dset eqb k v r
  end.
Fixpoint dget {K V} (eqb : K -> K -> bool) (k : K) (d : dict K V) : option V :=
  match d with
  | [] => None
  | (k', v') :: r => if eqb k k' then Some v' else dget eqb k r
  end.

Definition opt_eqb {A} (eqb : A -> A -> bool) (x y : option A) : bool :=
  match x, y with
  | Some a, Some b => eqb a b
  | None, None => true
  | _, _ => false
  end.

(** [s.strip("\n")]: remove newline characters at both ends *)
Definition newline : ascii := ascii_of_nat 10.
Fixpoint lstrip (s : list ascii) : list ascii :=
  match s with
  | c :: r => if Ascii.eqb c newline then lstrip r else s
  | [] => []
  end.
Definition strip_nl (s : string) : string :=
  string_of_list_ascii (rev (lstrip (rev (lstrip (list_ascii_of_string s))))).

(** ** Lemmas *)
Lemma rbind_ok {A B} (x : res A) (f : A -> res B) b :
  rbind x f = Ok b -> exists a, x = Ok a /\ f a = Ok b.
Proof. destruct x; simpl; intros H; [eauto | discriminate]. Qed.

Lemma get_ok {A} (l : list A) i a : get l i = Ok a <-> nth_error l i = Some a.
Proof. unfold get, of_opt; destruct (nth_error l i); split; intros H; inversion H; auto. Qed.

Lemma get_nth {A} (l : list A) i d : i < length l -> get l i = Ok (nth i l d).
Proof. intros H. apply get_ok, nth_error_nth', H. Qed.

Lemma rmap_ok {A B} (f : A -> res B) l g :
  (forall x, In x l -> f x = Ok (g x)) -> rmap f l = Ok (map g l).
Proof.
  induction l as [|x r IH]; simpl; intros H; [reflexivity|].
  rewrite H by auto; simpl. rewrite IH by auto; reflexivity.
Qed.

Lemma rmap_length {A B} (f : A -> res B) l ys : rmap f l = Ok ys -> length ys = length l.
Proof.
  revert ys; induction l as [|x r IH]; simpl; intros ys H.
  - inversion H; reflexivity.
  - apply rbind_ok in H as (y & _ & H). apply rbind_ok in H as (zs & Hz & H).
    inversion H; subst; simpl. rewrite (IH _ Hz); reflexivity.
Qed.

Lemma rmap_nth {A B} (f : A -> res B) l ys i x : rmap f l = Ok ys -> nth_error l i = Some x ->
  exists y, nth_error ys i = Some y /\ f x = Ok y.
Proof.
  revert ys i; induction l as [|z r IH]; simpl; intros ys i H Hi.
  - destruct i; discriminate.
  - apply rbind_ok in H as (y & Hy & H). apply rbind_ok in H as (zs & Hz & H).
    inversion H; subst; clear H. destruct i; simpl in *.
    + inversion Hi; subst; eauto.
    + eauto.
Qed.

Section Eqb.
Context {A : Type} (eqb : A -> A -> bool).
Hypothesis eqb_eq : forall x y, eqb x y = true <-> x = y.

Lemma eqb_refl' x : eqb x x = true. Proof. apply eqb_eq; reflexivity. Qed.
Lemma eqb_neq' x y : x <> y -> eqb x y = false.
Proof. intros H. destruct (eqb x y) eqn:E; [exfalso; apply H, eqb_eq, E | reflexivity]. Qed.

Lemma index_of_some x l i : index_of eqb x l = Some i ->
  nth_error l i = Some x /\ (forall k, k < i -> nth_error l k <> Some x).
Proof.
  revert i; induction l as [|y r IH]; simpl; intros i H; [discriminate|].
  destruct (eqb x y) eqn:E.
  - inversion H; subst. apply eqb_eq in E; subst. split; [reflexivity | intros k Hk; lia].
  - destruct (index_of eqb x r) as [j|]; simpl in H; [|discriminate].
    inversion H; subst. destruct (IH j eq_refl) as [Hn Hf]. split; [exact Hn|].
    intros [|k] Hk; simpl.
    + intros Hc; inversion Hc; subst. rewrite eqb_refl' in E; discriminate.
    + apply Hf; lia.
Qed.

Lemma index_of_lt x l i : index_of eqb x l = Some i -> i < length l.
Proof. intros H. apply nth_error_Some. rewrite (proj1 (index_of_some _ _ _ H)); discriminate. Qed.

Lemma index_of_in x l : In x l -> exists i, index_of eqb x l = Some i.
Proof.
  induction l as [|y r IH]; simpl; intros H; [contradiction|].
  destruct (eqb x y) eqn:E; [eauto|].
  destruct H as [->|H]; [rewrite eqb_refl' in E; discriminate|].
  destruct (IH H) as [i ->]; simpl; eauto.
Qed.

Lemma index_of_none x l : index_of eqb x l = None <-> ~ In x l.
Proof.
  split.
  - intros H Hin. destruct (index_of_in _ _ Hin) as [i Hi]; congruence.
  - intros H. destruct (index_of eqb x l) eqn:E; [|reflexivity].
    exfalso; apply H. apply index_of_some in E as [E _]. eapply nth_error_In, E.
Qed.

Lemma index_of_nodup x l i : NoDup l -> nth_error l i = Some x -> index_of eqb x l = Some i.
Proof.
  revert i; induction l as [|y r IH]; intros i Hnd Hi; [destruct i; discriminate|].
  inversion Hnd; subst. destruct i; simpl in *.
  - inversion Hi; subst. rewrite eqb_refl'; reflexivity.
  - rewrite eqb_neq'; [rewrite (IH i); auto|].
    intros ->. apply H1. eapply nth_error_In, Hi.
Qed.

Lemma dedup_in x l : In x (dedup eqb l) <-> In x l.
Proof.
  induction l as [|y r IH]; simpl; [tauto|].
  rewrite filter_In, IH. split; [tauto|].
  intros [H|H]; [auto|]. destruct (eqb y x) eqn:E.
  - left; apply eqb_eq, E.
  - right; split; [assumption | reflexivity].
Qed.

Lemma dedup_nodup l : NoDup (dedup eqb l).
Proof.
  induction l as [|y r IH]; simpl; constructor.
  - rewrite filter_In, eqb_refl'; simpl; intros [_ H]; discriminate.
  - apply NoDup_filter, IH.
Qed.

Lemma dedup_id l : NoDup l -> dedup eqb l = l.
Proof.
  induction l as [|y r IH]; simpl; intros H; [reflexivity|].
  inversion H; subst. rewrite IH by assumption. f_equal.
  clear -H2 eqb_eq. induction r as [|z r IH]; simpl; [reflexivity|].
  rewrite eqb_neq' by (intros ->; apply H2; left; reflexivity); simpl.
  f_equal. apply IH. intros Hc; apply H2; right; exact Hc.
Qed.

Lemma dget_dset_same {V} k (v : V) d : dget eqb k (dset eqb k v d) = Some v.
Proof.
  induction d as [|[k' v'] r IH]; simpl.
  - rewrite eqb_refl'; reflexivity.
  - destruct (eqb k k') eqn:E; simpl; rewrite E; auto.
Qed.

Lemma dget_dset_other {V} k k' (v : V) d : k <> k' -> dget eqb k (dset eqb k' v d) = dget eqb k d.
Proof.
  intros Hn. induction d as [|[k2 v2] r IH]; simpl.
  - rewrite eqb_neq' by assumption; reflexivity.
  - destruct (eqb k' k2) eqn:E; simpl.
    + apply eqb_eq in E; subst. rewrite eqb_neq' by assumption; reflexivity.
    + rewrite IH; reflexivity.
Qed.

Lemma dset_keys_in {V} k (v : V) d x : In x (map fst (dset eqb k v d)) <-> x = k \/ In x (map fst d).
Proof.
  induction d as [|[k' v'] r IH]; simpl; [intuition|].
  destruct (eqb k k') eqn:E; simpl.
  - apply eqb_eq in E; subst. intuition.
  - rewrite IH. intuition.
Qed.

Lemma dset_fresh {V} k (v : V) d : ~ In k (map fst d) -> dset eqb k v d = d ++ [(k, v)].
Proof.
  induction d as [|[k' v'] r IH]; simpl; intros H; [reflexivity|].
  rewrite eqb_neq' by (intros ->; apply H; auto). rewrite IH by tauto; reflexivity.
Qed.

Lemma dset_nodup {V} k (v : V) d : NoDup (map fst d) -> NoDup (map fst (dset eqb k v d)).
Proof.
  induction d as [|[k' v'] r IH]; simpl; intros H.
  - constructor; [auto | constructor].
  - inversion H; subst. destruct (eqb k k') eqn:E; simpl; constructor; auto.
    rewrite dset_keys_in. intros [->|Hc]; [rewrite eqb_refl' in E; discriminate | auto].
Qed.

Lemma dget_in {V} k (v : V) d : dget eqb k d = Some v -> In (k, v) d.
Proof.
  induction d as [|[k' v'] r IH]; simpl; intros H; [discriminate|].
  destruct (eqb k k') eqn:E; [|auto]. apply eqb_eq in E; inversion H; subst; auto.
Qed.

Lemma dget_none {V} k (d : dict A V) : dget eqb k d = None <-> ~ In k (map fst d).
Proof.
  induction d as [|[k' v'] r IH]; simpl; [tauto|].
  destruct (eqb k k') eqn:E.
  - apply eqb_eq in E; subst. split; [discriminate | tauto].
  - rewrite IH. split; [|tauto]. intros H [->|Hc]; [rewrite eqb_refl' in E; discriminate | auto].
Qed.

Lemma dget_nodup {V} k (v : V) d : NoDup (map fst d) -> In (k, v) d -> dget eqb k d = Some v.
Proof.
  induction d as [|[k' v'] r IH]; simpl; intros Hn H; [contradiction|].
  inversion Hn; subst. destruct H as [H|H].
  - inversion H; subst. rewrite eqb_refl'; reflexivity.
  - rewrite eqb_neq'; [auto|]. intros ->. apply H2. change k' with (fst (k', v)). apply in_map, H.
Qed.

Lemma opt_eqb_eq x y : opt_eqb eqb x y = true <-> x = y.
Proof.
  destruct x, y; simpl; try (split; congruence).
  rewrite eqb_eq. split; congruence.
Qed.
End Eqb.

Lemma set_nth_length {A} i (v : A) l : length (set_nth i v l) = length l.
Proof. revert i; induction l; destruct i; simpl; auto. Qed.

Lemma set_nth_same {A} i (v : A) l : i < length l -> nth_error (set_nth i v l) i = Some v.
Proof. revert i; induction l; destruct i; simpl; intros; try lia; auto. apply IHl; lia. Qed.

Lemma set_nth_other {A} i k (v : A) l : i <> k -> nth_error (set_nth i v l) k = nth_error l k.
Proof.
  revert i k; induction l; destruct i, k; simpl; intros; try lia; auto.
Qed.

Lemma nth_error_app_last {A} (l : list A) x : nth_error (l ++ [x]) (length l) = Some x.
Proof. rewrite nth_error_app2, Nat.sub_diag by lia; reflexivity. Qed.

Lemma nth_error_app_some {A} (l r : list A) i x : nth_error l i = Some x -> nth_error (l ++ r) i = Some x.
Proof.
  intros H. rewrite nth_error_app1; [exact H|]. apply nth_error_Some; congruence.
Qed.

Lemma nth_error_map_some {A B} (f : A -> B) l i x :
  nth_error l i = Some x -> nth_error (map f l) i = Some (f x).
Proof. intros H; rewrite nth_error_map, H; reflexivity. Qed.

Lemma list_ext {A} (l1 l2 : list A) : (forall i, nth_error l1 i = nth_error l2 i) -> l1 = l2.
Proof.
  revert l2; induction l1 as [|a l1 IH]; destruct l2 as [|b l2]; intros H; auto.
  - specialize (H 0); discriminate.
  - specialize (H 0); discriminate.
  - pose proof (H 0) as H0; simpl in H0; inversion H0; subst. f_equal.
    apply IH. intros i; apply (H (S i)).
Qed.

Lemma seqb_eq : forall x y, String.eqb x y = true <-> x = y.
Proof. intros; apply String.eqb_eq. Qed.
Lemma neqb_eq : forall x y, Nat.eqb x y = true <-> x = y.
Proof. intros; apply Nat.eqb_eq. Qed.
Definition oseqb := opt_eqb String.eqb.
Lemma oseqb_eq : forall x y, oseqb x y = true <-> x = y.
Proof. apply opt_eqb_eq, seqb_eq. Qed.

(** pairwise combination of two lists of equal length *)
Fixpoint zip_with {A B C} (f : A -> B -> C) (l1 : list A) (l2 : list B) : list C :=
  match l1, l2 with
  | a :: r1, b :: r2 => f a b :: zip_with f r1 r2
  | _, _ => []
  end.
Lemma zip_with_length {A B C} (f : A -> B -> C) l1 l2 :
  length (zip_with f l1 l2) = Nat.min (length l1) (length l2).
Proof. revert l2; induction l1; destruct l2; simpl; auto. Qed.
Lemma zip_with_nth {A B C} (f : A -> B -> C) l1 l2 i a b :
  nth_error l1 i = Some a -> nth_error l2 i = Some b ->
  nth_error (zip_with f l1 l2) i = Some (f a b).
Proof.
  revert l2 i; induction l1; destruct l2, i; simpl; intros H1 H2; try discriminate.
  - inversion H1; inversion H2; subst; reflexivity.
  - eauto.
Qed.
