(** Joints forming a tree, and what the tree builder makes of them. *)
From Coq Require Import Reals String Bool Arith Lia List Permutation.
From Verif Require Import Prelude ExtF Tree ChainModel SpecFK ChainProofs Lin RotModel T3dModel ChainInst LoaderModel.
Import ListNotations.
Local Open Scope nat_scope.

Section Paths.
Context {J K : Type} (par chi : J -> K).

(** a path of joints from one link down to another *)
Inductive jpath (joints : list J) : K -> list J -> K -> Prop :=
| jp_here x : jpath joints x [] x
| jp_step x j l y : In j joints -> par j = x -> jpath joints (chi j) l y -> jpath joints x (j :: l) y.

(** At least one joint; no link is the child of two joints; the root is nobody's child; every joint can be reached
    from the root. *)
Definition tree_shaped (joints : list J) (root : K) : Prop :=
  joints <> [] /\ NoDup (map chi joints) /\ ~ In root (map chi joints) /\
  forall j, In j joints -> exists l, jpath joints root l (par j).

Lemma jpath_app joints x l y m z : jpath joints x l y -> jpath joints y m z -> jpath joints x (l ++ m) z.
Proof. induction 1; simpl; intros; auto. econstructor; eauto. Qed.

Lemma jpath_app_inv joints l m x z : jpath joints x (l ++ m) z -> exists y, jpath joints x l y /\ jpath joints y m z.
Proof.
  revert x. induction l as [|j l IH]; simpl; intros x H.
  - exists x. split; [constructor | auto].
  - inversion H as [|? ? ? ? Ha Hb Hc]; subst. destruct (IH _ Hc) as (y & Hy1 & Hy2). exists y.
    split; [econstructor; eauto | auto].
Qed.

Lemma jpath_snoc joints x l j y :
  jpath joints x (l ++ [j]) y <-> jpath joints x l (par j) /\ In j joints /\ y = chi j.
Proof.
  split.
  - intros H. apply jpath_app_inv in H as (z & H1 & H2). inversion H2 as [|? ? ? ? Ha Hb Hc]; subst.
    inversion Hc; subst. auto.
  - intros (H1 & H2 & ->). eapply jpath_app; eauto. econstructor; eauto. constructor.
Qed.

Lemma jpath_incl joints x l y : jpath joints x l y -> incl l joints.
Proof. induction 1; intros z Hz; simpl in Hz; [contradiction | destruct Hz; subst; auto]. Qed.

Variable joints : list J.
Variable root : K.
Hypothesis Hnd : NoDup (map chi joints).
Hypothesis Hroot : ~ In root (map chi joints).

Lemma chi_inj j j' : In j joints -> In j' joints -> chi j = chi j' -> j = j'.
Proof.
  clear Hroot. revert Hnd. induction joints as [|a r IH]; simpl; [tauto|].
  intros Hn Hj Hj' E. inversion Hn; subst.
  destruct Hj as [->|Hj], Hj' as [->|Hj']; auto.
  - exfalso. apply H1. rewrite E. apply in_map, Hj'.
  - exfalso. apply H1. rewrite <- E. apply in_map, Hj.
Qed.

Lemma jpath_unique l : forall l' x, jpath joints root l x -> jpath joints root l' x -> l = l'.
Proof.
  pose proof Hroot as Hr.
  induction l as [|j l IH] using rev_ind; intros l' x H H'.
  - inversion H; subst. destruct l' as [|j' l' _] using rev_ind; auto.
    apply jpath_snoc in H' as (_ & Hi & ->). exfalso. apply Hr, in_map, Hi.
  - apply jpath_snoc in H as (H & Hi & ->).
    destruct l' as [|j' l' _] using rev_ind.
    + assert (E : chi j = root) by (inversion H'; congruence). exfalso. apply Hr. rewrite <- E. apply in_map, Hi.
    + apply jpath_snoc in H' as (H' & Hi' & E). apply chi_inj in E; auto. subst j'.
      rewrite (IH _ _ H H'). reflexivity.
Qed.

Lemma jpath_nodup l x : jpath joints root l x -> NoDup l.
Proof.
  revert x. induction l as [|j l IH] using rev_ind; intros x H; [constructor|].
  pose proof H as Hl. apply jpath_snoc in H as (H & Hi & ->).
  apply (Permutation_NoDup (Permutation_cons_append l j)). constructor; [|eapply IH; eauto].
  intros Hin. apply in_split in Hin as (l1 & l2 & ->).
  assert (H1 : jpath joints root (l1 ++ [j]) (chi j)).
  { apply jpath_snoc. apply jpath_app_inv in H as (y & H & H2). inversion H2; subst. auto. }
  pose proof (jpath_unique _ _ _ Hl H1) as E. apply (f_equal (@length J)) in E.
  rewrite !app_length in E. simpl in E. rewrite ?app_length in E. simpl in E. lia.
Qed.

Lemma jpath_length l x : jpath joints root l x -> length l <= length joints.
Proof. intros H. apply NoDup_incl_length; [eapply jpath_nodup | eapply jpath_incl]; eauto. Qed.

Lemma joints_nodup : NoDup joints.
Proof. apply NoDup_map_inv in Hnd. exact Hnd. Qed.
End Paths.

Lemma set_nth_get {A} i (v : A) l k : nth_error (set_nth i v l) k =
  if Nat.eqb i k then option_map (fun _ => v) (nth_error l k) else nth_error l k.
Proof.
  revert i k. induction l as [|x r IH]; intros [|i] [|k]; simpl; auto.
  destruct (Nat.eqb i k); reflexivity.
Qed.
Lemma nth_repeat_some {A} (x : A) n i : i < n -> nth_error (repeat x n) i = Some x.
Proof. revert i; induction n; intros i H; [lia|]. destruct i; simpl; auto. apply IHn; lia. Qed.
Lemma rmap_total {A B} (f : A -> res B) l : (forall x, In x l -> exists y, f x = Ok y) -> exists ys, rmap f l = Ok ys.
Proof.
  induction l as [|x r IH]; simpl; intros H; [eauto|].
  destruct (H x (or_introl eq_refl)) as (y & Hy). rewrite Hy. cbn [rbind].
  destruct IH as (ys & Hys); [auto|]. rewrite Hys. cbn [rbind]. eauto.
Qed.
Lemma rmap_forall2 {A B} (f : A -> res B) l ys : rmap f l = Ok ys -> Forall2 (fun x y => f x = Ok y) l ys.
Proof.
  revert ys. induction l as [|x r IH]; simpl; intros ys H.
  - inversion H; constructor.
  - apply rbind_ok in H as (y & Hy & H). apply rbind_ok in H as (zs & Hz & H). inversion H; subst. constructor; auto.
Qed.
Lemma forall2_in_l {A B} (P : A -> B -> Prop) l m x : Forall2 P l m -> In x l -> exists y, In y m /\ P x y.
Proof. induction 1; simpl; intros Hx; [tauto|]. destruct Hx as [->|Hx]; eauto. destruct (IHForall2 Hx) as (z & ? & ?); eauto. Qed.
Lemma forall2_in_r {A B} (P : A -> B -> Prop) l m y : Forall2 P l m -> In y m -> exists x, In x l /\ P x y.
Proof. induction 1; simpl; intros Hx; [tauto|]. destruct Hx as [->|Hx]; eauto. destruct (IHForall2 Hx) as (z & ? & ?); eauto. Qed.
Lemma NoDup_app_disj {A} (l m : list A) : NoDup l -> NoDup m -> (forall x, In x l -> In x m -> False) -> NoDup (l ++ m).
Proof.
  induction 1; simpl; intros Hm Hd; auto. constructor.
  - rewrite in_app_iff. intros [?|?]; [tauto | eapply Hd; [left; reflexivity | auto]].
  - apply IHNoDup; auto. intros z Hz. apply Hd. right; auto.
Qed.

(** ** Trees of frames made for the edges of a tree *)
Section Built.
Context {J K : Type} (par chi : J -> K) (keqb : K -> K -> bool).
Hypothesis keqb_eq : forall x y, keqb x y = true <-> x = y.
Variable joints : list J.
(** [made j f]: f is a frame made for edge j *)
Variable made : J -> mframe -> Prop.

(** the children of the frame of x, down to depth k *)
Fixpoint Built (k : nat) (x : K) (cs : list mframe) : Prop :=
  match k with
  | O => False
  | S n => Forall2 (fun j f => made j f /\ Built n (chi j) (f_children f)) (filter (fun j => keqb (par j) x) joints) cs
  end.

Lemma in_filter_par j x : In j (filter (fun j => keqb (par j) x) joints) <-> In j joints /\ par j = x.
Proof. rewrite filter_In, keqb_eq. tauto. Qed.

(** every path of edges is a path of frames *)
Lemma built_path q : forall j k x y cs, Built k x cs -> jpath par chi joints x (j :: q) y ->
  exists c fs, In c cs /\ root_path c fs /\ Forall2 made (j :: q) fs.
Proof.
  induction q as [|j' q IH]; intros j k x y cs Hb Hp.
  - inversion Hp; subst. destruct k as [|k]; [destruct Hb|]. cbn [Built] in Hb.
    destruct (forall2_in_l _ _ _ j Hb) as (f & Hf & Hm & Hc); [apply in_filter_par; auto|].
    exists f, [f]. split; [auto|]. split; [destruct f; constructor | repeat constructor; apply Hm].
  - inversion Hp as [|? ? ? ? Ha Hc' Hd]; subst. destruct k as [|k]; [destruct Hb|]. cbn [Built] in Hb.
    destruct (forall2_in_l _ _ _ j Hb) as (f & Hf & Hm & Hc); [apply in_filter_par; auto|].
    destruct (IH _ _ _ _ _ Hc Hd) as (c & fs & Hi & Hrp & H2).
    exists f, (f :: fs). split; [auto|]. split; [econstructor; eauto | constructor; auto].
Qed.

Variable root : K.
Hypothesis Hnd : NoDup (map chi joints).
Hypothesis Hroot : ~ In root (map chi joints).

(** the frames, depth first, are made for the edges below x, once each *)
Lemma built_flat k : forall l x cs, jpath par chi joints root l x -> Built k x cs ->
  exists jl, Forall2 made jl (flat_map preorder cs) /\ NoDup jl /\
    (forall j, In j jl <-> exists q, jpath par chi joints x (q ++ [j]) (chi j)).
Proof.
  induction k as [|k IH]; intros l x cs Hl Hb; [destruct Hb|]. cbn [Built] in Hb.
  assert (G : forall js, incl js (filter (fun j => keqb (par j) x) joints) -> NoDup js ->
    forall cs, Forall2 (fun j f => made j f /\ Built k (chi j) (f_children f)) js cs ->
    exists jl, Forall2 made jl (flat_map preorder cs) /\ NoDup jl /\
      (forall j, In j jl <-> exists c q, In c js /\ jpath par chi joints x (c :: q) (chi j) /\ (exists p, c :: q = p ++ [j]))).
  { clear cs Hb. induction js as [|c js IHj]; intros Hi Hn cs H2.
    - inversion H2; subst. exists []. simpl. split; [constructor|]. split; [constructor|].
      intros j. split; [intros [] | intros (? & ? & [] & _)].
    - inversion H2 as [|? f ? cs' Hc Hr]; subst. inversion Hn; subst.
      destruct (IHj (fun z Hz => Hi z (or_intror Hz)) H3 _ Hr) as (jl & Hf & Hnd' & Hjl).
      destruct Hc as [Hm Hcb]. assert (Hcj : In c joints /\ par c = x) by (apply in_filter_par, Hi; left; auto).
      destruct Hcj as [Hcj Hcx].
      assert (Hlc : jpath par chi joints root (l ++ [c]) (chi c)) by (apply jpath_snoc; subst x; auto).
      destruct (IH _ _ _ Hlc Hcb) as (jc & Hfc & Hndc & Hjc).
      exists (c :: jc ++ jl). split; [|split].
      + simpl. destruct f as [n lk jn ch]. simpl. constructor; [exact Hm|]. apply Forall2_app; assumption.
      + constructor.
        * rewrite in_app_iff. intros [Hin|Hin].
          -- apply Hjc in Hin as (q & Hq).
             assert (Hp : jpath par chi joints root ((l ++ [c]) ++ q ++ [c]) (chi c)) by (eapply jpath_app; eauto).
             pose proof (jpath_unique _ _ _ _ Hnd Hroot _ _ _ Hlc Hp) as E. apply (f_equal (@length J)) in E.
             rewrite !app_length in E. simpl in E. lia.
          -- apply Hjl in Hin as (c' & q & Hc' & Hq & _).
             assert (Hp : jpath par chi joints root (l ++ c' :: q) (chi c)) by (eapply jpath_app; eauto).
             pose proof (jpath_unique _ _ _ _ Hnd Hroot _ _ _ Hlc Hp) as E. apply app_inv_head in E. inversion E; subst. tauto.
        * apply NoDup_app_disj; auto. intros j H5 H6.
          apply Hjc in H5 as (q & Hq). apply Hjl in H6 as (c' & q' & Hc' & Hq' & _).
          assert (Hp : jpath par chi joints root (l ++ c' :: q') (chi j)) by (eapply jpath_app; eauto).
          assert (Hp' : jpath par chi joints root ((l ++ [c]) ++ q ++ [j]) (chi j)) by (eapply jpath_app; eauto).
          rewrite <- app_assoc in Hp'. pose proof (jpath_unique _ _ _ _ Hnd Hroot _ _ _ Hp Hp') as E. apply app_inv_head in E.
          simpl in E. inversion E; subst. tauto.
      + intros j. split.
        * intros [<-|Hin].
          -- exists c, []. split; [left; auto|]. split; [econstructor; eauto; constructor|]. exists []. reflexivity.
          -- apply in_app_iff in Hin as [Hin|Hin].
             ++ apply Hjc in Hin as (q & Hq). exists c, (q ++ [j]). split; [left; auto|].
                split; [econstructor; eauto|]. exists (c :: q). reflexivity.
             ++ apply Hjl in Hin as (c' & q & Hc' & Hq & Hp). exists c', q. split; [right; auto|]. auto.
        * intros (c' & q & [<-|Hc'] & Hq & (p & E)).
          -- destruct p as [|c0 p]; simpl in E; inversion E; subst; [left; reflexivity | right; apply in_app_iff; left].
             apply Hjc. exists p. inversion Hq; subst. assumption.
          -- right. apply in_app_iff. right. apply Hjl. exists c', q. split; [exact Hc'|]. split; [exact Hq|]. exists p. exact E. }
  destruct (G _ (fun z Hz => Hz)) with (cs := cs) as (jl & H1 & H2 & H3);
    [apply NoDup_filter, (joints_nodup _ _ Hnd) | exact Hb|].
  exists jl. split; [auto|]. split; [auto|]. intros j. rewrite H3. split.
  - intros (c & q & _ & Hq & (p & E)). exists p. rewrite <- E. exact Hq.
  - intros (q & Hq). destruct (q ++ [j]) as [|c r] eqn:E; [destruct q; discriminate|]. exists c, r.
    split; [inversion Hq; subst; apply in_filter_par; auto|]. split; [exact Hq|]. exists q. auto.
Qed.
End Built.

(** ** The root and the frames found by urdf.py and sdf.py *)
Section Tree.
Context {J : Type} (par chi : J -> string).
Variable joints : list J.
Variable root : string.
Hypothesis HT : tree_shaped par chi joints root.
Notation jpath := (jpath par chi).
Let Hnd : NoDup (map chi joints) := proj1 (proj2 HT).
Let Hroot : ~ In root (map chi joints) := proj1 (proj2 (proj2 HT)).

(** every link of the tree is the root or a child *)
Lemma par_root_or_child j : In j joints -> par j = root \/ In (par j) (map chi joints).
Proof.
  intros Hj. pose proof HT as (_ & _ & _ & H). destruct (H j Hj) as (l & Hl).
  destruct l as [|k l _] using rev_ind.
  - inversion Hl; subst. auto.
  - apply jpath_snoc in Hl as (_ & Hi & ->). right. apply in_map, Hi.
Qed.

(** ** the root *)
Definition hit (p : nat * nat) (i : nat) : bool :=
  match nth_error joints (fst p), nth_error joints (snd p) with
  | Some a, Some b => if String.eqb (par a) (chi b) then Nat.eqb (fst p) i
                      else if String.eqb (par b) (chi a) then Nat.eqb (snd p) i else false
  | _, _ => false
  end.

Lemma step_hit hr p i : nth_error (root_step par chi joints hr p) i =
  option_map (fun b => b && negb (hit p i)) (nth_error hr i).
Proof.
  unfold root_step, hit. destruct (nth_error joints (fst p)) as [a|], (nth_error joints (snd p)) as [b|];
    try (destruct (nth_error hr i); simpl; rewrite ?andb_true_r; reflexivity).
  destruct (String.eqb (par a) (chi b)); [|destruct (String.eqb (par b) (chi a))]; rewrite ?set_nth_get;
    repeat match goal with |- context [if Nat.eqb ?x i then _ else _] => destruct (Nat.eqb x i) end;
    destruct (nth_error hr i); simpl; rewrite ?andb_true_r, ?andb_false_r; reflexivity.
Qed.

Lemma steps_hit ps : forall hr i, nth_error (fold_left (root_step par chi joints) ps hr) i =
  option_map (fun b => b && forallb (fun p => negb (hit p i)) ps) (nth_error hr i).
Proof.
  induction ps as [|p ps IH]; intros hr i; simpl.
  - destruct (nth_error hr i); simpl; rewrite ?andb_true_r; reflexivity.
  - rewrite IH, step_hit. destruct (nth_error hr i); simpl; rewrite ?andb_assoc; reflexivity.
Qed.

Lemma in_root_pairs n i j : In (i, j) (root_pairs n) <-> i < j < n.
Proof.
  unfold root_pairs. rewrite in_flat_map. split.
  - intros (k & Hk & H). apply in_map_iff in H as (m & E & Hm). inversion E; subst.
    apply in_seq in Hk. apply in_seq in Hm. lia.
  - intros H. exists i. split; [apply in_seq; lia|]. apply in_map. apply in_seq. lia.
Qed.

(** joint i keeps [has_root] exactly when its parent is nobody's child *)
Lemma has_root_spec i a : nth_error joints i = Some a ->
  exists b, nth_error (has_root par chi joints) i = Some b /\
    (b = true <-> ~ In (par a) (map chi joints)).
Proof.
  intros Hi. assert (Hlt : i < length joints) by (apply nth_error_Some; congruence).
  unfold has_root. rewrite steps_hit, nth_repeat_some by exact Hlt. simpl.
  eexists. split; [reflexivity|]. rewrite forallb_forall. split.
  - intros H Hin. apply in_map_iff in Hin as (b & E & Hb).
    apply In_nth_error in Hb as (k & Hk).
    assert (Hkl : k < length joints) by (apply nth_error_Some; congruence).
    destruct (Nat.lt_trichotomy i k) as [L|[L|L]].
    + specialize (H (i, k) (proj2 (in_root_pairs _ _ _) (conj L Hkl))).
      unfold hit in H. simpl in H. rewrite Hi, Hk, E, String.eqb_refl, Nat.eqb_refl in H. discriminate.
    + subst k. rewrite Hi in Hk. inversion Hk; subst b.
      (* a joint whose parent is its own child cannot be reached *)
      pose proof HT as (_ & _ & _ & Hr). apply nth_error_In in Hi.
      destruct (Hr a Hi) as (l & Hl).
      assert (H1 : jpath joints root (l ++ [a]) (par a)) by (rewrite <- E; apply jpath_snoc; auto).
      pose proof (jpath_unique _ _ _ _ Hnd Hroot _ _ _ Hl H1) as Q. apply (f_equal (@length J)) in Q.
      rewrite app_length in Q. simpl in Q. lia.
    + specialize (H (k, i) (proj2 (in_root_pairs _ _ _) (conj L Hlt))).
      unfold hit in H. simpl in H. rewrite Hi, Hk, E, String.eqb_refl, Nat.eqb_refl in H.
      destruct (String.eqb_spec (par b) (chi a)) as [E2|E2]; [|discriminate].
      (* two joints pointing at each other cannot be reached *)
      pose proof HT as (_ & _ & _ & Hr). apply nth_error_In in Hi. apply nth_error_In in Hk.
      destruct (Hr a Hi) as (l & Hl).
      assert (H1 : jpath joints root ((l ++ [a]) ++ [b]) (par a)).
      { rewrite <- E. apply jpath_snoc. split; [|auto]. rewrite E2. apply jpath_snoc; auto. }
      pose proof (jpath_unique _ _ _ _ Hnd Hroot _ _ _ Hl H1) as Q. apply (f_equal (@length J)) in Q.
      rewrite !app_length in Q. simpl in Q. lia.
  - intros Hn [k m] Hp. apply in_root_pairs in Hp. unfold hit. simpl.
    destruct (nth_error joints k) as [a'|] eqn:Ek; [|reflexivity].
    destruct (nth_error joints m) as [b'|] eqn:Em; [|reflexivity].
    destruct (String.eqb_spec (par a') (chi b')) as [E|E].
    + destruct (Nat.eqb_spec k i) as [->|]; [|reflexivity].
      rewrite Hi in Ek. inversion Ek; subst. exfalso. apply Hn. rewrite E. apply in_map.
      eapply nth_error_In; eauto.
    + destruct (String.eqb_spec (par b') (chi a')) as [E2|E2]; [|reflexivity].
      destruct (Nat.eqb_spec m i) as [->|]; [|reflexivity].
      rewrite Hi in Em. inversion Em; subst. exfalso. apply Hn. rewrite E2. apply in_map.
      eapply nth_error_In; eauto.
Qed.

Lemma has_root_length : length (has_root par chi joints) = length joints.
Proof.
  unfold has_root. assert (G : forall ps hr, length (fold_left (root_step par chi joints) ps hr) = length hr).
  { induction ps as [|p ps IH]; intros hr; simpl; auto. rewrite IH.
    assert (Q : forall A i (v : A) l, length (set_nth i v l) = length l).
    { intros A i v l. revert i. induction l; intros [|i]; simpl; auto. }
    unfold root_step. destruct (nth_error joints (fst p)), (nth_error joints (snd p)); auto.
    destruct (String.eqb _ _); [apply Q|]. destruct (String.eqb _ _); [apply Q|auto]. }
  rewrite G. apply repeat_length.
Qed.

Theorem find_root_ok : find_root par chi joints = Ok root.
Proof.
  unfold find_root.
  assert (G : forall b j, In (b, j) (combine (has_root par chi joints) joints) -> b = true -> par j = root).
  { intros b j H Hb. apply In_nth_error in H as (i & Hi).
    assert (Hj : nth_error joints i = Some j /\ nth_error (has_root par chi joints) i = Some b).
    { clear -Hi. revert i Hi. generalize (has_root par chi joints). induction joints as [|x r IH]; intros [|h hr] [|i] Hi; simpl in *;
        try discriminate; [inversion Hi; auto | auto]. }
    destruct Hj as [Hj Hh]. destruct (has_root_spec i j Hj) as (b' & Hb' & HQ). rewrite Hh in Hb'. inversion Hb'; subst b'.
    apply HQ in Hb. apply nth_error_In in Hj. destruct (par_root_or_child j Hj); tauto. }
  destruct (find (fun p => fst p) (combine (has_root par chi joints) joints)) as [[b j]|] eqn:E.
  - apply find_some in E as [H1 H2]. rewrite (G _ _ H1 H2). reflexivity.
  - exfalso. (* the first joint of some path starts at the root *)
    pose proof HT as (Hne & _ & Hr & Hp). destruct joints as [|j0 r] eqn:Ej; [congruence|]. rewrite <- Ej in *.
    assert (Hin : In j0 joints) by (rewrite Ej; left; auto).
    destruct (Hp _ Hin) as (l & Hl).
    assert (H1 : exists j, In j joints /\ par j = root).
    { destruct l as [|k l]; inversion Hl; subst; eauto. }
    destruct H1 as (j & Hj & Hjr). apply In_nth_error in Hj as (i & Hi).
    destruct (has_root_spec i j Hi) as (b & Hb & HQ). rewrite Hjr in HQ. destruct HQ as [_ HQ].
    specialize (HQ Hr). subst b.
    assert (Hc : In (true, j) (combine (has_root par chi joints) joints)).
    { apply (nth_error_In _ i). revert i Hi Hb. clear. generalize (has_root par chi joints).
      induction joints as [|x r IH]; intros [|h hr] [|i] Hi Hb; simpl in *; try discriminate; [congruence | auto]. }
    pose proof (find_none _ _ E _ Hc) as Q. simpl in Q. discriminate.
Qed.

(** ** the frames *)
Variable mk : J -> res (@link M4 * mjoint).
Hypothesis Hmk : forall j, In j joints -> exists l jn, mk j = Ok (l, jn) /\ l_name l = Some (chi j).

(** the frame made for a joint *)
Definition made (j : J) (f : mframe) : Prop := mk j = Ok (f_link f, f_joint f) /\ f_name f = chi j.

Notation build := (build_rec par chi mk joints).

Lemma build_total k : forall l x, jpath joints root l x -> length joints < k + length l ->
  exists cs, build k (Some x) = Ok cs.
Proof.
  induction k as [|k IH]; intros l x Hl Hk.
  - pose proof (jpath_length _ _ _ _ Hnd Hroot _ _ Hl). lia.
  - cbn [build_rec]. apply rmap_total. intros j Hj. apply filter_In in Hj as [Hj Hp]. cbn [opt_eqb] in Hp. apply String.eqb_eq in Hp.
    destruct (Hmk j Hj) as (lk & jn & E & En). rewrite E. cbn [rbind fst snd]. rewrite En.
    destruct (IH (l ++ [j]) (chi j)) as (cs & Hcs).
    + apply jpath_snoc. subst x. auto.
    + rewrite app_length. simpl. lia.
    + rewrite Hcs. cbn [rbind]. eauto.
Qed.

Lemma build_built k : forall x cs, build k (Some x) = Ok cs -> Built par chi String.eqb joints made k x cs.
Proof.
  induction k as [|k IH]; intros x cs H; [discriminate|]. cbn [build_rec Built] in *. apply rmap_forall2 in H.
  assert (G : forall l cs, incl l joints -> Forall2 (fun j y => (do lj <- mk j;
       do cs <- build k (l_name (fst lj)); Ok (Frame (chi j) (fst lj) (snd lj) cs)) = Ok y) l cs ->
       Forall2 (fun j f => made j f /\ Built par chi String.eqb joints made k (chi j) (f_children f)) l cs).
  { clear H cs. intros l cs Hl H. induction H as [|j f l cs Hjf H IHl]; constructor.
    - destruct (Hmk j) as (lk & jn & E & En); [apply Hl; left; auto|]. rewrite E in Hjf. cbn [rbind fst snd] in Hjf.
      rewrite En in Hjf. apply rbind_ok in Hjf as (cs' & Hc & Hf). inversion Hf; subst f.
      split; [split; auto|]. apply IH. exact Hc.
    - apply IHl. intros z Hz. apply Hl. right; auto. }
  apply G; auto. intros z Hz. apply filter_In in Hz. tauto.
Qed.

(** all joints occur, once each *)
Lemma build_root_flat k cs : build k (Some root) = Ok cs ->
  exists jl, Forall2 made jl (flat_map preorder cs) /\ Permutation jl joints.
Proof.
  intros Hb. apply build_built in Hb.
  destruct (built_flat par chi String.eqb String.eqb_eq joints made root Hnd Hroot k [] root cs (jp_here _ _ _ _) Hb) as (jl & H1 & H2 & H3).
  exists jl. split; [auto|]. apply NoDup_Permutation; [auto | apply (joints_nodup _ _ Hnd)|].
  intros j. rewrite H3. split.
  - intros (q & Hq). apply jpath_snoc in Hq. tauto.
  - intros Hj. pose proof HT as (_ & _ & _ & Hp). destruct (Hp j Hj) as (l & Hl). exists l. apply jpath_snoc; auto.
Qed.

Lemma build_path q : forall j k x y cs, build k (Some x) = Ok cs -> jpath joints x (j :: q) y ->
  exists c fs, In c cs /\ root_path c fs /\ Forall2 made (j :: q) fs.
Proof. intros j k x y cs H. apply (built_path par chi String.eqb String.eqb_eq joints made q j k x y cs), build_built, H. Qed.
End Tree.
