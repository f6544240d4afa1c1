(** Lemmas about the type registry. *)
From Coq Require Import String Ascii Bool Arith Lia List.
From Verif Require Import Prelude XmlModel RegModel SpecReg.
Import ListNotations.
Local Open Scope string_scope.
Local Open Scope list_scope.

Lemma key_eqb_eq a b : key_eqb a b = true <-> a = b.
Proof.
  destruct a, b; cbn; try (split; congruence); try rewrite String.eqb_eq; try rewrite Nat.eqb_eq; split; congruence.
Qed.

(** ** Strings *)
Lemma chars_app a b : list_ascii_of_string (a ++ b)%string = list_ascii_of_string a ++ list_ascii_of_string b.
Proof. induction a as [|c a IH]; cbn; [reflexivity|]. now rewrite IH. Qed.
Lemma chars_inj a b : list_ascii_of_string a = list_ascii_of_string b -> a = b.
Proof. intros H. rewrite <- (string_of_list_ascii_of_string a), <- (string_of_list_ascii_of_string b), H. reflexivity. Qed.
(** a prefix: nothing, or text that ends in a dot *)
Definition okpre (a : string) : Prop := a = "" \/ exists x, a = (x ++ ".")%string.
Lemma split_dot (dot : ascii) : forall n m A B : list ascii, ~ In dot n -> ~ In dot m ->
  (A = [] \/ exists t, A = dot :: t) -> (B = [] \/ exists t, B = dot :: t) -> n ++ A = m ++ B -> n = m /\ A = B.
Proof.
  induction n as [|c n IH]; intros [|d m] A B Hn Hm HA HB H; cbn in H.
  - auto.
  - destruct HA as [-> | (t & ->)]; [discriminate|]. injection H as H1 H2. subst. exfalso. apply Hm. now left.
  - destruct HB as [-> | (t & ->)]; [discriminate|]. injection H as H1 H2. subst. exfalso. apply Hn. now left.
  - injection H as H1 H2. subst d.
    destruct (IH m A B) as [-> ->]; auto; intro; [apply Hn | apply Hm]; now right.
Qed.
Lemma pre_split a b n m : okpre a -> okpre b -> nodot n -> nodot m -> (a ++ n = b ++ m)%string -> a = b /\ n = m.
Proof.
  intros Ha Hb Hn Hm H. apply (f_equal list_ascii_of_string) in H. rewrite !chars_app in H.
  apply (f_equal (@rev ascii)) in H. rewrite !rev_app_distr in H.
  assert (K : forall a, okpre a -> rev (list_ascii_of_string a) = [] \/ exists t, rev (list_ascii_of_string a) = "."%char :: t).
  { intros c [-> | (x & ->)]; [now left|]. right. rewrite chars_app, rev_app_distr. cbn. eauto. }
  assert (N : forall n, nodot n -> ~ In "."%char (rev (list_ascii_of_string n))) by (intros c Hc Hi; apply Hc, in_rev, Hi).
  destruct (split_dot "."%char _ _ _ _ (N _ Hn) (N _ Hm) (K _ Ha) (K _ Hb) H) as [H1 H2].
  split; apply chars_inj; rewrite <- (rev_involutive (list_ascii_of_string _)); symmetry; rewrite <- (rev_involutive (list_ascii_of_string _)); congruence.
Qed.
Lemma okpre_nil : okpre "". Proof. now left. Qed.
Lemma okpre_ns x : okpre (x ++ "."). Proof. right. eauto. Qed.
Lemma ns_inj x y : (x ++ "." = y ++ ".")%string -> x = y.
Proof.
  intros H. apply (f_equal list_ascii_of_string) in H. rewrite !chars_app in H. apply app_inv_tail in H. now apply chars_inj.
Qed.
Lemma ns_nonempty x : (x ++ ".")%string <> "".
Proof. destruct x; discriminate. Qed.

Section Proofs.
Context {C V : Type}.
Variable pc : string -> option C.
Variable obj : nat -> rtype C.
Notation rtype := (rtype C).
Notation registry := (registry C).
Notation stmt := (stmt C V).
Notation look := (dget key_eqb).
Notation get := (get_type pc obj).
Notation make := (make_type pc obj).

Definition is_str (k : key) : bool := match k with KStr _ => true | _ => false end.
Definition resolved (t : dict key rtype) (k : key) : rtype + xexn := match look k t with Some v => inl v | None => make k end.

Lemma full_other (r : registry) k : is_str k = false -> full r k = k.
Proof. destruct k; cbn; congruence. Qed.
Lemma in_ns_other k (r : registry) : is_str k = false -> in_namespace k r = None.
Proof. destruct k; cbn; congruence. Qed.
Lemma in_ns_str n (r : registry) : in_namespace (KStr n) r =
  if String.eqb (rg_prefix r) "" then None else look (KStr (rg_prefix r ++ n)) (rg_types r).
Proof. unfold in_namespace. destruct (rg_prefix r) eqn:E; cbn; [reflexivity|]. now rewrite E. Qed.

(** [get_type] in one equation: the found or made value, and the table *)
Lemma get_other_key k (r : registry) : is_str k = false ->
  get k r = (mkReg (match look k (rg_types r), make k with None, inl v => dset key_eqb k v (rg_types r) | _, _ => rg_types r end) (rg_prefix r),
             resolved (rg_types r) k).
Proof.
  intros H. unfold get_type, resolved, add_type. rewrite (in_ns_other k r H), (full_other r k H). destruct r as [t p]; cbn [rg_types rg_prefix].
  destruct (look k t); [reflexivity|]. destruct (make k); reflexivity.
Qed.
Definition found (n : string) (r : registry) : option rtype :=
  match look (KStr (rg_prefix r ++ n)) (rg_types r) with Some v => Some v | None => look (KStr n) (rg_types r) end.
Lemma get_str n (r : registry) :
  get (KStr n) r = match found n r with
                   | Some v => (r, inl v)
                   | None => match make (KStr n) with
                             | inl v => (mkReg (dset key_eqb (KStr (rg_prefix r ++ n)) v (rg_types r)) (rg_prefix r), inl v)
                             | inr e => (r, inr e)
                             end
                   end.
Proof.
  unfold get_type, add_type, found. rewrite in_ns_str. cbn [full].
  destruct (String.eqb_spec (rg_prefix r) "") as [E|E].
  - rewrite E. change ("" ++ n)%string with n. destruct (look (KStr n) (rg_types r)) eqn:L; [reflexivity|].
    destruct (make (KStr n)); reflexivity.
  - destruct (look (KStr (rg_prefix r ++ n)) (rg_types r)) eqn:L; [reflexivity|].
    destruct (look (KStr n) (rg_types r)); [reflexivity|]. destruct (make (KStr n)); reflexivity.
Qed.
Lemma get_prefix k (r : registry) : rg_prefix (fst (get k r)) = rg_prefix r.
Proof.
  destruct (is_str k) eqn:E.
  - destruct k; try discriminate. rewrite get_str. destruct (found s r); [reflexivity|]. destruct (make (KStr s)); reflexivity.
  - now rewrite get_other_key.
Qed.

(** *** Two tables that a namespace cannot tell apart *)
Definition eqv (p : string) (t t' : dict key rtype) : Prop :=
  (forall n, nodot n -> look (KStr (p ++ n)) t = look (KStr (p ++ n)) t') /\
  (forall n, nodot n -> look (KStr n) t = look (KStr n) t') /\
  (forall k, is_str k = false -> resolved t k = resolved t' k).
Lemma eqv_refl p t : eqv p t t. Proof. repeat split. Qed.
Lemma eqv_trans p t u v : eqv p t u -> eqv p u v -> eqv p t v.
Proof.
  intros (A1 & A2 & A3) (B1 & B2 & B3). repeat split; intros.
  - now rewrite A1, B1. - now rewrite A2, B2. - now rewrite A3, B3.
Qed.
Lemma eqv_dset p t t' k v : eqv p t t' -> eqv p (dset key_eqb k v t) (dset key_eqb k v t').
Proof.
  intros (A1 & A2 & A3).
  assert (G : forall j, (look j t = look j t' -> look j (dset key_eqb k v t) = look j (dset key_eqb k v t'))).
  { intros j H. destruct (key_eqb j k) eqn:E.
    - apply key_eqb_eq in E. subst j. now rewrite !(dget_dset_same _ key_eqb_eq).
    - assert (j <> k) by (intros ->; rewrite (proj2 (key_eqb_eq k k) eq_refl) in E; discriminate).
      rewrite !(dget_dset_other _ key_eqb_eq); auto. }
  repeat split; intros.
  - apply G, A1; assumption.
  - apply G, A2; assumption.
  - unfold resolved. destruct (key_eqb k0 k) eqn:E.
    + apply key_eqb_eq in E. subst. now rewrite !(dget_dset_same _ key_eqb_eq).
    + assert (k0 <> k) by (intros ->; rewrite (proj2 (key_eqb_eq k k) eq_refl) in E; discriminate).
      rewrite !(dget_dset_other _ key_eqb_eq) by assumption. apply A3; assumption.
Qed.
(** recording what a key that is no string resolves to *)
Lemma eqv_record p t k v : is_str k = false -> resolved t k = inl v -> eqv p t (dset key_eqb k v t).
Proof.
  intros Hk Hv. repeat split; intros.
  - symmetry. apply (dget_dset_other _ key_eqb_eq). intros <-. discriminate.
  - symmetry. apply (dget_dset_other _ key_eqb_eq). intros <-. discriminate.
  - unfold resolved at 2. destruct (key_eqb k0 k) eqn:E.
    + apply key_eqb_eq in E. subst. now rewrite (dget_dset_same _ key_eqb_eq).
    + assert (k0 <> k) by (intros ->; rewrite (proj2 (key_eqb_eq k k) eq_refl) in E; discriminate).
      rewrite (dget_dset_other _ key_eqb_eq) by assumption. reflexivity.
Qed.
Lemma eqv_sym p t t' : eqv p t t' -> eqv p t' t.
Proof. intros (A1 & A2 & A3). repeat split; intros; symmetry; auto. Qed.

(** the table after a key that is no string *)
Lemma get_table_eqv p k (r : registry) : is_str k = false -> eqv p (rg_types r) (rg_types (fst (get k r))).
Proof.
  intros H. rewrite get_other_key by assumption. cbn [fst rg_types].
  destruct (look k (rg_types r)) eqn:L; [apply eqv_refl|]. destruct (make k) eqn:M; [|apply eqv_refl].
  apply eqv_record; [assumption|]. unfold resolved. now rewrite L.
Qed.

(** same answers, same prefix, tables that cannot be told apart *)
Definition same {A} (p : string) (X Y : registry * (A + xexn)) : Prop :=
  snd X = snd Y /\ rg_prefix (fst X) = p /\ rg_prefix (fst Y) = p /\ eqv p (rg_types (fst X)) (rg_types (fst Y)).
Definition alike (p : string) (r r' : registry) : Prop := rg_prefix r = p /\ rg_prefix r' = p /\ eqv p (rg_types r) (rg_types r').

Ltac same4 := split; [|split; [|split]]; cbn [fst snd rg_types rg_prefix] in *; auto; try congruence.
Lemma get_same p k r r' : alike p r r' -> key_nodot k -> same p (get k r) (get k r').
Proof.
  intros (P & P' & E) Hk. destruct (is_str k) eqn:Es.
  - destruct k; try discriminate. cbn in Hk. pose proof E as (E1 & E2 & E3).
    assert (F : found s r = found s r').
    { unfold found. rewrite P, P', (E1 s Hk), (E2 s Hk). reflexivity. }
    rewrite !get_str, F. destruct (found s r'); [same4|].
    destruct (make (KStr s)); [|same4].
    rewrite P, P'. same4. apply eqv_dset; exact E.
  - pose proof (get_table_eqv p k r Es) as H1. pose proof (get_table_eqv p k r' Es) as H2.
    split; [|split; [|split]].
    + rewrite !get_other_key by assumption. cbn [snd]. now apply E.
    + now rewrite get_prefix.
    + now rewrite get_prefix.
    + apply eqv_trans with (rg_types r); [apply eqv_sym; assumption|]. apply eqv_trans with (rg_types r'); assumption.
Qed.

(** what happens in the namespace with prefix [rg_prefix r] is not seen with prefix [q] *)
Definition unseen {A} (q : string) (r : registry) (X : registry * (A + xexn)) : Prop :=
  rg_prefix (fst X) = rg_prefix r /\ eqv q (rg_types r) (rg_types (fst X)).
Lemma eqv_far q p n v t : okpre p -> okpre q -> p <> "" -> p <> q -> nodot n -> eqv q t (dset key_eqb (KStr (p ++ n)) v t).
Proof.
  intros Hp Hq Hne Hpq Hn. repeat split; intros.
  - symmetry. apply (dget_dset_other _ key_eqb_eq). intros E.
    assert (E' : (q ++ n0 = p ++ n)%string) by congruence.
    apply pre_split in E'; auto. destruct E'. congruence.
  - symmetry. apply (dget_dset_other _ key_eqb_eq). intros E.
    assert (E' : ("" ++ n0 = p ++ n)%string) by (cbn; congruence).
    apply pre_split in E'; auto using okpre_nil. destruct E'. congruence.
  - unfold resolved. rewrite (dget_dset_other _ key_eqb_eq); [reflexivity|]. intros ->. discriminate.
Qed.
Lemma get_unseen q k r : okpre (rg_prefix r) -> okpre q -> rg_prefix r <> "" -> rg_prefix r <> q -> key_nodot k -> unseen q r (get k r).
Proof.
  intros Hp Hq Hne Hpq Hk. split; [apply get_prefix|]. destruct (is_str k) eqn:Es; [|now apply get_table_eqv].
  destruct k; try discriminate. rewrite get_str. destruct (found s r); [apply eqv_refl|].
  destruct (make (KStr s)); [|apply eqv_refl]. cbn [fst rg_types]. now apply eqv_far.
Qed.
Lemma add_same p n v r r' : alike p r r' -> nodot n -> same p (add_type (KStr n) v r) (add_type (KStr n) v r').
Proof.
  intros (P & P' & E) Hn. unfold add_type. cbn [full]. rewrite P, P'. pose proof E as (E1 & _). rewrite (E1 n Hn).
  destruct (look (KStr (p ++ n)) (rg_types r')); same4.
  apply eqv_dset; exact E.
Qed.
Lemma add_unseen q n v r : okpre (rg_prefix r) -> okpre q -> rg_prefix r <> "" -> rg_prefix r <> q -> nodot n ->
  unseen q r (add_type (KStr n) v r).
Proof.
  intros. unfold add_type. cbn [full]. destruct (look (KStr (rg_prefix r ++ n)) (rg_types r)).
  - split; [reflexivity|apply eqv_refl].
  - split; [reflexivity|]. cbn [fst rg_types]. now apply eqv_far.
Qed.

Notation eparam := (eval_param (V := V) pc obj).
Lemma param_get (p : pexp V) : exists f : rtype -> rparam C V + xexn,
  (forall r : registry, eparam p r = (fst (get (pexp_key p) r), match snd (get (pexp_key p) r) with inl v => f v | inr e => inr e end)).
Proof.
  destruct p as [x t req d var|x t req d var raw|x t var raw]; cbn [eval_param pexp_key]; unfold mk_param; eexists; intros r0;
    destruct (get t r0) as [r1 [v|e]]; cbn [fst snd].
  1: instantiate (1 := fun v => if (req && match d with Some _ => true | None => false end)%bool then inr (XPy AssertionError) else
       inl (mkRParam PAttribute x (match var with Some y => y | None => x end) v req d false)).
  3: instantiate (1 := fun v => if (req && match d with Some _ => true | None => false end)%bool then inr (XPy AssertionError) else
       inl (mkRParam PElement x (match var with Some y => y | None => x end) v req d raw)).
  5: instantiate (1 := fun v => inl (mkRParam PAggregate x (match var with Some y => y | None => (x ++ "s")%string end) v false None raw)).
  all: cbn [andb]; repeat match goal with |- context [if ?b then _ else _] => destruct b end; reflexivity.
Qed.
Lemma param_same p (e : pexp V) r r' : alike p r r' -> key_nodot (pexp_key e) -> same p (eparam e r) (eparam e r').
Proof.
  intros H Hk. destruct (param_get e) as (f & Hf). rewrite !Hf.
  destruct (get_same p (pexp_key e) r r' H Hk) as (S1 & S2 & S3 & S4). same4. now rewrite S1.
Qed.
Lemma param_unseen q (e : pexp V) r : okpre (rg_prefix r) -> okpre q -> rg_prefix r <> "" -> rg_prefix r <> q -> key_nodot (pexp_key e) ->
  unseen q r (eparam e r).
Proof. intros. destruct (param_get e) as (f & Hf). rewrite Hf. now apply (get_unseen q (pexp_key e) r). Qed.

Notation eparams := (eval_params (V := V) pc obj).
Lemma params_same p ps e : Forall param_nodot ps -> forall r r', alike p r r' -> same p (eparams ps e r) (eparams ps e r').
Proof.
  induction 1 as [|x ps Hx Hps IH]; intros r r' H.
  - destruct H as (? & ? & ?). same4.
  - destruct x as [x|x]; cbn [eval_params].
    + destruct (dget String.eqb x (me_vars e)).
      * destruct (IH r r' H) as (S1 & S2 & S3 & S4).
        destruct (eparams ps e r) as [r1 [l|x1]], (eparams ps e r') as [r2 [l'|x2]]; cbn in *; try discriminate;
          same4.
      * destruct H as (? & ? & ?). same4.
    + destruct (param_same p x r r' H Hx) as (S1 & S2 & S3 & S4).
      destruct (eparam x r) as [r1 [v|x1]], (eparam x r') as [r2 [v'|x2]]; cbn in *; try discriminate.
      * assert (v = v') by congruence. subst v'. destruct (IH r1 r2) as (T1 & T2 & T3 & T4); [split; [|split]; assumption|].
        destruct (eparams ps e r1) as [r3 [l|y1]], (eparams ps e r2) as [r4 [l'|y2]]; cbn in *; try discriminate;
          same4.
      * same4.
Qed.
Lemma unseen_trans {A B} q r (X : registry * (A + xexn)) (Y : registry * (B + xexn)) :
  unseen q r X -> unseen q (fst X) Y -> unseen q r Y.
Proof. intros (P1 & E1) (P2 & E2). split; [congruence|]. eapply eqv_trans; eassumption. Qed.
Lemma params_unseen q ps e : okpre q -> Forall param_nodot ps -> forall r,
  okpre (rg_prefix r) -> rg_prefix r <> "" -> rg_prefix r <> q -> unseen q r (eparams ps e r).
Proof.
  intros Hq. induction 1 as [|x ps Hx Hps IH]; intros r H1 H2 H3.
  - split; [reflexivity|apply eqv_refl].
  - destruct x as [x|x]; cbn [eval_params].
    + destruct (dget String.eqb x (me_vars e)); [|split; [reflexivity|apply eqv_refl]].
      pose proof (IH r H1 H2 H3) as H. destruct (eparams ps e r) as [r1 [l|x1]]; exact H.
    + pose proof (param_unseen q x r H1 Hq H2 H3 Hx) as H.
      destruct (eparam x r) as [r1 [v|x1]]; [|exact H].
      assert (P : rg_prefix r1 = rg_prefix r) by apply H.
      assert (H' : unseen q r1 (eparams ps e r1)) by (apply IH; congruence).
      pose proof (unseen_trans q r _ _ H H') as G. destruct (eparams ps e r1) as [r2 [l|x2]]; exact G.
Qed.

Notation ex1 := (exec1 (V := V) pc obj).
Notation ex := (exec (V := V) pc obj).
Lemma exec1_same p s e r r' : plain s -> alike p r r' -> same p (ex1 s e r) (ex1 s e r').
Proof.
  intros Hs H. destruct s as [ns| |k v|k|x pe|c tag ps|c d]; cbn [plain] in Hs; try contradiction; cbn [exec1].
  - destruct k; try contradiction. destruct v as [a t|t]; cbn [eval_value].
    + destruct Hs as [Hn Ht]. destruct (get_same p t r r' H Ht) as (S1 & S2 & S3 & S4).
      destruct (get t r) as [r1 [u|x1]], (get t r') as [r2 [u'|x2]]; cbn in S1, S2, S3, S4; try discriminate.
      * assert (u = u') by congruence. subst u'.
        destruct (add_same p s (RSimple a u) r1 r2) as (T1 & T2 & T3 & T4); [split; [|split]; assumption|assumption|].
        destruct (add_type (KStr s) (RSimple a u) r1) as [r3 [[]|y1]], (add_type (KStr s) (RSimple a u) r2) as [r4 [[]|y2]];
          cbn in *; try discriminate; same4.
      * same4.
    + destruct (add_same p s t r r' H Hs) as (T1 & T2 & T3 & T4).
      destruct (add_type (KStr s) t r) as [r3 [[]|y1]], (add_type (KStr s) t r') as [r4 [[]|y2]];
        cbn in *; try discriminate; same4.
  - destruct (get_same p k r r' H Hs) as (S1 & S2 & S3 & S4).
    destruct (get k r) as [r1 [u|x1]], (get k r') as [r2 [u'|x2]]; cbn in *; try discriminate;
      same4.
  - destruct (param_same p pe r r' H Hs) as (S1 & S2 & S3 & S4).
    destruct (eparam pe r) as [r1 [u|x1]], (eparam pe r') as [r2 [u'|x2]]; cbn in *; try discriminate;
      same4.
  - destruct (params_same p ps e Hs r r' H) as (S1 & S2 & S3 & S4).
    destruct (eparams ps e r) as [r1 [u|x1]], (eparams ps e r') as [r2 [u'|x2]]; cbn in *; try discriminate;
      same4.
  - destruct H as (H1 & H2 & H3). destruct (dget String.eqb d (me_refl e)); same4.
Qed.
Lemma exec1_unseen q s e r : okpre q -> plain s -> okpre (rg_prefix r) -> rg_prefix r <> "" -> rg_prefix r <> q -> unseen q r (ex1 s e r).
Proof.
  intros Hq Hs H1 H2 H3. destruct s as [ns| |k v|k|x pe|c tag ps|c d]; cbn [plain] in Hs; try contradiction; cbn [exec1].
  - destruct k; try contradiction. destruct v as [a t|t]; cbn [eval_value].
    + destruct Hs as [Hn Ht]. pose proof (get_unseen q t r H1 Hq H2 H3 Ht) as G.
      destruct (get t r) as [r1 [u|x1]]; [|exact G].
      assert (P : rg_prefix r1 = rg_prefix r) by apply G.
      assert (A : unseen q r1 (add_type (KStr s) (RSimple a u) r1)) by (apply add_unseen; congruence).
      pose proof (unseen_trans q r _ _ G A) as K. destruct (add_type (KStr s) (RSimple a u) r1) as [r3 [[]|y1]]; exact K.
    + pose proof (add_unseen q s t r H1 Hq H2 H3 Hs) as K. destruct (add_type (KStr s) t r) as [r3 [[]|y1]]; exact K.
  - pose proof (get_unseen q k r H1 Hq H2 H3 Hs) as G. destruct (get k r) as [r1 [u|x1]]; exact G.
  - pose proof (param_unseen q pe r H1 Hq H2 H3 Hs) as G. destruct (eparam pe r) as [r1 [u|x1]]; exact G.
  - pose proof (params_unseen q ps e Hq Hs r H1 H2 H3) as G. destruct (eparams ps e r) as [r1 [u|x1]]; exact G.
  - destruct (dget String.eqb d (me_refl e)); (split; [reflexivity|apply eqv_refl]).
Qed.
Lemma exec_same p l : Forall plain l -> forall e r r', alike p r r' -> same p (ex l e r) (ex l e r').
Proof.
  induction 1 as [|s l Hs Hl IH]; intros e r r' H.
  - destruct H as (? & ? & ?). same4.
  - cbn [exec]. destruct (exec1_same p s e r r' Hs H) as (S1 & S2 & S3 & S4).
    destruct (ex1 s e r) as [r1 [e1|x1]], (ex1 s e r') as [r2 [e2|x2]]; cbn in S1, S2, S3, S4; try discriminate.
    + assert (e1 = e2) by congruence. subst e2. apply IH. split; [|split]; assumption.
    + same4.
Qed.
Lemma exec_unseen q l : okpre q -> Forall plain l -> forall e r,
  okpre (rg_prefix r) -> rg_prefix r <> "" -> rg_prefix r <> q -> unseen q r (ex l e r).
Proof.
  intros Hq. induction 1 as [|s l Hs Hl IH]; intros e r H1 H2 H3.
  - split; [reflexivity|apply eqv_refl].
  - cbn [exec]. pose proof (exec1_unseen q s e r Hq Hs H1 H2 H3) as G.
    destruct (ex1 s e r) as [r1 [e1|x1]]; [|exact G].
    assert (P : rg_prefix r1 = rg_prefix r) by apply G.
    assert (K : unseen q r1 (ex l e1 r1)) by (apply IH; congruence). exact (unseen_trans q r _ _ G K).
Qed.

Lemma exec_app l1 l2 : forall e r, ex (l1 ++ l2) e r =
  match ex l1 e r with (r', inl e') => ex l2 e' r' | (r', inr x) => (r', inr x) end.
Proof.
  induction l1 as [|s l1 IH]; intros e r; cbn [app exec]; [reflexivity|].
  destruct (ex1 s e r) as [r1 [e1|x1]]; [apply IH|reflexivity].
Qed.
Lemma exec_within ns l e r : ex (within ns l) e r =
  match ex l e (mkReg (rg_types r) (ns ++ ".")) with
  | (r', inl e') => (mkReg (rg_types r') "", inl e')
  | (r', inr x) => (r', inr x)
  end.
Proof.
  unfold within. cbn [exec exec1]. rewrite exec_app. unfold start_namespace.
  destruct (ex l e _) as [r1 [e1|x1]]; reflexivity.
Qed.

(** two modules in different namespaces: what one declares does not depend on the other having run *)
Theorem modules_apart p q l m e r e1 r1 : p <> q -> Forall plain l -> Forall plain m ->
  ex (within p l) e1 r = (r1, inl e) ->
  forall f, snd (ex (within q m) f r1) = snd (ex (within q m) f r).
Proof.
  intros Hpq Hl Hm H f. rewrite exec_within in H.
  assert (U : unseen (q ++ ".") (mkReg (rg_types r) (p ++ ".")) (ex l e1 (mkReg (rg_types r) (p ++ ".")))).
  { apply exec_unseen; cbn [rg_prefix]; auto using okpre_ns, ns_nonempty. intros K. apply ns_inj in K. contradiction. }
  destruct (ex l e1 _) as [r2 [e2|x2]]; [|discriminate].
  assert (r1 = mkReg (rg_types r2) "") by congruence. subst r1. destruct U as [_ U]. cbn [fst rg_types] in U.
  rewrite !exec_within. cbn [rg_types].
  destruct (exec_same (q ++ ".") m Hm f (mkReg (rg_types r2) (q ++ ".")) (mkReg (rg_types r) (q ++ "."))) as (S1 & _).
  { split; [reflexivity|split; [reflexivity|]]. cbn [rg_types]. apply eqv_sym, U. }
  destruct (ex m f (mkReg (rg_types r2) _)) as [r3 [e3|x3]], (ex m f (mkReg (rg_types r) _)) as [r4 [e4|x4]]; cbn in *; congruence.
Qed.

(** ** Entries stay *)
Definition grows (t t' : dict key rtype) : Prop := forall k v, look k t = Some v -> look k t' = Some v.
Lemma grows_refl t : grows t t. Proof. intros k v Hk; exact Hk. Qed.
Lemma grows_trans t u v : grows t u -> grows u v -> grows t v.
Proof. intros A B k w H. apply B, A, H. Qed.
Lemma grows_dset t k v : look k t = None -> grows t (dset key_eqb k v t).
Proof.
  intros Hn j w Hj. rewrite (dget_dset_other _ key_eqb_eq); [assumption|]. intros ->. congruence.
Qed.
Lemma add_grows k v r : grows (rg_types r) (rg_types (fst (add_type k v r))).
Proof. unfold add_type. destruct (look (full r k) (rg_types r)) eqn:E; [apply grows_refl|]. cbn. now apply grows_dset. Qed.
Lemma get_grows k r : grows (rg_types r) (rg_types (fst (get k r))).
Proof.
  destruct (is_str k) eqn:Es.
  - destruct k; try discriminate. rewrite get_str. unfold found.
    destruct (look (KStr (rg_prefix r ++ s)) (rg_types r)) eqn:L; [apply grows_refl|].
    destruct (look (KStr s) (rg_types r)); [apply grows_refl|]. destruct (make (KStr s)); [|apply grows_refl]. cbn [fst rg_types]. now apply grows_dset.
  - rewrite get_other_key by assumption. cbn. destruct (look k (rg_types r)) eqn:L; [apply grows_refl|].
    destruct (make k); [|apply grows_refl]. now apply grows_dset.
Qed.
Lemma param_grows (p : pexp V) r : grows (rg_types r) (rg_types (fst (eparam p r))).
Proof. destruct (param_get p) as (f & Hf). rewrite Hf. apply get_grows. Qed.
Lemma params_grows ps e : forall r, grows (rg_types r) (rg_types (fst (eparams ps e r))).
Proof.
  induction ps as [|[x|x] ps IH]; intros r; cbn [eval_params]; [apply grows_refl| |].
  - destruct (dget String.eqb x (me_vars e)); [|apply grows_refl]. pose proof (IH r) as H.
    destruct (eparams ps e r) as [r1 [l|x1]]; exact H.
  - pose proof (param_grows x r) as H. destruct (eparam x r) as [r1 [v|x1]]; [|exact H].
    pose proof (IH r1) as H'. pose proof (grows_trans _ _ _ H H') as G. destruct (eparams ps e r1) as [r2 [l|x2]]; exact G.
Qed.
Lemma exec1_grows s e r : grows (rg_types r) (rg_types (fst (ex1 s e r))).
Proof.
  destruct s as [ns| |k v|k|x pe|c tag ps|c d]; cbn [exec1]; try apply grows_refl.
  - destruct v as [a t|t]; cbn [eval_value].
    + pose proof (get_grows t r) as G. destruct (get t r) as [r1 [u|x1]]; [|exact G].
      pose proof (add_grows k (RSimple a u) r1) as A. pose proof (grows_trans _ _ _ G A) as K.
      destruct (add_type k (RSimple a u) r1) as [r3 [[]|y1]]; exact K.
    + pose proof (add_grows k t r) as K. destruct (add_type k t r) as [r3 [[]|y1]]; exact K.
  - pose proof (get_grows k r) as G. destruct (get k r) as [r1 [u|x1]]; exact G.
  - pose proof (param_grows pe r) as G. destruct (eparam pe r) as [r1 [u|x1]]; exact G.
  - pose proof (params_grows ps e r) as G. destruct (eparams ps e r) as [r1 [u|x1]]; exact G.
  - destruct (dget String.eqb d (me_refl e)); apply grows_refl.
Qed.
Lemma exec_grows l : forall e r, grows (rg_types r) (rg_types (fst (ex l e r))).
Proof.
  induction l as [|s l IH]; intros e r; cbn [exec]; [apply grows_refl|]. pose proof (exec1_grows s e r) as G.
  destruct (ex1 s e r) as [r1 [e1|x1]]; [|exact G]. exact (grows_trans _ _ _ G (IH e1 r1)).
Qed.

(** ** Invariants over tidy statements *)
Section Inv.
Variable I : dict key rtype -> Prop.
Variable A : string -> Prop.
(** what is made is registered when it was not found *)
Hypothesis Iget : forall p t n v, okpre p -> nodot n -> I t -> make (KStr n) = inl v ->
  look (KStr (p ++ n)) t = None -> look (KStr n) t = None -> I (dset key_eqb (KStr (p ++ n)) v t).
Hypothesis Iother : forall t k v, is_str k = false -> I t -> make k = inl v -> look k t = None -> I (dset key_eqb k v t).
(** what is added explicitly *)
Hypothesis Iadd : forall p t n v, okpre p -> nodot n -> A n -> I t -> look (KStr (p ++ n)) t = None -> I (dset key_eqb (KStr (p ++ n)) v t).

Definition good (r : registry) : Prop := okpre (rg_prefix r) /\ I (rg_types r).
Lemma get_inv k r : key_nodot k -> good r -> good (fst (get k r)).
Proof.
  intros Hk [Hp Hi]. split; [now rewrite get_prefix|]. destruct (is_str k) eqn:Es.
  - destruct k; try discriminate. rewrite get_str. unfold found.
    destruct (look (KStr (rg_prefix r ++ s)) (rg_types r)) eqn:L; [assumption|].
    destruct (look (KStr s) (rg_types r)) eqn:L'; [assumption|]. destruct (make (KStr s)) eqn:M; [|assumption]. cbn. now apply Iget.
  - rewrite get_other_key by assumption. cbn. destruct (look k (rg_types r)) eqn:L; [assumption|].
    destruct (make k) eqn:M; [|assumption]. now apply Iother.
Qed.
Lemma add_inv n v r : nodot n -> A n -> good r -> good (fst (add_type (KStr n) v r)).
Proof.
  intros Hn Ha [Hp Hi]. unfold add_type. cbn [full]. destruct (look (KStr (rg_prefix r ++ n)) (rg_types r)) eqn:L; [now split|].
  split; [assumption|]. cbn. now apply Iadd.
Qed.
Lemma param_inv (p : pexp V) r : key_nodot (pexp_key p) -> good r -> good (fst (eparam p r)).
Proof. intros Hk H. destruct (param_get p) as (f & Hf). rewrite Hf. now apply get_inv. Qed.
Lemma params_inv ps e : Forall param_nodot ps -> forall r, good r -> good (fst (eparams ps e r)).
Proof.
  induction 1 as [|x ps Hx Hps IH]; intros r H; [assumption|]. destruct x as [x|x]; cbn [eval_params].
  - destruct (dget String.eqb x (me_vars e)); [|assumption]. pose proof (IH r H) as G.
    destruct (eparams ps e r) as [r1 [l|x1]]; exact G.
  - pose proof (param_inv x r Hx H) as G. destruct (eparam x r) as [r1 [v|x1]]; [|exact G].
    pose proof (IH r1 G) as G'. destruct (eparams ps e r1) as [r2 [l|x2]]; exact G'.
Qed.
Lemma exec1_inv s e r : tidy s -> (forall n, adds n s -> A n) -> good r -> good (fst (ex1 s e r)).
Proof.
  intros Hs Ha H. destruct s as [ns| |k v|k|x pe|c tag ps|c d]; cbn [tidy plain] in Hs; cbn [exec1].
  - split; [apply okpre_ns|apply H].
  - split; [apply okpre_nil|apply H].
  - destruct k; try contradiction. specialize (Ha s eq_refl). destruct v as [a t|t]; cbn [eval_value].
    + destruct Hs as [Hn Ht]. pose proof (get_inv t r Ht H) as G. destruct (get t r) as [r1 [u|x1]]; [|exact G].
      pose proof (add_inv s (RSimple a u) r1 Hn Ha G) as K. destruct (add_type (KStr s) (RSimple a u) r1) as [r3 [[]|y1]]; exact K.
    + pose proof (add_inv s t r Hs Ha H) as K. destruct (add_type (KStr s) t r) as [r3 [[]|y1]]; exact K.
  - pose proof (get_inv k r Hs H) as G. destruct (get k r) as [r1 [u|x1]]; exact G.
  - pose proof (param_inv pe r Hs H) as G. destruct (eparam pe r) as [r1 [u|x1]]; exact G.
  - pose proof (params_inv ps e Hs r H) as G. destruct (eparams ps e r) as [r1 [u|x1]]; exact G.
  - destruct (dget String.eqb d (me_refl e)); exact H.
Qed.
Lemma exec_inv l : Forall tidy l -> (forall n s, In s l -> adds n s -> A n) -> forall e r, good r -> good (fst (ex l e r)).
Proof.
  induction 1 as [|s l Hs Hl IH]; intros Ha e r H; cbn [exec]; [assumption|].
  pose proof (exec1_inv s e r Hs (fun n => Ha n s (or_introl eq_refl)) H) as G.
  destruct (ex1 s e r) as [r1 [e1|x1]]; [|exact G]. apply IH; auto. intros n s' Hi. apply Ha. now right.
Qed.
End Inv.

Lemma dset_look k j (v : rtype) t : j <> k -> look j (dset key_eqb k v t) = look j t.
Proof. intros. now apply (dget_dset_other _ key_eqb_eq). Qed.

(** a name found in the global scope stays as it is until it is added to the namespace *)
Lemma global_stays l e r p n v : Forall tidy l -> (forall s, In s l -> ~ adds n s) -> okpre (rg_prefix r) -> okpre p -> nodot n ->
  look (KStr n) (rg_types r) = Some v -> look (KStr (p ++ n)) (rg_types r) = None ->
  look (KStr n) (rg_types (fst (ex l e r))) = Some v /\ look (KStr (p ++ n)) (rg_types (fst (ex l e r))) = None.
Proof.
  intros Hl Ha Hr Hp Hn H1 H2.
  assert (G : good (fun t => look (KStr n) t = Some v /\ look (KStr (p ++ n)) t = None) (fst (ex l e r))); [|apply G].
  apply (exec_inv _ (fun m => m <> n)); auto.
  - intros q t m w Hq Hm [I1 I2] M L1 L2. assert (D : m <> n) by congruence. split; rewrite dset_look; auto; intros E.
    + congruence.
    + assert (E' : (p ++ n = q ++ m)%string) by congruence. apply pre_split in E'; auto. destruct E'. congruence.
  - intros t k w Hk [I1 I2] M L. split; rewrite dset_look; auto; intros <-; discriminate.
  - intros q t m w Hq Hm Ham [I1 I2] L. split; rewrite dset_look; auto; intros E.
    + assert (E' : ("" ++ n = q ++ m)%string) by (cbn; congruence). apply pre_split in E'; auto using okpre_nil. destruct E'; congruence.
    + assert (E' : (p ++ n = q ++ m)%string) by congruence. apply pre_split in E'; auto. destruct E'. congruence.
  - intros m s Hi Hs ->. exact (Ha s Hi Hs).
  - split; auto.
Qed.
(** a name that nobody adds resolves to what is made of it *)
Lemma made_name l e n : Forall tidy l -> (forall s, In s l -> ~ adds n s) -> nodot n ->
  snd (get (KStr n) (fst (ex l e (reg0)))) = make (KStr n).
Proof.
  intros Hl Ha Hn.
  assert (G : good (fun t => forall p v, okpre p -> look (KStr (p ++ n)) t = Some v -> make (KStr n) = inl v) (fst (ex l e reg0))).
  { apply (exec_inv _ (fun m => m <> n)); auto.
    - intros q t m w Hq Hm Hi M L1 L2 p v Hp H. destruct (key_eqb (KStr (p ++ n)) (KStr (q ++ m))) eqn:E.
      + apply key_eqb_eq in E. rewrite E, (dget_dset_same _ key_eqb_eq) in H.
        assert (E' : (p ++ n = q ++ m)%string) by congruence. apply pre_split in E'; auto. destruct E' as [-> ->]. congruence.
      + rewrite dset_look in H; [eauto|]. intros K. rewrite K, (proj2 (key_eqb_eq _ _) eq_refl) in E. discriminate.
    - intros t k w Hk Hi M L p v Hp H. rewrite dset_look in H; [eauto|]. intros <-. discriminate.
    - intros q t m w Hq Hm Ham Hi L p v Hp H. rewrite dset_look in H; [eauto|]. intros E.
      assert (E' : (p ++ n = q ++ m)%string) by congruence. apply pre_split in E'; auto. destruct E'; congruence.
    - intros m s Hi Hs ->. exact (Ha s Hi Hs).
    - split; [apply okpre_nil|]. discriminate. }
  destruct G as [Gp G]. rewrite get_str. unfold found.
  destruct (look (KStr (rg_prefix _ ++ n)) _) eqn:L; [cbn [snd]; symmetry; eapply G; eassumption|].
  destruct (look (KStr n) _) eqn:L'; [cbn [snd]; symmetry; apply (G "" r okpre_nil L')|].
  destruct (make (KStr n)); reflexivity.
Qed.
(** a key that is no string resolves to what is made of it *)
Lemma made_other l e k : Forall tidy l -> is_str k = false -> snd (get k (fst (ex l e reg0))) = make k.
Proof.
  intros Hl Hk.
  assert (G : good (fun t => forall v, look k t = Some v -> make k = inl v) (fst (ex l e reg0))).
  { apply (exec_inv _ (fun _ => True)); auto.
    - intros q t m w Hq Hm Hi M L1 L2 v H. rewrite dset_look in H; [eauto|]. intros ->. discriminate.
    - intros t j w Hj Hi M L v H. destruct (key_eqb k j) eqn:E.
      + apply key_eqb_eq in E. subst j. rewrite (dget_dset_same _ key_eqb_eq) in H. congruence.
      + rewrite dset_look in H; [eauto|]. intros ->. rewrite (proj2 (key_eqb_eq _ _) eq_refl) in E. discriminate.
    - intros q t m w Hq Hm Ham Hi L v H. rewrite dset_look in H; [eauto|]. intros ->. discriminate.
    - split; [apply okpre_nil|]. discriminate. }
  destruct G as [_ G]. rewrite get_other_key by assumption. cbn [snd]. unfold resolved.
  destruct (look k _) eqn:L; [symmetry; now apply G|reflexivity].
Qed.
End Proofs.
