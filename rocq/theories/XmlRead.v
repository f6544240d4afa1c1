(** What was read can be written and read again: reading only gives typed values. *)
From Coq Require Import String Ascii Bool Arith Lia List.
From Verif Require Import Prelude XmlModel XmlProofs XmlWrite.
Import ListNotations.
Local Open Scope string_scope.
Local Open Scope list_scope.
Local Arguments is_kind : simpl never.
Local Arguments is_elem : simpl never.

Section NodeInd.
Variable P : node -> Prop.
Hypothesis HC : P Comment.
Hypothesis HN : forall tag attrs text kids, Forall P kids -> P (Node tag attrs text kids).
Fixpoint node_rect2 (n : node) : P n :=
  match n with
  | Comment => HC
  | Node tag attrs text kids =>
      HN tag attrs text kids ((fix go (l : list node) : Forall P l :=
        match l with [] => Forall_nil P | k :: l => Forall_cons k (node_rect2 k) (go l) end) kids)
  end.
End NodeInd.

(** no element repeats an attribute (XML well-formedness) *)
Fixpoint wf_doc (n : node) : Prop :=
  match n with
  | Comment => True
  | Node _ attrs _ kids => NoDup (map fst attrs) /\ (fix go (l : list node) : Prop := match l with [] => True | k :: l => wf_doc k /\ go l end) kids
  end.
Lemma wf_doc_kids tag attrs tx kids k : wf_doc (Node tag attrs tx kids) -> In k kids -> wf_doc k.
Proof. intros [_ H]. induction kids as [|x l IH]; intros []; [subst|]; simpl in H; [|apply IH]; tauto. Qed.

Section Read.
Context {Num : Type}.
Variables (pf : string -> option Num).
Notation value := (value Num).
Notation param := (param Num).
Notation class := (class Num).
Notation fields := (@fields Num).
Notation kid := (@kid Num).
Notation dg := (dget String.eqb).
Variable classes : string -> option class.

(** values that the written form represents: no boolean false, and raw elements without text and comments *)
Fixpoint clean (v : value) : bool :=
  match v with
  | VBool b => b
  | VRaw (Node _ _ None kids) => forallb (fun k => negb (is_comment k)) kids
  | VRaw _ => false
  | VList l => forallb clean l
  | VObj _ fs order => forallb (fun e => clean (snd e)) fs && forallb (fun e => clean (snd e)) order
  | _ => true
  end.

Definition basic_type (t : vtype) : bool := match t with TStr | TFloat | TBool | TVec _ => true | _ => false end.
(** types that schemas use *)
Definition nice_type (t : vtype) : Prop :=
  match t with
  | TSimple _ t => basic_type t = true
  | TGeom tab => forall nm c, dg nm tab = Some c -> find (fun e => String.eqb (snd e) c) tab = Some (nm, c)
  | TDuck cs => forall cs1 c cs2, cs = cs1 ++ c :: cs2 -> exists cl, classes c = Some cl /\
      forall c1, In c1 cs1 -> exists cl1 p, classes c1 = Some cl1 /\ wf_class cl1 /\ In p (cl_params cl1) /\
        pr_kind p = PElement /\ pr_req p = true /\ find_elem (cl_params cl) (pr_xml p) = None
  | _ => True
  end.
Record nice_class (c : class) : Prop := {
  nc_rt : rt_class c;
  nc_types : forall p, In p (cl_params c) -> nice_type (pr_type p);
  nc_attr : forall p, In p (cl_params c) -> pr_kind p = PAttribute ->
    basic_type (pr_type p) = true /\ (pr_default p = VNone \/ basic (pr_type p) (pr_default p));
  nc_elem : forall p, In p (cl_params c) -> pr_kind p = PElement -> pr_default p = VNone }.
Hypothesis NC : forall cname c, classes cname = Some c -> nice_class c.

Lemma from_string_basic t s v : basic_type t = true -> ok (from_string pf t s) v -> clean v = true -> basic t v.
Proof.
  destruct t; try discriminate; intros _ H C; simpl in H.
  - apply ok_ret1 in H. subst v. constructor.
  - destruct s; [|apply ok_fail1 in H; contradiction]. apply ok_bind1 in H as (x & _ & H). apply ok_ret1 in H. subst v. constructor.
  - apply ok_ret1 in H. subst v. simpl in C. rewrite C. constructor.
  - destruct s as [s|]; [|apply ok_fail1 in H; contradiction].
    destruct (match count with Some n => Nat.eqb (length (split s)) n | None => true end) eqn:E; [|apply ok_fail1 in H; contradiction].
    apply ok_bind1 in H as (l & L & H). apply ok_lift1 in L. apply ok_ret1 in H. subst v. constructor.
    apply rmap_length in L. destruct count as [n|]; [|exact I]. apply Nat.eqb_eq in E. congruence.
Qed.
Lemma from_string_none t s : ~ ok (from_string pf t s) VNone.
Proof.
  intros H. destruct t; simpl in H; try (apply ok_fail1 in H; contradiction).
  - apply ok_ret1 in H; discriminate.
  - destruct s; [|apply ok_fail1 in H; contradiction]. apply ok_bind1 in H as (x & _ & H). apply ok_ret1 in H; discriminate.
  - apply ok_ret1 in H; discriminate.
  - destruct s as [s|]; [|apply ok_fail1 in H; contradiction].
    destruct (match count with Some n => Nat.eqb (length (split s)) n | None => true end); [|apply ok_fail1 in H; contradiction].
    apply ok_bind1 in H as (l & L & H). apply ok_ret1 in H; discriminate.
Qed.
Lemma read_obj_form cname attrs ks v : ok (read_obj pf classes cname attrs ks) v -> exists fs order, v = VObj cname fs order.
Proof.
  intros H. destruct (classes cname) as [c|] eqn:Hc.
  - destruct (read_ok_prefix pf c classes cname Hc attrs ks v H) as (fs & o & _ & E & _). eauto.
  - unfold read_obj in H. rewrite Hc in H. apply ok_fail1 in H; contradiction.
Qed.
Lemma duck_form cs attrs ks v : ok (duck pf classes cs attrs ks) v ->
  exists cs1 c cs2, cs = cs1 ++ c :: cs2 /\ ok (read_obj pf classes c attrs ks) v.
Proof.
  induction cs as [|c cs IH]; simpl; intros H; [apply ok_fail1 in H; contradiction|].
  destruct (read_obj pf classes c attrs ks) as [w [x|e]] eqn:E.
  - exists [], c, cs. split; [reflexivity|]. rewrite E. exact H.
  - destruct (IH H) as (cs1 & c' & cs2 & -> & H'). exists (c :: cs1), c', cs2. auto.
Qed.
Lemma from_xml_none n t : ~ ok (from_xml pf classes n t) VNone.
Proof.
  revert t. induction n as [|tag attrs text kids IH] using node_rect2; intros t H; [apply ok_fail1 in H; contradiction|].
  change (ok (interp pf classes (Node tag attrs text kids) attrs text (kids_of pf classes kids) t) VNone) in H.
  destruct t; cbn [interp] in H; try (exact (from_string_none _ _ H)).
  - apply ok_ret1 in H; discriminate.
  - apply read_obj_form in H as (? & ? & H); discriminate.
  - destruct (kids_of pf classes kids) as [|k [|k2 r]] eqn:E; try (apply ok_fail1 in H; contradiction).
    apply ok_bind1 in H as (c & Hc & H).
    assert (HK : In k (kids_of pf classes kids)) by (rewrite E; left; reflexivity).
    unfold kids_of in HK. apply in_flat_map in HK as (x & Hx & HK). destruct x as [t1 a1 x1 k1|]; [|destruct HK].
    destruct HK as [<-|[]]. rewrite Forall_forall in IH. exact (IH _ Hx _ H).
  - apply duck_form in H as (? & ? & ? & _ & H). apply read_obj_form in H as (? & ? & H); discriminate.
Qed.

(** the kids of an element are its child elements *)
Lemma kid_in t k kids : In (t, k) (kids_of pf classes kids) -> exists n a x l, In n kids /\ n = Node t a x l /\ k = from_xml pf classes n.
Proof.
  intros H. unfold kids_of in H. apply in_flat_map in H as (n & Hn & H). destruct n as [t1 a1 x1 k1|]; [|destruct H].
  destruct H as [H|[]]. inversion H; subst. eauto 10.
Qed.
Lemma clean_get fs k v : forallb (fun e : string * value => clean (snd e)) fs = true -> dg k fs = Some v -> clean v = true.
Proof. intros H D. rewrite forallb_forall in H. apply (dget_in _ seqb_eq) in D. exact (H _ D). Qed.

Lemma agg_values c (W : wf_class c) ks order p l : In p (cl_params c) -> pr_kind p = PAggregate ->
  ordered (cl_params c) ks order -> Forall2 (fun (k : kid) v => ok (snd k (pr_type p)) v) (filter (fun k => String.eqb (fst k) (pr_xml p)) ks) l ->
  l = map snd (filter (fun o => String.eqb (fst o) (pr_xml p)) order).
Proof.
  intros Hp Kp. unfold ordered. pose proof (agg_of_in c W p Hp Kp) as AP. revert order l.
  induction ks as [|[t k] ks IH]; intros order l O F; simpl in *.
  - inversion O; subst. inversion F; subst. reflexivity.
  - destruct (agg_of (cl_params c) t) as [q|] eqn:Eq.
    + inversion O as [|? [t1 v1] ? o' D1 D2]; subst. destruct D1 as (D1 & q' & D3 & D4). simpl in *. subst t1.
      destruct (String.eqb t (pr_xml p)) eqn:E.
      * inversion F as [|? v ? l' F1 F2]; subst. simpl. apply String.eqb_eq in E. subst t.
        assert (q' = p) by congruence. subst q'. f_equal; [eapply ok_fun; eassumption | apply IH; assumption].
      * apply IH; assumption.
    + destruct (String.eqb t (pr_xml p)) eqn:E; [apply String.eqb_eq in E; congruence | apply IH; assumption].
Qed.
Lemma Forall2_right {A B} (R : A -> B -> Prop) l l' b : Forall2 R l l' -> In b l' -> exists a, In a l /\ R a b.
Proof. induction 1; intros []; subst; [eauto using in_eq|]. destruct IHForall2 as (a & ? & ?); eauto using in_cons. Qed.

(** an object read from an element is typed if its parts are *)
Lemma obj_typed tag cname attrs kids v : NoDup (map fst attrs) ->
  (forall n t v, In n kids -> nice_type t -> ok (from_xml pf classes n t) v -> clean v = true ->
     exists tg a x l, n = Node tg a x l /\ typed classes tg t v) ->
  ok (read_obj pf classes cname attrs (kids_of pf classes kids)) v -> clean v = true -> tobj classes tag cname v.
Proof.
  intros ND IH H C. destruct (classes cname) as [c|] eqn:Hc.
  2: { unfold read_obj in H. rewrite Hc in H. apply ok_fail1 in H; contradiction. }
  pose proof (NC _ _ Hc) as N. pose proof (nc_rt _ N) as RT. pose proof (rt_wf _ RT) as W.
  destruct (read_obj_ok pf c W classes cname Hc attrs _ v ND H) as (fs & order & -> & (R1 & R2 & R3 & R4) & CK).
  simpl in C. apply andb_true_iff in C as [C1 C2].
  apply TyFields with c; auto.
  - apply keys_det; auto. intros p Hp. destruct (R1 p Hp) as (w & Hw & _). eauto.
  - intros p w Hp Kp Hw. destruct (R1 p Hp) as (w' & Hw' & G). assert (w' = w) by congruence. subst w'.
    unfold given in G. rewrite Kp in G. destruct (nc_attr _ N p Hp Kp) as [BT BD].
    destruct (dg (pr_xml p) attrs) as [s|].
    + right. eapply from_string_basic; [exact BT | exact G | exact (clean_get _ _ _ C1 Hw)].
    + destruct G as [Rq ->]. destruct BD as [BD|BD]; [left|right; exact BD]. split; [exact BD | split; [exact Rq | exact BD]].
  - intros p Hp Kp Hw. destruct (R1 p Hp) as (w' & Hw' & G). assert (w' = VNone) by congruence. subst w'.
    unfold given in G. rewrite Kp in G. destruct (dg (pr_xml p) (kids_of pf classes kids)) as [k|] eqn:Ek.
    + apply (dget_in _ seqb_eq), kid_in in Ek as (n & a & x & l & Hn & _ & ->). destruct (from_xml_none _ _ G).
    + split; [apply G | apply (nc_elem _ N p Hp Kp)].
  - intros p w Hp Kp Hw NV. destruct (R1 p Hp) as (w' & Hw' & G). assert (w' = w) by congruence. subst w'.
    unfold given in G. rewrite Kp in G. destruct (dg (pr_xml p) (kids_of pf classes kids)) as [k|] eqn:Ek.
    + apply (dget_in _ seqb_eq), kid_in in Ek as (n & a & x & l & Hn & -> & ->).
      destruct (IH _ _ _ Hn (nc_types _ N p Hp) G) as (tg & a' & x' & l' & E & T); [exact (clean_get _ _ _ C1 Hw)|].
      inversion E; subst. exact T.
    + destruct G as [_ G]. rewrite (nc_elem _ N p Hp Kp) in G. contradiction.
  - intros p Hp Kp. destruct (R1 p Hp) as (w & Hw & G). rewrite Hw. f_equal. unfold given in G. rewrite Kp in G.
    destruct G as (l & -> & F). f_equal. eapply agg_values; eassumption.
  - intros t w Hin. destruct (Forall2_right _ _ _ _ R4 Hin) as (k & Hk & E & p & Hp & _). simpl in E.
    exists p. subst t. apply agg_of_some, Hp.
  - intros t w p Hin Hp Kp Xp. destruct (Forall2_right _ _ _ _ R4 Hin) as ((t', k) & Hk & E & q & Hq & G). simpl in E, Hq, G. subst t'.
    assert (q = p) by (rewrite <- Xp in Hq; rewrite (agg_of_in c W p Hp Kp) in Hq; congruence). subst q.
    apply filter_In in Hk as [Hk _]. apply kid_in in Hk as (n & a & x & l & Hn & -> & ->).
    destruct (IH _ _ _ Hn (nc_types _ N p Hp) G) as (tg & a' & x' & l' & E & T).
    { rewrite forallb_forall in C2. exact (C2 _ Hin). }
    inversion E; subst. exact T.
Qed.

Theorem read_typed n t v : wf_doc n -> nice_type t -> ok (from_xml pf classes n t) v -> clean v = true ->
  exists tg a x l, n = Node tg a x l /\ typed classes tg t v.
Proof.
  revert t v. induction n as [|tag attrs text kids IH] using node_rect2; intros t v WD NT H C; [apply ok_fail1 in H; contradiction|].
  exists tag, attrs, text, kids. split; [reflexivity|].
  rewrite Forall_forall in IH.
  assert (IHk : forall n t v, In n kids -> nice_type t -> ok (from_xml pf classes n t) v -> clean v = true ->
     exists tg a x l, n = Node tg a x l /\ typed classes tg t v).
  { intros n t' v' Hn. apply IH; [exact Hn|]. eapply wf_doc_kids; eassumption. }
  assert (ND : NoDup (map fst attrs)) by apply WD.
  change (ok (interp pf classes (Node tag attrs text kids) attrs text (kids_of pf classes kids) t) v) in H.
  destruct t; cbn [interp] in H.
  1-4: apply TyBasic; eapply from_string_basic; [reflexivity | exact H | exact C].
  - apply ok_ret1 in H. subst v. simpl in C. destruct text; [discriminate|]. apply TyRaw; assumption.
  - apply TySimple. eapply from_string_basic; [exact NT | exact H | exact C].
  - apply TyObj. eapply obj_typed; eassumption.
  - destruct (kids_of pf classes kids) as [|[nm k] [|k2 r]] eqn:E; try (apply ok_fail1 in H; contradiction).
    apply ok_bind1 in H as (c & Hc & H). apply ok_xopt1 in Hc. simpl in Hc, H.
    assert (HK : In (nm, k) (kids_of pf classes kids)) by (rewrite E; left; reflexivity).
    apply kid_in in HK as (n & a & x & l & Hn & -> & ->).
    destruct (IHk _ (TObj c) v Hn I H C) as (tg & a' & x' & l' & Eq & T). inversion Eq; subst.
    inversion T as [? ? ? B| | |? ? ? O| |]; subst; [inversion B|].
    eapply TyGeom; [apply NT, Hc | exact Hc | exact O].
  - apply duck_form in H as (cs1 & c & cs2 & -> & H). destruct (NT _ _ _ eq_refl) as (cl & Hcl & D).
    eapply TyDuck; [exact Hcl | exact D|]. eapply obj_typed; eassumption.
Qed.
Theorem doc_typed cname n v : wf_doc n -> ok (from_doc pf classes cname n) v -> clean v = true ->
  forall tag, tobj classes tag cname v.
Proof.
  intros WD H C tag. destruct n as [tg attrs text kids|]; [|apply ok_fail1 in H; contradiction].
  eapply obj_typed; [apply WD | | exact H | exact C].
  intros n t w Hn NT Hr Cw. eapply read_typed; try eassumption. eapply wf_doc_kids; eassumption.
Qed.
End Read.
