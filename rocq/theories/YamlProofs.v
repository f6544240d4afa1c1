(** Printing what was read. *)
From Coq Require Import String Bool Arith Lia List.
From Verif Require Import Prelude XmlModel XmlProofs XmlRead SpecXml XmlMore YamlModel SpecYaml.
Import ListNotations.
Local Open Scope string_scope.
Local Open Scope list_scope.
Local Arguments is_kind : simpl never.
Local Arguments is_elem : simpl never.

Lemma rmap_dec {A B} (f : A -> res B) l : (exists ys, rmap f l = Ok ys /\ Forall2 (fun x y => f x = Ok y) l ys) \/
  (exists x e, In x l /\ f x = Err e /\ rmap f l = Err e).
Proof.
  induction l as [|x l IH]; simpl; [left; exists []; split; [reflexivity | constructor]|].
  destruct (f x) as [y|e] eqn:F; [|right; exists x, e; auto].
  destruct IH as [(ys & E & H)|(z & e & I & F' & E)].
  - left. exists (y :: ys). cbn [rbind]. rewrite E. split; [reflexivity | constructor; assumption].
  - right. exists z, e. cbn [rbind]. rewrite E. auto.
Qed.
Lemma rmap_all {A B} (f : A -> res B) l : (forall x, In x l -> exists y, f x = Ok y) -> exists ys, rmap f l = Ok ys /\ Forall2 (fun x y => f x = Ok y) l ys.
Proof. intros H. destruct (rmap_dec f l) as [?|(x & e & I & F & _)]; [assumption|]. destruct (H _ I) as [y Y]. congruence. Qed.

Section Y.
Context {Num : Type}.
Variables (pf : string -> option Num).
Notation value := (value Num).
Notation class := (class Num).
Notation dg := (dget String.eqb).
Variable classes : string -> option class.
Hypothesis NC : forall cname c, classes cname = Some c -> nice_class classes c.
Notation to_yaml := (to_yaml classes).
Notation has_list := (has_list classes).

Definition prints (v : value) : Prop :=
  (exists y, to_yaml false v = Ok y /\ to_yaml true v = Ok y /\ ~ has_list v) \/
  (to_yaml false v = Err AttributeError /\ has_list v /\ exists y, to_yaml true v = Ok y).

Lemma dget_out old x (fs : list (string * value)) :
  dg x (map (fun e => (fst e, to_yaml old (snd e))) fs) = option_map (to_yaml old) (dg x fs).
Proof. induction fs as [|[k v] fs IH]; simpl; [reflexivity|]. destruct (String.eqb x k); [reflexivity | exact IH]. Qed.
Lemma var_in cl x : In x (refl_vars (Num:=Num) cl) <-> exists p, In p (cl_params cl) /\ pr_var p = x.
Proof.
  unfold refl_vars. rewrite in_app_iff, !in_map_iff. split.
  - intros [(p & E & H)|(p & E & H)]; apply filter_In in H as [H _]; eauto.
  - intros (p & H & E). destruct (is_elem p) eqn:K.
    + right. exists p. split; [exact E | apply filter_In; auto].
    + left. exists p. split; [exact E|]. apply filter_In; split; [exact H|]. unfold is_elem in K. apply negb_false_iff in K. exact K.
Qed.
(** an object all of whose declared fields are there *)
Lemma object_yaml old c cl fs order : classes c = Some cl ->
  (forall p, In p (cl_params cl) -> exists w, dg (pr_var p) fs = Some w) ->
  to_yaml old (VObj c fs order) =
    (do d <- rmap (fun x => match dg x fs with Some w => do y <- to_yaml old w; Ok (x, y) | None => Err AttributeError end) (refl_vars cl);
     Ok (YDict d)).
Proof.
  intros Hc H. cbn [YamlModel.to_yaml]. rewrite Hc.
  assert (Hv : forall x, In x (refl_vars cl) -> exists w, dg x fs = Some w).
  { intros x Hx. apply var_in in Hx as (p & Hp & <-). auto. }
  clear H. set (raw := rmap _ _).
  assert (E : raw = Ok (map (fun x => (x, match dg x fs with Some w => to_yaml old w | None => Err AttributeError end)) (refl_vars cl))).
  { apply rmap_ok. intros x Hx. destruct (Hv x Hx) as [w Hw]. rewrite dget_out, Hw. reflexivity. }
  rewrite E. clear E raw. cbn [rbind]. f_equal.
  induction (refl_vars cl) as [|x l IH]; [reflexivity|].
  cbn [map rmap snd fst]. destruct (Hv x (or_introl eq_refl)) as [w Hw]. rewrite Hw.
  destruct (to_yaml old w); cbn [rbind]; [|reflexivity]. rewrite IH; [reflexivity|]. intros z Hz; apply Hv; right; exact Hz.
Qed.

Lemma not_list (v : value) : (forall l, v <> VVec l) -> (forall l, v <> VList l) -> (forall c fs o, v <> VObj c fs o) -> ~ has_list v.
Proof.
  intros H1 H2 H3 (u & S & L). inversion S; subst; [|eapply H3; reflexivity].
  destruct L as [[l ->]|[l ->]]; [eapply H1 | eapply H2]; reflexivity.
Qed.
Lemma prints_leaf (v : value) y : (forall l, v <> VVec l) -> (forall l, v <> VList l) -> (forall c fs o, v <> VObj c fs o) ->
  to_yaml false v = Ok y -> to_yaml true v = Ok y -> prints v.
Proof. intros. left. exists y. split; [assumption|]. split; [assumption|]. apply not_list; assumption. Qed.
Lemma prints_none : prints VNone.
Proof. eapply prints_leaf; try reflexivity; discriminate. Qed.
Lemma prints_vec l : prints (VVec l).
Proof.
  right. split; [reflexivity|]. split; [|eexists; reflexivity]. exists (VVec l). split; [constructor | left; eauto].
Qed.
Lemma prints_list l : Forall prints l -> prints (VList l).
Proof.
  intros H. right. split; [reflexivity|]. split; [exists (VList l); split; [constructor | right; eauto]|].
  destruct (rmap_all (fun r : res (yaml Num) => r) (map (to_yaml true) l)) as (ys & E & _).
  - intros r Hr. apply in_map_iff in Hr as (v & <- & Hv). rewrite Forall_forall in H.
    destruct (H v Hv) as [(y & _ & Y & _)|(_ & _ & Y)]; eauto.
  - exists (YList ys). cbn [YamlModel.to_yaml]. rewrite E. reflexivity.
Qed.
Lemma prints_text t s v : ok (from_string pf t s) v -> prints v.
Proof.
  intros H. destruct t; try (apply ok_fail1 in H; contradiction).
  - apply ok_ret1 in H. subst v. eapply prints_leaf; try reflexivity; discriminate.
  - simpl in H. destruct s; [|apply ok_fail1 in H; contradiction]. apply ok_bind1 in H as (x & _ & H). apply ok_ret1 in H. subst v.
    eapply prints_leaf; try reflexivity; discriminate.
  - apply ok_ret1 in H. subst v. eapply prints_leaf; try reflexivity; discriminate.
  - simpl in H. destruct s as [s|]; [|apply ok_fail1 in H; contradiction].
    destruct (match count with Some n => Nat.eqb (length (split s)) n | None => true end); [|apply ok_fail1 in H; contradiction].
    apply ok_bind1 in H as (l & _ & H). apply ok_ret1 in H. subst v. apply prints_vec.
Qed.
Lemma prints_default cl p : nice_class classes cl -> In p (cl_params cl) -> pr_kind p <> PAggregate -> prints (pr_default p).
Proof.
  intros N Hp K. destruct (pr_kind p) eqn:E; [| rewrite (nc_elem _ _ N p Hp E); apply prints_none | congruence].
  destruct (nc_attr _ _ N p Hp E) as [_ [->|B]]; [apply prints_none|].
  inversion B; try (eapply prints_leaf; try reflexivity; discriminate). apply prints_vec.
Qed.
Lemma prints_object c cl fs order : classes c = Some cl ->
  (forall p, In p (cl_params cl) -> exists w, dg (pr_var p) fs = Some w /\ prints w) -> prints (VObj c fs order).
Proof.
  intros Hc H.
  assert (Hv : forall p, In p (cl_params cl) -> exists w, dg (pr_var p) fs = Some w) by (intros p Hp; destruct (H p Hp) as (w & E & _); eauto).
  unfold prints. rewrite (object_yaml false c cl fs order Hc Hv), (object_yaml true c cl fs order Hc Hv).
  set (f := fun old x => match dg x fs with Some w => do y <- to_yaml old w; Ok (x, y) | None => Err AttributeError end).
  change (fun x : string => match dg x fs with Some w => do y <- to_yaml false w; Ok (x, y) | None => Err AttributeError end) with (f false).
  change (fun x : string => match dg x fs with Some w => do y <- to_yaml true w; Ok (x, y) | None => Err AttributeError end) with (f true).
  assert (Hf : forall x, In x (refl_vars cl) -> exists p w, In p (cl_params cl) /\ pr_var p = x /\ dg x fs = Some w /\ prints w).
  { intros x Hx. apply var_in in Hx as (p & Hp & <-). destruct (H p Hp) as (w & E & P). exists p, w; auto. }
  assert (Ht : exists d, rmap (f true) (refl_vars cl) = Ok d).
  { destruct (rmap_all (f true) (refl_vars cl)) as (d & E & _); [|eauto]. intros x Hx. destruct (Hf x Hx) as (p & w & _ & _ & E & P).
    unfold f. rewrite E. destruct P as [(y & _ & Y & _)|(_ & _ & y & Y)]; rewrite Y; eexists; reflexivity. }
  destruct Ht as [d Ht]. rewrite Ht.
  destruct (rmap_dec (f false) (refl_vars cl)) as [(d' & E & F)|(x & e & Hx & F & E)]; rewrite E; cbn [rbind].
  - left. exists (YDict d'). split; [reflexivity|].
    assert (NL : forall p w, In p (cl_params cl) -> dg (pr_var p) fs = Some w -> exists y, to_yaml false w = Ok y /\ to_yaml true w = Ok y /\ ~ has_list w).
    { intros p w Hp Hw. destruct (H p Hp) as (w' & E' & P). assert (w' = w) by congruence. subst w'.
      destruct P as [P|(B & _)]; [exact P|]. exfalso.
      assert (Hx : In (pr_var p) (refl_vars cl)) by (apply var_in; eauto).
      clear -Hx F B Hw. induction F as [|z y l l' R F IH]; [contradiction|]. destruct Hx as [->|Hx]; [|auto].
      unfold f in R. rewrite Hw, B in R. discriminate. }
    split.
    + assert (G : rmap (f true) (refl_vars cl) = Ok d').
      { rewrite <- E. clear - Hf NL. induction (refl_vars cl) as [|x l IH]; [reflexivity|]. cbn [rmap].
        destruct (Hf x (or_introl eq_refl)) as (p & w & Hp & <- & Hw & _). destruct (NL p w Hp Hw) as (y & Y1 & Y2 & _).
        assert (R : f true (pr_var p) = f false (pr_var p)) by (unfold f; rewrite Hw, Y1, Y2; reflexivity). rewrite R.
        rewrite IH; [reflexivity|]. intros z Hz; apply Hf; right; exact Hz. }
      congruence.
    + intros (u & Sh & L). inversion Sh; subst; [destruct L as [[l Hl]|[l Hl]]; discriminate|].
      assert (cl0 = cl) by congruence. subst cl0.
      match goal with A : In ?p _, B : dg (pr_var ?p) fs = Some ?w |- _ => destruct (NL p w A B) as (_ & _ & _ & X) end.
      apply X. exists u. split; assumption.
  - right. destruct (Hf x Hx) as (p & w & Hp & <- & Hw & P). unfold f in F. rewrite Hw in F.
    destruct P as [(y & Y & _)|(Y & (u & Sh & L) & _)]; rewrite Y in F; cbn [rbind] in F; [discriminate|].
    split; [congruence|]. split; [|eexists; reflexivity].
    exists u. split; [econstructor; eassumption | exact L].
Qed.

Lemma parsed_prints n : wf_doc n -> forall t v, ok (from_xml pf classes n t) v -> prints v.
Proof.
  induction n as [|tag attrs text kids IH] using node_rect2; intros W; [intros t v H; apply ok_fail1 in H; contradiction|].
  assert (IHk : forall k t v, In k kids -> ok (from_xml pf classes k t) v -> prints v).
  { intros k t v Hk. rewrite Forall_forall in IH. apply (IH k Hk). exact (wf_doc_kids _ _ _ _ _ W Hk). }
  assert (OBJ : forall c v, ok (from_xml pf classes (Node tag attrs text kids) (TObj c)) v -> prints v).
  { intros c v H. destruct (classes c) as [cl|] eqn:Hc.
    - destruct W as [ND _]. destruct (proj1 (object_spec pf classes NC c cl tag attrs text kids v Hc ND) H) as (fs & order & -> & M & _).
      apply (prints_object c cl fs order Hc). intros p Hp. destruct (M p Hp) as (w & E & F). exists w. split; [exact E|].
      pose proof (NC _ _ Hc) as N. unfold field_means in F. destruct (pr_kind p) eqn:K.
      + destruct (dg (pr_xml p) attrs) as [s|].
        * apply (text_spec pf) in F; [exact (prints_text _ _ _ F) | exact (proj1 (nc_attr _ _ N p Hp K))].
        * destruct F as [_ ->]. apply (prints_default cl p N Hp). congruence.
      + destruct (first_child (pr_xml p) kids) as [k|] eqn:FC.
        * apply find_some in FC as [Hk _]. exact (IHk _ _ _ Hk F).
        * destruct F as [_ ->]. apply (prints_default cl p N Hp). congruence.
      + destruct F as (l & -> & F). apply prints_list. rewrite Forall_forall. intros u Hu.
        assert (X : exists k, In k kids /\ ok (from_xml pf classes k (pr_type p)) u).
        { unfold children in F. revert F Hu. generalize (fun k (h : In k (filter (has_tag (pr_xml p)) kids)) => proj1 (proj1 (filter_In _ _ _) h)).
          generalize (filter (has_tag (pr_xml p)) kids). intros ks HI F Hu. clear -HI F Hu. induction F as [|k v ks l R F IHF]; [contradiction|].
          destruct Hu as [->|Hu]; [exists k; split; [apply HI; left; reflexivity | exact R]|].
          apply IHF; [intros z Hz; apply HI; right; exact Hz | exact Hu]. }
        destruct X as (k & Hk & R). exact (IHk _ _ _ Hk R).
    - change (from_xml pf classes (Node tag attrs text kids) (TObj c)) with (read_obj pf classes c attrs (kids_of pf classes kids)) in H.
      unfold read_obj in H. rewrite Hc in H. apply ok_fail1 in H; contradiction. }
  intros t v H. destruct t.
  1,2,3,4: exact (prints_text _ text v H).
  - apply ok_ret1 in H. subst v. eapply prints_leaf; try reflexivity; discriminate.
  - exact (prints_text t (dg attr attrs) v H).
  - exact (OBJ c v H).
  - apply (geometry_spec pf classes) in H as (t & a & x & l & c & E & _ & H). apply (IHk (Node t a x l) (TObj c)); [|exact H].
    assert (In (Node t a x l) (elements kids)) as Hin by (rewrite E; left; reflexivity). apply filter_In in Hin as [Hin _]. exact Hin.
  - apply (duck_spec pf classes) in H as (cs1 & c & cs2 & _ & H & _). exact (OBJ c v H).
Qed.
End Y.
