(** What [read_obj] reads: a specification by parameter, and the proof that the reading loops meet it. *)
From Coq Require Import String Bool Arith Lia List.
From Verif Require Import Prelude XmlModel.
Import ListNotations.
Local Open Scope string_scope.
Local Open Scope list_scope.

(** the computation returns this result *)
Definition ok {A} (x : xr A) (a : A) : Prop := snd x = inl a.

Lemma ok_ret {A} (a b : A) : ok (ret a) b <-> a = b.
Proof. unfold ok, ret; simpl. split; [intros H; inversion H; reflexivity | intros ->; reflexivity]. Qed.
Lemma ok_fail {A} e (b : A) : ok (fail e) b <-> False.
Proof. unfold ok, fail; simpl. split; [discriminate | tauto]. Qed.
Lemma ok_bind {A B} (x : xr A) (f : A -> xr B) b : ok (xbind x f) b <-> exists a, ok x a /\ ok (f a) b.
Proof.
  unfold ok, xbind. destruct (snd x) as [a|e]; simpl; split.
  - intros H; eauto.
  - intros (a' & E & H). inversion E; subst; exact H.
  - discriminate.
  - intros (a' & E & _); discriminate.
Qed.
Lemma ok_err {A} g (x : xr A) a : ok (xmap_err g x) a <-> ok x a.
Proof. unfold ok, xmap_err; destruct (snd x); simpl; split; intros H; inversion H; subst; reflexivity. Qed.
Lemma ok_fun {A} (x : xr A) a b : ok x a -> ok x b -> a = b.
Proof. unfold ok; congruence. Qed.
Lemma ok_xopt {A} e (o : option A) a : ok (xopt e o) a <-> o = Some a.
Proof. destruct o; simpl; [rewrite ok_ret | rewrite ok_fail]; split; intros H; inversion H; subst; reflexivity. Qed.
Lemma ok_lift {A} (r : res A) a : ok (lift r) a <-> r = Ok a.
Proof. destruct r; simpl; [rewrite ok_ret | rewrite ok_fail]; split; intros H; inversion H; subst; reflexivity. Qed.
Lemma ok_ret1 {A} (a b : A) : ok (ret a) b -> a = b. Proof. apply ok_ret. Qed.
Lemma ok_fail1 {A} e (b : A) : ok (fail e) b -> False. Proof. apply ok_fail. Qed.
Lemma ok_bind1 {A B} (x : xr A) (f : A -> xr B) b : ok (xbind x f) b -> exists a, ok x a /\ ok (f a) b. Proof. apply ok_bind. Qed.
Lemma ok_err1 {A} g (x : xr A) a : ok (xmap_err g x) a -> ok x a. Proof. apply ok_err. Qed.
Lemma ok_xopt1 {A} e (o : option A) a : ok (xopt e o) a -> o = Some a. Proof. apply ok_xopt. Qed.
Lemma ok_lift1 {A} (r : res A) a : ok (lift r) a -> r = Ok a. Proof. apply ok_lift. Qed.
Lemma ok_warns {A} (f : A -> warning) l : ok (xfold (fun _ a => warn (f a)) l tt) tt.
Proof.
  induction l; simpl; [reflexivity|]. apply ok_bind. exists tt. split; [reflexivity | exact IHl].
Qed.
Lemma ok_unit (x : xr unit) u : ok x u <-> ok x tt.
Proof. destruct u; tauto. Qed.

Local Arguments is_kind : simpl never.
Local Arguments is_elem : simpl never.

Section Spec.
Context {Num : Type}.
Variable pf : string -> option Num.
Notation value := (value Num).
Notation param := (param Num).
Notation class := (class Num).
Notation fields := (@fields Num).
Notation kid := (@kid Num).
Notation dg := (dget String.eqb).

(** what a parameter is set to: its attribute or first element if there is one, otherwise its default, unless it is required;
    an aggregate is the list of all its elements *)
Definition given (attrs : dict string string) (ks : list kid) (p : param) (v : value) : Prop :=
  match pr_kind p with
  | PAttribute => match dg (pr_xml p) attrs with
                  | Some s => ok (from_string pf (pr_type p) (Some s)) v
                  | None => pr_req p = false /\ v = pr_default p
                  end
  | PElement => match dg (pr_xml p) ks with
                | Some k => ok (k (pr_type p)) v
                | None => pr_req p = false /\ v = pr_default p
                end
  | PAggregate => exists l, v = VList l /\
      Forall2 (fun k v => ok (snd k (pr_type p)) v) (filter (fun k => String.eqb (fst k) (pr_xml p)) ks) l
  end.
Definition agg_of (ps : list param) (t : string) : option param :=
  find (fun p => is_kind PAggregate p && String.eqb (pr_xml p) t) ps.
(** the aggregates in document order *)
Definition ordered (ps : list param) (ks : list kid) (order : list (string * value)) : Prop :=
  Forall2 (fun k o => fst o = fst k /\ exists p, agg_of ps (fst k) = Some p /\ ok (snd k (pr_type p)) (snd o))
    (filter (fun k => match agg_of ps (fst k) with Some _ => true | None => false end) ks) order.

(** no two attributes, elements or fields of a class share a name; lists start empty *)
Record wf_class (c : class) : Prop := {
  wf_attrs : NoDup (map pr_xml (filter (is_kind PAttribute) (cl_params c)));
  wf_elems : NoDup (map pr_xml (filter is_elem (cl_params c)));
  wf_vars : NoDup (map pr_var (cl_params c));
  wf_init : NoDup (map fst (cl_init c));
  wf_lists : forall p, In p (cl_params c) -> pr_kind p = PAggregate -> dg (pr_var p) (cl_init c) = Some (VList []) }.

(** ** Dictionaries *)
Definition extends (a b : fields) : Prop :=
  exists t, map fst b = map fst a ++ t /\ (NoDup (map fst a) -> NoDup (map fst b)).
Lemma ext_refl a : extends a a. Proof. exists []; split; [rewrite app_nil_r; reflexivity | auto]. Qed.
Lemma ext_trans a b c : extends a b -> extends b c -> extends a c.
Proof. intros (t & H & N) (u & K & M). exists (t ++ u). split; [rewrite K, H, app_assoc; reflexivity | auto]. Qed.
Lemma ext_dset k (v : value) d : extends d (dset String.eqb k v d).
Proof.
  assert (H : exists t, map fst (dset String.eqb k v d) = map fst d ++ t).
  { induction d as [|[k' v'] d [t IH]]; simpl; [exists [k]; reflexivity|].
    destruct (String.eqb k k'); simpl; [exists []; rewrite app_nil_r; reflexivity|]. exists t. rewrite IH; reflexivity. }
  destruct H as [t H]. exists t. split; [exact H | apply dset_nodup, seqb_eq].
Qed.
Lemma dict_ext (a b : fields) : NoDup (map fst a) -> map fst a = map fst b -> (forall k, dg k a = dg k b) -> a = b.
Proof.
  revert b. induction a as [|[k v] a IH]; intros [|[k' v'] b] N E L; simpl in *; try discriminate; [reflexivity|].
  inversion E; subst. inversion N; subst.
  pose proof (L k') as L0. rewrite String.eqb_refl in L0. inversion L0; subst. f_equal. apply IH; [assumption..|].
  intros x. specialize (L x). destruct (String.eqb x k') eqn:Ex; [|exact L].
  apply String.eqb_eq in Ex; subst.
  transitivity (@None value); [|symmetry]; apply dget_none; try apply seqb_eq; [assumption | rewrite <- H1; assumption].
Qed.
Lemma dg_app {A} (k : string) (a b : dict string A) : dg k (a ++ b) = match dg k a with Some v => Some v | None => dg k b end.
Proof. induction a as [|[k' v'] a IH]; simpl; [reflexivity|]. destruct (String.eqb k k'); [reflexivity | exact IH]. Qed.

(** ** Parameters *)
Lemma kind_attr (p : param) : is_kind PAttribute p = true <-> pr_kind p = PAttribute.
Proof. unfold is_kind; destruct (pr_kind p); split; congruence. Qed.
Lemma kind_elem (p : param) : is_kind PElement p = true <-> pr_kind p = PElement.
Proof. unfold is_kind; destruct (pr_kind p); split; congruence. Qed.
Lemma kind_agg (p : param) : is_kind PAggregate p = true <-> pr_kind p = PAggregate.
Proof. unfold is_kind; destruct (pr_kind p); split; congruence. Qed.
Lemma elem_kind (p : param) : is_elem p = true <-> pr_kind p <> PAttribute.
Proof. unfold is_elem, is_kind; destruct (pr_kind p); simpl; split; congruence. Qed.

Lemma find_unique {A} (f g : A -> bool) (h : A -> string) l x :
  NoDup (map h (filter f l)) -> In x l -> f x = true -> find (fun y => f y && String.eqb (h y) (h x)) l = Some x.
Proof.
  induction l as [|y l IH]; simpl; intros N Hin Hf; [contradiction|].
  destruct Hin as [->|Hin].
  - rewrite Hf, String.eqb_refl; reflexivity.
  - destruct (f y) eqn:Fy; simpl in *.
    + inversion N; subst. destruct (String.eqb (h y) (h x)) eqn:E; [|apply IH; assumption].
      apply String.eqb_eq in E. exfalso; apply H1. rewrite E. apply in_map, filter_In; auto.
    + apply IH; assumption.
Qed.
Lemma find_key {A} (f : A -> bool) (h : A -> string) l t x :
  find (fun y => f y && String.eqb (h y) t) l = Some x -> In x l /\ f x = true /\ h x = t.
Proof.
  intros H. apply find_some in H as [H K]. apply andb_true_iff in K as [K1 K2]. apply String.eqb_eq in K2. auto.
Qed.
Lemma var_inj ps (p q : param) : NoDup (map pr_var ps) -> In p ps -> In q ps -> pr_var p = pr_var q -> p = q.
Proof.
  induction ps as [|x ps IH]; simpl; intros N Hp Hq E; [contradiction|].
  inversion N; subst. destruct Hp as [->|Hp], Hq as [->|Hq]; auto.
  - exfalso; apply H1. rewrite E. apply in_map, Hq.
  - exfalso; apply H1. rewrite <- E. apply in_map, Hp.
Qed.

Section Class.
Variable c : class.
Hypothesis W : wf_class c.
Let ps := cl_params c.

Lemma find_attr_in p : In p ps -> pr_kind p = PAttribute -> find_attr ps (pr_xml p) = Some p.
Proof. intros H K. apply (find_unique (is_kind PAttribute) (fun _ => true) pr_xml); [apply W | exact H | apply kind_attr, K]. Qed.
Lemma find_attr_some t p : find_attr ps t = Some p -> In p ps /\ pr_kind p = PAttribute /\ pr_xml p = t.
Proof. intros H. apply find_key in H as (H & K & E). apply kind_attr in K; auto. Qed.
Lemma find_elem_in p : In p ps -> pr_kind p <> PAttribute -> find_elem ps (pr_xml p) = Some p.
Proof. intros H K. apply (find_unique is_elem (fun _ => true) pr_xml); [apply W | exact H | apply elem_kind, K]. Qed.
Lemma find_elem_some t p : find_elem ps t = Some p -> In p ps /\ pr_kind p <> PAttribute /\ pr_xml p = t.
Proof. intros H. apply find_key in H as (H & K & E). apply elem_kind in K; auto. Qed.
Lemma agg_of_in p : In p ps -> pr_kind p = PAggregate -> agg_of ps (pr_xml p) = Some p.
Proof.
  intros H K. apply (find_unique (is_kind PAggregate) (fun _ => true) pr_xml); [|exact H | apply kind_agg, K].
  pose proof (wf_elems _ W) as N. fold ps in N. clear - N. induction ps as [|x l IH]; simpl in *; [constructor|].
  destruct (is_kind PAggregate x) eqn:E.
  - assert (F : is_elem x = true) by (apply kind_agg in E; apply elem_kind; congruence).
    rewrite F in N; simpl in *. inversion N; subst. constructor; [|apply IH; assumption].
    intros Hc; apply H1. apply in_map_iff in Hc as (y & Ey & Hy). apply filter_In in Hy as [Hy Ky].
    rewrite <- Ey. apply in_map, filter_In. split; [exact Hy|]. apply kind_agg in Ky. apply elem_kind; congruence.
  - destruct (is_elem x); simpl in *; [inversion N; subst|]; apply IH; assumption.
Qed.
Lemma agg_of_some t p : agg_of ps t = Some p -> In p ps /\ pr_kind p = PAggregate /\ pr_xml p = t.
Proof. intros H. apply find_key in H as (H & K & E). apply kind_agg in K; auto. Qed.

(** ** Attributes *)
Lemma attrs_read attrs fs0 fs1 : NoDup (map fst attrs) -> ok (xfold (attr_step pf ps) attrs fs0) fs1 ->
  (forall p, In p ps -> pr_kind p = PAttribute ->
     match dg (pr_xml p) attrs with
     | Some s => exists v, ok (from_string pf (pr_type p) (Some s)) v /\ dg (pr_var p) fs1 = Some v
     | None => dg (pr_var p) fs1 = dg (pr_var p) fs0
     end) /\
  (forall x, (forall p, In p ps -> pr_kind p = PAttribute -> pr_var p <> x) -> dg x fs1 = dg x fs0) /\ extends fs0 fs1.
Proof.
  revert fs0. induction attrs as [|[a s] attrs IH]; intros fs0 N H; simpl in *.
  - apply ok_ret1 in H; subst. split; [reflexivity | split; [reflexivity | apply ext_refl]].
  - inversion N; subst. apply ok_bind1 in H as (fs & H1 & H). destruct (IH _ H3 H) as (IA & IO & IE). clear IH.
    unfold attr_step in H1; simpl in H1. destruct (find_attr ps a) as [q|] eqn:Eq.
    + apply find_attr_some in Eq as (Hq & Kq & Xq).
      apply ok_bind1 in H1 as (v & Hv & H1). apply ok_err1 in Hv. apply ok_ret1 in H1; subst fs.
      assert (EX : extends fs0 fs1) by (eapply ext_trans; [apply ext_dset | exact IE]).
      split; [|split; [|exact EX]].
      * intros p Hp Kp. specialize (IA p Hp Kp). destruct (String.eqb (pr_xml p) a) eqn:E.
        -- apply String.eqb_eq in E. assert (p = q).
           { pose proof (find_attr_in p Hp Kp) as F1. pose proof (find_attr_in q Hq Kq) as F2. congruence. }
           subst q. assert (D : dg (pr_xml p) attrs = None) by (apply dget_none; [apply seqb_eq | rewrite E; exact H2]).
           rewrite D in IA. exists v. split; [exact Hv|]. rewrite IA. apply dget_dset_same, seqb_eq.
        -- destruct (dg (pr_xml p) attrs); [exact IA|]. rewrite IA. apply dget_dset_other; [apply seqb_eq|].
           intros Ev. apply (var_inj ps p q (wf_vars _ W) Hp Hq) in Ev. subst q.
           rewrite Xq, String.eqb_refl in E; discriminate.
      * intros x Hx. rewrite (IO x Hx). apply dget_dset_other; [apply seqb_eq|]. intros ->. apply (Hx q Hq Kq); reflexivity.
    + apply ok_ret1 in H1; subst fs. split; [|split; [exact IO | exact IE]].
      intros p Hp Kp. specialize (IA p Hp Kp). destruct (String.eqb (pr_xml p) a) eqn:E; [|exact IA].
      apply String.eqb_eq in E. rewrite <- E in Eq. rewrite (find_attr_in p Hp Kp) in Eq; discriminate.
Qed.
Lemma attrs_run attrs fs0 :
  (forall a s p, In (a, s) attrs -> find_attr ps a = Some p -> exists v, ok (from_string pf (pr_type p) (Some s)) v) ->
  exists fs1, ok (xfold (attr_step pf ps) attrs fs0) fs1.
Proof.
  revert fs0. induction attrs as [|[a s] attrs IH]; intros fs0 H; simpl; [exists fs0; reflexivity|].
  assert (S1 : exists fs, ok (attr_step pf ps fs0 (a, s)) fs).
  { unfold attr_step; simpl. destruct (find_attr ps a) as [p|] eqn:E; [|exists fs0; reflexivity].
    destruct (H a s p (or_introl eq_refl) E) as [v Hv]. eexists. apply ok_bind. exists v. split; [apply ok_err, Hv | reflexivity]. }
  destruct S1 as [fs Hfs]. destruct (IH fs) as [fs1 H1].
  - intros a' s' p Hin. apply H; right; exact Hin.
  - exists fs1. apply ok_bind; eauto.
Qed.

(** ** Children *)
Definition tagged (t : string) (ks : list kid) : list kid := filter (fun k => String.eqb (fst k) t) ks.
Lemma kids_read ks fs0 o0 u0 fs1 o1 u1 : NoDup u0 ->
  (forall p, In p ps -> pr_kind p = PAggregate -> exists l, dg (pr_var p) fs0 = Some (VList l)) ->
  ok (xfold (kid_step ps) ks (fs0, o0, u0)) (fs1, o1, u1) ->
  (forall p, In p ps -> pr_kind p = PElement ->
     match dg (pr_xml p) ks with
     | Some k => if existsb (String.eqb (pr_xml p)) u0
                 then exists v, ok (k (pr_type p)) v /\ dg (pr_var p) fs1 = Some v
                 else dg (pr_var p) fs1 = dg (pr_var p) fs0
     | None => dg (pr_var p) fs1 = dg (pr_var p) fs0
     end) /\
  (forall p l, In p ps -> pr_kind p = PAggregate -> dg (pr_var p) fs0 = Some (VList l) ->
     exists l', dg (pr_var p) fs1 = Some (VList (l ++ l')) /\
       Forall2 (fun k v => ok (snd k (pr_type p)) v) (tagged (pr_xml p) ks) l') /\
  (forall x, (forall p, In p ps -> pr_kind p <> PAttribute -> pr_var p <> x) -> dg x fs1 = dg x fs0) /\
  extends fs0 fs1 /\
  (exists o, o1 = o0 ++ o /\ ordered ps ks o) /\
  (forall t, In t u1 <-> In t u0 /\ (dg t ks = None \/ forall p, find_elem ps t = Some p -> pr_kind p = PAggregate)).
Proof.
  revert fs0 o0 u0. induction ks as [|[t k] ks IH]; intros fs0 o0 u0 NU A0 H; simpl in H.
  - apply ok_ret1 in H. inversion H; subst. repeat split; try reflexivity; try tauto.
    + intros p l _ _ Hl. exists []. rewrite app_nil_r. split; [exact Hl | constructor].
    + apply ext_refl.
    + exists []. rewrite app_nil_r. split; [reflexivity | constructor].
  - apply ok_bind1 in H as ([[fs o] u] & H1 & H). unfold kid_step in H1; simpl in H1.
    destruct (find_elem ps t) as [q|] eqn:Eq.
    2: { (* unknown tag *)
      apply ok_ret1 in H1. inversion H1; subst fs o u. destruct (IH _ _ _ NU A0 H) as (I1 & I2 & I3 & I4 & (oo & I5 & I5') & I6).
      assert (NE : forall p, In p ps -> pr_kind p <> PAttribute -> String.eqb (pr_xml p) t = false).
      { intros p Hp Kp. destruct (String.eqb (pr_xml p) t) eqn:E; [|reflexivity]. apply String.eqb_eq in E.
        rewrite <- E, (find_elem_in p Hp Kp) in Eq; discriminate. }
      repeat split; auto.
      - intros p Hp Kp. specialize (I1 p Hp Kp). simpl. rewrite NE by congruence. exact I1.
      - intros p l Hp Kp Hl. destruct (I2 p l Hp Kp Hl) as (l' & L1 & L2). exists l'. split; [exact L1|]. simpl.
        rewrite (String.eqb_sym t), NE by congruence. exact L2.
      - exists oo. split; [exact I5|]. unfold ordered; simpl. destruct (agg_of ps t) as [p|] eqn:Ea; [|exact I5'].
        apply agg_of_some in Ea as (Hp & Kp & Xp). rewrite <- Xp, find_elem_in in Eq by congruence. discriminate.
      - apply I6 in H0; tauto.
      - simpl. apply I6 in H0 as [_ H0]. destruct (String.eqb t0 t) eqn:E; [|exact H0].
        apply String.eqb_eq in E; subst t0. right. intros p Hp. rewrite Hp in Eq; discriminate.
      - intros [U D]. apply I6. split; [exact U|]. destruct D as [D|D]; [|right; exact D]. simpl in D.
        destruct (String.eqb t0 t); [discriminate | left; exact D]. }
    apply find_elem_some in Eq as (Hq & Kq & Xq).
    destruct (is_kind PAggregate q) eqn:Ag.
    + (* aggregate *)
      pose proof (proj1 (kind_agg q) Ag) as Ka.
      apply ok_bind1 in H1 as (l & Hl & H1). apply ok_bind1 in H1 as (v & Hv & H1). apply ok_ret1 in H1. inversion H1; subst fs o u; clear H1.
      assert (Dl : dg (pr_var q) fs0 = Some (VList l)).
      { unfold agg_list in Hl. destruct (dg (pr_var q) fs0) as [w|]; [|apply ok_fail1 in Hl; tauto].
        destruct w; try (apply ok_fail1 in Hl; tauto). apply ok_ret1 in Hl; subst; reflexivity. }
      assert (A1 : forall p, In p ps -> pr_kind p = PAggregate ->
                exists l0, dg (pr_var p) (dset String.eqb (pr_var q) (VList (l ++ [v])) fs0) = Some (VList l0)).
      { intros p Hp Kp. destruct (String.eqb (pr_var p) (pr_var q)) eqn:E.
        - apply String.eqb_eq in E. rewrite E. eexists. apply dget_dset_same, seqb_eq.
        - rewrite dget_dset_other; [apply A0; assumption | apply seqb_eq | intros E'; rewrite E', String.eqb_refl in E; discriminate]. }
      destruct (IH _ _ _ NU A1 H) as (I1 & I2 & I3 & I4 & (oo & I5 & I5') & I6).
      assert (Neq : forall p, In p ps -> p <> q -> pr_var p <> pr_var q).
      { intros p Hp D E. apply D, (var_inj ps p q (wf_vars _ W)); assumption. }
      assert (Xneq : forall p, In p ps -> pr_kind p <> PAttribute -> p <> q -> String.eqb (pr_xml p) t = false).
      { intros p Hp Kp D. destruct (String.eqb (pr_xml p) t) eqn:E; [|reflexivity]. apply String.eqb_eq in E.
        exfalso; apply D. pose proof (find_elem_in p Hp Kp) as F1. pose proof (find_elem_in q Hq Kq) as F2. congruence. }
      repeat split.
      * intros p Hp Kp. specialize (I1 p Hp Kp). assert (D : p <> q) by congruence. simpl.
        rewrite (Xneq p Hp ltac:(congruence) D).
        rewrite dget_dset_other in I1; [exact I1 | apply seqb_eq | apply Neq; assumption].
      * intros p l0 Hp Kp Hl0. destruct (string_dec (pr_var p) (pr_var q)) as [E|E].
        -- assert (p = q) by (apply (var_inj ps p q (wf_vars _ W)); assumption). subst p.
           assert (l0 = l) by congruence. subst l0.
           destruct (I2 q (l ++ [v]) Hq Ka (dget_dset_same _ seqb_eq _ _ _)) as (l' & L1 & L2).
           exists (v :: l'). split; [rewrite L1, <- app_assoc; reflexivity|]. simpl. rewrite Xq, String.eqb_refl.
           constructor; [exact Hv | rewrite <- Xq; exact L2].
        -- destruct (I2 p l0 Hp Kp) as (l' & L1 & L2); [rewrite dget_dset_other; [exact Hl0 | apply seqb_eq | exact E]|].
           exists l'. split; [exact L1|]. simpl. rewrite (String.eqb_sym t), Xneq by (congruence || assumption). exact L2.
      * intros x Hx. rewrite (I3 x Hx). apply dget_dset_other; [apply seqb_eq|]. intros ->. apply (Hx q Hq Kq); reflexivity.
      * eapply ext_trans; [apply ext_dset | exact I4].
      * exists ((t, v) :: oo). split; [rewrite I5, <- app_assoc; reflexivity|].
        assert (AG : agg_of ps t = Some q) by (rewrite <- Xq; apply agg_of_in; assumption).
        unfold ordered; simpl. rewrite AG.
        constructor; [|exact I5']. simpl. split; [reflexivity|]. exists q. split; [exact AG | exact Hv].
      * apply I6 in H0; tauto.
      * simpl. apply I6 in H0 as [_ H0]. destruct (String.eqb t0 t) eqn:E; [|exact H0].
        apply String.eqb_eq in E; subst t0. right. intros p Hp. rewrite <- Xq, (find_elem_in q Hq Kq) in Hp. inversion Hp; subst; exact Ka.
      * intros [U D]. apply I6. split; [exact U|]. destruct D as [D|D]; [|right; exact D]. simpl in D.
        destruct (String.eqb t0 t); [discriminate | left; exact D].
    + assert (Ke : pr_kind q = PElement).
      { destruct (pr_kind q) eqn:E; [congruence | reflexivity | apply kind_agg in E; congruence]. }
      assert (Neq : forall p, In p ps -> p <> q -> pr_var p <> pr_var q).
      { intros p Hp D E. apply D, (var_inj ps p q (wf_vars _ W)); assumption. }
      assert (Xneq : forall p, In p ps -> pr_kind p <> PAttribute -> p <> q -> String.eqb (pr_xml p) t = false).
      { intros p Hp Kp D. destruct (String.eqb (pr_xml p) t) eqn:E; [|reflexivity]. apply String.eqb_eq in E.
        exfalso; apply D. pose proof (find_elem_in p Hp Kp) as F1. pose proof (find_elem_in q Hq Kq) as F2. congruence. }
      assert (NoAgg : agg_of ps t = None).
      { destruct (agg_of ps t) as [p|] eqn:Ea; [|reflexivity]. apply agg_of_some in Ea as (Hp & Kp & Xp).
        assert (F1 : find_elem ps t = Some p) by (rewrite <- Xp; apply find_elem_in; congruence).
        assert (F2 : find_elem ps t = Some q) by (rewrite <- Xq; apply find_elem_in; congruence). congruence. }
      destruct (existsb (String.eqb t) u0) eqn:Eu.
      * (* first element of a scalar *)
        apply ok_bind1 in H1 as (v & Hv & H1). apply ok_ret1 in H1. inversion H1; subst fs o u; clear H1.
        assert (A1 : forall p, In p ps -> pr_kind p = PAggregate -> exists l0, dg (pr_var p) (dset String.eqb (pr_var q) v fs0) = Some (VList l0)).
        { intros p Hp Kp. rewrite dget_dset_other; [apply A0; assumption | apply seqb_eq | apply Neq; [exact Hp | congruence]]. }
        destruct (IH _ _ _ (NoDup_filter _ NU) A1 H) as (I1 & I2 & I3 & I4 & (oo & I5 & I5') & I6).
        repeat split.
        -- intros p Hp Kp. specialize (I1 p Hp Kp). simpl. destruct (string_dec (pr_var p) (pr_var q)) as [E|E].
           ++ assert (p = q) by (apply (var_inj ps p q (wf_vars _ W)); assumption). subst p.
              rewrite Xq in I1 |- *. rewrite String.eqb_refl, Eu. exists v. split; [exact Hv|].
              assert (F : existsb (String.eqb t) (filter (fun t0 => negb (String.eqb t t0)) u0) = false).
              { apply not_true_is_false; intros F. apply existsb_exists in F as (z & Hz & Ez).
                apply filter_In in Hz as [_ Hz]. rewrite Ez in Hz; discriminate. }
              rewrite F in I1. destruct (dg t ks); rewrite I1; apply dget_dset_same, seqb_eq.
           ++ assert (D : p <> q) by congruence. rewrite (Xneq p Hp ltac:(congruence) D).
              destruct (dg (pr_xml p) ks); [|rewrite dget_dset_other in I1; [exact I1 | apply seqb_eq | exact E]].
              assert (F : existsb (String.eqb (pr_xml p)) (filter (fun t0 => negb (String.eqb t t0)) u0) = existsb (String.eqb (pr_xml p)) u0).
              { pose proof (Xneq p Hp ltac:(congruence) D) as Z. clear - Z. induction u0 as [|y l IHl]; simpl; [reflexivity|].
                destruct (String.eqb t y) eqn:Ey; simpl; rewrite IHl; [|reflexivity].
                apply String.eqb_eq in Ey; subst y. rewrite Z; reflexivity. }
              rewrite F in I1. destruct (existsb (String.eqb (pr_xml p)) u0); [exact I1|].
              rewrite dget_dset_other in I1; [exact I1 | apply seqb_eq | exact E].
        -- intros p l0 Hp Kp Hl0. assert (D : p <> q) by congruence.
           destruct (I2 p l0 Hp Kp) as (l' & L1 & L2).
           { rewrite dget_dset_other; [exact Hl0 | apply seqb_eq | apply Neq; assumption]. }
           exists l'. split; [exact L1|]. simpl. rewrite (String.eqb_sym t), Xneq by (congruence || assumption). exact L2.
        -- intros x Hx. rewrite (I3 x Hx). apply dget_dset_other; [apply seqb_eq|]. intros ->. apply (Hx q Hq Kq); reflexivity.
        -- eapply ext_trans; [apply ext_dset | exact I4].
        -- exists oo. split; [exact I5|]. unfold ordered; simpl. rewrite NoAgg. exact I5'.
        -- apply I6 in H0 as [H0 _]. apply filter_In in H0; tauto.
        -- apply I6 in H0 as [H0 D]. apply filter_In in H0 as [_ H0]. simpl. rewrite (String.eqb_sym t0).
           destruct (String.eqb t t0); [discriminate | exact D].
        -- intros [U D]. apply I6. simpl in D. rewrite (String.eqb_sym t0) in D. destruct (String.eqb t t0) eqn:E.
           ++ apply String.eqb_eq in E; subst t0. destruct D as [D|D]; [discriminate|].
              rewrite <- Xq in D. specialize (D q (find_elem_in q Hq Kq)). congruence.
           ++ split; [|exact D]. apply filter_In. rewrite E. auto.
      * (* a scalar that is already set *)
        apply ok_bind1 in H1 as (w & _ & H1). apply ok_ret1 in H1. inversion H1; subst fs o u; clear H1.
        destruct (IH _ _ _ NU A0 H) as (I1 & I2 & I3 & I4 & (oo & I5 & I5') & I6).
        repeat split; auto.
        -- intros p Hp Kp. specialize (I1 p Hp Kp). simpl. destruct (String.eqb (pr_xml p) t) eqn:E; [|exact I1].
           apply String.eqb_eq in E. rewrite E, Eu. rewrite E, Eu in I1. destruct (dg t ks); exact I1.
        -- intros p l0 Hp Kp Hl0. destruct (I2 p l0 Hp Kp Hl0) as (l' & L1 & L2). exists l'. split; [exact L1|]. simpl.
           rewrite (String.eqb_sym t), Xneq by congruence. exact L2.
        -- exists oo. split; [exact I5|]. unfold ordered; simpl. rewrite NoAgg. exact I5'.
        -- apply I6 in H0; tauto.
        -- simpl. apply I6 in H0 as [U D]. destruct (String.eqb t0 t) eqn:E; [|exact D].
           apply String.eqb_eq in E; subst t0. exfalso.
           assert (X : existsb (String.eqb t) u0 = true) by (apply existsb_exists; exists t; rewrite String.eqb_refl; auto). congruence.
        -- intros [U D]. apply I6. split; [exact U|]. destruct D as [D|D]; [|right; exact D]. simpl in D.
           destruct (String.eqb t0 t); [discriminate | left; exact D].
Qed.
Lemma kids_run ks fs0 o0 u0 :
  (forall p, In p ps -> pr_kind p = PAggregate -> exists l, dg (pr_var p) fs0 = Some (VList l)) ->
  (forall t k p, In (t, k) ks -> agg_of ps t = Some p -> exists v, ok (k (pr_type p)) v) ->
  (forall p k, In p ps -> pr_kind p = PElement -> existsb (String.eqb (pr_xml p)) u0 = true -> dg (pr_xml p) ks = Some k ->
     exists v, ok (k (pr_type p)) v) ->
  exists st, ok (xfold (kid_step ps) ks (fs0, o0, u0)) st.
Proof.
  revert fs0 o0 u0. induction ks as [|[t k] ks IH]; intros fs0 o0 u0 A0 HA HE; simpl; [eexists; reflexivity|].
  assert (S1 : exists fs o u, ok (kid_step ps (fs0, o0, u0) (t, k)) (fs, o, u) /\
     (forall p, In p ps -> pr_kind p = PAggregate -> exists l, dg (pr_var p) fs = Some (VList l)) /\
     (forall x, existsb (String.eqb x) u = true -> existsb (String.eqb x) u0 = true /\ (String.eqb x t = true -> find_elem ps t = None \/ agg_of ps t <> None))).
  { unfold kid_step; simpl. destruct (find_elem ps t) as [q|] eqn:Eq.
    2: { exists fs0, o0, u0. split; [reflexivity|]. split; [exact A0 | auto]. }
    apply find_elem_some in Eq as (Hq & Kq & Xq).
    destruct (is_kind PAggregate q) eqn:Ag.
    - pose proof (proj1 (kind_agg q) Ag) as Ka. destruct (A0 q Hq Ka) as [l Hl].
      assert (AG : agg_of ps t = Some q) by (rewrite <- Xq; apply agg_of_in; assumption).
      destruct (HA t k q (or_introl eq_refl) AG) as [v Hv].
      eexists _, _, _. split; [apply ok_bind; exists l; split; [unfold agg_list; rewrite Hl; reflexivity|];
        apply ok_bind; exists v; split; [exact Hv | reflexivity]|]. split.
      + intros p Hp Kp. destruct (string_dec (pr_var p) (pr_var q)) as [E|E].
        * rewrite E. eexists. apply dget_dset_same, seqb_eq.
        * rewrite dget_dset_other by (apply seqb_eq || exact E). apply A0; assumption.
      + intros x Hx. split; [exact Hx|]. intros _. right. rewrite AG; discriminate.
    - assert (Ke : pr_kind q = PElement).
      { destruct (pr_kind q) eqn:E; [congruence | reflexivity | apply kind_agg in E; congruence]. }
      destruct (existsb (String.eqb t) u0) eqn:Eu.
      + destruct (HE q k Hq Ke) as [v Hv]; [rewrite Xq; exact Eu | simpl; rewrite Xq, String.eqb_refl; reflexivity|].
        eexists _, _, _. split; [apply ok_bind; exists v; split; [exact Hv | reflexivity]|]. split.
        * intros p Hp Kp. rewrite dget_dset_other; [apply A0; assumption | apply seqb_eq|].
          intros E. apply (var_inj ps p q (wf_vars _ W) Hp Hq) in E. congruence.
        * intros x Hx. apply existsb_exists in Hx as (z & Hz & Ez). apply String.eqb_eq in Ez; subst z.
          apply filter_In in Hz as [Hz Nz]. split; [apply existsb_exists; exists x; rewrite String.eqb_refl; auto|].
          intros E. apply String.eqb_eq in E; subst x. rewrite String.eqb_refl in Nz; discriminate.
      + exists fs0, o0, u0. split; [reflexivity|]. split; [exact A0|]. intros x Hx. split; [exact Hx|].
        intros E. apply String.eqb_eq in E; subst x. congruence. }
  destruct S1 as (fs & o & u & S1 & S2 & S3). destruct (IH fs o u) as [st Hst].
  - exact S2.
  - intros t' k' p Hin. apply (HA t' k' p); right; exact Hin.
  - intros p k' Hp Kp Hu Hk. destruct (S3 _ Hu) as [U1 U2].
    destruct (String.eqb (pr_xml p) t) eqn:E.
    + destruct (U2 eq_refl) as [D|D]; apply String.eqb_eq in E; subst t.
      * rewrite find_elem_in in D by congruence. discriminate.
      * destruct (agg_of ps (pr_xml p)) as [q|] eqn:Ea; [|congruence]. apply agg_of_some in Ea as (Hq & Kq & Xq).
        assert (F : find_elem ps (pr_xml p) = Some q) by (rewrite <- Xq; apply find_elem_in; congruence).
        rewrite find_elem_in in F by congruence. inversion F; subst; congruence.
    + apply (HE p k' Hp Kp U1). simpl. rewrite E. exact Hk.
  - exists st. apply ok_bind. exists (fs, o, u). auto.
Qed.

(** ** Defaults *)
Lemma defaults_read l fs0 fs1 : incl l ps -> NoDup (map pr_var l) -> ok (xfold default_step l fs0) fs1 ->
  (forall p, In p l -> pr_req p = false /\ dg (pr_var p) fs1 = Some (pr_default p)) /\
  (forall x, (forall p, In p l -> pr_var p <> x) -> dg x fs1 = dg x fs0) /\ extends fs0 fs1.
Proof.
  revert fs0. induction l as [|q l IH]; intros fs0 I N H; simpl in H.
  - apply ok_ret1 in H; subst. split; [intros p []|]. split; [reflexivity | apply ext_refl].
  - apply ok_bind1 in H as (fs & H1 & H). unfold default_step in H1. destruct (pr_req q) eqn:Rq; [apply ok_fail1 in H1; contradiction|].
    apply ok_ret1 in H1; subst fs. inversion N; subst.
    destruct (IH _ (fun x Hx => I x (or_intror Hx)) H3 H) as (I1 & I2 & I3).
    split; [|split; [|eapply ext_trans; [apply ext_dset | exact I3]]].
    + intros p [<-|Hp]; [|apply I1, Hp]. split; [exact Rq|]. rewrite I2; [apply dget_dset_same, seqb_eq|].
      intros p Hp E. apply H2. rewrite <- E. apply in_map, Hp.
    + intros x Hx. rewrite I2 by (intros p Hp; apply Hx; right; exact Hp). apply dget_dset_other; [apply seqb_eq|].
      intros ->. apply (Hx q (or_introl eq_refl)); reflexivity.
Qed.
Lemma defaults_run (l : list param) (fs0 : fields) : (forall p, In p l -> pr_req p = false) -> exists fs1, ok (xfold default_step l fs0) fs1.
Proof.
  revert fs0. induction l as [|q l IH]; intros fs0 H; simpl; [eexists; reflexivity|].
  destruct (IH (dset String.eqb (pr_var q) (pr_default q) fs0)) as [fs1 H1]; [intros p Hp; apply H; right; exact Hp|].
  exists fs1. apply ok_bind. eexists. split; [|exact H1]. unfold default_step. rewrite H by (left; reflexivity). reflexivity.
Qed.
Lemma nodup_vars_filter (f : param -> bool) : NoDup (map pr_var (filter f ps)).
Proof.
  pose proof (wf_vars _ W) as N. fold ps in N. clear -N. induction ps as [|x l IH]; simpl in *; [constructor|].
  inversion N; subst. destruct (f x); simpl; [|auto]. constructor; [|auto].
  intros Hc. apply H1. apply in_map_iff in Hc as (y & Ey & Hy). apply filter_In in Hy. rewrite <- Ey. apply in_map; tauto.
Qed.

(** ** Objects *)
Variable classes : string -> option class.
Variable cname : string.
Hypothesis Hc : classes cname = Some c.

(** the fields and the order of an object that was read *)
Definition reads (attrs : dict string string) (ks : list kid) (fs : fields) (order : list (string * value)) : Prop :=
  (forall p, In p ps -> exists v, dg (pr_var p) fs = Some v /\ given attrs ks p v) /\
  (forall x, (forall p, In p ps -> pr_var p <> x) -> dg x fs = dg x (cl_init c)) /\
  extends (cl_init c) fs /\ ordered ps ks order.

Definition prefix (attrs : dict string string) (ks : list kid) (fs : fields) (order : list (string * value)) : Prop :=
  exists f1 f2 u f3, ok (xfold (attr_step pf ps) attrs (cl_init c)) f1 /\
    ok (xfold (kid_step ps) ks (f1, [], map pr_xml (filter (is_kind PElement) ps))) (f2, order, u) /\
    ok (xfold default_step (filter (fun p => is_kind PAttribute p && negb (existsb (String.eqb (pr_xml p)) (map fst attrs))) ps) f2) f3 /\
    ok (xfold default_step (filter (fun p => is_kind PElement p && existsb (String.eqb (pr_xml p)) u) ps) f3) fs.
Lemma existsb_keys {A} t (d : dict string A) : existsb (String.eqb t) (map fst d) = match dg t d with Some _ => true | None => false end.
Proof. induction d as [|[k v] d IH]; simpl; [reflexivity|]. destruct (String.eqb t k); [reflexivity | exact IH]. Qed.
Lemma scalars_nodup : NoDup (map pr_xml (filter (is_kind PElement) ps)).
Proof.
  pose proof (wf_elems _ W) as N. fold ps in N. clear -N. induction ps as [|x l IH]; simpl in *; [constructor|].
  destruct (is_kind PElement x) eqn:E.
  - assert (F : is_elem x = true) by (apply kind_elem in E; apply elem_kind; congruence). rewrite F in N; simpl in *.
    inversion N; subst. constructor; [|auto]. intros Hc. apply H1. apply in_map_iff in Hc as (y & Ey & Hy).
    apply filter_In in Hy as [Hy Ky]. rewrite <- Ey. apply in_map, filter_In. split; [exact Hy|].
    apply kind_elem in Ky. apply elem_kind; congruence.
  - destruct (is_elem x); simpl in *; [inversion N; subst|]; auto.
Qed.
Lemma prefix_reads attrs ks fs order : NoDup (map fst attrs) -> prefix attrs ks fs order -> reads attrs ks fs order.
Proof.
  intros ND (f1 & f2 & u & f3 & P1 & P2 & P3 & P4).
  destruct (attrs_read _ _ _ ND P1) as (A1 & A2 & A3).
  assert (L0 : forall p, In p ps -> pr_kind p = PAggregate -> dg (pr_var p) f1 = Some (VList [])).
  { intros p Hp Kp. rewrite A2; [apply (wf_lists _ W); assumption|]. intros q Hq Kq E.
    apply (var_inj ps q p (wf_vars _ W) Hq Hp) in E. congruence. }
  destruct (kids_read _ _ _ _ _ _ _ scalars_nodup (fun p Hp Kp => ex_intro _ [] (L0 p Hp Kp)) P2) as (B1 & B2 & B3 & B4 & (o & B5 & B6) & B7).
  destruct (defaults_read _ _ _ (fun x Hx => proj1 (proj1 (filter_In _ _ _) Hx)) (nodup_vars_filter _) P3) as (C1 & C2 & C3).
  destruct (defaults_read _ _ _ (fun x Hx => proj1 (proj1 (filter_In _ _ _) Hx)) (nodup_vars_filter _) P4) as (D1 & D2 & D3).
  split; [|split; [|split]].
  - intros p Hp. unfold given. destruct (pr_kind p) eqn:Kp.
    + specialize (A1 p Hp Kp).
      assert (E4 : dg (pr_var p) fs = dg (pr_var p) f3).
      { apply D2. intros q Hq E. apply filter_In in Hq as [Hq Fq]. apply andb_true_iff in Fq as [Fq _]. apply kind_elem in Fq.
        apply (var_inj ps q p (wf_vars _ W) Hq Hp) in E. congruence. }
      assert (E2 : dg (pr_var p) f2 = dg (pr_var p) f1).
      { apply B3. intros q Hq Kq E. apply (var_inj ps q p (wf_vars _ W) Hq Hp) in E. congruence. }
      destruct (dg (pr_xml p) attrs) as [s|] eqn:Ea.
      * destruct A1 as (v & V1 & V2). exists v. split; [|exact V1]. rewrite E4, C2, E2; [exact V2|].
        intros q Hq E. apply filter_In in Hq as [Hq Fq]. apply (var_inj ps q p (wf_vars _ W) Hq Hp) in E. subst q.
        rewrite existsb_keys, Ea, andb_false_r in Fq. discriminate.
      * destruct (C1 p) as [R1 R2].
        { apply filter_In. split; [exact Hp|]. rewrite existsb_keys, Ea. apply kind_attr in Kp. rewrite Kp; reflexivity. }
        exists (pr_default p). rewrite E4. auto.
    + specialize (B1 p Hp Kp).
      assert (U0 : existsb (String.eqb (pr_xml p)) (map pr_xml (filter (is_kind PElement) ps)) = true).
      { apply existsb_exists. exists (pr_xml p). split; [|apply String.eqb_refl]. apply in_map, filter_In. split; [exact Hp | apply kind_elem, Kp]. }
      rewrite U0 in B1.
      assert (E3 : dg (pr_var p) f3 = dg (pr_var p) f2).
      { apply C2. intros q Hq E. apply filter_In in Hq as [Hq Fq]. apply andb_true_iff in Fq as [Fq _]. apply kind_attr in Fq.
        apply (var_inj ps q p (wf_vars _ W) Hq Hp) in E. congruence. }
      destruct (dg (pr_xml p) ks) as [k|] eqn:Ek.
      * destruct B1 as (v & V1 & V2). exists v. split; [|exact V1]. rewrite D2, E3; [exact V2|].
        intros q Hq E. apply filter_In in Hq as [Hq Fq]. apply (var_inj ps q p (wf_vars _ W) Hq Hp) in E. subst q.
        apply andb_true_iff in Fq as [_ Fq]. apply existsb_exists in Fq as (z & Hz & Ez). apply String.eqb_eq in Ez; subst z.
        apply B7 in Hz as [_ Hz]. destruct Hz as [Hz|Hz]; [congruence|].
        specialize (Hz p (find_elem_in p Hp ltac:(congruence))). congruence.
      * destruct (D1 p) as [R1 R2].
        { apply filter_In. split; [exact Hp|]. apply andb_true_iff. split; [apply kind_elem, Kp|].
          apply existsb_exists. exists (pr_xml p). split; [|apply String.eqb_refl]. apply B7. split; [|left; exact Ek].
          apply existsb_exists in U0 as (z & Hz & Ez). apply String.eqb_eq in Ez; subst z; exact Hz. }
        exists (pr_default p). auto.
    + destruct (B2 p [] Hp Kp (L0 p Hp Kp)) as (l & L1 & L2). exists (VList l). split.
      * rewrite D2, C2; [exact L1 | |]; intros q Hq E; apply filter_In in Hq as [Hq Fq]; apply andb_true_iff in Fq as [Fq _];
          apply (var_inj ps q p (wf_vars _ W) Hq Hp) in E; subst q; [apply kind_attr in Fq | apply kind_elem in Fq]; congruence.
      * exists l. split; [reflexivity | exact L2].
  - intros x Hx. rewrite D2, C2, B3, A2; [reflexivity|..]; try (intros q Hq; apply Hx; apply filter_In in Hq; tauto);
      intros q Hq _; apply Hx, Hq.
  - eapply ext_trans; [exact A3|]. eapply ext_trans; [exact B4|]. eapply ext_trans; [exact C3 | exact D3].
  - simpl in B5. subst o. exact B6.
Qed.
Lemma Forall2_ex {A B} (R : A -> B -> Prop) l l' a : Forall2 R l l' -> In a l -> exists b, R a b.
Proof. induction 1; intros []; subst; eauto. Qed.
Lemma prefix_run attrs ks : NoDup (map fst attrs) -> (forall p, In p ps -> exists v, given attrs ks p v) ->
  exists fs order, prefix attrs ks fs order.
Proof.
  intros ND G.
  destruct (attrs_run attrs (cl_init c)) as [f1 P1].
  { intros a s p Hin Hf. apply find_attr_some in Hf as (Hp & Kp & Xp). destruct (G p Hp) as [v Gv]. unfold given in Gv.
    rewrite Kp, Xp, (dget_nodup _ seqb_eq a s attrs ND Hin) in Gv. eauto. }
  destruct (attrs_read _ _ _ ND P1) as (A1 & A2 & A3).
  assert (L0 : forall p, In p ps -> pr_kind p = PAggregate -> dg (pr_var p) f1 = Some (VList [])).
  { intros p Hp Kp. rewrite A2; [apply (wf_lists _ W); assumption|]. intros q Hq Kq E.
    apply (var_inj ps q p (wf_vars _ W) Hq Hp) in E. congruence. }
  destruct (kids_run ks f1 [] (map pr_xml (filter (is_kind PElement) ps))) as [[[f2 o] u] P2].
  { intros p Hp Kp. exists []. apply L0; assumption. }
  { intros t k p Hin Hf. apply agg_of_some in Hf as (Hp & Kp & Xp). destruct (G p Hp) as [v Gv]. unfold given in Gv.
    rewrite Kp in Gv. destruct Gv as (l & _ & F). destruct (Forall2_ex _ _ _ (t, k) F) as [b Hb]; [|eauto].
    apply filter_In. simpl. rewrite Xp, String.eqb_refl. auto. }
  { intros p k Hp Kp _ Hk. destruct (G p Hp) as [v Gv]. unfold given in Gv. rewrite Kp, Hk in Gv. eauto. }
  destruct (kids_read _ _ _ _ _ _ _ scalars_nodup (fun p Hp Kp => ex_intro _ [] (L0 p Hp Kp)) P2) as (B1 & B2 & B3 & B4 & B5 & B7).
  destruct (defaults_run (filter (fun p => is_kind PAttribute p && negb (existsb (String.eqb (pr_xml p)) (map fst attrs))) ps) f2) as [f3 P3].
  { intros p Hp. apply filter_In in Hp as [Hp Fp]. apply andb_true_iff in Fp as [Kp Fp]. apply kind_attr in Kp.
    rewrite existsb_keys in Fp. destruct (G p Hp) as [v Gv]. unfold given in Gv. rewrite Kp in Gv.
    destruct (dg (pr_xml p) attrs); [discriminate | tauto]. }
  destruct (defaults_run (filter (fun p => is_kind PElement p && existsb (String.eqb (pr_xml p)) u) ps) f3) as [f4 P4].
  { intros p Hp. apply filter_In in Hp as [Hp Fp]. apply andb_true_iff in Fp as [Kp Fp]. apply kind_elem in Kp.
    apply existsb_exists in Fp as (z & Hz & Ez). apply String.eqb_eq in Ez; subst z. apply B7 in Hz as [_ [Hz|Hz]].
    - destruct (G p Hp) as [v Gv]. unfold given in Gv. rewrite Kp, Hz in Gv. tauto.
    - specialize (Hz p (find_elem_in p Hp ltac:(congruence))). congruence. }
  exists f4, o, f1, f2, u, f3. auto.
Qed.

Lemma warns_snd {A B} (f : A -> warning) l (g : unit -> xr B) : snd (xbind (xfold (fun _ a => warn (f a)) l tt) g) = snd (g tt).
Proof. unfold xbind. pose proof (ok_warns f l) as H. unfold ok in H. rewrite H. reflexivity. Qed.
Lemma ok_step {A B} (x : xr A) (f : A -> xr B) a : ok x a -> snd (xbind x f) = snd (f a).
Proof. unfold ok, xbind. intros ->. reflexivity. Qed.
Lemma read_prefix attrs ks fs order : prefix attrs ks fs order ->
  snd (read_obj pf classes cname attrs ks) = match snd (cl_check c fs) with inl _ => inl (VObj cname fs order) | inr _ => inr XParse end.
Proof.
  intros (f1 & f2 & u & f3 & P1 & P2 & P3 & P4). unfold read_obj. rewrite Hc. fold ps. cbv zeta.
  rewrite (ok_step _ _ _ P1), (ok_step _ _ _ P2). rewrite (ok_step _ _ _ P3), (ok_step _ _ _ P4).
  rewrite !warns_snd. unfold xbind, xmap_err; simpl. destruct (cl_check c fs) as [w [[]|e]]; reflexivity.
Qed.
Lemma read_ok_prefix attrs ks v : ok (read_obj pf classes cname attrs ks) v ->
  exists fs order, prefix attrs ks fs order /\ v = VObj cname fs order /\ ok (cl_check c fs) tt.
Proof.
  unfold read_obj. rewrite Hc. fold ps. cbv zeta. intros H.
  apply ok_bind1 in H as (f1 & P1 & H). apply ok_bind1 in H as ([[f2 o] u] & P2 & H).
  apply ok_bind1 in H as (f3 & P3 & H). apply ok_bind1 in H as (f4 & P4 & H).
  apply ok_bind1 in H as (? & _ & H). apply ok_bind1 in H as (? & _ & H). apply ok_bind1 in H as ([] & K & H).
  apply ok_err1 in K. apply ok_ret1 in H. exists f4, o. split; [|auto]. exists f1, f2, u, f3. auto.
Qed.

(** an object is read exactly if each parameter is given, and then holds what was given; a failing check is a ParseError *)
Theorem read_obj_ok attrs ks v : NoDup (map fst attrs) -> ok (read_obj pf classes cname attrs ks) v ->
  exists fs order, v = VObj cname fs order /\ reads attrs ks fs order /\ ok (cl_check c fs) tt.
Proof.
  intros ND H. apply read_ok_prefix in H as (fs & o & P & E & K). exists fs, o. split; [exact E|]. split; [|exact K].
  apply prefix_reads; assumption.
Qed.
Theorem read_obj_run attrs ks : NoDup (map fst attrs) -> (forall p, In p ps -> exists v, given attrs ks p v) ->
  exists fs order, reads attrs ks fs order /\
    snd (read_obj pf classes cname attrs ks) = match snd (cl_check c fs) with inl _ => inl (VObj cname fs order) | inr _ => inr XParse end.
Proof.
  intros ND G. destruct (prefix_run attrs ks ND G) as (fs & o & P). exists fs, o.
  split; [apply prefix_reads; assumption | apply read_prefix, P].
Qed.
Theorem read_obj_fails attrs ks p : NoDup (map fst attrs) -> In p ps -> (forall v, ~ given attrs ks p v) ->
  exists e, snd (read_obj pf classes cname attrs ks) = inr e.
Proof.
  intros ND Hp G. destruct (snd (read_obj pf classes cname attrs ks)) as [v|e] eqn:E; [|eauto]. exfalso.
  destruct (read_obj_ok attrs ks v ND E) as (fs & o & _ & (R & _) & _). destruct (R p Hp) as (w & _ & Gw). exact (G w Gw).
Qed.
End Class.
End Spec.
