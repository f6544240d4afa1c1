(** Reading agrees with [SpecXml]. *)
From Coq Require Import String Ascii Bool Arith Lia List Permutation.
From Verif Require Import Prelude XmlModel XmlSchema XmlProofs XmlWrite XmlRead XmlCheck SpecXml.
Import ListNotations.
Local Open Scope string_scope.
Local Open Scope list_scope.
Local Arguments is_kind : simpl never.
Local Arguments is_elem : simpl never.

(** ** Words *)
Lemma split_blank b s : Forall (fun c => is_space c = true) b -> split_loop (b ++ s) [] = split_loop s [].
Proof. induction 1; simpl; [reflexivity|]. rewrite H. exact IHForall. Qed.
Lemma laos_nonempty w : w <> "" -> rev (list_ascii_of_string w) <> [].
Proof.
  intros N E. apply N. rewrite <- (string_of_list_ascii_of_string w), <- (rev_involutive (list_ascii_of_string w)), E. reflexivity.
Qed.
Lemma spaced_split ws s : spaced ws s -> split s = ws.
Proof.
  intros H. unfold split. enough (E : split_loop (list_ascii_of_string s) [] = map list_ascii_of_string ws).
  { rewrite E, map_map. rewrite <- (map_id ws) at 2. apply map_ext. intros; apply string_of_list_ascii_of_string. }
  induction H as [s B|s w ws r B [N F] H IH C].
  - rewrite <- (app_nil_r (list_ascii_of_string s)), split_blank by exact B. reflexivity.
  - rewrite !laos_app, split_blank by exact B. rewrite (split_word _ _ _ F), app_nil_r. destruct C as [->|(c & t & -> & Sc)].
    + assert (ws = []) as -> by (destruct ws; [reflexivity|]; simpl in IH; discriminate).
      simpl. rewrite (flush _ _ (laos_nonempty _ N)), rev_involutive. reflexivity.
    + cbn [list_ascii_of_string split_loop map] in IH |- *. rewrite Sc in IH |- *. rewrite (flush _ _ (laos_nonempty _ N)), rev_involutive. f_equal.
      exact IH.
Qed.
Lemma spaced_space c ws s : is_space c = true -> spaced ws s -> spaced ws (String c s).
Proof.
  intros Sc H. destruct H as [s B|s w ws r B W H C]; [constructor; unfold blank in *; simpl; constructor; auto|].
  replace (String c (s ++ w ++ r)) with ((String c s) ++ w ++ r)%string by reflexivity. constructor; auto.
  unfold blank in *; simpl; constructor; auto.
Qed.
Lemma split_spaced_loop l acc : Forall (fun c => is_space c = false) (rev acc) ->
  spaced (map string_of_list_ascii (split_loop l acc)) (string_of_list_ascii (rev acc ++ l)).
Proof.
  revert acc. induction l as [|c l IH]; intros acc A; simpl.
  - rewrite app_nil_r. destruct acc as [|a acc]; [constructor; constructor|].
    assert (E : string_of_list_ascii (rev (a :: acc)) = ("" ++ string_of_list_ascii (rev (a :: acc)) ++ "")%string).
    { simpl. induction (string_of_list_ascii _); simpl; congruence. }
    cbn [map]. rewrite E at 2. constructor; [constructor | | constructor; constructor | left; reflexivity].
    split; [|rewrite list_ascii_of_string_of_list_ascii; exact A].
    intros X. apply (f_equal list_ascii_of_string) in X. rewrite list_ascii_of_string_of_list_ascii in X. simpl in X.
    apply app_eq_nil in X as [_ X]; discriminate.
  - destruct (is_space c) eqn:Sc.
    + destruct acc as [|a acc].
      * simpl. apply spaced_space; [exact Sc | exact (IH [] (Forall_nil _))].
      * cbn [map]. assert (E : string_of_list_ascii (rev (a :: acc) ++ c :: l) =
          ("" ++ string_of_list_ascii (rev (a :: acc)) ++ string_of_list_ascii (c :: l))%string).
        { simpl. generalize (rev acc ++ [a]). clear. intros m. induction m; simpl; congruence. }
        rewrite E. constructor; [constructor | | | right; simpl; eauto].
        -- split; [|rewrite list_ascii_of_string_of_list_ascii; exact A].
           intros X. apply (f_equal list_ascii_of_string) in X. rewrite list_ascii_of_string_of_list_ascii in X. simpl in X.
           apply app_eq_nil in X as [_ X]; discriminate.
        -- simpl. apply spaced_space; [exact Sc | exact (IH [] (Forall_nil _))].
    + replace (rev acc ++ c :: l) with (rev (c :: acc) ++ l) by (simpl; rewrite <- app_assoc; reflexivity). apply IH.
      simpl. apply Forall_app; split; [exact A | constructor; [exact Sc | constructor]].
Qed.
Theorem split_spec s ws : split s = ws <-> spaced ws s.
Proof.
  split; [|apply spaced_split]. intros <-. pose proof (split_spaced_loop (list_ascii_of_string s) [] (Forall_nil _)) as H. simpl in H.
  rewrite string_of_list_ascii_of_string in H. exact H.
Qed.

Section More.
Context {Num : Type}.
Variable pf : string -> option Num.
Notation value := (value Num).
Notation param := (param Num).
Notation class := (class Num).
Notation fields := (@fields Num).
Notation kid := (@kid Num).
Notation dg := (dget String.eqb).

Lemma rmap_pf ws l : rmap (fun w => of_opt ValueError (pf w)) ws = Ok l <-> Forall2 (fun w x => pf w = Some x) ws l.
Proof.
  revert l. induction ws as [|w ws IH]; intros l; simpl.
  - split; [intros H; inversion H; constructor | intros H; inversion H; reflexivity].
  - destruct (pf w) as [x|] eqn:E; simpl.
    + destruct (rmap _ ws) as [l'|e] eqn:R; simpl.
      * split; [intros H; inversion H; subst; constructor; [exact E | apply IH; reflexivity]|].
        intros H; inversion H; subst. assert (x = y) by congruence. subst y.
        assert (Ok l' = Ok l'0) by (apply IH; assumption). congruence.
      * split; [discriminate|]. intros H; inversion H; subst. assert (Err e = Ok l') by (apply IH; assumption). discriminate.
    + split; [discriminate|]. intros H; inversion H; subst. congruence.
Qed.
Theorem text_spec t s v : basic_type t = true -> (ok (from_string pf t s) v <-> text_means pf t s v).
Proof.
  intros B. destruct t; try discriminate; simpl.
  - destruct s as [s|]; rewrite ok_ret; split; intros H; [subst|inversion H; subst|subst|inversion H; subst]; (constructor || reflexivity).
  - destruct s as [s|].
    + rewrite ok_bind. split.
      * intros (x & H1 & H2). apply ok_xopt1 in H1. apply ok_ret1 in H2. subst. constructor; exact H1.
      * intros H; inversion H; subst. exists x. split; [apply ok_xopt; assumption | reflexivity].
    + split; [intros H; apply ok_fail1 in H; contradiction | intros H; inversion H].
  - destruct s as [s|]; rewrite ok_ret.
    + destruct (String.eqb s "") eqn:E; simpl.
      * apply String.eqb_eq in E. subst s. split; intros H; [subst; constructor | inversion H; subst; congruence].
      * apply String.eqb_neq in E. split; intros H; [subst; constructor; exact E | inversion H; subst; congruence].
    + split; intros H; [subst; constructor | inversion H; reflexivity].
  - destruct s as [s|]; [|split; [intros H; apply ok_fail1 in H; contradiction | intros H; inversion H]].
    destruct (match count with Some n => Nat.eqb (length (split s)) n | None => true end) eqn:C.
    + rewrite ok_bind. split.
      * intros (l & H1 & H2). apply ok_lift1 in H1. apply ok_ret1 in H2. subst v. econstructor; [apply split_spec; reflexivity | apply rmap_pf, H1|].
        destruct count; [apply Nat.eqb_eq, C | exact I].
      * intros H; inversion H; subst. match goal with X : spaced _ _ |- _ => apply split_spec in X; rename X into Hs end. exists l. split; [apply ok_lift, rmap_pf; rewrite Hs; assumption | reflexivity].
    + split; [intros H; apply ok_fail1 in H; contradiction|]. intros H; inversion H; subst. match goal with X : spaced _ _ |- _ => apply split_spec in X; rename X into Hs end. subst ws.
      destruct count; [|discriminate]. apply Nat.eqb_neq in C. contradiction.
Qed.

Lemma Forall2_fun {A B} (R : A -> B -> Prop) l o o' : (forall a b b', R a b -> R a b' -> b = b') -> Forall2 R l o -> Forall2 R l o' -> o = o'.
Proof. intros F H. revert o'. induction H; intros o' K; inversion K; subst; [reflexivity|]. f_equal; [eapply F; eassumption | apply IHForall2; assumption]. Qed.
Section Objects.
Variable classes : string -> option class.
Hypothesis NC : forall cname c, classes cname = Some c -> nice_class classes c.

Lemma dg_kids t kids : dg t (kids_of pf classes kids) = option_map (from_xml pf classes) (first_child t kids).
Proof.
  unfold first_child. induction kids as [|[t' a x l|] kids IH]; [reflexivity | | exact IH].
  cbn [find has_tag]. change (kids_of pf classes (Node t' a x l :: kids)) with ((t', from_xml pf classes (Node t' a x l)) :: kids_of pf classes kids).
  cbn [dget]. rewrite (String.eqb_sym t t'). destruct (String.eqb t' t); [reflexivity | exact IH].
Qed.
Definition entry (n : node) : kid := (match n with Node t _ _ _ => t | Comment => "" end, from_xml pf classes n).
Lemma filter_kids (f : string -> bool) kids :
  filter (fun k => f (fst k)) (kids_of pf classes kids) =
  map entry (filter (fun n => match n with Node t _ _ _ => f t | Comment => false end) kids).
Proof.
  induction kids as [|[t' a x l|] kids IH]; [reflexivity | | exact IH].
  change (kids_of pf classes (Node t' a x l :: kids)) with ((t', from_xml pf classes (Node t' a x l)) :: kids_of pf classes kids).
  cbn [filter fst]. destruct (f t'); cbn [map]; rewrite IH; reflexivity.
Qed.
Lemma Forall2_map_l {A B C} (R : B -> C -> Prop) (g : A -> B) l l' : Forall2 R (map g l) l' <-> Forall2 (fun a c => R (g a) c) l l'.
Proof.
  revert l'. induction l as [|a l IH]; intros l'; simpl; split; intros H; inversion H; subst; constructor; try assumption; apply IH; assumption.
Qed.
Lemma given_spec c attrs kids p v : nice_class classes c -> In p (cl_params c) ->
  (given pf attrs (kids_of pf classes kids) p v <-> field_means pf (from_xml pf classes) attrs kids p v).
Proof.
  intros N Hp. unfold given, field_means. destruct (pr_kind p) eqn:K.
  - destruct (dg (pr_xml p) attrs); [|reflexivity]. apply text_spec, (nc_attr _ _ N p Hp K).
  - rewrite dg_kids. destruct (first_child (pr_xml p) kids); reflexivity.
  - rewrite (filter_kids (fun t => String.eqb t (pr_xml p))). split; intros (l & E & F); exists l; (split; [exact E|]);
      pose proof (Forall2_map_l (fun (k : kid) v => ok (snd k (pr_type p)) v) entry (children (pr_xml p) kids) l) as X; [exact (proj1 X F) | exact (proj2 X F)].
Qed.
Lemma agg_node (c : class) n : aggregate_of c n = match n with Node t _ _ _ => agg_of (cl_params c) t | Comment => None end.
Proof.
  unfold aggregate_of, agg_of. destruct n as [t a x l|]; simpl.
  - induction (cl_params c) as [|p ps IH]; simpl; [reflexivity|]. rewrite (String.eqb_sym t). rewrite IH. reflexivity.
  - induction (cl_params c) as [|p ps IH]; simpl; [reflexivity|]. rewrite andb_false_r. exact IH.
Qed.
Lemma filter_ext_in' {A} (f g : A -> bool) l : (forall a, f a = g a) -> filter f l = filter g l.
Proof. intros H. induction l; simpl; [reflexivity|]. rewrite H, IHl. reflexivity. Qed.
Lemma ordered_spec (c : class) kids order :
  ordered (cl_params c) (kids_of pf classes kids) order <-> order_means (from_xml pf classes) c kids order.
Proof.
  unfold ordered, order_means. rewrite (filter_kids (fun t => match agg_of (cl_params c) t with Some _ => true | None => false end)).
  rewrite (filter_ext_in' (fun n => match n with Node t _ _ _ => match agg_of (cl_params c) t with Some _ => true | None => false end | Comment => false end)
     (fun n => match aggregate_of c n with Some _ => true | None => false end)).
  2: { intros n. rewrite agg_node. destruct n; reflexivity. }
  rewrite (Forall2_map_l (fun (k : kid) (o : string * value) => fst o = fst k /\ exists p, agg_of (cl_params c) (fst k) = Some p /\ ok (snd k (pr_type p)) (snd o)) entry).
  assert (X : forall l, (forall n, In n l -> exists t a x k, n = Node t a x k) -> forall o,
    Forall2 (fun n o => fst o = fst (entry n) /\ (exists p, agg_of (cl_params c) (fst (entry n)) = Some p /\ ok (snd (entry n) (pr_type p)) (snd o))) l o <->
    Forall2 (fun n o => exists p, aggregate_of c n = Some p /\ fst o = pr_xml p /\ snd (from_xml pf classes n (pr_type p)) = inl (snd o)) l o).
  { induction l as [|n l IH]; intros HN o; [split; intros H; inversion H; constructor|].
    split; intros H; inversion H; subst; constructor; try (apply IH; [intros m Hm; apply HN; right; exact Hm | assumption]).
    - destruct (HN n (or_introl eq_refl)) as (t & a & x & k & ->). destruct H2 as (E & p & P1 & P2). exists p.
      rewrite agg_node. split; [exact P1|]. split; [|exact P2]. apply agg_of_some in P1 as (_ & _ & P1). simpl in P1, E. congruence.
    - destruct (HN n (or_introl eq_refl)) as (t & a & x & k & ->). destruct H2 as (p & P1 & P2 & P3). rewrite agg_node in P1.
      split; [|exists p; split; [exact P1 | exact P3]]. apply agg_of_some in P1 as (_ & _ & P1). simpl. congruence. }
  apply X. intros n Hn. apply filter_In in Hn as [_ Hn]. rewrite agg_node in Hn. destruct n; [eauto | discriminate].
Qed.

Lemma missing_eq (c : class) : missing c = filter (fun x => negb (existsb (String.eqb x) (map fst (cl_init c)))) (map pr_var (cl_params c)).
Proof.
  unfold missing. apply filter_ext_in'. intros x. rewrite existsb_keys. destruct (dg x (cl_init c)); reflexivity.
Qed.
Lemma not_var (c : class) x : ~ In x (map pr_var (cl_params c)) <-> (forall p, In p (cl_params c) -> pr_var p <> x).
Proof.
  split; [intros H p Hp <-; apply H, in_map, Hp|]. intros H Hx. apply in_map_iff in Hx as (p & E & Hp). exact (H p Hp E).
Qed.

(** an element is read as an object exactly if it means that object *)
Theorem object_spec cname c tag attrs text kids v : classes cname = Some c -> NoDup (map fst attrs) ->
  (ok (from_xml pf classes (Node tag attrs text kids) (TObj cname)) v <->
   exists fs order, v = VObj cname fs order /\ object_means pf (from_xml pf classes) c attrs kids fs order).
Proof.
  intros Hc ND. pose proof (NC _ _ Hc) as N. pose proof (nc_rt _ _ N) as RT. pose proof (rt_wf _ RT) as W.
  change (from_xml pf classes (Node tag attrs text kids) (TObj cname)) with (read_obj pf classes cname attrs (kids_of pf classes kids)).
  split.
  - intros H. destruct (read_obj_ok pf c W classes cname Hc _ _ _ ND H) as (fs & order & E & (R1 & R2 & R3 & R4) & K).
    exists fs, order. split; [exact E|]. split; [|split; [|split; [|split]]].
    + intros p Hp. destruct (R1 p Hp) as (w & Hw & G). exists w. split; [exact Hw|]. apply (given_spec c); assumption.
    + intros x Hx. apply R2, not_var, Hx.
    + unfold field_names. rewrite <- missing_eq. apply keys_det; auto. intros p Hp. destruct (R1 p Hp) as (w & Hw & _). eauto.
    + apply ordered_spec, R4.
    + exact K.
  - intros (fs & order & -> & (O1 & O2 & O3 & O4 & O5)).
    destruct (read_obj_run pf c W classes cname Hc attrs (kids_of pf classes kids) ND) as (f & o & (R1 & R2 & R3 & R4) & E).
    { intros p Hp. destruct (O1 p Hp) as (w & _ & G). exists w. apply (given_spec c); assumption. }
    assert (f = fs) as ->.
    { pose proof (wf_init _ W) as NI. apply dict_ext.
      - destruct R3 as (t & _ & X). apply X, NI.
      - rewrite O3. unfold field_names. rewrite <- missing_eq. apply keys_det; auto. intros p Hp. destruct (R1 p Hp) as (w & Hw & _). eauto.
      - intros x. destruct (in_dec string_dec x (map pr_var (cl_params c))) as [Y|Y].
        + apply in_map_iff in Y as (p & <- & Hp). destruct (R1 p Hp) as (v & V1 & V2), (O1 p Hp) as (w & W1 & W2).
          rewrite V1, W1. f_equal. eapply given_fun; [exact V2|]. apply (given_spec c); assumption.
        + rewrite (R2 x) by (apply not_var, Y). rewrite O2 by exact Y. reflexivity. }
    assert (o = order) as ->.
    { apply ordered_spec in O4. refine (Forall2_fun _ _ _ _ _ R4 O4). intros k [a b] [a' b'] (E1 & p & P1 & P2) (E2 & q & Q1 & Q2). cbn [fst snd] in *.
      assert (p = q) by congruence. subst q. f_equal; [congruence | eapply ok_fun; eassumption]. }
    unfold ok. rewrite E. rewrite O5. reflexivity.
Qed.

(** the other types *)
Lemma elements_kids kids : kids_of pf classes kids = map entry (elements kids).
Proof. induction kids as [|[t' a x l|] kids IH]; [reflexivity | | exact IH]. simpl. f_equal. exact IH. Qed.
Theorem geometry_spec tab tag attrs text kids v :
  ok (from_xml pf classes (Node tag attrs text kids) (TGeom tab)) v <->
  exists t a x l c, elements kids = [Node t a x l] /\ dget String.eqb t tab = Some c /\ ok (from_xml pf classes (Node t a x l) (TObj c)) v.
Proof.
  change (from_xml pf classes (Node tag attrs text kids) (TGeom tab)) with
    (match kids_of pf classes kids with [k] => let! c := xopt XExc (dg (fst k) tab) in snd k (TObj c) | _ => fail (XPy AssertionError) end).
  rewrite elements_kids. split.
  - intros H. assert (HE : forall n, In n (elements kids) -> exists t a x l, n = Node t a x l).
    { intros n Hn. apply filter_In in Hn as [_ Hn]. destruct n; [eauto | discriminate]. }
    destruct (elements kids) as [|n [|m r]]; try (apply ok_fail1 in H; contradiction).
    destruct (HE n (or_introl eq_refl)) as (t & a & x & l & ->). cbn [map] in H. apply ok_bind1 in H as (c & Hc & H).
    apply ok_xopt1 in Hc. exists t, a, x, l, c. auto.
  - intros (t & a & x & l & c & -> & Hc & H). cbn [map]. apply ok_bind. exists c. split; [apply ok_xopt, Hc | exact H].
Qed.
Theorem duck_spec cs tag attrs text kids v :
  ok (from_xml pf classes (Node tag attrs text kids) (TDuck cs)) v <->
  exists cs1 c cs2, cs = cs1 ++ c :: cs2 /\ ok (from_xml pf classes (Node tag attrs text kids) (TObj c)) v /\
    forall c1, In c1 cs1 -> exists e, snd (from_xml pf classes (Node tag attrs text kids) (TObj c1)) = inr e.
Proof.
  change (from_xml pf classes (Node tag attrs text kids) (TDuck cs)) with (duck pf classes cs attrs (kids_of pf classes kids)).
  assert (X : forall c, from_xml pf classes (Node tag attrs text kids) (TObj c) = read_obj pf classes c attrs (kids_of pf classes kids)) by reflexivity.
  setoid_rewrite X. induction cs as [|c cs IH]; simpl.
  - split; [intros H; apply ok_fail1 in H; contradiction|]. intros (cs1 & c & cs2 & E & _). destruct cs1; discriminate.
  - destruct (read_obj pf classes c attrs (kids_of pf classes kids)) as [w [y|e]] eqn:E.
    + split.
      * intros H. exists [], c, cs. split; [reflexivity|]. rewrite E. split; [exact H | intros ? []].
      * intros (cs1 & c' & cs2 & E1 & H & F). destruct cs1 as [|d cs1]; simpl in E1; inversion E1; subst; [rewrite E in H; exact H|].
        destruct (F d (or_introl eq_refl)) as [e He]. rewrite E in He; discriminate.
    + transitivity (ok (duck pf classes cs attrs (kids_of pf classes kids)) v); [reflexivity|]. rewrite IH. split.
      * intros (cs1 & c' & cs2 & -> & H & F). exists (c :: cs1), c', cs2. split; [reflexivity|]. split; [exact H|].
        intros c1 [<-|Hin]; [exists e; rewrite E; reflexivity | auto].
      * intros (cs1 & c' & cs2 & E1 & H & F). destruct cs1 as [|d cs1]; simpl in E1; inversion E1; subst; [rewrite E in H; discriminate|].
        exists cs1, c', cs2. split; [reflexivity|]. split; [exact H|]. intros c1 Hin. apply F; right; exact Hin.
Qed.

(** ** What does not matter *)
Lemma agg_children (c : class) p kids kids' : wf_class c -> In p (cl_params c) -> pr_kind p = PAggregate ->
  filter (fun n => match aggregate_of c n with Some _ => true | None => false end) kids' =
  filter (fun n => match aggregate_of c n with Some _ => true | None => false end) kids ->
  children (pr_xml p) kids' = children (pr_xml p) kids.
Proof.
  intros W Hp K E. assert (X : forall l, children (pr_xml p) l =
    children (pr_xml p) (filter (fun n => match aggregate_of c n with Some _ => true | None => false end) l)).
  { unfold children. induction l as [|n l IH]; [reflexivity|]. simpl. rewrite agg_node. destruct n as [t a x k|]; [|exact IH].
    cbn [has_tag]. destruct (String.eqb t (pr_xml p)) eqn:Et.
    - apply String.eqb_eq in Et. subst t. rewrite (agg_of_in c W p Hp K). cbn [filter has_tag]. rewrite String.eqb_refl. f_equal. exact IH.
    - destruct (agg_of (cl_params c) t); [cbn [filter has_tag]; rewrite Et|]; exact IH. }
  rewrite (X kids'), (X kids), E. reflexivity.
Qed.
Theorem irrelevant cname c tag attrs attrs' text text' kids kids' v : classes cname = Some c ->
  NoDup (map fst attrs) -> NoDup (map fst attrs') ->
  (forall p, In p (cl_params c) -> pr_kind p = PAttribute -> dg (pr_xml p) attrs' = dg (pr_xml p) attrs) ->
  (forall p, In p (cl_params c) -> pr_kind p = PElement -> first_child (pr_xml p) kids' = first_child (pr_xml p) kids) ->
  filter (fun n => match aggregate_of c n with Some _ => true | None => false end) kids' =
  filter (fun n => match aggregate_of c n with Some _ => true | None => false end) kids ->
  ok (from_xml pf classes (Node tag attrs text kids) (TObj cname)) v ->
  ok (from_xml pf classes (Node tag attrs' text' kids') (TObj cname)) v.
Proof.
  intros Hc N1 N2 HA HE HG H. pose proof (rt_wf _ (nc_rt _ _ (NC _ _ Hc))) as W.
  apply (object_spec cname c) in H; [|assumption|assumption].
  apply (object_spec cname c); [assumption|assumption|]. destruct H as (fs & order & E & O1 & O2 & O3 & O4 & O5).
  exists fs, order. split; [exact E|]. split; [|split; [exact O2 | split; [exact O3 | split; [|exact O5]]]].
  - intros p Hp. destruct (O1 p Hp) as (w & Hw & F). exists w. split; [exact Hw|]. unfold field_means in *. destruct (pr_kind p) eqn:K.
    + rewrite HA by assumption. exact F.
    + rewrite HE by assumption. exact F.
    + rewrite (agg_children c p kids kids') by assumption. exact F.
  - unfold order_means in *. rewrite HG. exact O4.
Qed.

(** ** A required parameter that is missing *)
Lemma default_fail (l : list param) fs p : In p l -> pr_req p = true -> snd (xfold default_step l fs) = inr XParse.
Proof.
  revert fs. induction l as [|q l IH]; intros fs [] R; simpl.
  - subst q. unfold default_step, xbind. rewrite R. reflexivity.
  - unfold default_step at 1, xbind. destruct (pr_req q); [reflexivity|]. simpl. apply IH; assumption.
Qed.
Lemma default_cases (l : list param) fs : (exists fs1, ok (xfold default_step l fs) fs1) \/ snd (xfold default_step l fs) = inr XParse.
Proof.
  destruct (existsb pr_req l) eqn:E.
  - right. apply existsb_exists in E as (p & Hp & R). eapply default_fail; eassumption.
  - left. apply defaults_run. intros p Hp. destruct (pr_req p) eqn:R; [|reflexivity].
    assert (existsb pr_req l = true) by (apply existsb_exists; eauto). congruence.
Qed.
Lemma bind_err {A B} (x : xr A) (f : A -> xr B) e : snd x = inr e -> snd (xbind x f) = inr e.
Proof. unfold xbind. intros ->. reflexivity. Qed.
Theorem missing_fails cname c tag attrs text kids p : classes cname = Some c -> NoDup (map fst attrs) ->
  In p (cl_params c) -> pr_req p = true ->
  match pr_kind p with
  | PAttribute => dg (pr_xml p) attrs = None
  | PElement => first_child (pr_xml p) kids = None
  | PAggregate => False
  end ->
  (forall q s, In q (cl_params c) -> pr_kind q = PAttribute -> dg (pr_xml q) attrs = Some s -> exists v, text_means pf (pr_type q) (Some s) v) ->
  (forall q n, In q (cl_params c) -> pr_kind q = PElement -> first_child (pr_xml q) kids = Some n -> exists v, ok (from_xml pf classes n (pr_type q)) v) ->
  (forall q n, In q (cl_params c) -> pr_kind q = PAggregate -> In n (children (pr_xml q) kids) -> exists v, ok (from_xml pf classes n (pr_type q)) v) ->
  snd (from_xml pf classes (Node tag attrs text kids) (TObj cname)) = inr XParse.
Proof.
  intros Hc ND Hp R M HA HE HG. pose proof (NC _ _ Hc) as N. pose proof (rt_wf _ (nc_rt _ _ N)) as W.
  change (from_xml pf classes (Node tag attrs text kids) (TObj cname)) with (read_obj pf classes cname attrs (kids_of pf classes kids)).
  destruct (attrs_run pf c attrs (cl_init c)) as [f1 P1].
  { intros a s q Hin Hf. apply find_attr_some in Hf as (Hq & Kq & Xq).
    destruct (HA q s Hq Kq) as [v Hv]; [rewrite Xq; apply (dget_nodup _ seqb_eq); assumption|]. exists v. apply text_spec; [|exact Hv].
    apply (nc_attr _ _ N q Hq Kq). }
  destruct (attrs_read pf c W _ _ _ ND P1) as (A1 & A2 & A3).
  assert (L0 : forall p, In p (cl_params c) -> pr_kind p = PAggregate -> dg (pr_var p) f1 = Some (VList [])).
  { intros q Hq Kq. rewrite A2; [apply (wf_lists _ W); assumption|]. intros q' Hq' Kq' E.
    apply (var_inj _ q' q (wf_vars _ W) Hq' Hq) in E. congruence. }
  destruct (kids_run c W (kids_of pf classes kids) f1 [] (map pr_xml (filter (is_kind PElement) (cl_params c)))) as [[[f2 o] u] P2].
  { intros q Hq Kq. exists []. apply L0; assumption. }
  { intros t k q Hin Hf. apply agg_of_some in Hf as (Hq & Kq & Xq). apply kid_in in Hin as (n & a & x & l & Hn & -> & ->).
    apply (HG q); [assumption | assumption|]. unfold children. apply filter_In. split; [exact Hn|]. simpl. rewrite Xq. apply String.eqb_refl. }
  { intros q k Hq Kq _ Hk. rewrite dg_kids in Hk. destruct (first_child (pr_xml q) kids) as [n|] eqn:F; [|discriminate].
    inversion Hk; subst k. apply (HE q n); assumption. }
  destruct (kids_read pf c W _ _ _ _ _ _ _ (scalars_nodup c W) (fun p Hp Kp => ex_intro _ [] (L0 p Hp Kp)) P2) as (B1 & B2 & B3 & B4 & B5 & B7).
  unfold read_obj. rewrite Hc. cbv zeta. rewrite (ok_step _ _ _ P1), (ok_step _ _ _ P2). destruct (pr_kind p) eqn:K.
  - apply bind_err. apply default_fail with p; [|exact R]. apply filter_In. split; [exact Hp|]. apply andb_true_iff. split; [apply kind_attr, K|].
    rewrite existsb_keys, M. reflexivity.
  - destruct (default_cases (filter (fun p0 => is_kind PAttribute p0 && negb (existsb (String.eqb (pr_xml p0)) (map fst attrs))) (cl_params c)) f2) as [[f3 P3]|P3].
    2: { apply bind_err, P3. }
    rewrite (ok_step _ _ _ P3). apply bind_err. apply default_fail with p; [|exact R]. apply filter_In. split; [exact Hp|].
    apply andb_true_iff. split; [apply kind_elem, K|]. apply existsb_exists. exists (pr_xml p). split; [|apply String.eqb_refl].
    apply B7. split.
    + apply in_map. apply filter_In. split; [exact Hp | apply kind_elem, K].
    + left. rewrite dg_kids, M. reflexivity.
  - contradiction.
Qed.

(** ** Messages *)
Lemma bind_msg {A B} (x : xr A) (f : A -> xr B) a w : ok x a -> In w (fst (f a)) -> In w (fst (xbind x f)).
Proof. unfold ok, xbind. intros -> H. simpl. apply in_or_app; right; exact H. Qed.
Lemma warns_fst {A} (f : A -> warning) l : fst (xfold (fun _ a => warn (f a)) l tt) = map f l.
Proof. induction l as [|a l IH]; simpl; [reflexivity|]. unfold xbind. simpl. rewrite IH. reflexivity. Qed.
Lemma bind_msg1 {A B} (x : xr A) (f : A -> xr B) w : In w (fst x) -> In w (fst (xbind x f)).
Proof. unfold xbind. intros H. destruct (snd x); simpl; [apply in_or_app; left|]; exact H. Qed.
Theorem messages cname c tag attrs text kids v : classes cname = Some c -> ok (from_xml pf classes (Node tag attrs text kids) (TObj cname)) v ->
  (forall a, In a (map fst attrs) -> (forall p, In p (cl_params c) -> pr_kind p = PAttribute -> pr_xml p <> a) ->
     In (WAttr a) (fst (from_xml pf classes (Node tag attrs text kids) (TObj cname)))) /\
  (forall t a x l, In (Node t a x l) kids -> (forall p, In p (cl_params c) -> pr_kind p <> PAttribute -> pr_xml p <> t) ->
     In (WTag t) (fst (from_xml pf classes (Node tag attrs text kids) (TObj cname)))).
Proof.
  intros Hc H. change (from_xml pf classes (Node tag attrs text kids) (TObj cname)) with (read_obj pf classes cname attrs (kids_of pf classes kids)) in *.
  destruct (read_ok_prefix pf c classes cname Hc _ _ _ H) as (fs & o & (f1 & f2 & u & f3 & P1 & P2 & P3 & P4) & _ & K).
  unfold read_obj. rewrite Hc. cbv zeta. split.
  - intros a Ha Na. eapply bind_msg; [exact P1|]. eapply bind_msg; [exact P2|]. eapply bind_msg; [exact P3|]. eapply bind_msg; [exact P4|].
    apply bind_msg1. rewrite warns_fst. apply in_map, filter_In. split; [exact Ha|].
    destruct (find_attr (cl_params c) a) as [p|] eqn:E; [|reflexivity]. apply find_attr_some in E as (Hp & Kp & Xp). destruct (Na p Hp Kp Xp).
  - intros t a x l Hin Na. eapply bind_msg; [exact P1|]. eapply bind_msg; [exact P2|]. eapply bind_msg; [exact P3|]. eapply bind_msg; [exact P4|].
    eapply bind_msg; [apply ok_warns|]. apply bind_msg1. rewrite warns_fst. apply in_map, filter_In. split.
    + rewrite elements_kids, map_map. apply in_map_iff. exists (Node t a x l). split; [reflexivity|]. apply filter_In. split; [exact Hin | reflexivity].
    + destruct (find_elem (cl_params c) t) as [p|] eqn:E; [|reflexivity]. apply find_elem_some in E as (Hp & Kp & Xp). destruct (Na p Hp Kp Xp).
Qed.

Lemma bind_quiet {A B} (x : xr A) (f : A -> xr B) : fst x = [] -> (forall a, ok x a -> fst (f a) = []) -> fst (xbind x f) = [].
Proof. unfold ok, xbind. intros Q H. destruct (snd x); simpl; rewrite Q; [apply H; reflexivity | reflexivity]. Qed.
Lemma fold_quiet {A B} (f : A -> B -> xr A) l a : (forall a b, fst (f a b) = []) -> fst (xfold f l a) = [].
Proof. intros H. revert a. induction l; intros a0; simpl; [reflexivity|]. apply bind_quiet; [apply H | auto]. Qed.
Lemma from_string_quiet t s : fst (from_string pf t s) = [].
Proof.
  destruct t; try reflexivity; destruct s as [s|]; try reflexivity; simpl.
  - destruct (pf s); reflexivity.
  - destruct (match count with Some n => Nat.eqb (length (split s)) n | None => true end); [|reflexivity].
    apply bind_quiet; [destruct (rmap _ _); reflexivity | reflexivity].
Qed.
Lemma kids_quiet (ps : list param) ks : forall fs o u,
  (forall k p, In k ks -> find_elem ps (fst k) = Some p -> fst (snd k (pr_type p)) = []) ->
  NoDup (map fst (filter (fun k : kid => match find_elem ps (fst k) with Some p => is_kind PElement p | None => false end) ks)) ->
  (forall k p, In k ks -> find_elem ps (fst k) = Some p -> is_kind PElement p = true -> In (fst k) u) ->
  fst (xfold (kid_step ps) ks (fs, o, u)) = [].
Proof.
  induction ks as [|[t k] ks IH]; intros fs o u Q N I; [reflexivity|]. cbn [xfold].
  cbn [filter fst] in N.
  pose proof (Q (t, k)) as Qk. cbn [fst snd] in Qk. pose proof (I (t, k)) as Ik. cbn [fst snd] in Ik.
  unfold kid_step at 1. cbn [fst snd]. destruct (find_elem ps t) as [p|] eqn:F.
  2: { apply bind_quiet; [reflexivity|]. intros st Hst. apply ok_ret1 in Hst. subst st. apply IH; [| exact N |]; intros; [eapply Q | eapply I]; try eassumption; right; assumption. }
  destruct (is_kind PAggregate p) eqn:Ag.
  - assert (Ke : is_kind PElement p = false) by (unfold is_kind in *; destruct (pr_kind p); congruence). rewrite Ke in N.
    apply bind_quiet.
    + apply bind_quiet; [unfold agg_list; destruct (dg (pr_var p) fs) as [[]|]; reflexivity|]. intros l _.
      apply bind_quiet; [apply Qk; [left; reflexivity | reflexivity]|]. reflexivity.
    + intros st Hst. apply ok_bind1 in Hst as (l & _ & Hst). apply ok_bind1 in Hst as (v & _ & Hst). apply ok_ret1 in Hst. subst st.
      apply IH; [| exact N |]; intros; [eapply Q | eapply I]; try eassumption; right; assumption.
  - assert (Ke : is_kind PElement p = true).
    { unfold find_elem in F. apply find_some in F as [_ F]. apply andb_true_iff in F as [F _].
      unfold is_elem, is_kind in *; destruct (pr_kind p); simpl in *; congruence. }
    rewrite Ke in N. cbn [map fst] in N. inversion N as [|? ? N1 N2]; subst.
    assert (Hu : In t u) by (eapply Ik; [left; reflexivity | reflexivity | exact Ke]).
    assert (Eu : existsb (String.eqb t) u = true) by (apply existsb_exists; exists t; rewrite String.eqb_refl; auto). rewrite Eu.
    apply bind_quiet.
    + apply bind_quiet; [apply Qk; [left; reflexivity | reflexivity]|]. reflexivity.
    + intros st Hst. apply ok_bind1 in Hst as (v & _ & Hst). apply ok_ret1 in Hst. subst st.
      apply IH; [intros; eapply Q; try eassumption; right; assumption | exact N2|].
      intros k' p' Hin Hf Hk. apply filter_In. split; [eapply I; try eassumption; right; assumption|].
      apply negb_true_iff, String.eqb_neq. intros ->. apply N1. apply in_map, filter_In. split; [exact Hin | exact (eq_trans (f_equal (fun o => match o with Some p => is_kind PElement p | None => false end) Hf) Hk)].
Qed.
Theorem silent cname c tag attrs text kids : classes cname = Some c ->
  (forall a, In a (map fst attrs) -> exists p, In p (cl_params c) /\ pr_kind p = PAttribute /\ pr_xml p = a) ->
  (forall t a x l, In (Node t a x l) kids -> exists p, In p (cl_params c) /\ pr_kind p <> PAttribute /\ pr_xml p = t) ->
  (forall p, In p (cl_params c) -> pr_kind p = PElement -> length (children (pr_xml p) kids) <= 1) ->
  (forall n p, In n kids -> In p (cl_params c) -> pr_kind p <> PAttribute -> has_tag (pr_xml p) n = true -> fst (from_xml pf classes n (pr_type p)) = []) ->
  (forall fs, fst (cl_check c fs) = []) ->
  fst (from_xml pf classes (Node tag attrs text kids) (TObj cname)) = [].
Proof.
  intros Hc HA HT HD HQ HK. pose proof (rt_wf _ (nc_rt _ _ (NC _ _ Hc))) as W.
  change (from_xml pf classes (Node tag attrs text kids) (TObj cname)) with (read_obj pf classes cname attrs (kids_of pf classes kids)).
  unfold read_obj. rewrite Hc. cbv zeta.
  apply bind_quiet.
  { apply fold_quiet. intros fs [a s]. unfold attr_step. simpl. destruct (find_attr (cl_params c) a); [|reflexivity].
    apply bind_quiet; [apply from_string_quiet | reflexivity]. }
  intros f1 _. apply bind_quiet.
  { apply kids_quiet.
    - intros [t k] p Hin Hf. apply kid_in in Hin as (n & a & x & l & Hn & -> & ->). cbn [fst snd] in *.
      apply find_elem_some in Hf as (Hp & Kp & Xp). apply HQ; auto. simpl. rewrite Xp. apply String.eqb_refl.
    - rewrite (filter_kids (fun t => match find_elem (cl_params c) t with Some p => is_kind PElement p | None => false end)).
      assert (G : forall l, (forall p, In p (cl_params c) -> pr_kind p = PElement -> length (children (pr_xml p) l) <= 1) ->
        NoDup (map fst (map entry (filter (fun n => match n with Node t _ _ _ => match find_elem (cl_params c) t with Some p => is_kind PElement p | None => false end | Comment => false end) l)))).
      { induction l as [|n l IH]; intros HL; [constructor|]. cbn [filter].
        assert (IHl : NoDup (map fst (map entry (filter (fun n => match n with Node t _ _ _ => match find_elem (cl_params c) t with Some p => is_kind PElement p | None => false end | Comment => false end) l)))).
        { apply IH. intros p Hp Kp. specialize (HL p Hp Kp). unfold children in *. simpl in HL. destruct (has_tag (pr_xml p) n); simpl in HL; lia. }
        destruct n as [t a x k|]; [|exact IHl]. destruct (find_elem (cl_params c) t) as [p|] eqn:F; [|exact IHl].
        destruct (is_kind PElement p) eqn:Kp; [|exact IHl]. cbn [map entry fst]. constructor; [|exact IHl].
        intros Hc'. apply in_map_iff in Hc' as (e & Et & He). apply in_map_iff in He as (m & <- & Hm). apply filter_In in Hm as [Hm Fm].
        destruct m as [t' a' x' k'|]; [|discriminate]. simpl in Et. subst t'. apply find_elem_some in F as (Hp & _ & Xp). apply kind_elem in Kp.
        specialize (HL p Hp Kp). unfold children in HL. simpl in HL. rewrite Xp, String.eqb_refl in HL. simpl in HL.
        assert (Hm2 : In (Node t a' x' k') (filter (has_tag t) l)) by (apply filter_In; split; [exact Hm | simpl; apply String.eqb_refl]).
        destruct (filter (has_tag t) l); [destruct Hm2 | simpl in HL; lia]. }
      apply G, HD.
    - intros k p Hin Hf Kp. apply find_elem_some in Hf as (Hp & _ & Xp). rewrite <- Xp. apply in_map, filter_In. auto. }
  intros [[f2 o] u] _. apply bind_quiet.
  { apply fold_quiet. intros fs p. unfold default_step. destruct (pr_req p); reflexivity. }
  intros f3 _. apply bind_quiet.
  { apply fold_quiet. intros fs p. unfold default_step. destruct (pr_req p); reflexivity. }
  intros f4 _.
  assert (E1 : filter (fun a => match find_attr (cl_params c) a with None => true | Some _ => false end) (map fst attrs) = []).
  { destruct (filter _ (map fst attrs)) as [|a r] eqn:E; [reflexivity|]. exfalso.
    assert (Ha : In a (a :: r)) by (left; reflexivity). rewrite <- E in Ha. apply filter_In in Ha as [Ha Fa].
    destruct (HA a Ha) as (p & Hp & Kp & Xp). rewrite <- Xp, (find_attr_in c W p Hp Kp) in Fa. discriminate. }
  assert (E2 : filter (fun t => match find_elem (cl_params c) t with None => true | Some _ => false end) (map fst (kids_of pf classes kids)) = []).
  { destruct (filter _ (map fst (kids_of pf classes kids))) as [|a r] eqn:E; [reflexivity|]. exfalso.
    assert (Ha : In a (a :: r)) by (left; reflexivity). rewrite <- E in Ha. apply filter_In in Ha as [Ha Fa].
    apply in_map_iff in Ha as ([t k] & Et & Ha). apply kid_in in Ha as (n & a' & x & l & Hn & -> & _). simpl in Et. subst t.
    destruct (HT _ _ _ _ Hn) as (p & Hp & Kp & Xp). rewrite <- Xp, (find_elem_in c W p Hp Kp) in Fa. discriminate. }
  rewrite E1, E2. apply bind_quiet; [reflexivity|]. intros _ _. apply bind_quiet; [reflexivity|]. intros _ _.
  apply bind_quiet; [apply HK | reflexivity].
Qed.
End Objects.
End More.
