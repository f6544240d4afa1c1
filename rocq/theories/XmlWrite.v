(** Writing an object and reading the result gives the object back. *)
From Coq Require Import String Ascii Bool Arith Lia List.
From Verif Require Import Prelude XmlModel XmlProofs.
Import ListNotations.
Local Open Scope string_scope.
Local Open Scope list_scope.
Local Arguments is_kind : simpl never.
Local Arguments is_elem : simpl never.

(** ** Words *)
Definition word (s : string) : Prop := s <> "" /\ Forall (fun c => is_space c = false) (list_ascii_of_string s).

Lemma laos_app a b : list_ascii_of_string (a ++ b)%string = list_ascii_of_string a ++ list_ascii_of_string b.
Proof. induction a; simpl; [reflexivity | rewrite IHa; reflexivity]. Qed.
Lemma split_word w s acc : Forall (fun c => is_space c = false) w -> split_loop (w ++ s) acc = split_loop s (rev w ++ acc).
Proof.
  revert acc. induction w as [|x w IH]; intros acc H; simpl; [reflexivity|]. inversion H; subst. rewrite H2, (IH _ H3).
  rewrite <- app_assoc; reflexivity.
Qed.
Lemma flush {A} (l : list A) (r : list (list A)) : l <> [] -> match l with [] => r | _ :: _ => rev l :: r end = rev l :: r.
Proof. destruct l; [congruence | reflexivity]. Qed.
Lemma split_loop_join ws : Forall word ws ->
  split_loop (list_ascii_of_string (join ws)) [] = map list_ascii_of_string ws.
Proof.
  unfold join. induction ws as [|w ws IH]; intros H; [reflexivity|].
  inversion H as [|? ? [N S] HF]; subst.
  assert (NR : rev (list_ascii_of_string w) ++ [] <> []).
  { rewrite app_nil_r. intros E. apply N. rewrite <- (string_of_list_ascii_of_string w), <- (rev_involutive (list_ascii_of_string w)), E. reflexivity. }
  destruct ws as [|w2 ws].
  - simpl. rewrite <- (app_nil_r (list_ascii_of_string w)) at 1. rewrite (split_word _ _ _ S).
    cbn [split_loop]. rewrite (flush _ [] NR), app_nil_r, rev_involutive. reflexivity.
  - change (String.concat " " (w :: w2 :: ws)) with (w ++ (" " ++ String.concat " " (w2 :: ws)))%string.
    rewrite laos_app, (split_word _ _ _ S). 
    change (list_ascii_of_string (" " ++ String.concat " " (w2 :: ws))%string)
      with (" "%char :: list_ascii_of_string (String.concat " " (w2 :: ws))).
    cbn [split_loop]. replace (is_space " ") with true by reflexivity.
    rewrite (flush _ _ NR), app_nil_r, rev_involutive. cbn [map]. f_equal. exact (IH HF).
Qed.
Lemma split_join ws : Forall word ws -> split (join ws) = ws.
Proof.
  intros H. unfold split. rewrite (split_loop_join ws H), map_map. rewrite <- (map_id ws) at 2. apply map_ext.
  intros; apply string_of_list_ascii_of_string.
Qed.

Lemma NoDup_app_last {A} (l : list A) x : NoDup l -> ~ In x l -> NoDup (l ++ [x]).
Proof.
  induction l as [|y l IH]; simpl; intros N H; [constructor; [intros [] | constructor]|].
  inversion N; subst. constructor; [|apply IH; tauto]. intros Hc. apply in_app_or in Hc as [Hc|[Hc|[]]]; [tauto | subst; tauto].
Qed.

Section Write.
Context {Num : Type}.
Variables (pf : string -> option Num) (sf : Num -> string).
Hypothesis pf_sf : forall x, pf (sf x) = Some x.
Hypothesis sf_word : forall x, word (sf x).
Notation value := (value Num).
Notation param := (param Num).
Notation class := (class Num).
Notation fields := (@fields Num).
Notation kid := (@kid Num).
Notation wfield := (@wfield Num).
Notation dg := (dget String.eqb).
Variable classes : string -> option class.

(** values that an attribute or a text can hold and give back *)
Inductive basic : vtype -> value -> Prop :=
| BStr s : basic TStr (VStr s)
| BNum x : basic TFloat (VNum x)
| BBool : basic TBool (VBool true)
| BVec count l : match count with Some n => length l = n | None => True end -> basic (TVec count) (VVec l).

Lemma basic_trip t v : basic t v -> exists s, ok (to_string sf t v) s /\ ok (from_string pf t (Some s)) v.
Proof.
  intros H; destruct H as [s|x| |count l H].
  - exists s. split; reflexivity.
  - exists (sf x). split; [reflexivity|]. simpl. apply ok_bind. exists x. split; [apply ok_xopt, pf_sf | reflexivity].
  - exists "True". split; reflexivity.
  - exists (join (map sf l)). assert (E : split (join (map sf l)) = map sf l) by (apply split_join, Forall_map, Forall_forall; auto).
    split.
    + simpl. destruct count as [n|]; [rewrite H, Nat.eqb_refl|]; reflexivity.
    + simpl. rewrite E, map_length.
      assert (C : match count with Some n => Nat.eqb (length l) n | None => true end = true)
        by (destruct count; [apply Nat.eqb_eq, H | reflexivity]).
      rewrite C. apply ok_bind. exists l. split; [|reflexivity]. apply ok_lift. clear -pf_sf.
      induction l; simpl; [reflexivity|]. rewrite pf_sf; simpl. rewrite IHl; reflexivity.
Qed.
Lemma basic_not_none t : ~ basic t VNone. Proof. intros H; inversion H. Qed.

(** fields a class reads but its constructor does not set *)
Definition missing (c : class) : list string :=
  filter (fun x => match dg x (cl_init c) with Some _ => false | None => true end) (map pr_var (cl_params c)).
(** a class whose objects can be read back *)
Record rt_class (c : class) : Prop := {
  rt_wf : wf_class c;
  rt_missing : length (missing c) <= 1;
  rt_names : forall p, In p (cl_params c) -> pr_kind p = PElement -> pr_var p = pr_xml p;
  rt_raw : forall p, In p (cl_params c) -> pr_raw p = false }.
(** for a parameter that is None in the object and absent from the document *)
Definition omitted (p : param) : Prop := pr_req p = false /\ pr_default p = VNone.

(** [typed tag t v]: [v] is a value of type [t] that can be written into an element [tag] and read back *)
Inductive typed : string -> vtype -> value -> Prop :=
| TyBasic tag t v : basic t v -> typed tag t v
| TySimple tag a t v : basic t v -> typed tag (TSimple a t) v
| TyRaw tag attrs kids : NoDup (map fst attrs) -> forallb (fun k => negb (is_comment k)) kids = true ->
    typed tag TRaw (VRaw (Node tag attrs None kids))
| TyObj tag c v : tobj tag c v -> typed tag (TObj c) v
| TyGeom tag tab nm c v : find (fun e => String.eqb (snd e) c) tab = Some (nm, c) -> dg nm tab = Some c ->
    tobj nm c v -> typed tag (TGeom tab) v
| TyDuck tag cs1 c cs2 cl v : classes c = Some cl ->
    (forall c1, In c1 cs1 -> exists cl1 p, classes c1 = Some cl1 /\ wf_class cl1 /\ In p (cl_params cl1) /\
       pr_kind p = PElement /\ pr_req p = true /\ find_elem (cl_params cl) (pr_xml p) = None) ->
    tobj tag c v -> typed tag (TDuck (cs1 ++ c :: cs2)) v
with tobj : string -> string -> value -> Prop :=
| TyFields tag cname c fs order :
    classes cname = Some c -> rt_class c ->
    map fst fs = map fst (cl_init c) ++ missing c ->
    (forall x, (forall p, In p (cl_params c) -> pr_var p <> x) -> dg x fs = dg x (cl_init c)) ->
    (forall p v, In p (cl_params c) -> pr_kind p = PAttribute -> dg (pr_var p) fs = Some v ->
       (v = VNone /\ omitted p) \/ basic (pr_type p) v) ->
    (forall p, In p (cl_params c) -> pr_kind p = PElement -> dg (pr_var p) fs = Some VNone -> omitted p) ->
    (forall p v, In p (cl_params c) -> pr_kind p = PElement -> dg (pr_var p) fs = Some v -> v <> VNone ->
       typed (pr_xml p) (pr_type p) v) ->
    (forall p, In p (cl_params c) -> pr_kind p = PAggregate ->
       dg (pr_var p) fs = Some (VList (map snd (filter (fun o => String.eqb (fst o) (pr_xml p)) order)))) ->
    (forall t v, In (t, v) order -> exists p, In p (cl_params c) /\ pr_kind p = PAggregate /\ pr_xml p = t) ->
    (forall t v p, In (t, v) order -> In p (cl_params c) -> pr_kind p = PAggregate -> pr_xml p = t -> typed t (pr_type p) v) ->
    ok (cl_check c fs) tt ->
    tobj tag cname (VObj cname fs order).
Scheme typed_ind2 := Minimality for typed Sort Prop with tobj_ind2 := Minimality for tobj Sort Prop.
Combined Scheme typed_mut from typed_ind2, tobj_ind2.

(** ** What is written *)
Lemma set_attr_fresh a v t at_ tx ks : ~ In a (map fst at_) -> set_attr a v (Node t at_ tx ks) = Node t (at_ ++ [(a, v)]) tx ks.
Proof. intros H. simpl. rewrite dset_fresh; [reflexivity | apply seqb_eq | exact H]. Qed.
Lemma filter_nodup_map {A} (f : A -> bool) (h : A -> string) l : NoDup (map h l) -> NoDup (map h (filter f l)).
Proof.
  induction l as [|x l IH]; simpl; intros N; [constructor|]. inversion N; subst. destruct (f x); simpl; [|auto].
  constructor; [|auto]. intros Hc. apply H1. apply in_map_iff in Hc as (y & Ey & Hy). apply filter_In in Hy.
  rewrite <- Ey. apply in_map; tauto.
Qed.
Lemma dg_wf (fs : fields) (g : string * value -> string * wfield) k :
  (forall e, fst (g e) = fst e) -> dg k (map g fs) = option_map (fun v => snd (g (k, v))) (dg k fs).
Proof.
  intros G. induction fs as [|[k' v'] fs IH]; simpl; [reflexivity|].
  pose proof (G (k', v')) as E. destruct (g (k', v')) as [a b] eqn:Eg. simpl in E. subst a.
  destruct (String.eqb k k') eqn:Ek; [|exact IH]. apply String.eqb_eq in Ek; subst. simpl. rewrite Eg; reflexivity.
Qed.

Section Obj.
Variables (c : class) (fs : fields) (order : list (string * value)).
Hypothesis W : rt_class c.
Let ps := cl_params c.
Hypothesis FA : forall p v, In p ps -> pr_kind p = PAttribute -> dg (pr_var p) fs = Some v ->
  (v = VNone /\ omitted p) \/ basic (pr_type p) v.
Hypothesis HK : forall p, In p ps -> exists v, dg (pr_var p) fs = Some v.
Definition wf_of : dict string wfield := map (fun p => (fst p, (snd p, write sf classes (snd p)))) fs.
Lemma wf_get k : dg k wf_of = option_map (fun v => (v, write sf classes v)) (dg k fs).
Proof. unfold wf_of. rewrite dg_wf by reflexivity. reflexivity. Qed.

(** attributes *)
Definition attr_given (p : param) (a : dict string string) : Prop :=
  match dg (pr_var p) fs with
  | Some VNone => dg (pr_xml p) a = None
  | Some v => exists s, dg (pr_xml p) a = Some s /\ ok (from_string pf (pr_type p) (Some s)) v
  | None => False
  end.
Lemma write_attrs l tag at0 tx ks : incl l ps -> (forall p, In p l -> pr_kind p = PAttribute) -> NoDup (map pr_xml l) ->
  (forall p, In p l -> ~ In (pr_xml p) (map fst at0)) -> NoDup (map fst at0) ->
  exists at1, ok (xfold (add_attribute sf wf_of) l (Node tag at0 tx ks)) (Node tag (at0 ++ at1) tx ks) /\
    NoDup (map fst (at0 ++ at1)) /\ (forall x, In x (map fst at1) -> In x (map pr_xml l)) /\
    (forall p, In p l -> attr_given p at1).
Proof.
  revert at0. induction l as [|p l IH]; intros at0 I K N F N0; simpl.
  - exists []. rewrite app_nil_r. split; [reflexivity|]. split; [exact N0|]. split; [intros x [] | intros p []].
  - inversion N; subst. destruct (HK p (I p (or_introl eq_refl))) as [v Hv].
    destruct (FA p v (I p (or_introl eq_refl)) (K p (or_introl eq_refl)) Hv) as [[-> [R D]]|B].
    + destruct (IH at0) as (at1 & A1 & A2 & A3 & A4); auto.
      { intros q Hq; apply I; right; exact Hq. } { intros q Hq; apply K; right; exact Hq. } { intros q Hq; apply F; right; exact Hq. }
      exists at1. split; [|split; [exact A2 | split; [intros x Hx; right; apply A3, Hx|]]].
      * apply ok_bind. exists (Node tag at0 tx ks). split; [|exact A1]. unfold add_attribute. rewrite wf_get, Hv. simpl.
        apply ok_bind. exists (VNone, write sf classes VNone). split; [reflexivity|]. simpl. rewrite R. apply ok_bind.
        exists VNone. split; [rewrite D; reflexivity | reflexivity].
      * intros q [<-|Hq]; [|apply A4, Hq]. unfold attr_given. rewrite Hv. apply dget_none; [apply seqb_eq|].
        intros Hc. apply H1, A3, Hc.
    + destruct (basic_trip _ _ B) as (s & T1 & T2).
      assert (Fr : ~ In (pr_xml p) (map fst at0)) by (apply F; left; reflexivity).
      assert (NN : NoDup (map fst (at0 ++ [(pr_xml p, s)]))).
      { rewrite map_app. simpl. apply NoDup_app_last; assumption. }
      destruct (IH (at0 ++ [(pr_xml p, s)])) as (at1 & A1 & A2 & A3 & A4); auto.
      { intros q Hq; apply I; right; exact Hq. } { intros q Hq; apply K; right; exact Hq. }
      { intros q Hq Hc. rewrite map_app in Hc. apply in_app_or in Hc as [Hc|[Hc|[]]]; [apply (F q); [right|]; assumption|].
        simpl in Hc. apply H1. rewrite Hc. apply in_map, Hq. }
      exists ((pr_xml p, s) :: at1). rewrite <- app_assoc in A1, A2. split; [|split; [exact A2 | split]].
      * apply ok_bind. exists (Node tag (at0 ++ [(pr_xml p, s)]) tx ks). split; [|exact A1].
        unfold add_attribute. rewrite wf_get, Hv. simpl. apply ok_bind. exists (v, write sf classes v). split; [reflexivity|].
        cbn [fst]. apply ok_bind. exists v. assert (NV : v <> VNone) by (intros ->; exact (basic_not_none _ B)).
        destruct v; try congruence; (split; [reflexivity|]; apply ok_bind; exists s; split; [exact T1|];
          apply ok_ret, set_attr_fresh; exact Fr).
      * intros x [<-|Hx]; [left; reflexivity | right; apply A3, Hx].
      * intros q [<-|Hq].
        -- unfold attr_given. rewrite Hv. simpl. rewrite String.eqb_refl.
           assert (NV : v <> VNone) by (intros ->; exact (basic_not_none _ B)). destruct v; try congruence; eauto.
        -- specialize (A4 q Hq). unfold attr_given in *. assert (E : String.eqb (pr_xml q) (pr_xml p) = false).
           { destruct (String.eqb (pr_xml q) (pr_xml p)) eqn:E; [|reflexivity]. apply String.eqb_eq in E. exfalso; apply H1.
             rewrite <- E. apply in_map, Hq. }
           simpl. rewrite E. exact A4.
Qed.

(** [trip tag t v]: writing [v] into a new element [tag] works, and reading that element gives [v] *)
Definition trip (tag : string) (t : vtype) (v : value) : Prop :=
  exists at_ tx ks, ok (write sf classes v t (Node tag [] None [])) (Node tag at_ tx ks) /\
    ok (from_xml pf classes (Node tag at_ tx ks) t) v.
Notation kids_of := (kids_of pf classes).
Lemma kids_app a b : kids_of (a ++ b) = kids_of a ++ kids_of b.
Proof. unfold XmlModel.kids_of. rewrite flat_map_app; reflexivity. Qed.

Lemma dg_app_kid k (a b : list kid) : dg k (a ++ b) = match dg k a with Some v => Some v | None => dg k b end.
Proof. exact (dg_app k a b). Qed.

Hypothesis FN : forall p, In p ps -> pr_kind p = PElement -> dg (pr_var p) fs = Some VNone -> omitted p.
Hypothesis FE : forall p v, In p ps -> pr_kind p = PElement -> dg (pr_var p) fs = Some v -> v <> VNone ->
  trip (pr_xml p) (pr_type p) v.
Definition elem_given (p : param) (ks : list kid) : Prop :=
  match dg (pr_var p) fs with
  | Some VNone => dg (pr_xml p) ks = None
  | Some v => exists k, dg (pr_xml p) ks = Some k /\ ok (k (pr_type p)) v
  | None => False
  end.
Lemma write_elems l tag at_ tx ks0 : incl l ps -> (forall p, In p l -> pr_kind p = PElement) -> NoDup (map pr_xml l) ->
  exists ks1, ok (xfold (add_element sf wf_of) l (Node tag at_ tx ks0)) (Node tag at_ tx (ks0 ++ ks1)) /\
    (forall x, In x (map fst (kids_of ks1)) -> In x (map pr_xml l)) /\
    (forall p, In p l -> elem_given p (kids_of ks1)).
Proof.
  revert ks0. induction l as [|p l IH]; intros ks0 I K N; simpl.
  - exists []. rewrite app_nil_r. split; [reflexivity|]. split; [intros x [] | intros p []].
  - inversion N; subst. pose proof (I p (or_introl eq_refl)) as Hp. pose proof (K p (or_introl eq_refl)) as Kp.
    destruct (HK p Hp) as [v Hv].
    assert (G : dg (pr_xml p) wf_of = Some (v, write sf classes v)).
    { rewrite <- (rt_names _ W p Hp Kp), wf_get, Hv. reflexivity. }
    assert (ND : v = VNone \/ v <> VNone) by (destruct v; [left; reflexivity | right; discriminate ..]).
    destruct ND as [-> | NV].
    + destruct (FN p Hp Kp Hv) as [R D].
      destruct (IH ks0) as (ks1 & A1 & A3 & A4); auto.
      { intros q Hq; apply I; right; exact Hq. } { intros q Hq; apply K; right; exact Hq. }
      exists ks1. split; [|split; [intros x Hx; right; apply A3, Hx|]].
      * apply ok_bind. exists (Node tag at_ tx ks0). split; [|exact A1]. unfold add_element. rewrite G. simpl.
        apply ok_bind. eexists. split; [reflexivity|]. simpl. rewrite R, D. reflexivity.
      * intros q [<-|Hq]; [|apply A4, Hq]. unfold elem_given. rewrite Hv. apply dget_none; [apply seqb_eq|].
        intros Hc. apply H1, A3, Hc.
    + destruct (FE p v Hp Kp Hv NV) as (a1 & t1 & k1 & T1 & T2). set (nk := Node (pr_xml p) a1 t1 k1) in *.
      destruct (IH (ks0 ++ [nk])) as (ks1 & A1 & A3 & A4); auto.
      { intros q Hq; apply I; right; exact Hq. } { intros q Hq; apply K; right; exact Hq. }
      exists (nk :: ks1). rewrite <- app_assoc in A1. split; [|split].
      * apply ok_bind. exists (Node tag at_ tx (ks0 ++ [nk])). split; [|exact A1]. unfold add_element. rewrite G.
        apply ok_bind. eexists. split; [reflexivity|]. cbn [fst snd].
        assert (S1 : ok (add_scalar p (write sf classes v) (Node tag at_ tx ks0)) (Node tag at_ tx (ks0 ++ [nk]))).
        { unfold add_scalar. rewrite (rt_raw _ W p Hp). apply ok_bind. exists nk. split; [exact T1 | reflexivity]. }
        destruct v; congruence || exact S1.
      * intros x [<-|Hx]; [left; reflexivity | right; apply A3, Hx].
      * intros q [<-|Hq].
        -- unfold elem_given. rewrite Hv. simpl. rewrite String.eqb_refl.
           assert (X : exists k, Some (from_xml pf classes nk) = Some k /\ ok (k (pr_type p)) v) by (eexists; split; [reflexivity | exact T2]).
           destruct v; try congruence; exact X.
        -- specialize (A4 q Hq). unfold elem_given in *. assert (E : String.eqb (pr_xml q) (pr_xml p) = false).
           { destruct (String.eqb (pr_xml q) (pr_xml p)) eqn:E; [|reflexivity]. apply String.eqb_eq in E. exfalso; apply H1.
             rewrite <- E. apply in_map, Hq. }
           simpl. rewrite E. exact A4.
Qed.

Hypothesis FO : forall t v, In (t, v) order -> exists p, In p ps /\ pr_kind p = PAggregate /\ pr_xml p = t.
Hypothesis FT : forall t v p, In (t, v) order -> In p ps -> pr_kind p = PAggregate -> pr_xml p = t -> trip t (pr_type p) v.
Definition agg_given (o : string * value) (k : kid) : Prop :=
  fst o = fst k /\ exists p, agg_of ps (fst k) = Some p /\ ok (snd k (pr_type p)) (snd o).
Lemma write_aggs l tag at_ tx ks0 : incl l order ->
  exists ks1, ok (xfold (add_aggregate_xml ps) (map (fun p => (fst p, write sf classes (snd p))) l) (Node tag at_ tx ks0))
                 (Node tag at_ tx (ks0 ++ ks1)) /\ Forall2 agg_given l (kids_of ks1).
Proof.
  revert ks0. induction l as [|[t v] l IH]; intros ks0 I; simpl.
  - exists []. rewrite app_nil_r. split; [reflexivity | constructor].
  - pose proof (I (t, v) (or_introl eq_refl)) as Hin. destruct (FO t v Hin) as (p & Hp & Kp & Xp).
    destruct (FT t v p Hin Hp Kp Xp) as (a1 & t1 & k1 & T1 & T2). set (nk := Node t a1 t1 k1) in *.
    destruct (IH (ks0 ++ [nk])) as (ks1 & A1 & A2); [intros q Hq; apply I; right; exact Hq|].
    exists (nk :: ks1). rewrite <- app_assoc in A1. split.
    + apply ok_bind. exists (Node tag at_ tx (ks0 ++ [nk])). split; [|exact A1]. unfold add_aggregate_xml. simpl.
      apply ok_bind. exists p. split.
      * apply ok_xopt. rewrite <- Xp. apply find_elem_in; [apply W | exact Hp | congruence].
      * unfold add_scalar. rewrite (rt_raw _ W p Hp). apply ok_bind. exists nk. rewrite Xp. split; [exact T1 | reflexivity].
    + simpl. constructor; [|exact A2]. split; [reflexivity|]. exists p. split; [|exact T2]. simpl. rewrite <- Xp.
      apply agg_of_in; [apply W | exact Hp | exact Kp].
Qed.

Hypothesis FK : map fst fs = map fst (cl_init c) ++ missing c.
Hypothesis FI : forall x, (forall p, In p ps -> pr_var p <> x) -> dg x fs = dg x (cl_init c).
Hypothesis FL : forall p, In p ps -> pr_kind p = PAggregate ->
  dg (pr_var p) fs = Some (VList (map snd (filter (fun o => String.eqb (fst o) (pr_xml p)) order))).
Hypothesis FC : ok (cl_check c fs) tt.
Variable cname : string.
Hypothesis Hcn : classes cname = Some c.

Lemma given_fun attrs ks p v w : given pf attrs ks p v -> given pf attrs ks p w -> v = w.
Proof.
  unfold given. destruct (pr_kind p).
  - destruct (dg (pr_xml p) attrs); [apply ok_fun | intros [_ ->] [_ ->]; reflexivity].
  - destruct (dg (pr_xml p) ks); [apply ok_fun | intros [_ ->] [_ ->]; reflexivity].
  - intros (l & -> & F) (m & -> & G). f_equal. revert m G. induction F; intros m G; inversion G; subst; [reflexivity|].
    f_equal; [eapply ok_fun; eassumption | apply IHF; assumption].
Qed.
Lemma keys_det (f : fields) : extends (cl_init c) f ->
  (forall x, (forall p, In p ps -> pr_var p <> x) -> dg x f = dg x (cl_init c)) ->
  (forall p, In p ps -> exists v, dg (pr_var p) f = Some v) -> map fst f = map fst (cl_init c) ++ missing c.
Proof.
  clear FA HK FK FI FL FC. intros (t & E & N) HI HV. specialize (N (wf_init _ (rt_wf _ W))). rewrite E. f_equal. rewrite E in N.
  assert (Nt : NoDup t) by (clear -N; induction (map fst (cl_init c)); simpl in N; [exact N | inversion N; auto]).
  assert (S1 : forall x, In x t <-> In x (missing c)).
  { intros x. unfold missing. rewrite filter_In. split.
    - intros Hx. assert (NI : ~ In x (map fst (cl_init c))).
      { clear -N Hx. induction (map fst (cl_init c)) as [|y l IH]; simpl in *; [tauto|]. inversion N; subst.
        intros [->|Hc]; [apply H1, in_or_app; auto | apply IH; assumption]. }
      assert (DN : dg x (cl_init c) = None) by (apply dget_none; [apply seqb_eq | exact NI]). rewrite DN. split; [|reflexivity].
      destruct (in_dec string_dec x (map pr_var ps)) as [Y|Y]; [exact Y|]. exfalso.
      assert (DX : dg x f = None).
      { rewrite HI; [exact DN|]. intros p Hp <-. apply Y, in_map, Hp. }
      apply dget_none in DX; [|apply seqb_eq]. apply DX. rewrite E. apply in_or_app; auto.
    - intros [Hx Hn]. apply in_map_iff in Hx as (p & <- & Hp). destruct (HV p Hp) as [v Hv].
      assert (K : In (pr_var p) (map fst f)).
      { destruct (in_dec string_dec (pr_var p) (map fst f)) as [Y|Y]; [exact Y|]. apply (dget_none _ seqb_eq) in Y. congruence. }
      rewrite E in K. apply in_app_or in K as [K|K]; [|exact K]. exfalso.
      destruct (dg (pr_var p) (cl_init c)) eqn:D; [discriminate|]. apply (dget_none _ seqb_eq) in D. contradiction. }
  pose proof (rt_missing _ W) as M. destruct (missing c) as [|m [|m2 r]]; simpl in M; [| |lia].
  - destruct t as [|x t]; [reflexivity|]. destruct (proj1 (S1 x) (or_introl eq_refl)).
  - destruct t as [|x t]; [destruct (proj2 (S1 m) (or_introl eq_refl))|].
    destruct (proj1 (S1 x) (or_introl eq_refl)) as [<-|[]]. destruct t as [|y t]; [reflexivity|].
    destruct (proj1 (S1 y) (or_intror (or_introl eq_refl))) as [<-|[]]. inversion Nt; subst. exfalso; apply H1; left; reflexivity.
Qed.

(** the object as a whole *)
Lemma obj_trip tag : exists at_ ks,
  ok (write_obj sf classes cname fs wf_of (map (fun p => (fst p, write sf classes (snd p))) order) (Node tag [] None [])) (Node tag at_ None ks) /\
  NoDup (map fst at_) /\ (forall x, In x (map fst (kids_of ks)) -> find_elem ps x <> None) /\
  ok (read_obj pf classes cname at_ (kids_of ks)) (VObj cname fs order).
Proof.
  destruct (write_attrs (filter (is_kind PAttribute) ps) tag [] None []) as (at1 & A1 & A2 & A3 & A4).
  { intros p Hp; apply filter_In in Hp; tauto. }
  { intros p Hp; apply filter_In in Hp as [_ Hp]; apply kind_attr, Hp. }
  { apply (wf_attrs _ (rt_wf _ W)). } { intros p _ []. } { constructor. }
  destruct (write_elems (filter (is_kind PElement) ps) tag at1 None []) as (ks1 & B1 & B2 & B3).
  { intros p Hp; apply filter_In in Hp; tauto. }
  { intros p Hp; apply filter_In in Hp as [_ Hp]; apply kind_elem, Hp. }
  { apply scalars_nodup, W. }
  destruct (write_aggs order tag at1 None ks1) as (ks2 & C1 & C2); [apply incl_refl|].
  simpl in A1, A2, B1.
  (* aggregates are listed only by classes that have some *)
  assert (AG : existsb (is_kind PAggregate) ps = false -> order = []).
  { intros E. destruct order as [|[t v] o]; [reflexivity|]. destruct (FO t v (or_introl eq_refl)) as (p & Hp & Kp & _).
    apply kind_agg in Kp. assert (existsb (is_kind PAggregate) ps = true) by (apply existsb_exists; eauto). congruence. }
  assert (T2 : forall k, In k (kids_of ks2) -> exists p, In p ps /\ pr_kind p = PAggregate /\ pr_xml p = fst k).
  { intros k Hk. destruct (Forall2_ex (fun k o => agg_given o k) (kids_of ks2) order k) as [o Ho]; [|exact Hk|].
    - clear -C2. induction C2; constructor; auto.
    - destruct Ho as (_ & p & Hp & _). exists p. apply agg_of_some, Hp. }
  exists at1, (ks1 ++ ks2).
  assert (RD : ok (read_obj pf classes cname at1 (kids_of (ks1 ++ ks2))) (VObj cname fs order)).
  { rewrite kids_app.
    assert (GV : forall p, In p ps -> exists v, dg (pr_var p) fs = Some v /\ given pf at1 (kids_of ks1 ++ kids_of ks2) p v).
    { intros p Hp. destruct (HK p Hp) as [v Hv]. exists v. split; [exact Hv|]. unfold given. destruct (pr_kind p) eqn:Kp.
      - assert (Hf : In p (filter (is_kind PAttribute) ps)) by (apply filter_In; split; [exact Hp | apply kind_attr, Kp]).
        specialize (A4 p Hf). unfold attr_given in A4. rewrite Hv in A4. destruct (FA p v Hp Kp Hv) as [[-> [R D]]|B].
        + rewrite A4. auto.
        + assert (NV : v <> VNone) by (intros ->; exact (basic_not_none _ B)).
          assert (X : exists s, dg (pr_xml p) at1 = Some s /\ ok (from_string pf (pr_type p) (Some s)) v) by (destruct v; congruence || exact A4).
          destruct X as (s & S1 & S2). rewrite S1. exact S2.
      - assert (Hf : In p (filter (is_kind PElement) ps)) by (apply filter_In; split; [exact Hp | apply kind_elem, Kp]).
        specialize (B3 p Hf). unfold elem_given in B3. rewrite Hv in B3. rewrite dg_app_kid.
        assert (ND : v = VNone \/ v <> VNone) by (destruct v; [left; reflexivity | right; discriminate ..]). destruct ND as [->|NV].
        + rewrite B3. assert (N2 : dg (pr_xml p) (kids_of ks2) = None).
          { apply dget_none; [apply seqb_eq|]. intros Hc. apply in_map_iff in Hc as (k & Ek & Hk).
            destruct (T2 k Hk) as (q & Hq & Kq & Xq).
            pose proof (find_elem_in c (rt_wf _ W) p Hp ltac:(congruence)) as F1.
            pose proof (find_elem_in c (rt_wf _ W) q Hq ltac:(congruence)) as F2. congruence. }
          rewrite N2. destruct (FN p Hp Kp Hv) as [R D]. auto.
        + assert (X : exists k, dg (pr_xml p) (kids_of ks1) = Some k /\ ok (k (pr_type p)) v) by (destruct v; congruence || exact B3).
          destruct X as (k & K1 & K2). rewrite K1. exact K2.
      - rewrite (FL p Hp Kp) in Hv. inversion Hv; subst v. eexists. split; [reflexivity|]. rewrite filter_app.
        assert (E1 : filter (fun k : kid => String.eqb (fst k) (pr_xml p)) (kids_of ks1) = []).
        { destruct (filter _ (kids_of ks1)) as [|k r] eqn:E; [reflexivity|]. exfalso.
          assert (Hk : In k (filter (fun k : kid => String.eqb (fst k) (pr_xml p)) (kids_of ks1))) by (rewrite E; left; reflexivity).
          apply filter_In in Hk as [Hk Ek]. apply String.eqb_eq in Ek.
          assert (Hx : In (pr_xml p) (map pr_xml (filter (is_kind PElement) ps))) by (apply B2; rewrite <- Ek; apply in_map, Hk).
          apply in_map_iff in Hx as (q & Eq & Hq). apply filter_In in Hq as [Hq Kq]. apply kind_elem in Kq.
          pose proof (find_elem_in c (rt_wf _ W) p Hp ltac:(congruence)) as F1.
          pose proof (find_elem_in c (rt_wf _ W) q Hq ltac:(congruence)) as F2. congruence. }
        match goal with |- Forall2 _ (?A ++ _) _ => change A with (filter (fun k : kid => String.eqb (fst k) (pr_xml p)) (kids_of ks1)) end.
        rewrite E1. simpl. pose proof (agg_of_in c (rt_wf _ W) p Hp Kp) as AP. fold ps in AP. clear -C2 AP.
        induction C2 as [|o k l l' R C IH]; simpl; [constructor|]. destruct R as (E & q & Q1 & Q2). rewrite E.
        destruct (String.eqb (fst k) (pr_xml p)) eqn:Ek; [|exact IH]. simpl. constructor; [|exact IH].
        apply String.eqb_eq in Ek. rewrite Ek in Q1. assert (q = p) by congruence. subst q. exact Q2. }
    destruct (read_obj_run pf c (rt_wf _ W) classes cname Hcn at1 (kids_of ks1 ++ kids_of ks2) A2) as (f & o & R & S1).
    { intros p Hp. destruct (GV p Hp) as (v & _ & G). eauto. }
    destruct R as (R1 & R2 & R3 & R4).
    assert (Ef : f = fs).
    { apply dict_ext.
      - destruct R3 as (t & _ & N). apply N, (wf_init _ (rt_wf _ W)).
      - rewrite FK. apply keys_det; [exact R3 | exact R2|]. intros p Hp. destruct (R1 p Hp) as (v & V & _). eauto.
      - intros x. destruct (in_dec string_dec x (map pr_var ps)) as [Y|Y].
        + apply in_map_iff in Y as (p & <- & Hp). destruct (R1 p Hp) as (v & V1 & V2), (GV p Hp) as (w & W1 & W2).
          rewrite V1, W1. f_equal. eapply given_fun; eassumption.
        + assert (NX : forall p, In p ps -> pr_var p <> x) by (intros p Hp <-; apply Y, in_map, Hp). rewrite R2, FI by exact NX. reflexivity. }
    assert (Eo : o = order).
    { unfold ordered in R4. rewrite filter_app in R4.
      assert (E1 : filter (fun k : kid => match agg_of (cl_params c) (fst k) with Some _ => true | None => false end) (kids_of ks1) = []).
      { destruct (filter _ (kids_of ks1)) as [|k r] eqn:E; [reflexivity|]. exfalso.
        assert (Hk : In k (k :: r)) by (left; reflexivity). rewrite <- E in Hk.
        apply filter_In in Hk as [Hk Ek]. destruct (agg_of (cl_params c) (fst k)) as [p|] eqn:Ea; [|discriminate].
        apply agg_of_some in Ea as (Hp & Kp & Xp).
        assert (Hx : In (pr_xml p) (map pr_xml (filter (is_kind PElement) ps))) by (apply B2; rewrite Xp; apply in_map, Hk).
        apply in_map_iff in Hx as (q & Eq & Hq). apply filter_In in Hq as [Hq Kq]. apply kind_elem in Kq.
        pose proof (find_elem_in c (rt_wf _ W) p Hp ltac:(congruence)) as F1.
        pose proof (find_elem_in c (rt_wf _ W) q Hq ltac:(congruence)) as F2. congruence. }
      match type of R4 with Forall2 _ (?A ++ _) _ =>
        change A with (filter (fun k : kid => match agg_of (cl_params c) (fst k) with Some _ => true | None => false end) (kids_of ks1)) in R4 end.
      rewrite E1 in R4. simpl in R4. fold ps in R4. clear -C2 R4. revert o R4.
      induction C2 as [|[t v] [t' k] l l' R C IH]; intros o R4; simpl in R4.
      - inversion R4; reflexivity.
      - destruct R as (E & q & Q1 & Q2). simpl in E, Q1, Q2. subst t'. rewrite Q1 in R4. inversion R4 as [|? o1 ? o' D1 D2]; subst.
        destruct D1 as (D1 & q' & D3 & D4). simpl in D1, D3, D4. rewrite (IH _ D2). f_equal. destruct o1 as [t1 v1]. simpl in *. subst t1.
        f_equal. assert (q' = q) by congruence. subst q'. symmetry. eapply ok_fun; eassumption. }
    unfold ok. rewrite S1, Ef, Eo. unfold ok in FC. rewrite FC. reflexivity. }
  split; [|split; [exact A2 | split; [|exact RD]]].
  - unfold write_obj. rewrite Hcn. fold ps. cbv zeta. apply ok_bind. exists tt. split; [exact FC|].
    apply ok_bind. eexists. split; [exact A1|]. apply ok_bind. eexists. split; [exact B1|].
    destruct (existsb (is_kind PAggregate) ps) eqn:E; [exact C1|].
    rewrite (AG eq_refl) in C1. exact C1.
  - intros x Hx. rewrite kids_app, map_app in Hx. apply in_app_or in Hx as [Hx|Hx].
    + apply B2 in Hx. apply in_map_iff in Hx as (p & <- & Hp). apply filter_In in Hp as [Hp Kp]. apply kind_elem in Kp.
      pose proof (find_elem_in c (rt_wf _ W) p Hp ltac:(congruence)) as F. fold ps in F. rewrite F. discriminate.
    + apply in_map_iff in Hx as (k & <- & Hk). destruct (T2 k Hk) as (p & Hp & Kp & <-).
      pose proof (find_elem_in c (rt_wf _ W) p Hp ltac:(congruence)) as F. fold ps in F. rewrite F. discriminate.
Qed.
End Obj.

(** ** All typed values *)
Definition otrip (tag cname : string) (v : value) : Prop :=
  exists c fs order at_ ks, classes cname = Some c /\ v = VObj cname fs order /\
    ok (write_obj sf classes cname fs (wf_of fs) (map (fun p => (fst p, write sf classes (snd p))) order) (Node tag [] None [])) (Node tag at_ None ks) /\
    NoDup (map fst at_) /\ (forall x, In x (map fst (kids_of pf classes ks)) -> find_elem (cl_params c) x <> None) /\
    ok (read_obj pf classes cname at_ (kids_of pf classes ks)) v.

Lemma write_obj_eq c fs order t n :
  match t with TObj _ | TDuck _ => True | _ => False end ->
  write sf classes (VObj c fs order) t n =
  write_obj sf classes c fs (wf_of fs) (map (fun p => (fst p, write sf classes (snd p))) order) n.
Proof. destruct t; intros H; contradiction || reflexivity. Qed.
Lemma from_xml_eq tag at_ tx ks t : from_xml pf classes (Node tag at_ tx ks) t =
  interp pf classes (Node tag at_ tx ks) at_ tx (kids_of pf classes ks) t.
Proof. reflexivity. Qed.

Lemma set_attrs_all l tag at0 tx ks : NoDup (map fst (at0 ++ l)) ->
  fold_left (fun n av => set_attr (fst av) (snd av) n) l (Node tag at0 tx ks) = Node tag (at0 ++ l) tx ks.
Proof.
  revert at0. induction l as [|[a s] l IH]; intros at0 N; [rewrite app_nil_r; reflexivity|]. cbn [fold_left fst snd].
  rewrite set_attr_fresh.
  - rewrite IH; rewrite <- app_assoc; [reflexivity | exact N].
  - rewrite map_app in N. simpl in N. apply NoDup_remove_2 in N. intros Hc; apply N, in_or_app; auto.
Qed.
Lemma append_all l tag at_ tx ks : fold_left append l (Node tag at_ tx ks) = Node tag at_ tx (ks ++ l).
Proof.
  revert ks. induction l as [|k l IH]; intros ks; [rewrite app_nil_r; reflexivity|]. simpl. rewrite IH, <- app_assoc. reflexivity.
Qed.
Lemma filter_all {A} (f : A -> bool) l : forallb f l = true -> filter f l = l.
Proof. induction l; simpl; intros H; [reflexivity|]. apply andb_true_iff in H as [-> H]. rewrite IHl by exact H. reflexivity. Qed.

Theorem typed_trip :
  (forall tag t v, typed tag t v -> trip tag t v) /\ (forall tag c v, tobj tag c v -> otrip tag c v).
Proof.
  apply typed_mut.
  - (* basic *) intros tag t v B. destruct (basic_trip t v B) as (s & T1 & T2).
    exists [], (Some s), []. destruct B; (split; [apply ok_bind; exists s; split; [exact T1 | reflexivity] | exact T2]).
  - (* simple *) intros tag a t v B. destruct (basic_trip t v B) as (s & T1 & T2).
    exists [(a, s)], None, []. split.
    + assert (L : ok (write_leaf sf (TSimple a t) (Node tag [] None []) v) (Node tag [(a, s)] None [])).
      { simpl. apply ok_bind. exists s. split; [exact T1 | reflexivity]. }
      destruct B; exact L.
    + rewrite from_xml_eq. simpl. rewrite String.eqb_refl. exact T2.
  - (* raw *) intros tag attrs kids N F. exists attrs, None, kids. split; [|reflexivity].
    simpl. apply ok_ret. rewrite (filter_all _ _ F), append_all. apply (set_attrs_all attrs tag []). exact N.
  - (* object *) intros tag c v _ (cl & fs & order & at_ & ks & Hc & -> & O1 & O2 & _ & O3). exists at_, None, ks.
    split; [rewrite write_obj_eq by exact I; exact O1 | exact O3].
  - (* geometry *) intros tag tab nm c v Hf Hd _ (cl & fs & order & at_ & ks & Hc & -> & O1 & O2 & _ & O3).
    exists [], None, [Node nm at_ None ks]. split.
    + simpl. apply ok_bind. exists (nm, c). split; [apply ok_xopt, Hf|]. apply ok_bind. eexists. split; [exact O1 | reflexivity].
    + rewrite from_xml_eq. simpl. apply ok_bind. exists c. split; [apply ok_xopt, Hd | exact O3].
  - (* duck typing *) intros tag cs1 c cs2 cl v Hcl Hd _ (cl' & fs & order & at_ & ks & Hc & -> & O1 & O2 & OK & O3).
    assert (cl' = cl) by congruence. subst cl'. exists at_, None, ks. split; [rewrite write_obj_eq by exact I; exact O1|].
    rewrite from_xml_eq. simpl. clear O1. induction cs1 as [|c1 cs1 IH]; simpl.
    + unfold ok in O3. destruct (read_obj pf classes c at_ (kids_of pf classes ks)) as [w [x|e]]; simpl in O3; [|discriminate].
      exact O3.
    + destruct (Hd c1 (or_introl eq_refl)) as (cl1 & p & H1 & H2 & H3 & H4 & H5 & H6).
      destruct (read_obj_fails pf cl1 H2 classes c1 H1 at_ (kids_of pf classes ks) p O2 H3) as [e He].
      { intros v G. unfold given in G. rewrite H4 in G. destruct (dg (pr_xml p) (kids_of pf classes ks)) as [k|] eqn:Ek.
        - apply (dget_in _ seqb_eq) in Ek. apply (in_map fst) in Ek. exact (OK _ Ek H6).
        - destruct G; congruence. }
      destruct (read_obj pf classes c1 at_ (kids_of pf classes ks)) as [w [x|e']]; simpl in He; [discriminate|].
      apply IH. intros c2 Hc2. apply Hd. right; exact Hc2.
  - (* fields *) intros tag cname c fs order Hc Wc K1 K2 K3 K4 K5 IH5 K6 K7 K8 IH8 K9.
    assert (HV : forall p, In p (cl_params c) -> exists v, dg (pr_var p) fs = Some v).
    { intros p Hp. destruct (dg (pr_var p) fs) as [v|] eqn:E; [eauto|]. exfalso. apply (dget_none _ seqb_eq) in E. apply E.
      rewrite K1. apply in_or_app. destruct (dg (pr_var p) (cl_init c)) eqn:D.
      - left. destruct (in_dec string_dec (pr_var p) (map fst (cl_init c))) as [Y|Y]; [exact Y|]. apply (dget_none _ seqb_eq) in Y. congruence.
      - right. unfold missing. apply filter_In. rewrite D. split; [apply in_map, Hp | reflexivity]. }
    destruct (obj_trip c fs order Wc K3 HV K4 IH5 K7 IH8 K1 K2 K6 K9 cname Hc tag) as (at_ & ks & O1 & O2 & O3 & O4).
    exists c, fs, order, at_, ks. auto 10.
Qed.
(** the document written for an object reads back as that object *)
Theorem round_trip cname c tg v : classes cname = Some c -> cl_tag c = Some tg -> tobj tg cname v ->
  exists n, ok (to_xml sf classes v) n /\ ok (from_doc pf classes cname n) v.
Proof.
  intros Hc Ht H. apply (proj2 typed_trip) in H as (c' & fs & order & at_ & ks & H1 & -> & O1 & O2 & O3 & O4).
  exists (Node tg at_ None ks). split; [|exact O4]. unfold to_xml. rewrite Hc. apply ok_bind. exists tg.
  split; [apply ok_xopt, Ht|]. rewrite write_obj_eq by exact I. exact O1.
Qed.
End Write.
