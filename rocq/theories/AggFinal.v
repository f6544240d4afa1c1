(** Last steps of the proofs quoted in Properties_Agg.v. *)
From Coq Require Import String Bool Arith Lia List.
From Verif Require Import Prelude RobotModel XmlModel XmlSchema AggModel SpecAgg.
Import ListNotations.
Local Open Scope string_scope.
Local Open Scope list_scope.

Section Agg.
Context {A : Type}.
Variable eqb : A -> A -> bool.
Hypothesis eqb_eq : forall a b, eqb a b = true <-> a = b.
Variable aggs : list (string * string).
Variable params : dict string string.

Lemma eqb_ne a b : a <> b -> eqb a b = false.
Proof. intros H. destruct (eqb a b) eqn:E; [apply eqb_eq in E; contradiction|reflexivity]. Qed.
Lemma eqb_same a : eqb a a = true. Proof. now apply eqb_eq. Qed.

Lemma list_remove_some x l : In x l -> NoDup l -> list_remove eqb x l = Some (filter (fun y => negb (eqb y x)) l).
Proof.
  induction l as [|y r IH]; intros H N; [destruct H|]. cbn.
  inversion N; subst. destruct (eqb y x) eqn:E.
  - apply eqb_eq in E. subst y. cbn. f_equal. clear -eqb_eq H2. induction r as [|z r IH]; [reflexivity|]. cbn.
    rewrite (eqb_ne z x) by (intros ->; apply H2; left; reflexivity). cbn. f_equal. apply IH. intros K. apply H2. right. exact K.
  - destruct H as [->|H]; [rewrite eqb_same in E; discriminate|]. rewrite IH by assumption. reflexivity.
Qed.
Lemma list_remove_none x l : list_remove eqb x l = None <-> ~ In x l.
Proof.
  induction l as [|y r IH]; cbn; [tauto|]. destruct (eqb y x) eqn:E.
  - apply eqb_eq in E. split; [discriminate|tauto].
  - destruct (list_remove eqb x r); cbn; split; try discriminate; intros H.
    + destruct IH as [_ IH]. exfalso. assert (K : ~ In x r) by tauto. apply IH in K. discriminate.
    + destruct IH as [IH _]. intros [->|K]; [rewrite eqb_same in E; discriminate|]. now apply IH.
    + reflexivity.
Qed.
Lemma list_remove_count x l l' : list_remove eqb x l = Some l' -> forall i j, i <> j -> nth_error l i = Some x -> nth_error l j = Some x -> In x l'.
Proof.
  revert l'. induction l as [|y r IH]; intros l' H i j Hij Hi Hj; [destruct i; discriminate|]. cbn in H.
  destruct (eqb y x) eqn:E.
  - assert (l' = r) by congruence. subst l'. destruct i as [|i]; [destruct j as [|j]; [contradiction|]|]; cbn in *; eapply nth_error_In; eassumption.
  - destruct (list_remove eqb x r) as [r'|] eqn:R; [|discriminate]. cbn in H. assert (l' = y :: r') by congruence. subst l'. right.
    destruct i as [|i]; [cbn in Hi; assert (y = x) by congruence; subst y; rewrite eqb_same in E; discriminate|].
    destruct j as [|j]; [cbn in Hj; assert (y = x) by congruence; subst y; rewrite eqb_same in E; discriminate|].
    apply (IH r' eq_refl i j); auto.
Qed.
Lemma dict_del_other {W} x y (d : dict A W) : x <> y -> dget eqb y (dict_del eqb x d) = dget eqb y d.
Proof.
  intros H. unfold dict_del. induction d as [|[k v] d IH]; cbn; [reflexivity|]. destruct (eqb k x) eqn:E; cbn.
  - apply eqb_eq in E. subst k. rewrite (eqb_ne y x) by congruence. exact IH.
  - rewrite IH. reflexivity.
Qed.
Lemma dict_del_same {W} x (d : dict A W) : dget eqb x (dict_del eqb x d) = None.
Proof.
  unfold dict_del. induction d as [|[k v] d IH]; cbn; [reflexivity|]. destruct (eqb k x) eqn:E; cbn; [exact IH|].
  destruct (eqb x k) eqn:E'; [|exact IH]. apply eqb_eq in E'. subst k. rewrite eqb_same in E. discriminate.
Qed.

(** the state holds just these values *)
Definition holds (l : list (string * A)) (s : ag A) : Prop :=
  NoDup (map snd l) /\ ag_order s = map snd l
  /\ (forall xml x, In (xml, x) l -> dget eqb x (ag_type s) = Some xml /\ In xml (map fst aggs))
  /\ (forall xml var, In (xml, var) aggs -> dget String.eqb var (ag_lists s) = Some (named xml l)).

Lemma holds_new : declared aggs params -> holds [] (ag_new aggs).
Proof.
  intros (N & _). split; [constructor|]. split; [reflexivity|]. split; [intros ? ? []|].
  intros xml var H. cbn. clear params. unfold ag_new. cbn.
  induction aggs as [|[a b] r IH]; [destruct H|]. cbn. cbn in N. inversion N; subst. destruct (String.eqb var b) eqn:E; [reflexivity|].
  destruct H as [H|H]; [assert (b = var) by congruence; subst b; rewrite String.eqb_refl in E; discriminate|]. now apply IH.
Qed.
Lemma var_inj xml xml' var : declared aggs params -> In (xml, var) aggs -> In (xml', var) aggs -> xml = xml'.
Proof.
  intros (N & _). clear params. induction aggs as [|[a b] r IH]; intros H K; [destruct H|]. cbn in N. inversion N; subst.
  assert (M : forall z, In (z, b) r -> False) by (intros z Hz; apply H2; apply in_map_iff; exists (z, b); auto).
  destruct H as [H|H], K as [K|K].
  - congruence.
  - exfalso. apply (M xml'). assert (b = var) by congruence. now subst b.
  - exfalso. apply (M xml). assert (b = var) by congruence. now subst b.
  - now apply IH.
Qed.
Lemma agg_in xml : In xml (map fst aggs) -> exists var, In (xml, var) aggs.
Proof. intros H. apply in_map_iff in H. destruct H as ((a & b) & E & H). cbn in E. subst a. eauto. Qed.

Lemma get_list xml var l (s : ag A) : declared aggs params -> In (xml, var) aggs -> dget String.eqb var (ag_lists s) = Some l ->
  get_aggregate_list params xml s = Ok (var, l).
Proof. intros D H G. unfold get_aggregate_list. rewrite (proj2 D _ _ H). cbn. rewrite G. reflexivity. Qed.

Lemma named_app xml (l r : list (string * A)) : named xml (l ++ r) = named xml l ++ named xml r.
Proof. unfold named. rewrite filter_app, map_app. reflexivity. Qed.
Lemma nodup_snoc (l : list A) x : NoDup l -> ~ In x l -> NoDup (l ++ [x]).
Proof.
  intros N H. induction l as [|y l IH]; cbn; [constructor; [intros []|constructor]|]. inversion N; subst. constructor.
  - intros K. apply in_app_or in K. destruct K as [K|[->|[]]]; [contradiction|]. apply H. left. reflexivity.
  - apply IH; [assumption|]. intros K. apply H. right. exact K.
Qed.
Lemma map_filter_snd x (l : list (string * A)) :
  map snd (filter (fun e => negb (eqb (snd e) x)) l) = filter (fun y => negb (eqb y x)) (map snd l).
Proof. induction l as [|[a b] l IH]; cbn; [reflexivity|]. destruct (eqb b x); cbn; now rewrite IH. Qed.
Lemma named_filter x xml (l : list (string * A)) :
  named xml (filter (fun e => negb (eqb (snd e) x)) l) = filter (fun y => negb (eqb y x)) (named xml l).
Proof.
  unfold named. induction l as [|[a b] l IH]; cbn; [reflexivity|].
  destruct (eqb b x) eqn:E; cbn; destruct (String.eqb a xml) eqn:F; cbn; rewrite ?E; cbn; now rewrite IH.
Qed.
Lemma filter_all (x : A) l : ~ In x l -> filter (fun y => negb (eqb y x)) l = l.
Proof.
  induction l as [|y l IH]; intros H; cbn; [reflexivity|]. rewrite eqb_ne by (intros ->; apply H; left; reflexivity). cbn. f_equal.
  apply IH. intros K. apply H. right. exact K.
Qed.
Lemma nodup_named xml (l : list (string * A)) : NoDup (map snd l) -> NoDup (named xml l).
Proof.
  unfold named. induction l as [|[a b] l IH]; cbn; intros N; [constructor|]. inversion N; subst. destruct (String.eqb a xml); cbn; [|auto].
  constructor; [|auto]. intros K. apply H1. apply in_map_iff in K. destruct K as (e & E & K). apply filter_In in K. apply in_map_iff. exists e. tauto.
Qed.
Lemma nodup_filter {B} (f : B -> bool) l : NoDup l -> NoDup (filter f l).
Proof. intros N. induction l; cbn; [constructor|]. inversion N; subst. destruct (f a); auto. constructor; auto. intros K. apply filter_In in K. tauto. Qed.
Lemma in_named xml x (l : list (string * A)) : In x (named xml l) <-> In (xml, x) l.
Proof.
  unfold named. rewrite in_map_iff. split.
  - intros ((a & b) & E & H). apply filter_In in H. destruct H as (H & K). cbn in *. apply String.eqb_eq in K. now subst.
  - intros H. exists (xml, x). split; [reflexivity|]. apply filter_In. split; [exact H|]. apply String.eqb_refl.
Qed.
Lemma fst_unique xml xml' x (l : list (string * A)) : NoDup (map snd l) -> In (xml, x) l -> In (xml', x) l -> xml = xml'.
Proof.
  induction l as [|[a b] l IH]; cbn; intros N H K; [destruct H|]. inversion N; subst.
  assert (M : forall z, In (z, b) l -> False) by (intros z Hz; apply H2; apply in_map_iff; exists (z, b); auto).
  destruct H as [H|H], K as [K|K].
  - congruence.
  - exfalso. apply (M xml'). assert (b = x) by congruence. now subst b.
  - exfalso. apply (M xml). assert (b = x) by congruence. now subst b.
  - now apply IH.
Qed.

Lemma holds_step l s o : declared aggs params -> holds l s -> allowed aggs l o ->
  exists s', do_op eqb params o s = Ok s' /\ holds (edit eqb l o) s'.
Proof.
  intros D (N & O & T & G) Al. destruct o as [xml x|x]; cbn [allowed do_op edit] in *.
  - destruct Al as (F & Hx). destruct (agg_in _ Hx) as (var & Hv). unfold add_aggregate. rewrite (get_list _ _ _ _ D Hv (G _ _ Hv)). cbn [rbind fst snd].
    eexists. split; [reflexivity|]. split; [rewrite map_app; apply nodup_snoc; assumption|]. cbn. split; [rewrite O, map_app; reflexivity|]. split.
    + intros xml' y Hy. apply in_app_or in Hy. destruct Hy as [Hy|[Hy|[]]].
      * rewrite (dget_dset_other _ eqb_eq); [now apply T|]. intros ->. apply F. apply in_map_iff. exists (xml', x). auto.
      * assert (xml = xml') by congruence. assert (x = y) by congruence. subst. rewrite (dget_dset_same _ eqb_eq). auto.
    + intros xml' var' Hv'. destruct (String.eqb var var') eqn:E.
      * apply String.eqb_eq in E. subst var'. rewrite (dget_dset_same _ seqb_eq). rewrite (var_inj _ _ _ D Hv Hv'), named_app.
        unfold named at 3. cbn. rewrite String.eqb_refl. reflexivity.
      * rewrite (dget_dset_other _ seqb_eq) by (intros ->; rewrite String.eqb_refl in E; discriminate). rewrite (G _ _ Hv'), named_app.
        unfold named at 3. cbn. destruct (String.eqb xml xml') eqn:E'; [|cbn; rewrite app_nil_r; reflexivity].
        apply String.eqb_eq in E'. subst xml'. exfalso.
        pose proof (proj2 D _ _ Hv) as K1. pose proof (proj2 D _ _ Hv') as K2. assert (var = var') by congruence. subst. rewrite String.eqb_refl in E. discriminate.
  - apply in_map_iff in Al. destruct Al as ((xml & y) & E & Hx). cbn in E. subst y.
    destruct (T _ _ Hx) as (Tx & Ix). destruct (agg_in _ Ix) as (var & Hv).
    unfold remove_aggregate. rewrite O, list_remove_some; [|apply in_map_iff; exists (xml, x); auto|assumption]. cbn [ag_type]. rewrite Tx.
    rewrite (get_list _ _ (named xml l) _ D Hv) by (cbn; apply G; exact Hv). cbn [snd fst].
    rewrite list_remove_some; [|apply in_named; exact Hx|now apply nodup_named]. cbn [rbind ag_lists ag_order ag_type].
    eexists. split; [reflexivity|]. split; [rewrite map_filter_snd; now apply nodup_filter|]. cbn. split; [rewrite map_filter_snd; reflexivity|]. split.
    + intros xml' y Hy. apply filter_In in Hy. destruct Hy as (Hy & Ey). cbn in Ey. rewrite dict_del_other; [now apply T|].
      intros ->. rewrite eqb_same in Ey. discriminate.
    + intros xml' var' Hv'. rewrite named_filter. destruct (String.eqb var var') eqn:E.
      * apply String.eqb_eq in E. subst var'. rewrite (dget_dset_same _ seqb_eq). rewrite (var_inj _ _ _ D Hv Hv'). reflexivity.
      * rewrite (dget_dset_other _ seqb_eq) by (intros ->; rewrite String.eqb_refl in E; discriminate). rewrite (G _ _ Hv'). f_equal. symmetry.
        apply filter_all. rewrite in_named. intros K. assert (xml' = xml) by (eapply fst_unique; eassumption). subst xml'.
        pose proof (proj2 D _ _ Hv) as K1. pose proof (proj2 D _ _ Hv') as K2. assert (var = var') by congruence. subst. rewrite String.eqb_refl in E. discriminate.
Qed.
Lemma holds_run os : forall l s, declared aggs params -> holds l s -> legal eqb aggs l os ->
  exists s', do_ops eqb params os s = Ok s' /\ holds (fold_left (edit eqb) os l) s'.
Proof.
  induction os as [|o os IH]; intros l s D H Lg; cbn [do_ops fold_left]; [eauto|].
  destruct Lg as (Al & Lg). destruct (holds_step _ _ _ D H Al) as (s' & -> & H'). cbn [rbind]. now apply IH.
Qed.
Lemma holds_written l s : holds l s -> written eqb s = Ok l.
Proof.
  intros (_ & O & T & _). unfold written. rewrite O. clear O.
  assert (K : forall r, (forall xml x, In (xml, x) r -> dget eqb x (ag_type s) = Some xml) ->
    rmap (fun x => do xml <- of_opt KeyError (dget eqb x (ag_type s)); Ok (xml, x)) (map snd r) = Ok r).
  { induction r as [|[a b] r IH]; intros H; cbn; [reflexivity|]. rewrite (H a b) by (left; reflexivity). cbn. rewrite IH; [reflexivity|].
    intros. apply H. right. assumption. }
  apply K. intros xml x Hx. now apply T.
Qed.

Lemma written_bad (s : ag A) x : In x (ag_order s) -> dget eqb x (ag_type s) = None -> written eqb s = Err KeyError.
Proof.
  unfold written. generalize (ag_order s). induction l as [|y r IH]; intros H N; [destruct H|]. cbn.
  destruct (dget eqb y (ag_type s)) eqn:E; [|reflexivity]. cbn. destruct H as [->|H]; [congruence|]. now rewrite IH.
Qed.

(** lumping *)
Lemma lump_step fuel xml var (s : ag A) l : declared aggs params -> plural aggs params -> In (xml, var) aggs -> dget String.eqb var (ag_lists s) = Some l ->
  fuel <> 0 -> lump_loop eqb params fuel xml var 0 s = (s, match l with [] => Ok tt | _ => Err KeyError end).
Proof.
  intros D P H G F. destruct fuel as [|f]; [contradiction|]. cbn [lump_loop]. rewrite (get_list _ _ _ _ D H G). cbn [snd].
  destruct l as [|x r]; [reflexivity|]. cbn [nth_error]. unfold add_aggregate, get_aggregate_list. rewrite (P _ _ H). reflexivity.
Qed.
Lemma lump_all_ok fuel ps (s : ag A) : declared aggs params -> plural aggs params -> incl ps aggs -> fuel <> 0 ->
  (forall xml var, In (xml, var) ps -> exists l, dget String.eqb var (ag_lists s) = Some l) ->
  (forall xml var, In (xml, var) ps -> dget String.eqb var (ag_lists s) = Some []) /\ lump_all eqb params fuel ps s = (s, Ok tt) \/
  ~ (forall xml var, In (xml, var) ps -> dget String.eqb var (ag_lists s) = Some []) /\ lump_all eqb params fuel ps s = (s, Err KeyError).
Proof.
  intros D P I F. induction ps as [|[a b] ps IH]; intros G.
  - left. split; [intros ? ? []|reflexivity].
  - cbn [lump_all fst snd]. destruct (G a b (or_introl eq_refl)) as (l & Gl). rewrite (lump_step fuel a b s l) by (auto; apply I; left; reflexivity).
    destruct l as [|x r].
    + destruct IH as [(H & K)|(H & K)]; [intros e He; apply I; right; exact He|intros xml var Hv; apply (G xml); right; exact Hv| |]; [left|right]; rewrite K.
      * split; [|reflexivity]. intros xml var [E|Hv]; [assert (b = var) by congruence; subst; assumption|]. now apply (H xml).
      * split; [|reflexivity]. intros Q. apply H. intros xml var Hv. apply (Q xml). now right.
    + right. split; [|reflexivity]. intros Q. rewrite (Q a b) in Gl by (left; reflexivity). discriminate.
Qed.
Lemma lump_loop_forever fuel xml : forall i (s : ag A) l, dget String.eqb xml params = Some xml -> dget String.eqb xml (ag_lists s) = Some l -> i < length l ->
  snd (lump_loop eqb params fuel xml xml i s) = Err OutOfFuel.
Proof.
  induction fuel as [|f IH]; intros i s l P G Hi; cbn [lump_loop]; unfold get_aggregate_list; rewrite P; cbn [of_opt rbind]; rewrite G; cbn [of_opt rbind snd].
  - destruct (nth_error l i) eqn:E; [reflexivity|]. apply nth_error_None in E. lia.
  - destruct (nth_error l i) eqn:E; [|apply nth_error_None in E; lia]. unfold add_aggregate, get_aggregate_list. rewrite P. cbn [of_opt rbind]. rewrite G. cbn [of_opt rbind fst snd].
    apply (IH (S i) _ (l ++ [a])); [exact P|cbn; apply (dget_dset_same _ seqb_eq)|rewrite app_length; cbn; lia].
Qed.
End Agg.

Section Robot.
Context {J L : Type}.
Variables (jname jpar jchi : J -> string) (lname : L -> string).
Variable obj : nat -> RobotModel.elem J L.
Lemma rops_split os : forall r, do_rops jname jpar jchi lname obj os r =
  do a <- do_ops Nat.eqb robot_aggs (map (op_of obj) os) (er_ag r);
  Ok (mkER a (fold_left (add_elem jname jpar jchi lname) (map obj (ever_added os)) (er_maps r))).
Proof.
  induction os as [|o os IH]; intros r.
  - destruct r; reflexivity.
  - destruct o as [x|x]; cbn [do_rops do_rop map op_of do_ops do_op]; unfold er_add, er_remove, er_name.
    + destruct (add_aggregate Nat.eqb robot_aggs _ x (er_ag r)) as [a|e]; cbn [rbind]; [|reflexivity]. rewrite IH. reflexivity.
    + destruct (remove_aggregate Nat.eqb robot_aggs x (er_ag r)) as (a & u). destruct u as [[]|e]; cbn [rbind]; [|reflexivity]. rewrite IH. reflexivity.
Qed.
End Robot.
Lemma robot_declared : declared robot_aggs robot_aggs.
Proof.
  split.
  - cbn. constructor; [intros [H|[]]; discriminate|]. constructor; [intros []|constructor].
  - intros xml var [H|[H|[]]]; assert (xml = fst (xml, var)) as -> by reflexivity; rewrite <- H; cbn; congruence.
Qed.

(** deciding the conditions for a class *)
Definition declaredb (aggs params : dict string string) : bool :=
  forallb (fun p => match dget String.eqb (fst p) params with Some v => String.eqb v (snd p) | None => false end) aggs
  && Nat.eqb (List.length (dedup String.eqb (map snd aggs))) (List.length aggs).
Definition pluralb (aggs params : dict string string) : bool :=
  forallb (fun p => match dget String.eqb (snd p) params with Some _ => false | None => true end) aggs.
Lemma filter_len {B} (f : B -> bool) l : List.length (filter f l) <= List.length l.
Proof. induction l; cbn; [lia|]. destruct (f a); cbn; lia. Qed.
Lemma dedup_len {B} (eqb : B -> B -> bool) l : List.length (dedup eqb l) <= List.length l.
Proof. induction l; cbn; [lia|]. pose proof (filter_len (fun y => negb (eqb a y)) (dedup eqb l)). lia. Qed.
Lemma nodup_len (l : list string) : List.length (dedup String.eqb l) = List.length l -> NoDup l.
Proof.
  induction l as [|a l IH]; cbn; intros H; [constructor|].
  pose proof (filter_len (fun y => negb (String.eqb a y)) (dedup String.eqb l)). pose proof (dedup_len String.eqb l).
  assert (NoDup l) by (apply IH; lia). constructor; [|assumption]. intros K.
  apply (dedup_in _ seqb_eq) in K.
  assert (Q : forall r : list string, In a r -> List.length (filter (fun y => negb (String.eqb a y)) r) < List.length r).
  { induction r as [|b r IHr]; intros Hr; [destruct Hr|]. cbn. pose proof (filter_len (fun y => negb (String.eqb a y)) r).
    destruct (String.eqb a b) eqn:E; cbn; [lia|]. destruct Hr as [->|Hr]; [rewrite String.eqb_refl in E; discriminate|]. apply IHr in Hr. lia. }
  apply Q in K. lia.
Qed.
Lemma declaredb_ok aggs params : declaredb aggs params = true -> declared aggs params.
Proof.
  intros H. apply andb_prop in H. destruct H as (H & N). apply Nat.eqb_eq in N. split.
  - apply nodup_len. now rewrite N, map_length.
  - intros xml var Hv. rewrite forallb_forall in H. apply H in Hv. cbn in Hv. destruct (dget String.eqb xml params); [|discriminate].
    apply String.eqb_eq in Hv. now subst.
Qed.
Lemma pluralb_ok aggs params : pluralb aggs params = true -> plural aggs params.
Proof.
  intros H xml var Hv. unfold pluralb in H. rewrite forallb_forall in H. apply H in Hv. cbn in Hv. destruct (dget String.eqb var params); [discriminate|reflexivity].
Qed.
Definition classb {Num} (c : string * class Num) : bool :=
  declaredb (class_aggs (snd c)) (class_params (snd c)) && pluralb (class_aggs (snd c)) (class_params (snd c)).
Lemma classes_ok {Num} (zero : Num) : forallb classb (urdf_classes zero ++ sdf_classes zero) = true.
Proof. vm_compute. reflexivity. Qed.


Lemma l72_edits : forall (A : Type) (eqb : A -> A -> bool) (aggs : list (string * string)) (params : dict string string) (os : list (op A)),
  (forall a b, eqb a b = true <-> a = b) -> declared aggs params -> legal eqb aggs [] os ->
  exists s, do_ops eqb params os (ag_new aggs) = Ok s
    /\ ag_order s = map snd (left_after eqb os)
    /\ (forall xml var, In (xml, var) aggs -> dget String.eqb var (ag_lists s) = Some (named xml (left_after eqb os)))
    /\ written eqb s = Ok (left_after eqb os).
Proof.
  intros A eqb aggs params os E D Lg. destruct (holds_run eqb E aggs params os [] _ D (holds_new eqb aggs params D) Lg) as (s & R & H).
  exists s. split; [exact R|]. destruct (H) as (_ & O & _ & G). split; [exact O|]. split; [exact G|]. now apply holds_written with (aggs := aggs).
Qed.

Lemma l72_classes : forall (Num : Type) (zero : Num) name c, In (name, c) (urdf_classes zero ++ sdf_classes zero) ->
  declared (class_aggs c) (class_params c) /\ plural (class_aggs c) (class_params c).
Proof.
  intros Num zero name c H. pose proof (classes_ok zero) as K. rewrite forallb_forall in K. apply K in H. unfold classb in H. cbn [snd] in H.
  apply andb_prop in H. destruct H as (H1 & H2). split; [now apply declaredb_ok|now apply pluralb_ok].
Qed.

Lemma l72_remove_absent : forall (A : Type) (eqb : A -> A -> bool) (params : dict string string) (x : A) (s : ag A),
  (forall a b, eqb a b = true <-> a = b) -> ~ In x (ag_order s) -> remove_aggregate eqb params x s = (s, Err ValueError).
Proof.
  intros A eqb params x s E H. unfold remove_aggregate. apply (list_remove_none eqb E) in H. rewrite H. reflexivity.
Qed.

Lemma l72_twice : forall (A : Type) (eqb : A -> A -> bool) (params : dict string string) (x : A) (s s' : ag A) (u : res unit) (i j : nat),
  (forall a b, eqb a b = true <-> a = b) -> i <> j -> nth_error (ag_order s) i = Some x -> nth_error (ag_order s) j = Some x ->
  remove_aggregate eqb params x s = (s', u) -> written eqb s' = Err KeyError.
Proof.
  intros A eqb params x s s' u i j E Hij Hi Hj R. unfold remove_aggregate in R.
  destruct (list_remove eqb x (ag_order s)) as [o|] eqn:Q.
  2:{ apply (list_remove_none eqb E) in Q. exfalso. apply Q. eapply nth_error_In, Hi. }
  pose proof (list_remove_count eqb E _ _ _ Q _ _ Hij Hi Hj) as Ho. cbn [ag_type ag_lists ag_order] in R.
  destruct (dget eqb x (ag_type s)) as [xml|] eqn:T.
  2:{ assert (s' = mkAg (ag_lists s) o (ag_type s)) by congruence. subst s'. apply (written_bad eqb) with x; assumption. }
  destruct (get_aggregate_list params xml _) as [vl|e].
  2:{ assert (s' = mkAg (ag_lists s) o (dict_del eqb x (ag_type s))) by congruence. subst s'.
      apply (written_bad eqb) with x; [exact Ho|apply (dict_del_same eqb E)]. }
  destruct (list_remove eqb x (snd vl)) as [l|].
  - assert (s' = mkAg (dset String.eqb (fst vl) l (ag_lists s)) o (dict_del eqb x (ag_type s))) by congruence. subst s'.
    apply (written_bad eqb) with x; [exact Ho|apply (dict_del_same eqb E)].
  - assert (s' = mkAg (ag_lists s) o (dict_del eqb x (ag_type s))) by congruence. subst s'.
    apply (written_bad eqb) with x; [exact Ho|apply (dict_del_same eqb E)].
Qed.

Lemma l72_twice_refuted : exists (s : ag string),
  let params := [("name", "name"); ("hardwareInterface", "hardwareInterfaces")] in
  do_ops String.eqb params [Add "hardwareInterface" "EffortJointInterface"; Add "hardwareInterface" "EffortJointInterface"; Remove "EffortJointInterface"]
    (ag_new [("hardwareInterface", "hardwareInterfaces")]) = Ok s
  /\ dget String.eqb "hardwareInterfaces" (ag_lists s) = Some ["EffortJointInterface"] /\ written String.eqb s = Err KeyError.
Proof. eexists. cbv zeta. split; [vm_compute; reflexivity|]. split; reflexivity. Qed.

Lemma l72_lump : forall (A : Type) (eqb : A -> A -> bool) (aggs : list (string * string)) (params : dict string string) (s : ag A) (fuel : nat),
  declared aggs params -> plural aggs params -> has_lists aggs s -> fuel <> 0 ->
  exists s' u, lump_aggregates eqb aggs params fuel s = (s', u)
    /\ ag_lists s' = ag_lists s /\ ag_order s' = [] /\ ag_type s' = [] /\ written eqb s' = Ok []
    /\ (no_values aggs s /\ u = Ok tt \/ ~ no_values aggs s /\ u = Err KeyError).
Proof.
  intros A eqb aggs params s fuel D P G F. unfold lump_aggregates.
  destruct (lump_all_ok eqb aggs params fuel aggs (aggregate_init s) D P (incl_refl _) F G) as [(H & ->)|(H & ->)].
  - exists (aggregate_init s), (Ok tt). repeat (split; [reflexivity|]). left. split; [exact H|reflexivity].
  - exists (aggregate_init s), (Err KeyError). repeat (split; [reflexivity|]). right. split; [exact H|reflexivity].
Qed.

Lemma l72_lump_refuted : exists (s s' : ag nat),
  do_ops Nat.eqb robot_aggs [Add "joint" 1; Add "link" 2] (ag_new robot_aggs) = Ok s /\ written Nat.eqb s = Ok [("joint", 1); ("link", 2)]
  /\ lump_aggregates Nat.eqb robot_aggs robot_aggs 9 s = (s', Err KeyError)
  /\ ag_lists s' = ag_lists s /\ written Nat.eqb s' = Ok [].
Proof. eexists. eexists. split; [reflexivity|]. split; [reflexivity|]. split; [reflexivity|]. split; reflexivity. Qed.

Lemma l72_lump_forever : forall (A : Type) (eqb : A -> A -> bool) (params : dict string string) (xml : string) (x : A) (fuel : nat),
  dget String.eqb xml params = Some xml ->
  snd (lump_aggregates eqb [(xml, xml)] params fuel (mkAg [(xml, [x])] [x] [(x, xml)])) = Err OutOfFuel.
Proof.
  intros A eqb params xml x fuel P. unfold lump_aggregates. cbn [lump_all fst snd].
  pose proof (lump_loop_forever eqb params fuel xml 0 (aggregate_init (mkAg [(xml, [x])] [x] [(x, xml)])) [x] P) as K.
  cbn [aggregate_init ag_lists] in *. specialize (K ltac:(cbn; rewrite String.eqb_refl; reflexivity) ltac:(cbn; lia)).
  destruct (lump_loop eqb params fuel xml xml 0 _) as (s' & u). cbn [snd] in K. subst u. reflexivity.
Qed.

Lemma l72_lump_swapped : exists (aggs : list (string * string)) (s s' : ag nat),
  declared aggs aggs /\ ~ plural aggs aggs /\ ag_lists s = [("b", [1; 2]); ("a", [])] /\ lump_aggregates Nat.eqb aggs aggs 9 s = (s', Ok tt)
  /\ ag_lists s' = [("b", [1; 2; 1; 2]); ("a", [1; 2])] /\ written Nat.eqb s' = Ok [("a", 1); ("a", 2); ("a", 1); ("a", 2)].
Proof.
  exists [("a", "b"); ("b", "a")], (mkAg [("b", [1; 2]); ("a", [])] [1; 2] [(1, "a"); (2, "a")]). eexists. split; [apply declaredb_ok; reflexivity|].
  split; [intros H; specialize (H "a" "b" (or_introl eq_refl)); discriminate|]. split; [reflexivity|]. split; [vm_compute; reflexivity|]. split; reflexivity.
Qed.

Lemma l72_robot : forall (J L : Type) (jname jpar jchi : J -> string) (lname : L -> string) (obj : nat -> RobotModel.elem J L) (os : list rop),
  legal Nat.eqb robot_aggs [] (map (op_of obj) os) ->
  exists r, do_rops jname jpar jchi lname obj os erobot_new = Ok r
    /\ ag_order (er_ag r) = map snd (left_after Nat.eqb (map (op_of obj) os))
    /\ dget String.eqb "links" (ag_lists (er_ag r)) = Some (named "link" (left_after Nat.eqb (map (op_of obj) os)))
    /\ dget String.eqb "joints" (ag_lists (er_ag r)) = Some (named "joint" (left_after Nat.eqb (map (op_of obj) os)))
    /\ er_maps r = fresh_robot jname jpar jchi lname obj (ever_added os).
Proof.
  intros J L jname jpar jchi lname obj os Lg.
  destruct (l72_edits nat Nat.eqb robot_aggs robot_aggs _ neqb_eq robot_declared Lg) as (s & R & O & G & _).
  rewrite rops_split. cbn [er_ag erobot_new er_maps]. rewrite R. cbn [rbind]. eexists. split; [reflexivity|]. cbn [er_ag er_maps]. split; [exact O|].
  split; [apply G; left; reflexivity|]. split; [apply G; right; left; reflexivity|reflexivity].
Qed.

Lemma l72_robot_refuted :
  (exists (os : list rop) (r : erobot (string * string * string) string),
    let jn := fun j : string * string * string => fst (fst j) in let jp := fun j : string * string * string => snd (fst j) in
    let jc := fun j : string * string * string => snd j in let ln := fun l : string => l in
    let obj := fun x => nth x [ELink "base"; ELink "arm"; EJoint ("j", "base", "arm"); ELink "other"] (ELink "") in
    legal Nat.eqb robot_aggs [] (map (op_of obj) os) /\ do_rops jn jp jc ln obj os erobot_new = Ok r
    /\ ag_order (er_ag r) = [0; 1; 2] /\ get_root (fresh_robot jn jp jc ln obj [0; 1; 2]) = Ok "base"
    /\ get_root (er_maps r) = Err AssertionError)
  /\ (exists (os : list rop) (r : erobot (string * string * string) string),
    let jn := fun j : string * string * string => fst (fst j) in let jp := fun j : string * string * string => snd (fst j) in
    let jc := fun j : string * string * string => snd j in let ln := fun l : string => l in
    let obj := fun x => nth x [ELink "base"; ELink "arm"; EJoint ("j", "base", "arm"); ELink "other"] (ELink "") in
    legal Nat.eqb robot_aggs [] (map (op_of obj) os) /\ do_rops jn jp jc ln obj os erobot_new = Ok r
    /\ ag_order (er_ag r) = [0; 1] /\ get_chain (fun _ => "revolute") 9 (fresh_robot jn jp jc ln obj [0; 1]) "base" "arm" true true true = Err KeyError
    /\ get_chain (fun _ => "revolute") 9 (er_maps r) "base" "arm" true true true = Ok ["base"; "j"; "arm"]).
Proof.
  split.
  - exists [RAdd 0; RAdd 3; RAdd 1; RAdd 2; RRemove 3]. eexists. cbv zeta. split; [cbn; intuition discriminate|]. split; [vm_compute; reflexivity|].
    split; [reflexivity|]. split; vm_compute; reflexivity.
  - exists [RAdd 0; RAdd 1; RAdd 2; RRemove 2]. eexists. cbv zeta. split; [cbn; intuition discriminate|]. split; [vm_compute; reflexivity|].
    split; [reflexivity|]. split; vm_compute; reflexivity.
Qed.
