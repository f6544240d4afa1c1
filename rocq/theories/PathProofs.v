(** The reader with paths: it reads what the reader of [XmlModel] reads, and its errors and messages name elements that are at fault. *)
From Coq Require Import String Ascii Bool Arith Lia List.
From Verif Require Import Prelude XmlModel XmlProofs XmlWrite XmlRead XmlCheck SpecXml XmlMore PathModel SpecPath.
Import ListNotations.
Local Open Scope string_scope.
Local Open Scope list_scope.
Local Arguments is_kind : simpl never.
Local Arguments is_elem : simpl never.

(** ** Forgetting the paths *)
Definition forget_e (e : perr) : xexn := match e with EAt _ _ => XParse | ERaw e => e end.
Definition forget {A} (o : out A) : xr A := (map fst (o_warn o), match o_res o with inl a => inl a | inr e => inr (forget_e e) end).
Lemma forget_bind {A B} (x : pm A) (f : A -> pm B) y g p : forget (x p) = y -> (forall a q, forget (f a q) = g a) -> forget (pbind x f p) = xbind y g.
Proof.
  intros <- H. unfold pbind, xbind, forget. cbn [snd fst]. destruct (o_res (x p)) as [a|e]; cbn [o_warn o_path o_res]; [|reflexivity].
  specialize (H a (o_path (x p))). unfold forget in H. destruct (f a (o_path (x p))) as [w q r]. cbn [o_warn o_path o_res] in *. rewrite map_app. rewrite <- H. reflexivity.
Qed.
Lemma forget_ret {A} (a : A) p : forget (pret a p) = ret a. Proof. reflexivity. Qed.
Lemma forget_fold {A B C} (f : A -> B -> pm A) (g : A -> C -> xr A) (R : B -> C -> Prop) l l' : Forall2 R l l' ->
  (forall a b c p, R b c -> forget (f a b p) = g a c) -> forall a p, forget (pfold f l a p) = xfold g l' a.
Proof. intros F H. induction F; intros a p; [reflexivity|]. cbn [pfold xfold]. apply forget_bind; [apply H; assumption | intros; apply IHF]. Qed.
Lemma Forall2_self {A} (l : list A) : Forall2 eq l l. Proof. induction l; constructor; auto. Qed.
Lemma forget_plain {A} g (x : xr A) p : forget (plain g x p) = xmap_err (fun e => forget_e (g p e)) x.
Proof.
  unfold forget, plain, xmap_err. cbn [o_warn o_res]. rewrite map_map. cbn [fst]. rewrite map_id. destruct (snd x); reflexivity.
Qed.
Lemma forget_raw {A} (x : xr A) p : forget (raw x p) = x.
Proof. unfold raw. rewrite forget_plain. unfold xmap_err. cbn [forget_e]. destruct x as [w [a|e]]; reflexivity. Qed.
Lemma forget_below {A} f (x : pm A) y p : (forall q, forget (x q) = y) -> forget (below f x p) = y.
Proof. intros H. exact (H (f p)). Qed.

(** ** What a computation says: an error, or one of its messages *)
Definition says {A} (o : out A) (x : perr + pwarn) : Prop := match x with inl e => o_res o = inr e | inr w => In w (o_warn o) end.
Lemma says_bind {A B} (x : pm A) (f : A -> pm B) p e : says (pbind x f p) e ->
  says (x p) e \/ exists a, o_res (x p) = inl a /\ says (f a (o_path (x p))) e.
Proof.
  unfold pbind. destruct (o_res (x p)) as [a|er] eqn:R; destruct e as [e|w]; cbn [says o_res o_warn]; intros H; auto; try congruence.
  - right. exists a. auto.
  - apply in_app_or in H as [H|H]; [left; exact H | right; exists a; auto].
  - left. congruence.
Qed.
Lemma res_bind {A B} (x : pm A) (f : A -> pm B) p b : o_res (pbind x f p) = inl b ->
  exists a, o_res (x p) = inl a /\ o_res (f a (o_path (x p))) = inl b /\ o_path (pbind x f p) = o_path (f a (o_path (x p))).
Proof. unfold pbind. destruct (o_res (x p)) as [a|e]; cbn [o_res o_path]; intros H; [exists a; auto | discriminate]. Qed.
Lemma path_bind {A B} (P : path -> path -> Prop) (x : pm A) (f : A -> pm B) p : (forall q r s, P q r -> P r s -> P q s) ->
  P p (o_path (x p)) -> (forall a q, P q (o_path (f a q))) -> P p (o_path (pbind x f p)).
Proof. intros T H1 H2. unfold pbind. destruct (o_res (x p)); cbn [o_path]; [eapply T; [exact H1 | apply H2] | exact H1]. Qed.
Lemma path_fold {A B} (P : path -> path -> Prop) (f : A -> B -> pm A) l : (forall q, P q q) -> (forall q r s, P q r -> P r s -> P q s) ->
  (forall a b q, In b l -> P q (o_path (f a b q))) -> forall a p, P p (o_path (pfold f l a p)).
Proof.
  intros I T. induction l as [|b l IH]; intros H a p; [apply I|]. cbn [pfold]. apply path_bind; [exact T | apply H; left; reflexivity|].
  intros a' q. apply IH. intros a1 b1 q1 Hb. apply H. right. exact Hb.
Qed.
Lemma says_fold {A B} (f : A -> B -> pm A) l : forall a p e, says (pfold f l a p) e ->
  exists l1 b l2 a1, l = l1 ++ b :: l2 /\ o_res (pfold f l1 a p) = inl a1 /\ says (f a1 b (o_path (pfold f l1 a p))) e.
Proof.
  induction l as [|b l IH]; intros a p e H; cbn [pfold] in H; [destruct e; [discriminate | destruct H]|].
  apply says_bind in H as [H|(a1 & R & H)].
  - exists [], b, l, a. split; [reflexivity|]. split; [reflexivity | exact H].
  - apply IH in H as (l1 & b1 & l2 & a2 & -> & R2 & H). exists (b :: l1), b1, l2, a2. split; [reflexivity|].
    assert (E : o_res (pfold f (b :: l1) a p) = inl a2 /\ o_path (pfold f (b :: l1) a p) = o_path (pfold f l1 a1 (o_path (f a b p)))).
    { cbn [pfold]. unfold pbind. rewrite R. cbn [o_res o_path]. split; [exact R2 | reflexivity]. }
    destruct E as [E1 E2]. rewrite E2. auto.
Qed.
Lemma says_plain {A} g (x : xr A) p e : says (plain g x p) e ->
  match e with inl e => exists e0, snd x = inr e0 /\ e = g p e0 | inr (w, q) => In w (fst x) /\ q = None end.
Proof.
  destruct e as [e|[w q]]; unfold plain; cbn [says o_res o_warn].
  - destruct (snd x) as [a|e0]; [discriminate|]. intros H. exists e0. split; [reflexivity | congruence].
  - intros H. apply in_map_iff in H as (w' & E & H). injection E as -> <-. auto.
Qed.

(** ** Elements and selection *)
Lemma children_app t l l' : children t (l ++ l') = children t l ++ children t l'. Proof. apply filter_app. Qed.
Lemma children_elements t l : children t (elements l) = children t l.
Proof.
  unfold children, elements. induction l as [|n l IH]; [reflexivity|]. destruct n as [t' a x k|]; cbn [filter is_comment negb has_tag]; [|exact IH].
  cbn [has_tag]. destruct (String.eqb t' t); rewrite IH; reflexivity.
Qed.
Lemma first_child_in t l k : first_child t l = Some k -> In k (children t l).
Proof. intros H. apply find_some in H as [H1 H2]. apply filter_In. auto. Qed.
Lemma nth_child l1 k l2 : nth_error (l1 ++ k :: l2) (length l1) = Some (k : node).
Proof. induction l1; [reflexivity | exact IHl1]. Qed.
Lemma keep_incl d l : incl (keep d l) l.
Proof.
  intros m. destruct d as [[|k]|v|a]; cbn [keep]; try (intros []; fail); try (intros H; apply filter_In in H; tauto).
  destruct (nth_error l k) as [m'|] eqn:E; [|intros []]. intros [<-|[]]. eapply nth_error_In, E.
Qed.
Lemma steps_incl ds : forall l, incl (fold_left (fun l d => keep d l) ds l) l.
Proof. induction ds as [|d ds IH]; intros l; cbn [fold_left]; [apply incl_refl|]. eapply incl_tran; [apply IH | apply keep_incl]. Qed.
Lemma set_suffix_twice s s' p : set_suffix s (set_suffix s' p) = set_suffix s p. Proof. destruct p as [|[t d] r]; reflexivity. Qed.

Section Proofs.
Context {Num : Type}.
Variable pf : string -> option Num.
Variable classes : string -> option (class Num).
Notation value := (value Num).
Notation param := (param Num).
Notation class := (class Num).
Notation fields := (@fields Num).
Notation dg := (dget String.eqb).
Hypothesis NC : forall cname c, classes cname = Some c -> nice_class classes c.

(** ** The same results *)
Definition krel (k : @pkid Num) (k' : @kid Num) : Prop := fst k = fst k' /\ forall t p, forget (snd k t p) = snd k' t.
Lemma forget_attr ps fs av p : forget (pattr_step pf ps fs av p) = attr_step pf ps fs av.
Proof.
  unfold pattr_step, attr_step. destruct (find_attr ps (fst av)) as [q|]; [|reflexivity]. apply forget_bind; [rewrite forget_plain; reflexivity|].
  intros v r. unfold pbind. destruct (String.eqb (pr_xml q) "name"); reflexivity.
Qed.
Lemma forget_kid ps st k k' p : krel k k' -> forget (pkid_step ps st k p) = kid_step ps st k'.
Proof.
  intros [E H]. unfold pkid_step, kid_step. destruct st as [[fs order] unset]. rewrite E. destruct (find_elem ps (fst k')) as [q|]; [|reflexivity].
  destruct (is_kind PAggregate q).
  - apply forget_bind; [apply forget_raw|]. intros l r. apply forget_bind; [apply forget_below; intros; apply H | reflexivity].
  - destruct (existsb (String.eqb (fst k')) unset).
    + apply forget_bind; [apply forget_below; intros; apply H | reflexivity].
    + apply forget_bind; [apply forget_raw | reflexivity].
Qed.
Lemma forget_default fs (q : param) p : forget (pdefault_step fs q p) = default_step fs q.
Proof. unfold pdefault_step, default_step. destruct (pr_req q); reflexivity. Qed.
Lemma krel_fst ks ks' : Forall2 krel ks ks' -> map fst ks = map fst ks'.
Proof. induction 1 as [|k k' ks ks' [E _] _ IH]; [reflexivity|]. cbn [map]. rewrite E, IH. reflexivity. Qed.
Lemma forget_obj cname attrs ks ks' p : Forall2 krel ks ks' -> forget (pread_obj pf classes cname attrs ks p) = read_obj pf classes cname attrs ks'.
Proof.
  intros F. unfold pread_obj, read_obj. destruct (classes cname) as [c|]; [|apply forget_raw]. cbv zeta. rewrite (krel_fst _ _ F).
  apply forget_bind; [apply (forget_fold _ _ eq); [apply Forall2_self | intros a b b' q <-; apply forget_attr]|]. intros fs q.
  apply forget_bind; [apply (forget_fold _ _ krel); [exact F | intros; apply forget_kid; assumption]|]. intros [[fs2 o] u] q2.
  apply forget_bind; [apply (forget_fold _ _ eq); [apply Forall2_self | intros a b b' r <-; apply forget_default]|]. intros fs3 q3.
  apply forget_bind; [apply (forget_fold _ _ eq); [apply Forall2_self | intros a b b' r <-; apply forget_default]|]. intros fs4 q4.
  apply forget_bind; [apply (forget_fold _ _ eq); [apply Forall2_self | intros a b b' r <-; reflexivity]|]. intros _ q5.
  apply forget_bind; [apply (forget_fold _ _ eq); [apply Forall2_self | intros a b b' r <-; reflexivity]|]. intros _ q6.
  apply forget_bind; [rewrite forget_plain; reflexivity | reflexivity].
Qed.
Lemma forget_duck cs attrs ks ks' : Forall2 krel ks ks' -> forall first p, forget (pduck pf classes cs attrs ks first p) = duck pf classes cs attrs ks'.
Proof.
  intros F. induction cs as [|c cs IH]; intros first p; [reflexivity|]. cbn [pduck duck]. rewrite <- (forget_obj c attrs ks ks' p F).
  set (o := pread_obj pf classes c attrs ks p). unfold forget at 2. destruct (o_res o) as [v|e] eqn:R.
  - unfold forget. rewrite R. reflexivity.
  - set (first' := match first with Some f => Some f | None => Some e end). specialize (IH first' (o_path o)). rewrite <- IH. unfold forget. cbn [o_warn o_res fst snd]. rewrite map_app. reflexivity.
Qed.
Theorem forget_xml n : forall t p, forget (pfrom_xml pf classes n t p) = from_xml pf classes n t.
Proof.
  induction n as [|tag attrs text kids IH] using node_rect2; intros t p; [apply forget_raw|].
  assert (F : Forall2 krel (pkids_of pf classes kids) (kids_of pf classes kids)).
  { unfold pkids_of, kids_of. induction IH as [|k l Hk _ IHl]; [constructor|]. cbn [flat_map]. destruct k as [t' a x l'|]; [|exact IHl]. constructor; [|exact IHl]. split; [reflexivity | exact Hk]. }
  change (forget (pinterp pf classes (Node tag attrs text kids) attrs text (pkids_of pf classes kids) t p) = interp pf classes (Node tag attrs text kids) attrs text (kids_of pf classes kids) t).
  destruct t; cbn [pinterp interp]; try apply forget_raw.
  - reflexivity.
  - apply forget_obj, F.
  - destruct F as [|k k' ks ks' [E H] F]; [apply forget_raw|]. destruct F; [|apply forget_raw]. rewrite E. apply forget_bind; [apply forget_raw | intros; apply H].
  - apply forget_duck, F.
Qed.

(** ** One object *)
Definition pentry (n : node) : @pkid Num := (match n with Node t _ _ _ => t | Comment => "" end, pfrom_xml pf classes n).
Lemma pkids_entry kids : pkids_of pf classes kids = map pentry (elements kids).
Proof. induction kids as [|[t' a x l|] kids IH]; [reflexivity | | exact IH]. simpl. f_equal. exact IH. Qed.
Lemma map_split {A B} (f : A -> B) l l1 b l2 : map f l = l1 ++ b :: l2 -> exists m1 a m2, l = m1 ++ a :: m2 /\ map f m1 = l1 /\ f a = b /\ map f m2 = l2.
Proof.
  revert l1. induction l as [|x l IH]; intros l1 H; [destruct l1; discriminate|]. destruct l1 as [|y l1]; cbn [map app] in H.
  - injection H as H1 H2. exists [], x, l. auto.
  - injection H as H1 H2. destruct (IH _ H2) as (m1 & a & m2 & -> & E1 & E2 & E3). exists (x :: m1), a, m2. cbn [map app]. rewrite H1, E1. auto.
Qed.
Lemma f2len {A B} (R : A -> B -> Prop) l l' : Forall2 R l l' -> length l = length l'.
Proof. induction 1; simpl; congruence. Qed.
Lemma forget_ok {A} (o : out A) a y : forget o = y -> o_res o = inl a -> ok y a.
Proof. intros <- H. unfold ok, forget. cbn [snd]. rewrite H. reflexivity. Qed.
Lemma krel_entries l : Forall2 krel (map pentry l) (map (entry pf classes) l).
Proof. induction l as [|n l IH]; constructor; [|exact IH]. split; [reflexivity|]. intros t p. apply forget_xml. Qed.
Lemma dg_entries t l : Forall (fun n => is_comment n = false) l -> dg t (map (entry pf classes) l) = option_map (from_xml pf classes) (first_child t l).
Proof.
  unfold first_child. induction 1 as [|n l H _ IH]; [reflexivity|]. destruct n as [t' a x k|]; [|discriminate]. cbn [map entry dget find has_tag].
  rewrite (String.eqb_sym t t'). destruct (String.eqb t' t); [reflexivity | exact IH].
Qed.
Lemma tagged_entries t l : Forall (fun n => is_comment n = false) l -> tagged t (map (entry pf classes) l) = map (entry pf classes) (children t l).
Proof.
  unfold tagged, children. induction 1 as [|n l H _ IH]; [reflexivity|]. destruct n as [t' a x k|]; [|discriminate]. cbn [map entry filter fst has_tag].
  destruct (String.eqb t' t); cbn [map]; rewrite IH; reflexivity.
Qed.
Lemma elements_plain l : Forall (fun n => is_comment n = false) (elements l).
Proof. apply Forall_forall. intros n H. apply filter_In in H as [_ H]. apply negb_true_iff, H. Qed.
Lemma shown_value t s v : ok (from_string pf t (Some s)) v -> match v with VStr s' => s' | _ => s end = s.
Proof.
  intros H. destruct t; cbn [from_string] in H; try (apply ok_fail1 in H; contradiction).
  - apply ok_ret1 in H. subst v. reflexivity.
  - apply ok_bind1 in H as (x & _ & H). apply ok_ret1 in H. subst v. reflexivity.
  - apply ok_ret1 in H. subst v. reflexivity.
  - destruct (match count with Some n => Nat.eqb (length (split s)) n | None => true end); [|apply ok_fail1 in H; contradiction].
    apply ok_bind1 in H as (x & _ & H). apply ok_ret1 in H. subst v. reflexivity.
Qed.

Hypothesis CK : forall cname c fs w, classes cname = Some c -> In w (fst (cl_check c fs)) -> w = WNoColor.

Section Obj.
Variables (cname : string) (c : class) (tag : string) (attrs : dict string string) (text : option string) (kids : list node).
Hypothesis (Hc : classes cname = Some c) (ND : NoDup (map fst attrs)).
Notation n := (Node tag attrs text kids).
Notation ps := (cl_params c).
(** the path of an element before and after its attribute [name] was read *)
Definition named (p q : path) : Prop := q = p \/ exists v, attribute "name" n = Some v /\ find_attr ps "name" <> None /\ q = set_suffix [PNamed v] p.
Lemma named_refl p : named p p. Proof. left. reflexivity. Qed.
Lemma named_trans p q r : named p q -> named q r -> named p r.
Proof.
  intros [->|(v & H1 & H2 & ->)]; [auto|]. intros [->|(w & H3 & _ & ->)]; right; [exists v; auto|]. exists w. rewrite set_suffix_twice. auto.
Qed.
(** a child that is read for parameter [pr], and the predicates of its step *)
Definition kid_at (pr : param) (k : node) (ds : list pred) : Prop :=
  (pr_kind pr = PAggregate /\ exists i, nth_error (children (pr_xml pr) kids) i = Some k /\ ds = [PIndex (S i)]) \/
  (pr_kind pr = PElement /\ first_child (pr_xml pr) kids = Some k /\ ds = []).
Definition own (q : path) (x : perr + pwarn) : Prop :=
  match x with
  | inl (EAt p w) => blames pf classes q (TObj cname) n p w
  | inl (ERaw _) => False
  | inr (WAttr a, r) => r = Some q /\ attribute a n <> None /\ forall p, In p ps -> pr_kind p = PAttribute -> pr_xml p <> a
  | inr (WTag t, r) => r = Some q /\ children t kids <> [] /\ forall p, In p ps -> pr_kind p <> PAttribute -> pr_xml p <> t
  | inr (WTwice t, _) => (exists p, In p ps /\ pr_kind p = PElement /\ pr_xml p = t) /\ (2 <= length (children t kids))%nat
  | inr (WNoColor, _) => True
  end.
Let N : nice_class classes c := NC _ _ Hc.
Let W : wf_class c := rt_wf _ (nc_rt _ _ N).

Lemma attr_path fs av q : In av attrs -> named q (o_path (pattr_step pf ps fs av q)).
Proof.
  intros Hin. unfold pattr_step. destruct (find_attr ps (fst av)) as [p|] eqn:E; [|apply named_refl].
  unfold pbind. destruct (o_res (plain _ (from_string pf (pr_type p) (Some (snd av))) q)) as [v|e] eqn:R; [|apply named_refl].
  pose proof (find_attr_some _ _ _ E) as (_ & _ & X). destruct (String.eqb (pr_xml p) "name") eqn:Q; [|apply named_refl].
  cbn [rename pret o_res o_path plain]. right. apply String.eqb_eq in Q. exists (snd av). rewrite Q in X.
  split; [|split].
  - cbn [attribute]. apply (dget_nodup _ seqb_eq); [exact ND|]. rewrite X. destruct av; exact Hin.
  - rewrite X, E. discriminate.
  - f_equal. f_equal. f_equal. eapply shown_value. eapply ok_err1. eapply forget_ok; [|exact R]. apply forget_plain.
Qed.
Lemma attrs_path fs l q : incl l attrs -> named q (o_path (pfold (pattr_step pf ps) l fs q)).
Proof. intros H. apply path_fold; [apply named_refl | apply named_trans|]. intros a b r Hb. apply attr_path, H, Hb. Qed.
Lemma attr_says fs av q x : In av attrs -> says (pattr_step pf ps fs av q) x -> own q x.
Proof.
  intros Hin. unfold pattr_step. destruct (find_attr ps (fst av)) as [p|] eqn:E; [|destruct x; [discriminate | intros []]].
  pose proof (find_attr_some _ _ _ E) as (Hp & Kp & X). intros H. apply says_bind in H as [H|(v & _ & H)].
  - apply says_plain in H. destruct x as [e|[w r]].
    + destruct H as (e0 & H & ->). cbn [own blames]. exists cname, c, (pr_xml p). split; [reflexivity|]. split; [exact Hc|]. split; [reflexivity|].
      exists p, (snd av). split; [exact Hp|]. split; [exact Kp|]. split; [reflexivity|]. split.
      * cbn [attribute]. apply (dget_nodup _ seqb_eq); [exact ND|]. rewrite X. destruct av; exact Hin.
      * intros v Hv. apply text_spec in Hv; [|apply (nc_attr _ _ N p Hp Kp)]. unfold ok in Hv. congruence.
    + destruct H as [H _]. rewrite from_string_quiet in H. destruct H.
  - exfalso. unfold pbind in H. destruct (String.eqb (pr_xml p) "name"); destruct x; cbn in H; (discriminate || exact H).
Qed.
Lemma kid_path st k q : o_path (pkid_step ps st k q) = q.
Proof.
  unfold pkid_step. destruct st as [[fs o] u]. destruct (find_elem ps (fst k)) as [p|]; [|reflexivity]. unfold pbind.
  destruct (is_kind PAggregate p).
  - cbn [raw plain o_path o_res]. destruct (snd (agg_list fs p)); [|reflexivity]. cbn [below o_path o_res]. destruct (o_res (snd k _ _)); reflexivity.
  - destruct (existsb _ u); [|reflexivity]. cbn [below o_path o_res]. destruct (o_res (snd k _ _)); reflexivity.
Qed.
Lemma kids_path st l q : o_path (pfold (pkid_step ps) l st q) = q.
Proof. apply (path_fold (fun q r => r = q)); [reflexivity | congruence | intros; apply kid_path]. Qed.
Lemma default_path fs l q : o_path (pfold (@pdefault_step Num) l fs q) = q.
Proof. apply (path_fold (fun q r => r = q)); [reflexivity | congruence|]. intros a b r _. unfold pdefault_step. destruct (pr_req b); reflexivity. Qed.
Lemma warn_path {A} (f : A -> warning) l q : o_path (pfold (fun _ a => pwarn_at (f a)) l tt q) = q.
Proof. apply (path_fold (fun q r => r = q)); [reflexivity | congruence | reflexivity]. Qed.
Notation u0 := (map pr_xml (filter (is_kind PElement) ps)).

(** the fields after the attributes: lists are still empty *)
Lemma attrs_done f1 q : o_res (pfold (pattr_step pf ps) attrs (cl_init c) q) = inl f1 ->
  ok (xfold (attr_step pf ps) attrs (cl_init c)) f1 /\ forall p, In p ps -> pr_kind p = PAggregate -> dg (pr_var p) f1 = Some (VList []).
Proof.
  intros R. assert (P1 : ok (xfold (attr_step pf ps) attrs (cl_init c)) f1).
  { eapply forget_ok; [|exact R]. apply (forget_fold _ _ eq); [apply Forall2_self | intros a b b' r <-; apply forget_attr]. }
  split; [exact P1|]. destruct (attrs_read pf c W _ _ _ ND P1) as (_ & A2 & _). intros p Hp Kp. rewrite A2; [apply (wf_lists _ W); assumption|]. intros r Hr Kr E.
  apply (var_inj ps r p (wf_vars _ W) Hr Hp) in E. congruence.
Qed.
Lemma kids_done f1 l st q : (forall p, In p ps -> pr_kind p = PAggregate -> dg (pr_var p) f1 = Some (VList [])) ->
  o_res (pfold (pkid_step ps) (map pentry l) (f1, [], u0) q) = inl st -> ok (xfold (kid_step ps) (map (entry pf classes) l) (f1, [], u0)) st.
Proof. intros L R. eapply forget_ok; [|exact R]. apply (forget_fold _ _ krel); [apply krel_entries | intros; apply forget_kid; assumption]. Qed.
Lemma kids_says f1 q x : (forall p, In p ps -> pr_kind p = PAggregate -> dg (pr_var p) f1 = Some (VList [])) ->
  says (pfold (pkid_step ps) (pkids_of pf classes kids) (f1, [], u0) q) x ->
  own q x \/ exists pr k ds, In pr ps /\ kid_at pr k ds /\ says (pfrom_xml pf classes k (pr_type pr) ((pr_xml pr, ds) :: q)) x.
Proof.
  intros L0 H. rewrite pkids_entry in H. apply says_fold in H as (l1 & b & l2 & [[fs o] u] & E & R & H). apply map_split in E as (e1 & k & e2 & E & <- & <- & <-).
  rewrite kids_path in H. pose proof (kids_done f1 e1 _ q L0 R) as P2.
  assert (PL : Forall (fun m => is_comment m = false) (e1 ++ k :: e2)) by (rewrite <- E; apply elements_plain).
  assert (P1 : Forall (fun m => is_comment m = false) e1) by (apply Forall_app in PL; tauto).
  assert (Pk : is_comment k = false) by (apply Forall_app in PL as [_ PL]; inversion PL; assumption).
  destruct (kids_read pf c W _ _ _ _ _ _ _ (scalars_nodup c W) (fun p Hp Kp => ex_intro _ [] (L0 p Hp Kp)) P2) as (_ & B2 & _ & _ & _ & B7).
  assert (CH : forall t, children t kids = children t e1 ++ children t (k :: e2)) by (intros t; rewrite <- (children_elements t kids), E; apply children_app).
  destruct k as [kt ka kx kk|]; [|discriminate]. unfold pkid_step in H. cbn [pentry fst snd] in H.
  destruct (find_elem ps kt) as [p|] eqn:F; [|destruct x; [discriminate | destruct H]].
  pose proof (find_elem_some c _ _ F) as (Hp & Kp & X).
  assert (CK1 : children (pr_xml p) (Node kt ka kx kk :: e2) = Node kt ka kx kk :: children (pr_xml p) e2).
  { unfold children. cbn [filter has_tag]. rewrite X, String.eqb_refl. reflexivity. }
  destruct (is_kind PAggregate p) eqn:K.
  - apply kind_agg in K. destruct (B2 p [] Hp K (L0 p Hp K)) as (l & L1 & L2). rewrite app_nil_l in L1. rewrite tagged_entries in L2 by exact P1.
    assert (LE : length l = length (children (pr_xml p) e1)).
    { rewrite <- (map_length (entry pf classes) (children (pr_xml p) e1)). symmetry. apply (f2len _ _ _ L2). }
    apply says_bind in H as [H|(l' & Rl & H)].
    + exfalso. unfold agg_list in H. rewrite L1 in H. destruct x; [discriminate | destruct H].
    + assert (l' = l) as ->. { unfold agg_list in Rl. rewrite L1 in Rl. cbn in Rl. congruence. }
      cbn [raw plain o_path] in H. apply says_bind in H as [H|(v & _ & H)]; [|destruct x; [discriminate | destruct H]].
      right. exists p, (Node kt ka kx kk), [PIndex (1 + length l)]. split; [exact Hp|]. split.
      * left. split; [exact K|]. exists (length l). split; [|reflexivity]. rewrite CH, CK1, LE. apply nth_child.
      * unfold below in H. destruct x; exact H.
  - assert (K2 : pr_kind p = PElement) by (destruct (pr_kind p) eqn:KK; [congruence | reflexivity | apply kind_agg in KK; congruence]).
    destruct (existsb (String.eqb kt) u) eqn:U.
    + apply says_bind in H as [H|(v & _ & H)]; [|destruct x; [discriminate | destruct H]].
      right. exists p, (Node kt ka kx kk), []. split; [exact Hp|]. split.
      * right. split; [exact K2|]. split; [|reflexivity]. apply existsb_exists in U as (z & Hz & Ez). apply String.eqb_eq in Ez; subst z.
        apply B7 in Hz as [_ Hz]. destruct Hz as [Hz|Hz]; [|specialize (Hz p F); congruence].
        rewrite dg_entries in Hz by exact P1. unfold first_child in *. rewrite X.
        assert (FE : forall l, find (has_tag kt) (elements l) = find (has_tag kt) l).
        { clear. induction l as [|m l IH]; [reflexivity|]. destruct m as [t' a' x' k'|]; cbn [elements filter is_comment negb find has_tag]; [|exact IH]. destruct (String.eqb t' kt); [reflexivity | exact IH]. }
        rewrite <- FE, E. clear -Hz. destruct (find (has_tag kt) e1) eqn:Q; [discriminate|]. clear Hz.
        induction e1 as [|m e1 IH]; cbn [app find has_tag] in *; [rewrite String.eqb_refl; reflexivity|]. destruct (has_tag kt m); [discriminate | apply IH, Q].
      * unfold below in H. destruct x; exact H.
    + left. apply says_bind in H as [H|(v & _ & H)]; [|destruct x; [discriminate | destruct H]].
      apply says_plain in H. destruct x as [e|[w r]]; [destruct H as (e0 & H & _); discriminate|]. destruct H as [[<-|[]] ->]. cbn [own]. split; [exists p; auto|].
      rewrite <- X, CH, CK1, app_length. cbn [length].
      assert (NE : children (pr_xml p) e1 <> []).
      { intros Z. assert (IU : In kt u); [|assert (existsb (String.eqb kt) u = true) by (apply existsb_exists; exists kt; split; [exact IU | apply String.eqb_refl]); congruence].
        apply B7. split; [rewrite <- X; apply in_map, filter_In; split; [exact Hp | apply kind_elem, K2]|]. left. rewrite dg_entries by exact P1. rewrite <- X.
        destruct (first_child (pr_xml p) e1) as [m|] eqn:Q; [|reflexivity]. apply first_child_in in Q. rewrite Z in Q. destruct Q. }
      destruct (children (pr_xml p) e1); [congruence | cbn [length]; lia].
Qed.
Theorem obj_says p x : says (pread_obj pf classes cname attrs (pkids_of pf classes kids) p) x ->
  exists q, named p q /\ (own q x \/ exists pr k ds, In pr ps /\ kid_at pr k ds /\ says (pfrom_xml pf classes k (pr_type pr) ((pr_xml pr, ds) :: q)) x).
Proof.
  unfold pread_obj. rewrite Hc. cbv zeta. intros H. apply says_bind in H as [H|(f1 & R1 & H)].
  { apply says_fold in H as (l1 & av & l2 & fs & E & R & H). assert (I1 : incl l1 attrs) by (rewrite E; apply incl_appl, incl_refl).
    assert (I2 : In av attrs) by (rewrite E; apply in_or_app; right; left; reflexivity).
    exists (o_path (pfold (pattr_step pf ps) l1 (cl_init c) p)). split; [apply attrs_path, I1|]. left. eapply attr_says; eassumption. }
  set (q := o_path (pfold (pattr_step pf ps) attrs (cl_init c) p)) in *. exists q. split; [apply attrs_path, incl_refl|].
  destruct (attrs_done f1 p R1) as [P1 L0]. apply says_bind in H as [H|([[f2 o] u] & R2 & H)]; [exact (kids_says f1 q x L0 H)|]. left.
  rewrite kids_path in H.
  assert (R2' : o_res (pfold (pkid_step ps) (map pentry (elements kids)) (f1, [], u0) q) = inl (f2, o, u)) by (rewrite <- pkids_entry; exact R2).
  pose proof (kids_done f1 (elements kids) _ q L0 R2') as P2. rewrite <- elements_kids in P2.
  destruct (kids_read pf c W _ _ _ _ _ _ _ (scalars_nodup c W) (fun p Hp Kp => ex_intro _ [] (L0 p Hp Kp)) P2) as (_ & _ & _ & _ & _ & B7).
  apply says_bind in H as [H|(f3 & R3 & H)].
  { apply says_fold in H as (l1 & d & l2 & fs & E & R & H). rewrite default_path in H. unfold pdefault_step in H.
    assert (I : In d (filter (fun p => is_kind PAttribute p && negb (existsb (String.eqb (pr_xml p)) (map fst attrs))) ps)) by (rewrite E; apply in_or_app; right; left; reflexivity).
    apply filter_In in I as [Hd I]. apply andb_true_iff in I as [Kd I]. apply kind_attr in Kd. apply negb_true_iff in I. rewrite existsb_keys in I.
    destruct (pr_req d) eqn:RQ; [|destruct x; [discriminate | destruct H]]. destruct x as [e|w]; [|destruct H]. cbn [praise says o_res] in H. injection H as <-.
    cbn [own blames]. exists cname, c. split; [reflexivity|]. split; [exact Hc|]. split; [reflexivity|]. exists d. split; [exact Hd|]. split; [reflexivity|]. split; [reflexivity|]. split; [exact RQ|].
    rewrite Kd. cbn [attribute]. destruct (dg (pr_xml d) attrs); [discriminate | reflexivity]. }
  rewrite default_path in H. apply says_bind in H as [H|(f4 & R4 & H)].
  { apply says_fold in H as (l1 & d & l2 & fs & E & R & H). rewrite default_path in H. unfold pdefault_step in H.
    assert (I : In d (filter (fun p => is_kind PElement p && existsb (String.eqb (pr_xml p)) u) ps)) by (rewrite E; apply in_or_app; right; left; reflexivity).
    apply filter_In in I as [Hd I]. apply andb_true_iff in I as [Kd I]. apply kind_elem in Kd.
    destruct (pr_req d) eqn:RQ; [|destruct x; [discriminate | destruct H]]. destruct x as [e|w]; [|destruct H]. cbn [praise says o_res] in H. injection H as <-.
    cbn [own blames]. exists cname, c. split; [reflexivity|]. split; [exact Hc|]. split; [reflexivity|]. exists d. split; [exact Hd|]. split; [reflexivity|]. split; [reflexivity|]. split; [exact RQ|].
    rewrite Kd. cbn [SpecPath.kids]. apply existsb_exists in I as (z & Hz & Ez). apply String.eqb_eq in Ez; subst z. apply B7 in Hz as [_ Hz].
    destruct Hz as [Hz|Hz]; [|specialize (Hz d (find_elem_in c W d Hd ltac:(congruence))); congruence]. rewrite dg_kids in Hz.
    destruct (children (pr_xml d) kids) as [|m l] eqn:Q; [reflexivity|]. exfalso. assert (Im : In m (children (pr_xml d) kids)) by (rewrite Q; left; reflexivity).
    apply filter_In in Im as [I1 I2]. unfold first_child in Hz. destruct (find (has_tag (pr_xml d)) kids) eqn:FF; [discriminate|]. rewrite (find_none _ _ FF m I1) in I2. discriminate. }
  rewrite default_path in H. apply says_bind in H as [H|([] & _ & H)].
  { apply says_fold in H as (l1 & a & l2 & fs & E & R & H). destruct fs. rewrite (warn_path WAttr) in H. destruct x as [e|w]; [discriminate|]. destruct H as [<-|[]]. cbn [own]. split; [reflexivity|].
    assert (I : In a (filter (fun a => match find_attr ps a with None => true | Some _ => false end) (map fst attrs))) by (rewrite E; apply in_or_app; right; left; reflexivity).
    apply filter_In in I as [I1 I2]. split.
    - cbn [attribute]. assert (X : existsb (String.eqb a) (map fst attrs) = true) by (apply existsb_exists; exists a; split; [exact I1 | apply String.eqb_refl]). rewrite existsb_keys in X. destruct (dg a attrs); [discriminate | discriminate X].
    - intros d Hd Kd <-. rewrite (find_attr_in c W d Hd Kd) in I2. discriminate. }
  rewrite (warn_path WAttr) in H. apply says_bind in H as [H|([] & _ & H)].
  { apply says_fold in H as (l1 & a & l2 & fs & E & R & H). destruct fs. rewrite (warn_path WTag) in H. destruct x as [e|w]; [discriminate|]. destruct H as [<-|[]]. cbn [own]. split; [reflexivity|].
    assert (I : In a (filter (fun t => match find_elem ps t with None => true | Some _ => false end) (map fst (pkids_of pf classes kids)))) by (rewrite E; apply in_or_app; right; left; reflexivity).
    apply filter_In in I as [I1 I2]. split.
    - rewrite pkids_entry, map_map in I1. apply in_map_iff in I1 as (m & Em & Im). pose proof (proj1 (Forall_forall _ _) (elements_plain kids) m Im) as Pm. destruct m as [mt ma mx mk|]; [|discriminate]. cbn [pentry fst] in Em. subst mt.
      rewrite <- children_elements. intros Z. assert (In (Node a ma mx mk) (children a (elements kids))) as Q by (apply filter_In; split; [exact Im | apply String.eqb_refl]). rewrite Z in Q. destruct Q.
    - intros d Hd Kd <-. rewrite (find_elem_in c W d Hd Kd) in I2. discriminate. }
  rewrite (warn_path WTag) in H. apply says_bind in H as [H|([] & _ & H)]; [|destruct x; [discriminate | destruct H]].
  apply says_plain in H. destruct x as [e|[w r]].
  - destruct H as (e0 & H & ->). cbn [own blames]. exists cname, c. split; [reflexivity|]. split; [exact Hc|]. split; [reflexivity|].
    assert (PX : prefix pf c attrs (kids_of pf classes kids) f4 o).
    { exists f1, f2, u, f3. split; [exact P1|]. split; [exact P2|]. split; (eapply forget_ok; [|eassumption]; apply (forget_fold _ _ eq); [apply Forall2_self | intros a b b' r <-; apply forget_default]). }
    apply (prefix_reads pf c W) in PX; [|exact ND]. destruct PX as (PX & _). exists f4. split; [|exact H].
    intros d Hd. destruct (PX d Hd) as (v & V1 & V2). exists v. split; [exact V1|]. cbn [SpecPath.kids]. apply (given_spec pf classes c attrs kids d v N Hd), V2.
  - destruct H as [H ->]. apply (CK _ _ _ _ Hc) in H. subst w. exact I.
Qed.
Theorem obj_path p : named p (o_path (pread_obj pf classes cname attrs (pkids_of pf classes kids) p)).
Proof.
  unfold pread_obj. rewrite Hc. cbv zeta. unfold pbind at 1. destruct (o_res (pfold (pattr_step pf ps) attrs (cl_init c) p)) as [f1|e]; cbn [o_path]; [|apply attrs_path, incl_refl].
  eapply named_trans; [apply attrs_path, incl_refl|]. set (q := o_path (pfold (pattr_step pf ps) attrs (cl_init c) p)).
  apply (path_bind named); [apply named_trans | rewrite kids_path; apply named_refl|]. intros [[f2 o] u] r.
  apply (path_bind named); [apply named_trans | rewrite default_path; apply named_refl|]. intros f3 r3.
  apply (path_bind named); [apply named_trans | rewrite default_path; apply named_refl|]. intros f4 r4.
  apply (path_bind named); [apply named_trans | rewrite (warn_path WAttr); apply named_refl|]. intros [] r5.
  apply (path_bind named); [apply named_trans | rewrite (warn_path WTag); apply named_refl|]. intros [] r6.
  apply (path_bind named); [apply named_trans | apply named_refl|]. intros [] r7. apply named_refl.
Qed.
End Obj.

(** ** A whole document *)
(** shapes have no name, and their elements are values *)
Definition flat (cl : class) : Prop := find_attr (cl_params cl) "name" = None /\ forall p, In p (cl_params cl) -> pr_kind p <> PAttribute -> basic_type (pr_type p) = true.
Definition good_type (t : vtype) : Prop :=
  match t with
  | TObj c => exists cl, classes c = Some cl
  | TGeom tab => forall nm c, dg nm tab = Some c -> exists cl, classes c = Some cl /\ flat cl
  | TDuck cs => forall c, In c cs -> exists cl, classes c = Some cl
  | TSimple _ t => basic_type t = true
  | _ => True
  end.
Hypothesis GT : forall c cl p, classes c = Some cl -> In p (cl_params cl) -> pr_kind p <> PAttribute -> good_type (pr_type p).

Section Main.
Variables (doc : node) (T : vtype) (Loc : path -> node -> Prop).
Hypothesis L1 : forall p m v, Loc p m -> attribute "name" m = Some v -> Loc (set_suffix [PNamed v] p) m.
Hypothesis L2 : forall q m c cl pr k ds, Loc q m -> reads classes T doc (TObj c) m -> classes c = Some cl -> In pr (cl_params cl) ->
  kid_at (kids m) pr k ds -> Loc ((pr_xml pr, ds) :: q) k.
Notation rd := (reads classes T doc).

(** [q] leads to [m], or to the geometry whose shape is [m] *)
Definition stands (q : path) (m : node) : Prop := Loc q m \/ exists g tab, Loc q g /\ rd (TGeom tab) g /\ elements (kids g) = [m].
Definition explained (x : perr + pwarn) : Prop :=
  match x with
  | inl (EAt p w) => exists q t m, rd t m /\ stands q m /\ blames pf classes q t m p w
  | inl (ERaw _) => exists t m, rd t m /\ bad_value pf t m
  | inr (WAttr a, r) => exists q c cl m, r = Some q /\ rd (TObj c) m /\ classes c = Some cl /\ stands q m /\ attribute a m <> None /\
      forall p, In p (cl_params cl) -> pr_kind p = PAttribute -> pr_xml p <> a
  | inr (WTag t, r) => exists q c cl m, r = Some q /\ rd (TObj c) m /\ classes c = Some cl /\ stands q m /\ children t (kids m) <> [] /\
      forall p, In p (cl_params cl) -> pr_kind p <> PAttribute -> pr_xml p <> t
  | inr (WTwice t, _) => exists c cl m p, rd (TObj c) m /\ classes c = Some cl /\ In p (cl_params cl) /\ pr_kind p = PElement /\ pr_xml p = t /\
      (2 <= length (children t (kids m)))%nat
  | inr (WNoColor, _) => True
  end.
Lemma own_explained cname c tag attrs text ks q x : classes cname = Some c -> rd (TObj cname) (Node tag attrs text ks) -> stands q (Node tag attrs text ks) ->
  own cname c tag attrs text ks q x -> explained x.
Proof.
  intros Hc Hr Hs H. destruct x as [[p w|e]|[[a|t|t|] r]]; cbn [own explained] in *.
  - exists q, (TObj cname), (Node tag attrs text ks). auto.
  - destruct H.
  - destruct H as (-> & H1 & H2). exists q, cname, c, (Node tag attrs text ks). auto 10.
  - destruct H as (-> & H1 & H2). exists q, cname, c, (Node tag attrs text ks). auto 10.
  - destruct H as ((p & P1 & P2 & P3) & H). exists cname, c, (Node tag attrs text ks), p. auto 10.
  - exact I.
Qed.
Lemma kid_children ks pr k ds : kid_at ks pr k ds -> In k (children (pr_xml pr) ks) /\ pr_kind pr <> PAttribute.
Proof.
  intros [(K & i & H & _)|(K & H & _)]; (split; [|congruence]); [eapply nth_error_In, H | apply first_child_in, H].
Qed.
Lemma value_says t s q x : basic_type t = true -> says (raw (from_string pf t s) q) x -> exists e, x = inl (ERaw e) /\ forall v, ~ text_means pf t s v.
Proof.
  intros B H. apply says_plain in H. destruct x as [e|[w r]].
  - destruct H as (e0 & H & ->). exists e0. split; [reflexivity|]. intros v Hv. apply text_spec in Hv; [|exact B]. unfold ok in Hv. congruence.
  - destruct H as [H _]. rewrite from_string_quiet in H. destruct H.
Qed.
Lemma basic_says t n q x : basic_type t = true -> rd t n -> is_comment n = false -> says (pfrom_xml pf classes n t q) x -> explained x.
Proof.
  intros B Hr Hn H. destruct n as [tag attrs text ks|]; [|discriminate].
  assert (H' : says (raw (from_string pf t text) q) x) by (destruct t; try discriminate; exact H). apply value_says in H' as (e & -> & H'); [|exact B].
  exists t, (Node tag attrs text ks). split; [exact Hr|]. destruct t; try discriminate; exact H'.
Qed.
Lemma child_node t l k : In k (children t l) -> is_comment k = false.
Proof. intros H. apply filter_In in H as [_ H]. destruct k; [reflexivity | discriminate]. Qed.
Theorem all_says n : wf_doc n -> forall t p x, Loc p n -> rd t n -> good_type t -> is_comment n = false -> says (pfrom_xml pf classes n t p) x -> explained x.
Proof.
  induction n as [|tag attrs text ks IH] using node_rect2; intros WF t p x Hl Hr Hg Hn H; [discriminate|]. rewrite Forall_forall in IH.
  set (n := Node tag attrs text ks) in *. assert (ND : NoDup (map fst attrs)) by (destruct WF; assumption).
  assert (OBJ : forall c cl q, classes c = Some cl -> rd (TObj c) n -> Loc q n -> says (pread_obj pf classes c attrs (pkids_of pf classes ks) q) x -> explained x).
  { intros c cl q Hc Hrc Hq Hs. apply (obj_says c cl tag attrs text ks Hc ND) in Hs as (q' & Nq & [O|(pr & k & ds & Hp & Hk & Hs)]).
    - assert (Lq : Loc q' n) by (destruct Nq as [->|(v & V1 & _ & ->)]; [exact Hq | apply L1; assumption]).
      eapply own_explained; [exact Hc | exact Hrc | left; exact Lq | exact O].
    - assert (Lq : Loc q' n) by (destruct Nq as [->|(v & V1 & _ & ->)]; [exact Hq | apply L1; assumption]).
      destruct (kid_children _ _ _ _ Hk) as [Hin Kp]. assert (Ik : In k ks) by (apply filter_In in Hin; tauto).
      apply (IH k Ik (wf_doc_kids _ _ _ _ _ WF Ik) (pr_type pr) ((pr_xml pr, ds) :: q') x); [exact (L2 q' n c cl pr k ds Lq Hrc Hc Hp Hk) | | exact (GT _ _ _ Hc Hp Kp) | exact (child_node _ _ _ Hin) | exact Hs].
      eapply RdKid; [exact Hrc | exact Hc | exact Hp | exact Kp | exact Hin]. }
  change (says (pinterp pf classes n attrs text (pkids_of pf classes ks) t p) x) in H.
  destruct t; cbn [pinterp] in H; try (match type of Hr with reads _ _ _ ?t _ => exact (basic_says t n p x eq_refl Hr eq_refl H) end).
  - destruct x; [discriminate | destruct H].
  - cbn [good_type] in Hg. apply value_says in H as (e & -> & H); [|exact Hg]. exists (TSimple attr t), n. split; [exact Hr | exact H].
  - destruct Hg as (cl & Hc). eapply OBJ; eassumption.
  - rewrite pkids_entry in H. pose proof (elements_plain ks) as PL. destruct (elements ks) as [|k [|k2 r]] eqn:E; cbn [map] in H.
    + apply says_plain in H. destruct x as [e|[w r]]; [|destruct H as [[] _]]. destruct H as (e0 & _ & ->). exists (TGeom tab), n. split; [exact Hr|]. cbn [bad_value kids n]. intros k c Ek. rewrite E in Ek. discriminate.
    + inversion PL as [|? ? Pk _]; subst. destruct k as [kt ka kx kk|]; [|discriminate]. cbn [pentry fst snd] in H. apply says_bind in H as [H|(c & R & H)].
      * apply says_plain in H. destruct x as [e|[w r]].
        -- destruct H as (e0 & H & ->). exists (TGeom tab), n. split; [exact Hr|]. cbn [bad_value kids n]. intros k c Ek. rewrite E in Ek. injection Ek as <-. intros D. rewrite D in H. discriminate.
        -- destruct H as [H _]. destruct (dg kt tab); destruct H.
      * cbn [raw plain o_path] in H. assert (D : dg kt tab = Some c) by (cbn in R; destruct (dg kt tab); cbn in R; congruence).
        destruct (Hg _ _ D) as (cl & Hc & [F1 F2]). set (k := Node kt ka kx kk) in *.
        assert (Ik : In k ks). { assert (Q : In k (elements ks)) by (rewrite E; left; reflexivity). apply filter_In in Q; tauto. }
        assert (NDk : NoDup (map fst ka)) by (destruct (wf_doc_kids _ _ _ _ _ WF Ik); assumption).
        assert (Hrk : rd (TObj c) k) by (apply (RdGeom classes T doc tab n k c); [exact Hr | exact E | exact D]).
        change (says (pread_obj pf classes c ka (pkids_of pf classes kk) p) x) in H.
        apply (obj_says c cl kt ka kx kk Hc NDk) in H as (q' & Nq & [O|(pr & k2 & ds & Hp & Hk & Hs)]).
        -- assert (q' = p) as -> by (destruct Nq as [->|(v & _ & V2 & _)]; [reflexivity | congruence]).
           apply (own_explained c cl kt ka kx kk p x Hc Hrk); [right; exists n, tab; auto | exact O].
        -- destruct (kid_children _ _ _ _ Hk) as [Hin Kp]. eapply basic_says; [exact (F2 pr Hp Kp) | | exact (child_node _ _ _ Hin) | exact Hs].
           eapply RdKid; [exact Hrk | exact Hc | exact Hp | exact Kp | exact Hin].
    + apply says_plain in H. destruct x as [e|[w r']]; [|destruct H as [[] _]]. destruct H as (e0 & _ & ->). exists (TGeom tab), n. split; [exact Hr|]. cbn [bad_value kids n]. intros k' c Ek. rewrite E in Ek. discriminate.
  - cbn [good_type] in Hg. assert (D : forall done l q first, cs = done ++ l -> Loc q n -> (forall c v, In c done -> snd (from_xml pf classes n (TObj c)) <> inl v) ->
      says (pduck pf classes l attrs (pkids_of pf classes ks) first q) x -> explained x).
    { intros done l. revert done. induction l as [|c l IHl]; intros done q first E Lq Dn Hs; cbn [pduck] in Hs.
      - destruct x as [e|w]; [|destruct Hs]. cbn [praise says o_res] in Hs. injection Hs as <-. exists q, (TDuck cs), n. split; [exact Hr|]. split; [left; exact Lq|].
        cbn [blames]. exists cs. split; [reflexivity|]. split; [reflexivity|]. rewrite app_nil_r in E. subst done. exact Dn.
      - destruct (Hg c) as (cl & Hc); [rewrite E; apply in_or_app; right; left; reflexivity|].
        assert (Hrc : rd (TObj c) n) by (apply (RdDuck classes T doc cs); [exact Hr | rewrite E; apply in_or_app; right; left; reflexivity]).
        set (o := pread_obj pf classes c attrs (pkids_of pf classes ks) q) in *. destruct (o_res o) as [v|e] eqn:R.
        + destruct x as [e|w]; [cbn [says] in Hs; congruence|]. exact (OBJ c cl q Hc Hrc Lq Hs).
        + assert (Lq' : Loc (o_path o) n).
          { destruct (obj_path c cl tag attrs text ks Hc ND q) as [X|(v & V1 & _ & X)]; fold o in X; rewrite X; [exact Lq | apply L1; assumption]. }
          assert (Dn' : forall c' v, In c' (done ++ [c]) -> snd (from_xml pf classes n (TObj c')) <> inl v).
          { intros c' v Hin. apply in_app_or in Hin as [Hin|[<-|[]]]; [exact (Dn c' v Hin)|]. rewrite <- (forget_xml n (TObj c) q). change (pfrom_xml pf classes n (TObj c) q) with o. unfold forget. cbn [snd]. rewrite R. discriminate. }
          assert (E' : cs = (done ++ [c]) ++ l) by (rewrite <- app_assoc; exact E).
          destruct x as [e'|w]; cbn [says o_res o_warn] in Hs.
          * exact (IHl (done ++ [c]) (o_path o) _ E' Lq' Dn' Hs).
          * apply in_app_or in Hs as [Hs|Hs]; [exact (OBJ c cl q Hc Hrc Lq Hs) | exact (IHl (done ++ [c]) (o_path o) _ E' Lq' Dn' Hs)]. }
    apply (D [] cs p None eq_refl Hl); [intros c v [] | exact H].
Qed.
End Main.

(** the error that the message of failed alternatives shows *)
Lemma duck_shows cs attrs ks f : forall p e, o_res (pduck pf classes cs attrs ks (Some f) p) = inr e -> exists q, e = EAt q (CNone (Some f)).
Proof.
  induction cs as [|c cs IH]; intros p e H; cbn [pduck] in H; [cbn in H; injection H as <-; eauto|].
  destruct (o_res (pread_obj pf classes c attrs ks p)) eqn:R; [congruence|]. cbn [o_res] in H. exact (IH _ _ H).
Qed.
Lemma duck_first c cs attrs ks p e : o_res (pduck pf classes (c :: cs) attrs ks None p) = inr e ->
  exists q f, e = EAt q (CNone (Some f)) /\ o_res (pread_obj pf classes c attrs ks p) = inr f.
Proof.
  cbn [pduck]. destruct (o_res (pread_obj pf classes c attrs ks p)) as [v|f] eqn:R; [congruence|]. cbn [o_res]. intros H. apply duck_shows in H as (q & ->). eauto.
Qed.
End Proofs.
