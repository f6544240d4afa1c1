(** Last steps of the proofs quoted in Properties_Path.v. *)
From Coq Require Import String Ascii Bool Arith ZArith Lia List.
From Verif Require Import Prelude XmlModel XmlSchema XmlProofs XmlWrite XmlRead XmlCheck SpecXml XmlMore XmlNum PathModel SpecPath PathProofs.
Import ListNotations.
Local Open Scope nat_scope.
Local Open Scope string_scope.
Local Open Scope list_scope.

(** ** The schemas *)
Section Schemas.
Context {Num : Type}.
Variable zero : Num.
Notation CS := (classes zero).
Notation dg := (dget String.eqb).
Definition flatb (cl : class Num) : bool :=
  match find_attr (cl_params cl) "name" with None => true | _ => false end && forallb (fun p => is_kind PAttribute p || basic_type (pr_type p)) (cl_params cl).
Definition someb {A} (o : option A) : bool := match o with Some _ => true | None => false end.
Definition good_typeb (t : vtype) : bool :=
  match t with
  | TObj c => someb (CS c)
  | TGeom tab => forallb (fun e => match CS (snd e) with Some cl => flatb cl | None => false end) tab
  | TDuck l => forallb (fun c => someb (CS c)) l
  | TSimple _ t => basic_type t
  | _ => true
  end.
Lemma flatb_ok cl : flatb cl = true -> flat cl.
Proof.
  unfold flatb, flat. intros H. apply andb_true_iff in H as [H1 H2]. split; [destruct (find_attr (cl_params cl) "name"); [discriminate | reflexivity]|].
  intros p Hp K. rewrite forallb_forall in H2. specialize (H2 p Hp). apply orb_true_iff in H2 as [H2|H2]; [apply kind_attr in H2; contradiction | exact H2].
Qed.
Lemma good_typeb_ok t : good_typeb t = true -> good_type CS t.
Proof.
  destruct t; cbn [good_typeb good_type]; auto.
  - destruct (CS c) as [cl|]; [eauto | discriminate].
  - intros H nm c D. rewrite forallb_forall in H. apply (dget_in _ seqb_eq) in D. specialize (H _ D). cbn [snd] in H. destruct (CS c) as [cl|]; [|discriminate]. exists cl. split; [reflexivity | apply flatb_ok, H].
  - intros H c Hin. rewrite forallb_forall in H. specialize (H c Hin). destruct (CS c) as [cl|]; [eauto | discriminate].
Qed.
Lemma schema_good c cl p : CS c = Some cl -> In p (cl_params cl) -> pr_kind p <> PAttribute -> good_type CS (pr_type p).
Proof.
  intros Hc Hp _. assert (A : forallb (fun e => forallb (fun p => good_typeb (pr_type p)) (cl_params (snd e))) (urdf_classes zero ++ sdf_classes zero) = true) by (vm_compute; reflexivity).
  unfold classes in Hc at 1. apply (dget_in _ seqb_eq) in Hc. rewrite forallb_forall in A. specialize (A _ Hc). cbn [snd] in A. rewrite forallb_forall in A. apply good_typeb_ok, A, Hp.
Qed.
Lemma quiet_assert b w : In w (fst (assert b)) -> w = WNoColor. Proof. destruct b; intros []. Qed.
Lemma schema_checks c cl fs w : CS c = Some cl -> In w (fst (cl_check cl fs)) -> w = WNoColor.
Proof.
  intros Hc H. unfold classes in Hc. apply (dget_in _ seqb_eq) in Hc. unfold urdf_classes, sdf_classes in Hc. cbn [app] in Hc.
  repeat (destruct Hc as [Hc|Hc]; [injection Hc as _ <-; cbn [cl_check] in H;
    first [destruct H as [] | exact (quiet_assert _ _ H) | destruct (is_none (dg "color" fs) && is_none (dg "texture" fs)); [destruct H as [<-|[]]; reflexivity | destruct H]] |]).
  destruct Hc.
Qed.
End Schemas.

(** ** Two readings of "the path leads to the element": it selects it, or it selects nothing else *)
Section Loc.
Context {Num : Type}.
Variable classes : string -> option (class Num).
Variables (doc : node) (T : vtype).
Definition among (p : path) (m : node) : Prop :=
  exists t ds r par, p = (t, ds) :: r /\ In par (select r doc) /\ In m (select_step (t, ds) (kids par)).
Lemma among_select p m : among p m -> In m (select p doc).
Proof. intros (t & ds & r & par & -> & H1 & H2). cbn [select]. apply in_flat_map. exists par. auto. Qed.
Lemma among_has p m a : among p m -> attribute a m <> None -> In m (select (add_has a p) doc).
Proof.
  intros (t & ds & r & par & -> & H1 & H2) Ha. cbn [add_has select]. apply in_flat_map. exists par. split; [exact H1|]. unfold select_step in *. cbn [fst snd] in *.
  rewrite fold_left_app. cbn [fold_left keep]. apply filter_In. split; [exact H2|]. destruct (attribute a m); [reflexivity | congruence].
Qed.
Lemma among_name p m v : among p m -> attribute "name" m = Some v -> among (set_suffix [PNamed v] p) m.
Proof.
  intros (t & ds & r & par & -> & H1 & H2) Hv. exists t, [PNamed v], r, par. split; [reflexivity|]. split; [exact H1|]. unfold select_step in *. cbn [fst snd fold_left keep] in *.
  apply filter_In. split; [exact (steps_incl _ _ _ H2)|]. rewrite Hv. apply String.eqb_refl.
Qed.
Lemma among_kid q m c cl pr k ds : among q m -> reads classes T doc (TObj c) m -> classes c = Some cl -> In pr (cl_params cl) ->
  kid_at (kids m) pr k ds -> among ((pr_xml pr, ds) :: q) k.
Proof.
  intros H _ _ _ K. exists (pr_xml pr), ds, q, m. split; [reflexivity|]. split; [apply among_select, H|]. unfold select_step. cbn [fst snd].
  destruct K as [(_ & i & K & ->)|(_ & K & ->)]; cbn [fold_left keep]; [rewrite K; left; reflexivity | apply first_child_in, K].
Qed.

(** no element has two children of one tag and one name, or two of a kind that may only occur once *)
Definition distinct_siblings : Prop := forall c cl m, reads classes T doc (TObj c) m -> classes c = Some cl ->
  (forall pr, In pr (cl_params cl) -> pr_kind pr = PElement -> length (children (pr_xml pr) (kids m)) <= 1) /\
  (forall t v, length (select_step (t, [PNamed v]) (kids m)) <= 1).
Definition alone (p : path) (m : node) : Prop :=
  exists t ds r par, p = (t, ds) :: r /\ select r doc = [par] /\ select_step (t, ds) (kids par) = [m] /\
    forall v, attribute "name" m = Some v -> select_step (t, [PNamed v]) (kids par) = [m].
Lemma alone_select p m : alone p m -> select p doc = [m].
Proof. intros (t & ds & r & par & -> & H1 & H2 & _). cbn [select]. rewrite H1. cbn [flat_map]. rewrite H2. reflexivity. Qed.
Lemma alone_has p m a : alone p m -> attribute a m <> None -> select (add_has a p) doc = [m].
Proof.
  intros (t & ds & r & par & -> & H1 & H2 & _) Ha. cbn [add_has select]. rewrite H1. cbn [flat_map]. rewrite app_nil_r. unfold select_step in *. cbn [fst snd] in *.
  rewrite fold_left_app, H2. cbn [fold_left keep filter]. destruct (attribute a m); [reflexivity | congruence].
Qed.
Lemma alone_name p m v : alone p m -> attribute "name" m = Some v -> alone (set_suffix [PNamed v] p) m.
Proof. intros (t & ds & r & par & -> & H1 & H2 & H3) Hv. exists t, [PNamed v], r, par. split; [reflexivity|]. split; [exact H1|]. split; [apply H3, Hv | exact H3]. Qed.
Lemma in_one {A} (l : list A) x : In x l -> length l <= 1 -> l = [x].
Proof. destruct l as [|a [|b l]]; cbn [length]; intros H L; [destruct H | destruct H as [->|[]]; reflexivity | lia]. Qed.
Lemma alone_kid : distinct_siblings -> forall q m c cl pr k ds, alone q m -> reads classes T doc (TObj c) m -> classes c = Some cl -> In pr (cl_params cl) ->
  kid_at (kids m) pr k ds -> alone ((pr_xml pr, ds) :: q) k.
Proof.
  intros D q m c cl pr k ds H Hr Hc Hp K. destruct (D c cl m Hr Hc) as [D1 D2].
  exists (pr_xml pr), ds, q, m. split; [reflexivity|]. split; [apply alone_select, H|]. destruct (kid_children _ _ _ _ K) as [Hin _]. split.
  - unfold select_step. cbn [fst snd]. destruct K as [(_ & i & K & ->)|(Kp & K & ->)]; cbn [fold_left keep]; [rewrite K; reflexivity | apply in_one; [exact Hin | apply D1; assumption]].
  - intros v Hv. apply in_one; [|apply D2]. unfold select_step. cbn [fst snd fold_left keep]. apply filter_In. split; [exact Hin|]. rewrite Hv. apply String.eqb_refl.
Qed.
End Loc.

Lemma root_among tag attrs text ks : among (Node tag attrs text ks) [(tag, [])] (Node tag attrs text ks).
Proof. exists tag, [], [], (Node "" [] None [Node tag attrs text ks]). split; [reflexivity|]. split; [left; reflexivity|]. cbn. rewrite String.eqb_refl. left; reflexivity. Qed.
Lemma root_alone tag attrs text ks : alone (Node tag attrs text ks) [(tag, [])] (Node tag attrs text ks).
Proof.
  exists tag, [], [], (Node "" [] None [Node tag attrs text ks]). split; [reflexivity|]. split; [reflexivity|]. split; [cbn; rewrite String.eqb_refl; reflexivity|].
  intros v Hv. unfold select_step. cbn [fst snd kids children filter has_tag]. rewrite String.eqb_refl. cbn [fold_left keep filter]. rewrite Hv, String.eqb_refl. reflexivity.
Qed.
Lemma root_said {Num} (pf : string -> option Num) zero (Loc : path -> node -> Prop) cname cl tag attrs text ks x :
  let doc := Node tag attrs text ks in let cs := classes zero in
  (forall p m v, Loc p m -> attribute "name" m = Some v -> Loc (set_suffix [PNamed v] p) m) ->
  (forall q m c cl pr k ds, Loc q m -> reads cs (TObj cname) doc (TObj c) m -> cs c = Some cl -> In pr (cl_params cl) -> kid_at (kids m) pr k ds -> Loc ((pr_xml pr, ds) :: q) k) ->
  Loc [(tag, [])] doc -> wf_doc doc -> cs cname = Some cl -> cl_tag cl = Some tag -> says (pfrom_doc pf cs cname doc) x -> explained pf cs doc (TObj cname) Loc x.
Proof.
  intros doc cs L1 L2 L0 WF Hc Ht H. unfold pfrom_doc, root_path in H. rewrite Hc, Ht in H.
  refine (all_says pf cs (schema_nice zero) (schema_checks zero) (schema_good zero) doc (TObj cname) Loc L1 L2 doc WF (TObj cname) _ x L0 _ _ _ H);
    [apply RdSelf | exists cl; exact Hc | reflexivity].
Qed.
(** a check of a document that is enough for [distinct_siblings] *)
Section Tidy.
Context {Num : Type}.
Variable zero : Num.
Definition name_clash (m k : node) : bool :=
  match m, k with
  | Node t _ _ _, Node u _ _ _ => String.eqb t u && match attribute "name" m, attribute "name" k with Some v, Some w => String.eqb v w | _, _ => false end
  | _, _ => false
  end.
Fixpoint no_clash (l : list node) : bool := match l with [] => true | m :: r => negb (existsb (name_clash m) r) && no_clash r end.
Definition single_tags : list string := flat_map (fun e : string * class Num => flat_map (fun p => match pr_kind p with PElement => [pr_xml p] | _ => [] end) (cl_params (snd e))) (urdf_classes zero ++ sdf_classes zero).
Definition tidy1 (ks : list node) : bool := no_clash ks && forallb (fun t => Nat.leb (List.length (children t ks)) 1) single_tags.
Fixpoint tidy (n : node) : bool := match n with Comment => true | Node _ _ _ ks => tidy1 ks && forallb tidy ks end.
Lemma tidy_kid n m : tidy n = true -> In m (kids n) -> tidy m = true.
Proof. destruct n as [tg at_ tx ks|]; cbn [tidy kids]; [|intros _ []]. intros H Hin. apply andb_true_iff in H as [_ H]. rewrite forallb_forall in H. exact (H m Hin). Qed.
Lemma children_kids t n m : In m (children t (kids n)) -> In m (kids n).
Proof. unfold children. intros H. apply filter_In in H as [H _]. exact H. Qed.
Lemma tidy_reads T doc t m : tidy doc = true -> reads (classes zero) T doc t m -> tidy m = true.
Proof.
  intros H R. induction R as [t n|t n c cl p k R IH Hc Hp Hk m Hm|t n tab g m c R IH He Hd|t n l m c R IH Hc].
  - exact H.
  - apply (tidy_kid k); [apply IH, H | apply children_kids in Hm; exact Hm].
  - apply (tidy_kid g); [apply IH, H|]. assert (X : In m (elements (kids g))) by (rewrite He; left; reflexivity). unfold elements in X. apply filter_In in X as [X _]. exact X.
  - apply IH, H.
Qed.
Lemma no_clash_ok t v l : no_clash l = true -> List.length (select_step (t, [PNamed v]) l) <= 1.
Proof.
  unfold select_step. cbn [fst snd fold_left keep]. induction l as [|m r IH]; [cbn; lia|]. cbn [no_clash]. intros H. apply andb_true_iff in H as [H1 H2]. specialize (IH H2).
  unfold children in *. cbn [filter]. destruct (has_tag t m) eqn:Em; [|exact IH]. cbn [filter]. destruct (match attribute "name" m with Some w => (w =? v)%string | None => false end) eqn:Ev; [|exact IH].
  assert (Z : filter (fun k => match attribute "name" k with Some w => (w =? v)%string | None => false end) (filter (has_tag t) r) = []).
  { destruct (filter _ (filter (has_tag t) r)) as [|k l'] eqn:F; [reflexivity|]. exfalso.
    assert (X : In k (filter (fun k => match attribute "name" k with Some w => (w =? v)%string | None => false end) (filter (has_tag t) r))) by (rewrite F; left; reflexivity).
    apply filter_In in X as [X Y]. apply filter_In in X as [X W]. apply negb_true_iff in H1. assert (C : existsb (name_clash m) r = true); [|congruence].
    apply existsb_exists. exists k. split; [exact X|]. destruct m as [t1 a1 x1 k1|]; [|discriminate Em]. destruct k as [t2 a2 x2 k2|]; [|discriminate W]. cbn [has_tag] in Em, W. unfold name_clash.
    apply String.eqb_eq in Em, W. subst. rewrite String.eqb_refl. destruct (attribute "name" (Node _ a1 x1 k1)); [|discriminate]. destruct (attribute "name" (Node _ a2 x2 k2)); [|discriminate].
    apply String.eqb_eq in Ev, Y. subst. cbn [andb]. apply String.eqb_refl. }
  rewrite Z. cbn. lia.
Qed.
Lemma tidy_distinct T doc : tidy doc = true -> distinct_siblings (classes zero) doc T.
Proof.
  intros H c cl m R Hc. pose proof (tidy_reads T doc _ m H R) as W. destruct m as [tg at_ tx ks|]; [|split; [intros; cbn; lia | intros t v; apply no_clash_ok; reflexivity]].
  cbn [tidy kids] in *. apply andb_true_iff in W as [W _]. apply andb_true_iff in W as [W1 W2]. split; [|intros t v; apply no_clash_ok, W1].
  intros pr Hp K. rewrite forallb_forall in W2. apply Nat.leb_le, W2. unfold single_tags. apply in_flat_map. exists (c, cl). unfold classes in Hc. apply (dget_in _ seqb_eq) in Hc. split; [exact Hc|].
  cbn [snd]. apply in_flat_map. exists pr. split; [exact Hp|]. rewrite K. left. reflexivity.
Qed.
End Tidy.

Lemma l81_same : forall (Num : Type) (pf : string -> option Num) (zero : Num) cname doc,
  let o := pfrom_doc pf (classes zero) cname doc in
  map fst (o_warn o) = fst (from_doc pf (classes zero) cname doc) /\
  match o_res o with
  | inl v => snd (from_doc pf (classes zero) cname doc) = inl v
  | inr (EAt _ _) => snd (from_doc pf (classes zero) cname doc) = inr XParse
  | inr (ERaw e) => snd (from_doc pf (classes zero) cname doc) = inr e
  end.
Proof.
  intros Num pf zero cname doc. intros o. pose proof (forget_xml pf (classes zero) doc (TObj cname) (root_path (classes zero) cname)) as H. change (pfrom_xml pf (classes zero) doc (TObj cname) (root_path (classes zero) cname)) with o in H.
  unfold from_doc. rewrite <- H. unfold forget. cbn [fst snd]. split; [reflexivity|]. destruct (o_res o) as [v|[p w|e]]; reflexivity.
Qed.

Lemma l81_located : forall (Num : Type) (pf : string -> option Num) (zero : Num) cname cl tag attrs text ks p w,
  let doc := Node tag attrs text ks in
  wf_doc doc -> classes zero cname = Some cl -> cl_tag cl = Some tag -> o_res (pfrom_doc pf (classes zero) cname doc) = inr (EAt p w) ->
  exists q t m, reads (classes zero) (TObj cname) doc t m /\ blames pf (classes zero) q t m p w /\
    (In m (select p doc) \/
     exists g tab, reads (classes zero) (TObj cname) doc (TGeom tab) g /\ elements (kids g) = [m] /\ In g (select q doc)).
Proof.
  intros Num pf zero cname cl tag attrs text ks p w. intros doc WF Hc Ht H.
  destruct (root_said pf zero (among doc) cname cl tag attrs text ks (inl (EAt p w)) (among_name doc) (among_kid (classes zero) doc (TObj cname)) (root_among _ _ _ _) WF Hc Ht H) as (q & t & m & R & S1 & B).
  exists q, t, m. split; [exact R|]. split; [exact B|]. destruct S1 as [S1|(g & tab & S1 & S2 & S3)].
  - left. destruct w; cbn [blames] in B; [destruct B as (? & ? & ? & _ & _ & -> & (pr & s & _ & _ & _ & A & _)); apply among_has; [exact S1 | rewrite A; discriminate] | | |];
      [destruct B as (? & ? & _ & _ & -> & _) | destruct B as (? & ? & _ & _ & -> & _) | destruct B as (l & _ & -> & _)]; apply among_select, S1.
  - right. exists g, tab. split; [exact S2|]. split; [exact S3 | apply among_select, S1].
Qed.

Lemma l81_unique : forall (Num : Type) (pf : string -> option Num) (zero : Num) cname cl tag attrs text ks p w,
  let doc := Node tag attrs text ks in
  wf_doc doc -> classes zero cname = Some cl -> cl_tag cl = Some tag -> distinct_siblings (classes zero) doc (TObj cname) ->
  o_res (pfrom_doc pf (classes zero) cname doc) = inr (EAt p w) ->
  exists q t m, reads (classes zero) (TObj cname) doc t m /\ blames pf (classes zero) q t m p w /\
    (select p doc = [m] \/
     exists g tab, reads (classes zero) (TObj cname) doc (TGeom tab) g /\ elements (kids g) = [m] /\ select q doc = [g]).
Proof.
  intros Num pf zero cname cl tag attrs text ks p w. intros doc WF Hc Ht D H.
  destruct (root_said pf zero (alone doc) cname cl tag attrs text ks (inl (EAt p w)) (alone_name doc) (alone_kid (classes zero) doc (TObj cname) D) (root_alone _ _ _ _) WF Hc Ht H) as (q & t & m & R & S1 & B).
  exists q, t, m. split; [exact R|]. split; [exact B|]. destruct S1 as [S1|(g & tab & S1 & S2 & S3)].
  - left. destruct w; cbn [blames] in B; [destruct B as (? & ? & ? & _ & _ & -> & (pr & s & _ & _ & _ & A & _)); apply alone_has; [exact S1 | rewrite A; discriminate] | | |];
      [destruct B as (? & ? & _ & _ & -> & _) | destruct B as (? & ? & _ & _ & -> & _) | destruct B as (l & _ & -> & _)]; apply alone_select, S1.
  - right. exists g, tab. split; [exact S2|]. split; [exact S3 | apply alone_select, S1].
Qed.

Lemma l81_unlocated : forall (Num : Type) (pf : string -> option Num) (zero : Num) cname cl tag attrs text ks e,
  let doc := Node tag attrs text ks in
  wf_doc doc -> classes zero cname = Some cl -> cl_tag cl = Some tag -> o_res (pfrom_doc pf (classes zero) cname doc) = inr (ERaw e) ->
  exists t m, reads (classes zero) (TObj cname) doc t m /\ bad_value pf t m.
Proof.
  intros Num pf zero cname cl tag attrs text ks e. intros doc WF Hc Ht H.
  exact (root_said pf zero (among doc) cname cl tag attrs text ks (inl (ERaw e)) (among_name doc) (among_kid (classes zero) doc (TObj cname)) (root_among _ _ _ _) WF Hc Ht H).
Qed.

Lemma l81_messages : forall (Num : Type) (pf : string -> option Num) (zero : Num) cname cl tag attrs text ks u r,
  let doc := Node tag attrs text ks in
  wf_doc doc -> classes zero cname = Some cl -> cl_tag cl = Some tag -> In (u, r) (o_warn (pfrom_doc pf (classes zero) cname doc)) ->
  match u with
  | WAttr a => exists q c k m, r = Some q /\ reads (classes zero) (TObj cname) doc (TObj c) m /\ classes zero c = Some k /\
      attribute a m <> None /\ (forall pr, In pr (cl_params k) -> pr_kind pr = PAttribute -> pr_xml pr <> a) /\
      (In m (select q doc) \/ exists g tab, reads (classes zero) (TObj cname) doc (TGeom tab) g /\ elements (kids g) = [m] /\ In g (select q doc))
  | WTag t => exists q c k m, r = Some q /\ reads (classes zero) (TObj cname) doc (TObj c) m /\ classes zero c = Some k /\
      children t (kids m) <> [] /\ (forall pr, In pr (cl_params k) -> pr_kind pr <> PAttribute -> pr_xml pr <> t) /\
      (In m (select q doc) \/ exists g tab, reads (classes zero) (TObj cname) doc (TGeom tab) g /\ elements (kids g) = [m] /\ In g (select q doc))
  | WTwice t => exists c k m pr, reads (classes zero) (TObj cname) doc (TObj c) m /\ classes zero c = Some k /\ In pr (cl_params k) /\
      pr_kind pr = PElement /\ pr_xml pr = t /\ 2 <= length (children t (kids m))
  | WNoColor => True
  end.
Proof.
  intros Num pf zero cname cl tag attrs text ks u r. intros doc WF Hc Ht H.
  pose proof (root_said pf zero (among doc) cname cl tag attrs text ks (inr (u, r)) (among_name doc) (among_kid (classes zero) doc (TObj cname)) (root_among _ _ _ _) WF Hc Ht H) as X.
  assert (ST : forall q m, stands (classes zero) doc (TObj cname) (among doc) q m -> In m (select q doc) \/ exists g tab, reads (classes zero) (TObj cname) doc (TGeom tab) g /\ elements (kids g) = [m] /\ In g (select q doc)).
  { intros q m [S1|(g & tab & S1 & S2 & S3)]; [left; apply among_select, S1 | right; exists g, tab; split; [exact S2|]; split; [exact S3 | apply among_select, S1]]. }
  destruct u; cbn [explained] in X; [| |exact X|exact X]; destruct X as (q & c & k & m & X1 & X2 & X3 & X4 & X5 & X6); exists q, c, k, m;
    (split; [exact X1|]); (split; [exact X2|]); (split; [exact X3|]); (split; [exact X5|]); (split; [exact X6 | apply ST, X4]).
Qed.

Lemma l81_alternatives : forall (Num : Type) (pf : string -> option Num) (zero : Num) c l tag attrs text ks p e,
  o_res (pfrom_xml pf (classes zero) (Node tag attrs text ks) (TDuck (c :: l)) p) = inr e ->
  exists q f, e = EAt q (CNone (Some f)) /\ o_res (pfrom_xml pf (classes zero) (Node tag attrs text ks) (TObj c) p) = inr f.
Proof.
  intros Num pf zero c l tag attrs text ks p e. intros H. exact (duck_first pf (classes zero) c l attrs (pkids_of pf (classes zero) ks) p e H). Qed.

Lemma l81_geometry_refuted : exists doc p w, wf_doc doc /\ distinct_siblings (classes 0%Z) doc (TObj "urdf.Robot") /\
  o_res (pfrom_doc zf (classes 0%Z) "urdf.Robot" doc) = inr (EAt p w) /\ path_str p = "/robot/link[@name='base']/visual[1]/geometry[@size]" /\ select p doc = [].
Proof.
  exists (E "robot" [] [E "link" [("name", "base")] [E "visual" [] [E "geometry" [] [E "box" [("size", "1 1 x")] []]]]]),
    [("geometry", [PHas "size"]); ("visual", [PIndex 1]); ("link", [PNamed "base"]); ("robot", [])], (CValue (XPy ValueError)).
  split; [simpl; repeat split; repeat constructor; simpl; intuition congruence|]. split; [apply tidy_distinct; vm_compute; reflexivity|]. split; [vm_compute; reflexivity|]. split; reflexivity.
Qed.

Lemma l81_duplicate_refuted : exists doc p w a b, wf_doc doc /\ o_res (pfrom_doc zf (classes 0%Z) "urdf.Robot" doc) = inr (EAt p w) /\ select p doc = [a; b] /\
  (exists v, snd (from_xml zf (classes 0%Z) a (TObj "urdf.Joint")) = inl v) /\ snd (from_xml zf (classes 0%Z) b (TObj "urdf.Joint")) = inr XParse.
Proof.
  exists (E "robot" [] [E "joint" [("name", "j"); ("type", "fixed")] [E "parent" [("link", "a")] []; E "child" [("link", "b")] []]; E "joint" [("name", "j"); ("type", "fixed")] [E "parent" [("link", "b")] []]]),
    [("joint", [PNamed "j"]); ("robot", [])], (CMissing PElement "child"),
    (E "joint" [("name", "j"); ("type", "fixed")] [E "parent" [("link", "a")] []; E "child" [("link", "b")] []]), (E "joint" [("name", "j"); ("type", "fixed")] [E "parent" [("link", "b")] []]).
  split; [simpl; repeat split; repeat constructor; simpl; intuition congruence|]. split; [vm_compute; reflexivity|]. split; [reflexivity|]. split; [eexists; vm_compute; reflexivity | vm_compute; reflexivity].
Qed.

Lemma l81_root_refuted : exists doc p w, wf_doc doc /\ o_res (pfrom_doc zf (classes 0%Z) "urdf.Robot" doc) = inr (EAt p w) /\ path_str p = "/robot/joint[@name='j']" /\ select p doc = [].
Proof.
  exists (E "model" [] [E "joint" [("name", "j"); ("type", "fixed")] [E "parent" [("link", "b")] []]]), [("joint", [PNamed "j"]); ("robot", [])], (CMissing PElement "child").
  split; [simpl; repeat split; repeat constructor; simpl; intuition congruence|]. split; [vm_compute; reflexivity|]. split; reflexivity.
Qed.

Lemma l81_mass_refuted : exists doc, wf_doc doc /\ distinct_siblings (classes 0%Z) doc (TObj "urdf.Robot") /\ o_res (pfrom_doc zf (classes 0%Z) "urdf.Robot" doc) = inr (ERaw (XPy ValueError)).
Proof.
  exists (E "robot" [] [E "link" [("name", "base")] [E "inertial" [] [E "mass" [("value", "heavy")] []]]]).
  split; [simpl; repeat split; repeat constructor; simpl; intuition congruence|]. split; [apply tidy_distinct; vm_compute; reflexivity | vm_compute; reflexivity].
Qed.
