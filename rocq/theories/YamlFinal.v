(** Last steps of the proofs quoted in Properties_Yaml.v. *)
From Coq Require Import String Bool Arith Lia List ZArith.
From Verif Require Import Prelude XmlModel XmlSchema XmlProofs XmlRead XmlCheck SpecXml XmlMore XmlNum YamlModel SpecYaml YamlProofs.
Import ListNotations.
Local Open Scope string_scope.
Local Open Scope list_scope.
Local Arguments is_kind : simpl never.
Local Arguments is_elem : simpl never.


Section More.
Context {Num : Type}.
Variables (pf : string -> option Num) (zero : Num).
Notation dg := (dget String.eqb).
Notation cls := (classes zero).

Lemma out_spec (fs : list (string * value Num)) old l d :
  rmap (fun x => match dg x fs with Some w => do y <- to_yaml cls old w; Ok (x, y) | None => Err AttributeError end) l = Ok d ->
  map fst d = l /\ (forall x w, In x l -> dg x fs = Some w -> exists y, dg x d = Some y /\ to_yaml cls old w = Ok y).
Proof.
  revert d. induction l as [|x l IH]; cbn [rmap]; intros d H.
  - assert (d = []) by congruence. subst d. split; [reflexivity | contradiction].
  - destruct (dg x fs) as [w|] eqn:E; [|discriminate]. destruct (to_yaml cls old w) as [y|] eqn:Y; cbn [rbind] in H; [|discriminate].
    destruct (rmap _ l) as [d'|] eqn:R; cbn [rbind] in H; [|discriminate].
    assert (d = (x, y) :: d') by congruence. subst d. destruct (IH _ eq_refl) as [M G]. split; [cbn [map fst]; congruence|].
    intros z u Hz Hu. cbn [dget]. destruct (String.eqb z x) eqn:Ez.
    + apply String.eqb_eq in Ez. subst z. exists y. split; [reflexivity | congruence].
    + destruct Hz as [<-|Hz]; [rewrite String.eqb_refl in Ez; discriminate|]. exact (G z u Hz Hu).
Qed.
Lemma parsed_fields cname c tag attrs text kids v : cls cname = Some c -> wf_doc (Node tag attrs text kids) ->
  snd (from_xml pf cls (Node tag attrs text kids) (TObj cname)) = inl v ->
  exists fs order, v = VObj cname fs order /\ object_means pf (from_xml pf cls) c attrs kids fs order.
Proof. intros Hc [W _] H. exact (proj1 (object_spec pf cls (fun n k Hk => schema_nice zero n k Hk) cname c tag attrs text kids v Hc W) H). Qed.
Lemma parsed_node n t v : snd (from_xml pf cls n t) = inl v -> exists tag attrs text kids, n = Node tag attrs text kids.
Proof. destruct n; [eauto | intros H; discriminate]. Qed.
Lemma object_out cname c n v old y : cls cname = Some c -> wf_doc n -> snd (from_xml pf cls n (TObj cname)) = inl v ->
  to_yaml cls old v = Ok y ->
  exists fs order d, v = VObj cname fs order /\ y = YDict d /\
    map fst d = map pr_var (filter (is_kind PAttribute) (cl_params c)) ++ map pr_var (filter is_elem (cl_params c)) /\
    forall p, In p (cl_params c) -> exists w z, dg (pr_var p) fs = Some w /\ dg (pr_var p) d = Some z /\ to_yaml cls old w = Ok z.
Proof.
  intros Hc W P Y. destruct (parsed_node _ _ _ P) as (tag & attrs & text & kids & ->).
  destruct (parsed_fields _ _ _ _ _ _ _ Hc W P) as (fs & order & -> & M & _).
  assert (Hv : forall p, In p (cl_params c) -> exists w, dg (pr_var p) fs = Some w) by (intros p Hp; destruct (M p Hp) as (w & E & _); eauto).
  rewrite (object_yaml cls old cname c fs order Hc Hv) in Y.
  destruct (rmap _ (refl_vars c)) as [d|] eqn:R; cbn [rbind] in Y; [|discriminate].
  destruct (out_spec _ _ _ _ R) as [N G]. exists fs, order, d. split; [reflexivity|]. split; [congruence|]. split; [exact N|].
  intros p Hp. destruct (Hv p Hp) as [w Hw]. destruct (G (pr_var p) w) as (z & Z1 & Z2); [apply var_in; eauto | exact Hw|]. eauto.
Qed.
(** a parameter whose field is always a list *)
Definition listy (p : param Num) : bool :=
  match pr_kind p, pr_type p with
  | PAggregate, _ => true
  | PAttribute, TVec _ => pr_req p || match pr_default p with VVec _ => true | _ => false end
  | PElement, TVec _ => pr_req p
  | _, _ => false
  end.
Lemma text_vec t s v k : t = TVec k -> ok (from_string pf t s) v -> exists l, v = VVec l.
Proof.
  intros ->. simpl. destruct s as [s|]; intros H; [|apply ok_fail1 in H; contradiction].
  destruct (match k with Some n => Nat.eqb (length (split s)) n | None => true end); [|apply ok_fail1 in H; contradiction].
  apply ok_bind1 in H as (l & _ & H). apply ok_ret1 in H. eauto.
Qed.
Lemma listy_list cname c attrs kids fs order p : cls cname = Some c ->
  object_means pf (from_xml pf cls) c attrs kids fs order -> In p (cl_params c) -> listy p = true -> has_list cls (VObj cname fs order).
Proof.
  intros Hc (M & _) Hp L. destruct (M p Hp) as (w & E & F).
  exists w. split; [econstructor; [exact Hc | exact Hp | exact E | constructor]|].
  unfold listy in L. unfold field_means in F. destruct (pr_kind p) eqn:K.
  - destruct (pr_type p) as [| | |k| | | | |] eqn:T; try discriminate. left.
    destruct (dg (pr_xml p) attrs) as [s|].
    + inversion F; subst. eauto.
    + destruct F as [R ->]. rewrite R in L. destruct (pr_default p); try discriminate. eauto.
  - destruct (pr_type p) as [| | |k| | | | |] eqn:T; try discriminate. left.
    destruct (first_child (pr_xml p) kids) as [k'|]; [|destruct F; congruence].
    destruct k' as [tg at_ tx ks|]; [|discriminate F]. exact (text_vec (TVec k) tx w k eq_refl F).
  - right. destruct F as (l & -> & _). eauto.
Qed.
Lemma prints_parsed n t v : wf_doc n -> snd (from_xml pf cls n t) = inl v -> prints cls v.
Proof. intros W H. exact (parsed_prints pf cls (fun n k Hk => schema_nice zero n k Hk) n W t v H). Qed.
Lemma list_fails n t v : wf_doc n -> snd (from_xml pf cls n t) = inl v -> has_list cls v -> to_yaml cls false v = Err AttributeError.
Proof. intros W H L. destruct (prints_parsed _ _ _ W H) as [(y & _ & _ & N)|(E & _)]; [contradiction | exact E]. Qed.
Lemma out_looks old w z : to_yaml cls old w = Ok z -> looks (fun u y => to_yaml cls old u = Ok y) w z.
Proof.
  intros H. destruct w; cbn [looks]; try exact H; cbn [to_yaml] in H; try congruence.
  - destruct old; [congruence | discriminate].
  - destruct old; [|discriminate]. destruct (rmap_dec (fun r : res (yaml Num) => r) (map (to_yaml cls true) l)) as [(ys & E & F)|(x & e & _ & _ & E)];
      rewrite E in H; cbn [rbind] in H; [|discriminate]. exists ys. split; [congruence|].
    apply (proj1 (Forall2_map_l _ _ _ _)) in F. exact F.
Qed.
End More.

Lemma l76_old : forall (Num : Type) (pf : string -> option Num) (zero : Num) n t v,
  wf_doc n -> snd (from_xml pf (classes zero) n t) = inl v -> exists y, to_yaml (classes zero) true v = Ok y.
Proof.
  intros Num pf zero n t v W H. destruct (prints_parsed pf zero n t v W H) as [(y & _ & Y & _)|(_ & _ & Y)]; eauto.
Qed.

Lemma l76_fields : forall (Num : Type) (pf : string -> option Num) (zero : Num) cname c n v old y,
  classes zero cname = Some c -> wf_doc n -> snd (from_xml pf (classes zero) n (TObj cname)) = inl v ->
  to_yaml (classes zero) old v = Ok y ->
  exists fs order d, v = VObj cname fs order /\ y = YDict d /\
    map fst d = map pr_var (filter (is_kind PAttribute) (cl_params c)) ++ map pr_var (filter is_elem (cl_params c)) /\
    forall p, In p (cl_params c) -> exists w z, dget String.eqb (pr_var p) fs = Some w /\ dget String.eqb (pr_var p) d = Some z
      /\ to_yaml (classes zero) old w = Ok z /\ looks (fun u y => to_yaml (classes zero) old u = Ok y) w z.
Proof.
  intros Num pf zero cname c n v old y Hc W P Y. destruct (object_out pf zero cname c n v old y Hc W P Y) as (fs & order & d & E1 & E2 & E3 & G).
  exists fs, order, d. split; [exact E1|]. split; [exact E2|]. split; [exact E3|]. intros p Hp. destruct (G p Hp) as (w & z & A & B & C).
  exists w, z. split; [exact A|]. split; [exact B|]. split; [exact C|]. exact (out_looks zero old w z C).
Qed.

Lemma l76_new : forall (Num : Type) (pf : string -> option Num) (zero : Num) n t v,
  wf_doc n -> snd (from_xml pf (classes zero) n t) = inl v ->
  ((exists y, to_yaml (classes zero) false v = Ok y) <-> ~ has_list (classes zero) v) /\
  (has_list (classes zero) v <-> to_yaml (classes zero) false v = Err AttributeError) /\
  (forall y, to_yaml (classes zero) false v = Ok y -> to_yaml (classes zero) true v = Ok y).
Proof.
  intros Num pf zero n t v W H. destruct (prints_parsed pf zero n t v W H) as [(y & Y & Z & N)|(E & L & _)].
  - split; [split; eauto|]. split; [split; [contradiction | congruence]|]. intros; congruence.
  - split; [split; [intros [y Y]; congruence | contradiction]|]. split; [tauto|]. intros; congruence.
Qed.

Lemma l76_robot_refuted : forall (Num : Type) (pf : string -> option Num) (zero : Num) cname n v,
  In cname ["urdf.Robot"; "urdf.Link"; "urdf.Pose"; "urdf.Color"; "urdf.Box"; "urdf.Transmission"; "urdf.TransmissionJoint";
            "sdf.Model"; "sdf.Link"; "sdf.Axis"; "sdf.Box"] ->
  wf_doc n -> snd (from_doc pf (classes zero) cname n) = inl v -> to_yaml (classes zero) false v = Err AttributeError.
Proof.
  intros Num pf zero cname n v Hn W H. apply (list_fails pf zero n (TObj cname) v W H).
  assert (X : exists c p, classes zero cname = Some c /\ In p (cl_params c) /\ listy p = true).
  { assert (Y : exists c, classes zero cname = Some c /\ existsb listy (cl_params c) = true).
    { cbn [In] in Hn. repeat (destruct Hn as [<-|Hn]; [eexists; split; [reflexivity | reflexivity]|]). contradiction. }
    destruct Y as (c & Hc & E). apply existsb_exists in E as (p & Hp & L). eauto. }
  destruct X as (c & p & Hc & Hp & L). destruct (parsed_node pf zero _ _ _ H) as (tag & attrs & text & kids & ->).
  destruct (parsed_fields pf zero _ _ _ _ _ _ _ Hc W H) as (fs & order & -> & M).
  exact (listy_list pf zero cname c attrs kids fs order p Hc M Hp L).
Qed.

Lemma l76_joint_refuted : forall (Num : Type) (pf : string -> option Num) (zero : Num) tag attrs text kids v,
  wf_doc (Node tag attrs text kids) -> snd (from_doc pf (classes zero) "urdf.Joint" (Node tag attrs text kids)) = inl v ->
  ((exists y, to_yaml (classes zero) false v = Ok y) <-> first_child "origin" kids = None /\ first_child "axis" kids = None).
Proof.
  intros Num pf zero tag attrs text kids v W H.
  destruct (proj1 (l76_new Num pf zero _ _ _ W H)) as [C1 C2].
  assert (Hc : exists c, classes zero "urdf.Joint" = Some c) by (eexists; reflexivity). destruct Hc as [c Hc].
  destruct (parsed_fields pf zero _ _ _ _ _ _ _ Hc W H) as (fs & order & -> & M & _).
  assert (Hp : forall x t, In (elem x t false) (cl_params c) -> exists w, dget String.eqb x fs = Some w /\
    match first_child x kids with Some k => snd (from_xml pf (classes zero) k t) = inl w | None => w = VNone end).
  { intros x t Hin. destruct (M _ Hin) as (w & E & F). exists w. split; [exact E|]. unfold field_means in F. cbn in F.
    destruct (first_child x kids); [exact F | tauto]. }
  assert (WK : forall x k, first_child x kids = Some k -> wf_doc k).
  { intros x k F. apply find_some in F as [F _]. exact (wf_doc_kids _ _ _ _ _ W F). }
  assert (Ic : c = match classes zero "urdf.Joint" with Some k => k | None => c end) by (rewrite Hc; reflexivity).
  assert (I1 : In (elem "origin" (TObj "urdf.Pose") false) (cl_params c)) by (rewrite Ic; cbn; tauto).
  assert (I2 : In (elem "axis" (TSimple "xyz" (TVec (Some 3))) false) (cl_params c)) by (rewrite Ic; cbn; tauto).
  split.
  - intros Y. apply C1 in Y.
    destruct (Hp _ _ I1) as (w1 & E1 & F1). destruct (Hp _ _ I2) as (w2 & E2 & F2). split.
    + destruct (first_child "origin" kids) as [k|] eqn:FC; [exfalso|reflexivity]. apply Y.
      assert (HP : In "urdf.Pose" ["urdf.Robot"; "urdf.Link"; "urdf.Pose"; "urdf.Color"; "urdf.Box"; "urdf.Transmission"; "urdf.TransmissionJoint";
            "sdf.Model"; "sdf.Link"; "sdf.Axis"; "sdf.Box"]) by (cbn; tauto).
      pose proof (l76_robot_refuted Num pf zero "urdf.Pose" k w1 HP (WK _ _ FC) F1) as X.
      apply (proj1 (proj2 (l76_new Num pf zero _ _ _ (WK _ _ FC) F1))) in X. destruct X as (u & Su & L).
      exists u. split; [|exact L]. exact (ShField (classes zero) "urdf.Joint" c fs order _ w1 u Hc I1 E1 Su).
    + destruct (first_child "axis" kids) as [k|] eqn:FC; [exfalso|reflexivity]. apply Y.
      destruct k as [tg at_ tx ks|]; [|discriminate F2].
      destruct (text_vec pf (TVec (Some 3)) (dget String.eqb "xyz" at_) w2 _ eq_refl F2) as [l ->].
      exists (VVec l). split; [|left; eauto]. exact (ShField (classes zero) "urdf.Joint" c fs order _ (VVec l) (VVec l) Hc I2 E2 (ShHere (classes zero) _)).
  - intros [N1 N2]. apply C2. intros (u & Su & L). inversion Su; subst; [destruct L as [[l Hl]|[l Hl]]; discriminate|].
    match goal with A : classes zero "urdf.Joint" = Some ?k |- _ => assert (k = c) by congruence; subst k end.
    match goal with A : In ?q (cl_params c), B : dget String.eqb (pr_var ?q) fs = Some ?x, D : shows (classes zero) ?x u |- _ =>
      rename A into Hin, B into Hd, D into Hs; rename q into p; rename x into w end.
    destruct (M p Hin) as (w' & E' & F). assert (w' = w) by congruence. subst w'. clear E'.
    assert (HL : has_list (classes zero) w) by (exists u; split; assumption).
    assert (NL : forall s, ~ has_list (classes zero) (@VStr Num s)) by (intros s; apply not_list; discriminate).
    assert (NN : ~ has_list (classes zero) (@VNone Num)) by (apply not_list; discriminate).
    assert (FL : forall x cn, In (elem x (TObj cn) false) (cl_params c) -> 
        (forall cl, classes zero cn = Some cl -> forall q, In q (cl_params cl) -> pr_kind q = PAttribute /\ (pr_type q = TStr \/ pr_type q = TFloat) /\
           (pr_default q = VNone \/ exists z, pr_default q = VNum z)) ->
        forall w, field_means pf (from_xml pf (classes zero)) attrs kids (elem x (TObj cn) false) w -> ~ has_list (classes zero) w).
    { intros x cn _ Hcl w0 F0 HL0. unfold field_means in F0. cbn in F0. destruct (first_child x kids) as [k|] eqn:FC; [|destruct F0; subst w0; auto].
      destruct (parsed_node pf zero _ _ _ F0) as (tg & at_ & tx & ks & ->).
      destruct (classes zero cn) as [cl|] eqn:Hcn.
      - destruct (parsed_fields pf zero _ _ _ _ _ _ _ Hcn (WK _ _ FC) F0) as (fs' & o' & -> & M' & _).
        destruct HL0 as (u0 & S0 & L0). inversion S0; subst; [destruct L0 as [[l Hl]|[l Hl]]; discriminate|].
        match goal with A : classes zero cn = Some ?k |- _ => assert (k = cl) by congruence; subst k end.
        match goal with A : In ?q (cl_params cl), B : dget String.eqb (pr_var ?q) fs' = Some ?x |- _ =>
          destruct (M' q A) as (w2 & E2 & F2); assert (w2 = x) by congruence; subst w2; destruct (Hcl cl eq_refl q A) as (K & T & D) end.
        unfold field_means in F2. rewrite K in F2.
        assert (NV : ~ has_list (classes zero) w0); [|apply NV; exists u0; split; assumption].
        destruct (dget String.eqb _ at_) as [s|].
        + destruct T as [T|T]; rewrite T in F2; inversion F2; subst; apply not_list; discriminate.
        + destruct F2 as [_ ->]. destruct D as [->|[z ->]]; apply not_list; discriminate.
      - change (from_xml pf (classes zero) (Node tg at_ tx ks) (TObj cn)) with (read_obj pf (classes zero) cn at_ (kids_of pf (classes zero) ks)) in F0.
        unfold read_obj in F0. rewrite Hcn in F0. discriminate. }
    assert (FT : forall x a, forall w, field_means pf (from_xml pf (classes zero)) attrs kids (elem x (TSimple a TStr) true) w -> ~ has_list (classes zero) w).
    { intros x a w0 F0. unfold field_means in F0. cbn in F0. destruct (first_child x kids) as [k|]; [|destruct F0; discriminate].
      destruct k; [|discriminate F0]. cbn in F0. inversion F0. apply NL. }
    assert (FA : forall x d, forall w, d = VNone -> field_means pf (from_xml pf (classes zero)) attrs kids (attr x TStr true d) w -> ~ has_list (classes zero) w).
    { intros x d w0 -> F0. unfold field_means in F0. cbn in F0. destruct (dget String.eqb x attrs); [|destruct F0; discriminate]. inversion F0. apply NL. }
    assert (FN : forall x t, first_child x kids = None -> forall w, field_means pf (from_xml pf (classes zero)) attrs kids (elem x t false) w -> ~ has_list (classes zero) w).
    { intros x t FC w0 F0. unfold field_means in F0. cbn in F0. rewrite FC in F0. destruct F0 as [_ ->]. exact NN. }
    assert (Hin' := Hin). rewrite Ic in Hin. cbn in Hin.
    assert (FLS : forall cn, In cn ["urdf.JointLimit"; "urdf.JointDynamics"; "urdf.SafetyController"; "urdf.JointCalibration"; "urdf.JointMimic"] ->
      forall cl, classes zero cn = Some cl -> forall q, In q (cl_params cl) -> pr_kind q = PAttribute /\ (pr_type q = TStr \/ pr_type q = TFloat) /\
           (pr_default q = VNone \/ exists z, pr_default q = VNum z)).
    { intros cn Hcn cl Hcl q Hq. cbn in Hcn.
      assert (B : forall k : class Num, classes zero cn = Some k -> forall q, In q (cl_params k) -> In q (match classes zero cn with Some k => cl_params k | None => [] end))
        by (intros k -> q0; auto). specialize (B cl Hcl q Hq). clear Hcl Hq.
      repeat (destruct Hcn as [<-|Hcn]; [cbn in B; repeat (destruct B as [<-|B]; [cbn; eauto 6|]); contradiction|]). contradiction. }
    clear - Hin Hin' F HL FL FT FA FN FLS N1 N2.
    repeat (destruct Hin as [<-|Hin]; [first [exact (FA _ _ w eq_refl F HL) | exact (FT _ _ w F HL) | exact (FN _ _ N1 w F HL) | exact (FN _ _ N2 w F HL)
      | refine (FL _ _ Hin' (FLS _ _) w F HL); cbn; tauto]|]). contradiction.
Qed.

Lemma l76_kept : forall (Num : Type) (pf : string -> option Num) (zero : Num) cname c n1 n2 fs1 fs2 o1 o2 old y p v1 v2,
  classes zero cname = Some c -> wf_doc n1 -> wf_doc n2 ->
  snd (from_doc pf (classes zero) cname n1) = inl (VObj cname fs1 o1) -> snd (from_doc pf (classes zero) cname n2) = inl (VObj cname fs2 o2) ->
  to_yaml (classes zero) old (VObj cname fs1 o1) = Ok y -> to_yaml (classes zero) old (VObj cname fs2 o2) = Ok y ->
  In p (cl_params c) -> dget String.eqb (pr_var p) fs1 = Some v1 -> dget String.eqb (pr_var p) fs2 = Some v2 ->
  (forall x, v1 = VNum x <-> v2 = VNum x) /\ (forall b, v1 = VBool b <-> v2 = VBool b) /\
  (forall l, v1 = VVec l -> (forall k, v2 <> VList k) -> v2 = VVec l) /\
  (forall s, v1 = VStr s -> v2 = VStr s \/ s = "None" /\ v2 = VNone).
Proof.
  intros Num pf zero cname c n1 n2 fs1 fs2 o1 o2 old y p v1 v2 Hc W1 W2 P1 P2 Y1 Y2 Hp D1 D2.
  destruct (l76_fields Num pf zero cname c n1 _ old y Hc W1 P1 Y1) as (f1 & q1 & d1 & E1 & Z1 & _ & G1).
  destruct (l76_fields Num pf zero cname c n2 _ old y Hc W2 P2 Y2) as (f2 & q2 & d2 & E2 & Z2 & _ & G2).
  assert (f1 = fs1) by congruence. assert (f2 = fs2) by congruence. assert (d1 = d2) by congruence. subst f1 f2 d1.
  destruct (G1 p Hp) as (w1 & z1 & A1 & B1 & C1 & _). destruct (G2 p Hp) as (w2 & z2 & A2 & B2 & C2 & _).
  assert (w1 = v1) by congruence. assert (w2 = v2) by congruence. assert (z1 = z2) by congruence. subst w1 w2 z1.
  clear - C1 C2. assert (OB : forall old' cn fs o z, to_yaml (classes zero) old' (VObj cn fs o) = Ok z -> exists d, z = YDict d).
  { intros old' cn fs o z H. cbn [to_yaml] in H. destruct (classes zero cn); [|discriminate].
    destruct (rmap _ (refl_vars _)) as [r|]; [|discriminate]. cbn [rbind] in H. destruct (rmap _ r) as [d|]; [|discriminate]. exists d. cbn in H. congruence. }
  assert (LS : forall l z, to_yaml (classes zero) old (VList l) = Ok z -> exists d, z = YList d).
  { intros l z H. cbn [to_yaml] in H. destruct old; [|discriminate]. destruct (rmap _ _) as [d|]; [|discriminate]. exists d. cbn in H. congruence. }
  assert (VC : forall l z, to_yaml (classes zero) old (VVec l) = Ok z -> z = YList (map YNum l)).
  { intros l z H. cbn [to_yaml] in H. destruct old; [congruence | discriminate]. }
  assert (MI : forall l k : list Num, map YNum l = map YNum k -> l = k).
  { induction l as [|a l IH]; intros [|b k] H; try discriminate; [reflexivity|]. cbn in H. injection H; intros; f_equal; auto. }
  split; [|split; [|split]].
  - intros x; split; intros ->; [destruct v2 | destruct v1]; cbn [to_yaml] in C1, C2; try congruence;
      try (apply OB in C1 as [? ?]); try (apply OB in C2 as [? ?]); try (apply LS in C1 as [? ?]); try (apply LS in C2 as [? ?]); destruct old; try discriminate; congruence.
  - intros x; split; intros ->; [destruct v2 | destruct v1]; cbn [to_yaml] in C1, C2; try congruence;
      try (apply OB in C1 as [? ?]); try (apply OB in C2 as [? ?]); try (apply LS in C1 as [? ?]); try (apply LS in C2 as [? ?]); destruct old; try discriminate; congruence.
  - intros l -> NL. apply VC in C1. destruct v2; try (cbn [to_yaml] in C2; congruence).
    + apply VC in C2. f_equal. apply MI. congruence.
    + apply OB in C2 as [? ?]. congruence.
  - intros s ->. cbn [to_yaml] in C1. destruct v2; try (cbn [to_yaml] in C2; congruence).
    + right. cbn [to_yaml] in C2. split; congruence.
    + left. cbn [to_yaml] in C2. congruence.
    + apply VC in C2. congruence.
    + apply LS in C2 as [? ?]. congruence.
    + apply OB in C2 as [? ?]. congruence.
Qed.

Lemma l76_capsule_refuted : exists n m v w y, snd (from_doc zf (classes 0%Z) "urdf.Collision" n) = inl v /\
  snd (from_doc zf (classes 0%Z) "urdf.Collision" m) = inl w /\ v <> w /\ snd (to_xml zs (classes 0%Z) v) <> snd (to_xml zs (classes 0%Z) w) /\
  forall old, to_yaml (classes 0%Z) old v = Ok y /\ to_yaml (classes 0%Z) old w = Ok y.
Proof.
  exists (E "collision" [] [E "geometry" [] [E "cylinder" [("radius", "1"); ("length", "2")] []]]).
  exists (E "collision" [] [E "geometry" [] [E "capsule" [("radius", "1"); ("length", "2")] []]]).
  eexists; eexists; eexists. split; [vm_compute; reflexivity|]. split; [vm_compute; reflexivity|]. split; [discriminate|].
  split; [vm_compute; discriminate|]. intros [|]; split; vm_compute; reflexivity.
Qed.

Lemma l76_order_refuted : exists n m v w y, snd (from_doc zf (classes 0%Z) "urdf.Robot" n) = inl v /\
  snd (from_doc zf (classes 0%Z) "urdf.Robot" m) = inl w /\ v <> w /\ snd (to_xml zs (classes 0%Z) v) <> snd (to_xml zs (classes 0%Z) w) /\
  to_yaml (classes 0%Z) true v = Ok y /\ to_yaml (classes 0%Z) true w = Ok y.
Proof.
  exists (E "robot" [("name", "r")] [E "link" [("name", "a")] []; E "joint" [("name", "j"); ("type", "fixed")] [E "parent" [("link", "a")] []; E "child" [("link", "b")] []]]).
  exists (E "robot" [("name", "r")] [E "joint" [("name", "j"); ("type", "fixed")] [E "parent" [("link", "a")] []; E "child" [("link", "b")] []]; E "link" [("name", "a")] []]).
  eexists; eexists; eexists. split; [vm_compute; reflexivity|]. split; [vm_compute; reflexivity|]. split; [discriminate|].
  split; [vm_compute; discriminate|]. split; vm_compute; reflexivity.
Qed.

Lemma l76_none_refuted : exists n m v w y, snd (from_doc zf (classes 0%Z) "urdf.Robot" n) = inl v /\
  snd (from_doc zf (classes 0%Z) "urdf.Robot" m) = inl w /\ v <> w /\ snd (to_xml zs (classes 0%Z) v) <> snd (to_xml zs (classes 0%Z) w) /\
  to_yaml (classes 0%Z) true v = Ok y /\ to_yaml (classes 0%Z) true w = Ok y.
Proof.
  exists (E "robot" [] []), (E "robot" [("name", "None")] []).
  eexists; eexists; eexists. split; [vm_compute; reflexivity|]. split; [vm_compute; reflexivity|]. split; [discriminate|].
  split; [vm_compute; discriminate|]. split; vm_compute; reflexivity.
Qed.
