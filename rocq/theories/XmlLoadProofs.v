(** The loaders build the chain of the links and joints that the document describes. *)
From Coq Require Import Reals String Ascii Bool Arith Lia List.
From Verif Require Import Prelude ExtF Tree ChainModel Lin ChainInst LoaderModel RobotModel XmlModel XmlSchema XmlProofs XmlWrite
  XmlRead XmlCheck SpecXml XmlMore SpecLoad XmlLoad.
Import ListNotations.
Local Open Scope nat_scope.
Local Open Scope string_scope.
Local Open Scope list_scope.

Lemma Forall2_len {A B} (P : A -> B -> Prop) l m : Forall2 P l m -> length l = length m.
Proof. induction 1; simpl; congruence. Qed.
Section Proofs.
Variable pf : string -> option R.
Notation cls := (classes 0%R).
Notation read := (from_xml pf cls).
Notation vector3 := (TVec (Some 3)).

Lemma nice_all : forall cname c, cls cname = Some c -> nice_class cls c.
Proof. intros cname c H. eapply schema_nice; exact H. Qed.

(** ** Fields *)
Lemma field_of cname c n v p : cls cname = Some c -> wf_doc n -> In p (cl_params c) -> ok (read n (TObj cname)) v ->
  exists w, fld v (pr_var p) = Some w /\
    match pr_kind p with
    | PAttribute => match attribute (pr_xml p) n with Some s => text_means pf (pr_type p) (Some s) w | None => pr_req p = false /\ w = pr_default p end
    | PElement => match child (pr_xml p) n with Some k => ok (read k (pr_type p)) w | None => pr_req p = false /\ w = pr_default p end
    | PAggregate => True
    end.
Proof.
  intros Hc WD Hp H. destruct n as [tag attrs text kids|]; [|apply ok_fail1 in H; contradiction].
  apply (object_spec pf cls nice_all cname c) in H; [|exact Hc | apply WD]. destruct H as (fs & order & -> & O1 & _).
  destruct (O1 p Hp) as (w & Hw & F). exists w. split; [exact Hw|]. unfold field_means in F. destruct (pr_kind p); [exact F | exact F | exact I].
Qed.
Section One.
Variables (cname : string) (c : class R) (n : node) (v : value R).
Hypotheses (Hc : cls cname = Some c) (WD : wf_doc n) (H : ok (read n (TObj cname)) v).
Lemma f_str a : In (attr a TStr true VNone) (cl_params c) -> exists s, attribute a n = Some s /\ fld v a = Some (VStr s).
Proof.
  intros Hp. destruct (field_of _ _ _ _ _ Hc WD Hp H) as (w & Hw & F). simpl in *. destruct (attribute a n) as [s|]; [|destruct F; discriminate].
  inversion F; subst. eauto.
Qed.
Lemma f_str_opt a : In (attr a TStr false VNone) (cl_params c) -> fld v a = Some (match attribute a n with Some s => VStr s | None => VNone end).
Proof.
  intros Hp. destruct (field_of _ _ _ _ _ Hc WD Hp H) as (w & Hw & F). simpl in *. rewrite Hw. destruct (attribute a n) as [s|].
  - inversion F; subst. reflexivity.
  - destruct F as [_ ->]. reflexivity.
Qed.
Lemma f_num a : In (attr a TFloat true VNone) (cl_params c) -> exists s x, attribute a n = Some s /\ pf s = Some x /\ fld v a = Some (VNum x).
Proof.
  intros Hp. destruct (field_of _ _ _ _ _ Hc WD Hp H) as (w & Hw & F). simpl in *. destruct (attribute a n) as [s|]; [|destruct F; discriminate].
  inversion F; subst. eauto.
Qed.
Lemma f_num0 a : In (attr a TFloat false (VNum 0%R)) (cl_params c) -> exists x, num_attr pf a n x /\ fld v a = Some (VNum x).
Proof.
  intros Hp. destruct (field_of _ _ _ _ _ Hc WD Hp H) as (w & Hw & F). simpl in *. unfold num_attr. destruct (attribute a n) as [s|].
  - inversion F; subst. eauto.
  - destruct F as [_ ->]. eauto.
Qed.
Lemma text_vec3_inv s w : text_means pf vector3 (Some s) w -> exists x, w = VVec [vx x; vy x; vz x] /\ vec3 pf s x.
Proof.
  intros T. inversion T as [| | | | | |? ? ws l Sp F L]; subst. pose proof (Forall2_len _ _ _ F) as E. rewrite L in E.
  destruct l as [|x [|y [|z [|]]]]; try discriminate. exists (mkV3 x y z). split; [reflexivity|]. exists ws. auto.
Qed.
Lemma f_vec0 a : In (attr a vector3 false (v0 0%R)) (cl_params c) ->
  exists x, vec3_attr pf a n x /\ fld v a = Some (VVec [vx x; vy x; vz x]).
Proof.
  intros Hp. destruct (field_of _ _ _ _ _ Hc WD Hp H) as (w & Hw & F). simpl in *. unfold vec3_attr. destruct (attribute a n) as [s|].
  - apply text_vec3_inv in F as (x & -> & X). eauto.
  - destruct F as [_ ->]. exists (mkV3 0 0 0). auto.
Qed.
Lemma f_elem t ty : In (elem t ty true) (cl_params c) -> exists k w, child t n = Some k /\ ok (read k ty) w /\ fld v t = Some w.
Proof.
  intros Hp. destruct (field_of _ _ _ _ _ Hc WD Hp H) as (w & Hw & F). simpl in *. destruct (child t n) as [k|]; [|destruct F; discriminate]. eauto.
Qed.
Lemma f_elem_opt t ty : In (elem t ty false) (cl_params c) ->
  match child t n with Some k => exists w, ok (read k ty) w /\ fld v t = Some w | None => fld v t = Some VNone end.
Proof.
  intros Hp. destruct (field_of _ _ _ _ _ Hc WD Hp H) as (w & Hw & F). simpl in *. destruct (child t n) as [k|]; [eauto|]. destruct F as [_ ->]. exact Hw.
Qed.
End One.
Lemma child_wf t n k : wf_doc n -> child t n = Some k -> wf_doc k /\ has_tag t k = true.
Proof.
  intros WD Hk. destruct n as [tag attrs text l|]; [|discriminate]. simpl in Hk. apply find_some in Hk as [Hi Ht].
  split; [eapply wf_doc_kids; eassumption | exact Ht].
Qed.
Lemma simple_read n a t w : ok (read n (TSimple a t)) w -> basic_type t = true -> text_means pf t (attribute a n) w.
Proof. intros H B. destruct n; [|apply ok_fail1 in H; contradiction]. apply text_spec; [exact B | exact H]. Qed.
Lemma leaf_read n t w : ok (read n t) w -> basic_type t = true -> text_means pf t (text_of n) w.
Proof. intros H B. destruct n; [|apply ok_fail1 in H; contradiction]. apply text_spec; [exact B|]. destruct t; try discriminate; exact H. Qed.
Lemma str_inv o w : text_means pf TStr o w -> w = VStr (match o with Some s => s | None => "None" end).
Proof. intros H; inversion H; reflexivity. Qed.
Lemma num_inv o w : text_means pf TFloat o w -> exists s x, o = Some s /\ pf s = Some x /\ w = VNum x.
Proof. intros H; inversion H; subst; eauto. Qed.
Lemma vec3_inv o w : text_means pf vector3 o w -> exists s x, o = Some s /\ vec3 pf s x /\ w = VVec [vx x; vy x; vz x].
Proof.
  intros H. assert (exists s, o = Some s) as [s ->] by (inversion H; eauto). apply text_vec3_inv in H as (x & -> & X). eauto.
Qed.
Ltac cls_in := simpl; repeat (left; reflexivity || right); try (left; reflexivity).

(** ** URDF *)
Lemma pose_read n v : wf_doc n -> ok (read n (TObj "urdf.Pose")) v -> exists p, as_pose v = Some p /\ pose_says pf n p.
Proof.
  intros WD H. assert (X : exists c, cls "urdf.Pose" = Some c /\ In (attr "xyz" vector3 false (v0 0%R)) (cl_params c) /\
    In (attr "rpy" vector3 false (v0 0%R)) (cl_params c)) by (eexists; split; [reflexivity|]; simpl; tauto).
  destruct X as (c & Hc & P1 & P2).
  destruct (f_vec0 _ _ _ _ Hc WD H _ P1) as (x & X1 & X2), (f_vec0 _ _ _ _ Hc WD H _ P2) as (y & Y1 & Y2).
  exists (mkUPose x y). unfold as_pose, obind. rewrite X2, Y2. destruct x, y. split; [reflexivity | split; assumption].
Qed.
Lemma limit_read n v : wf_doc n -> ok (read n (TObj "urdf.JointLimit")) v -> exists l, as_limit v = Some l /\ limit_says pf n l.
Proof.
  intros WD H. assert (X : exists c, cls "urdf.JointLimit" = Some c /\ In (attr "effort" TFloat true VNone) (cl_params c) /\
    In (attr "velocity" TFloat true VNone) (cl_params c) /\ In (attr "lower" TFloat false (VNum 0%R)) (cl_params c) /\
    In (attr "upper" TFloat false (VNum 0%R)) (cl_params c)) by (eexists; split; [reflexivity|]; simpl; tauto).
  destruct X as (c & Hc & P1 & P2 & P3 & P4).
  destruct (f_num _ _ _ _ Hc WD H _ P1) as (s1 & x1 & A1 & B1 & C1), (f_num _ _ _ _ Hc WD H _ P2) as (s2 & x2 & A2 & B2 & C2),
    (f_num0 _ _ _ _ Hc WD H _ P3) as (x3 & A3 & C3), (f_num0 _ _ _ _ Hc WD H _ P4) as (x4 & A4 & C4).
  exists (mkULimit x1 x3 x4 x2). unfold as_limit, obind. rewrite C1, C2, C3, C4. split; [reflexivity|].
  split; [eauto|]. split; [eauto|]. split; assumption.
Qed.
Lemma not_none n t w : ok (read n t) w -> w <> VNone.
Proof. intros H ->. exact (from_xml_none _ _ _ _ H). Qed.
Lemma optional_some {A} (f : rvalue -> option A) w a : w <> VNone -> f w = Some a -> optional f w = Some (Some a).
Proof. intros N E. destruct w; try contradiction; simpl; unfold obind; rewrite E; reflexivity. Qed.
(** an optional child element that is read by [P] *)
Lemma maybe_read {A} (f : rvalue -> option A) (P : node -> A -> Prop) ty n t v : wf_doc n ->
  (forall k w, wf_doc k -> ok (read k ty) w -> exists a, f w = Some a /\ P k a) ->
  match child t n with Some k => exists w, ok (read k ty) w /\ fld v t = Some w | None => fld v t = Some VNone end ->
  exists o, obind (fld v t) (optional f) = Some o /\ maybe P (child t n) o.
Proof.
  intros WD HP X. destruct (child t n) as [k|] eqn:E.
  - destruct X as (w & Hr & Hw). destruct (HP k w) as (a & Fa & Pa); [apply (child_wf t n k WD E) | exact Hr|].
    exists (Some a). rewrite Hw. split; [apply optional_some; [eapply not_none; exact Hr | exact Fa] | exact Pa].
  - exists None. rewrite X. split; [reflexivity | exact I].
Qed.
Lemma axis_read k w : ok (read k (TSimple "xyz" vector3)) w -> exists a, as_vec3 w = Some a /\ axis_says pf k a.
Proof.
  intros H. apply simple_read in H; [|reflexivity]. apply vec3_inv in H as (s & x & E & X & ->). exists x.
  split; [destruct x; reflexivity | exists s; auto].
Qed.
Lemma joint_read n v : wf_doc n -> has_tag "joint" n = true -> ok (read n (TObj "urdf.Joint")) v ->
  exists j, as_ujoint v = Some j /\ ujoint_says pf n j.
Proof.
  intros WD HT H. assert (X : exists c, cls "urdf.Joint" = Some c /\ In (attr "name" TStr true VNone) (cl_params c) /\
    In (attr "type" TStr true VNone) (cl_params c) /\ In (elem "parent" (TSimple "link" TStr) true) (cl_params c) /\
    In (elem "child" (TSimple "link" TStr) true) (cl_params c) /\ In (elem "origin" (TObj "urdf.Pose") false) (cl_params c) /\
    In (elem "axis" (TSimple "xyz" vector3) false) (cl_params c) /\ In (elem "limit" (TObj "urdf.JointLimit") false) (cl_params c))
    by (eexists; split; [reflexivity|]; simpl; tauto).
  destruct X as (c & Hc & P1 & P2 & P3 & P4 & P5 & P6 & P7).
  destruct (f_str _ _ _ _ Hc WD H _ P1) as (s1 & A1 & B1), (f_str _ _ _ _ Hc WD H _ P2) as (s2 & A2 & B2).
  destruct (f_elem _ _ _ _ Hc WD H _ _ P3) as (k3 & w3 & A3 & R3 & B3), (f_elem _ _ _ _ Hc WD H _ _ P4) as (k4 & w4 & A4 & R4 & B4).
  apply simple_read in R3; [|reflexivity]. apply str_inv in R3. apply simple_read in R4; [|reflexivity]. apply str_inv in R4.
  destruct (maybe_read _ _ _ n "origin" v WD pose_read (f_elem_opt _ _ _ _ Hc WD H _ _ P5)) as (o5 & C5 & D5).
  destruct (maybe_read _ _ _ n "axis" v WD (fun k w _ => axis_read k w) (f_elem_opt _ _ _ _ Hc WD H _ _ P6)) as (o6 & C6 & D6).
  destruct (maybe_read _ _ _ n "limit" v WD limit_read (f_elem_opt _ _ _ _ Hc WD H _ _ P7)) as (o7 & C7 & D7).
  subst w3 w4. eexists. unfold as_ujoint. rewrite C5, C6, C7, B1, B2, B3, B4. cbn [obind as_str]. split; [reflexivity|].
  unfold ujoint_says. cbn [uj_name uj_type uj_parent uj_child uj_origin uj_axis uj_limit].
  split; [exact HT|]. split; [exact A1|]. split; [exact A2|]. split; [exists k3; auto|]. split; [exists k4; auto|]. auto.
Qed.
Lemma link_read n v : wf_doc n -> has_tag "link" n = true -> ok (read n (TObj "urdf.Link")) v ->
  exists l, as_ulink v = Some l /\ ulink_says pf n l.
Proof.
  intros WD HT H. assert (X : exists c, cls "urdf.Link" = Some c /\ In (attr "name" TStr true VNone) (cl_params c) /\
    In (elem "origin" (TObj "urdf.Pose") false) (cl_params c)) by (eexists; split; [reflexivity|]; simpl; tauto).
  destruct X as (c & Hc & P1 & P2). destruct (f_str _ _ _ _ Hc WD H _ P1) as (s1 & A1 & B1).
  destruct (maybe_read _ _ _ n "origin" v WD pose_read (f_elem_opt _ _ _ _ Hc WD H _ _ P2)) as (o & C & D).
  eexists. unfold as_ulink. rewrite C, B1. cbn [obind as_str]. split; [reflexivity|]. split; [exact HT|]. split; [exact A1 | exact D].
Qed.

(** the links and joints of a description *)
Lemma elems_read {J L} (fj : rvalue -> option J) (fl : rvalue -> option L) PJ PL cname c tj tl n v : cls cname = Some c -> wf_doc n ->
  (forall k, has_tag "link" k = true -> aggregate_of c k = Some (aggr "link" tl)) ->
  (forall k, has_tag "joint" k = true -> aggregate_of c k = Some (aggr "joint" tj)) ->
  (forall k w, In k (kids n) -> wf_doc k -> has_tag "joint" k = true -> ok (read k tj) w -> exists j, fj w = Some j /\ PJ k j) ->
  (forall k w, In k (kids n) -> wf_doc k -> has_tag "link" k = true -> ok (read k tl) w -> exists l, fl w = Some l /\ PL k l) ->
  ok (read n (TObj cname)) v -> exists es, elems_of fj fl v = Some es /\ elems_say PJ PL n es.
Proof.
  intros Hc WD AL AJ HJ HL H. destruct n as [tag attrs text ks|]; [|apply ok_fail1 in H; contradiction].
  assert (WK : forall k, In k ks -> wf_doc k) by (intros k Hk; eapply wf_doc_kids; eassumption).
  apply (object_spec pf cls nice_all cname c) in H; [|exact Hc | apply WD]. destruct H as (fs & order & -> & _ & _ & _ & OM & _).
  unfold elems_say, elems_of. cbn [kids] in *. unfold order_means in OM. clear WD.
  assert (X : forall l o, incl l ks -> Forall2 (fun n o => exists p, aggregate_of c n = Some p /\ fst o = pr_xml p /\ snd (read n (pr_type p)) = inl (snd o))
       (filter (fun n => match aggregate_of c n with Some _ => true | None => false end) l) o ->
     exists es, omap (fun o => if String.eqb (fst o) "link" then opt l <- fl (snd o); Some (ELink l) else opt j <- fj (snd o); Some (EJoint j))
        (filter (fun o => String.eqb (fst o) "link" || String.eqb (fst o) "joint") o) = Some es /\
       Forall2 (elem_says PJ PL) (filter (fun k => has_tag "link" k || has_tag "joint" k) l) es).
  { induction l as [|k l IH]; intros o I F; cbn [filter] in *.
    - inversion F; subst. exists []. split; [reflexivity | constructor].
    - destruct (has_tag "link" k) eqn:TL; cbn [orb].
      + rewrite (AL k TL) in F. inversion F as [|? [s w] ? o' (p & P1 & P2 & P3) F2]; subst. rewrite (AL k TL) in P1. inversion P1; subst p.
        cbn [fst snd pr_xml pr_type aggr] in *. subst s. destruct (IH o' (fun x Hx => I x (or_intror Hx)) F2) as (es & E1 & E2).
        destruct (HL k w (I k (or_introl eq_refl)) (WK k (I k (or_introl eq_refl))) TL P3) as (a & Fa & Pa).
        exists (ELink a :: es). cbn [filter fst snd]. rewrite String.eqb_refl. cbn [orb omap fst snd]. rewrite String.eqb_refl, Fa. cbn [obind]. rewrite E1.
        split; [reflexivity | constructor; assumption].
      + destruct (has_tag "joint" k) eqn:TJ; cbn [orb].
        * rewrite (AJ k TJ) in F. inversion F as [|? [s w] ? o' (p & P1 & P2 & P3) F2]; subst. rewrite (AJ k TJ) in P1. inversion P1; subst p.
          cbn [fst snd pr_xml pr_type aggr] in *. subst s. destruct (IH o' (fun x Hx => I x (or_intror Hx)) F2) as (es & E1 & E2).
          destruct (HJ k w (I k (or_introl eq_refl)) (WK k (I k (or_introl eq_refl))) TJ P3) as (a & Fa & Pa).
          exists (EJoint a :: es). cbn [filter fst snd]. change (String.eqb "joint" "link" || String.eqb "joint" "joint") with true.
          cbn [omap fst snd]. change (String.eqb "joint" "link") with false. cbv iota. rewrite Fa. cbn [obind]. rewrite E1.
          split; [reflexivity | constructor; assumption].
        * destruct (aggregate_of c k) as [p|] eqn:A.
          -- inversion F as [|? [s w] ? o' (q & P1 & P2 & P3) F2]; subst. cbn [fst snd] in *.
             destruct (IH o' (fun x Hx => I x (or_intror Hx)) F2) as (es & E1 & E2). exists es. cbn [filter fst].
             assert (q = p) by congruence. subst q. unfold aggregate_of in A. apply find_some in A as [_ A]. apply andb_true_iff in A as [_ A].
             assert (String.eqb s "link" = false) as ->.
             { apply String.eqb_neq. intros E. rewrite <- P2, E in A. congruence. }
             assert (String.eqb s "joint" = false) as ->.
             { apply String.eqb_neq. intros E. rewrite <- P2, E in A. congruence. }
             cbn [orb]. auto.
          -- apply IH; [intros x Hx; apply I; right; exact Hx | exact F]. }
  apply X; [apply incl_refl | exact OM].
Qed.
Theorem urdf_read n v : wf_doc n -> ok (from_doc pf cls "urdf.Robot" n) v -> exists es, as_urobot v = Some es /\ urdf_says pf n es.
Proof.
  intros WD H. assert (X : exists c, cls "urdf.Robot" = Some c) by (eexists; reflexivity). destruct X as [c Hc].
  eapply (elems_read as_ujoint as_ulink) with (cname := "urdf.Robot") (c := c) (tj := TObj "urdf.Joint") (tl := TObj "urdf.Link").
  - exact Hc.
  - exact WD.
  - intros k Hk. inversion Hc; subst c. destruct k as [t a x l|]; [|discriminate]. simpl in Hk. apply String.eqb_eq in Hk. subst t. reflexivity.
  - intros k Hk. inversion Hc; subst c. destruct k as [t a x l|]; [|discriminate]. simpl in Hk. apply String.eqb_eq in Hk. subst t. reflexivity.
  - intros k w _. apply joint_read.
  - intros k w _. apply link_read.
  - exact H.
Qed.
Theorem load_urdf_ok limit n v es : ok (from_doc pf cls "urdf.Robot" n) v -> as_urobot v = Some es ->
  snd (load_urdf pf limit n) = match urdf_chain limit (urobot_of es) with Ok c => inl c | Err e => inr (XPy e) end.
Proof.
  intros H E. unfold load_urdf. rewrite (ok_step _ _ _ H). rewrite E. unfold xbind. simpl.
  destruct (urdf_chain limit (urobot_of es)); reflexivity.
Qed.

(** ** What a document says is unique *)
Lemma spaced_fun ws ws' s : spaced ws s -> spaced ws' s -> ws = ws'.
Proof. intros A B. apply split_spec in A. apply split_spec in B. congruence. Qed.
Lemma numbers_fun s l l' : numbers pf s l -> numbers pf s l' -> l = l'.
Proof.
  intros (ws & A & F) (ws' & A' & F'). assert (ws' = ws) by (eapply spaced_fun; eassumption). subst ws'.
  refine (Forall2_fun _ _ _ _ _ F F'). intros w x y E1 E2. congruence.
Qed.
Lemma v3_list (a b : V3) : [vx a; vy a; vz a] = [vx b; vy b; vz b] -> a = b.
Proof.
  destruct a as [a1 a2 a3], b as [b1 b2 b3]. cbn [vx vy vz]. intros H.
  pose proof (f_equal (fun l => nth 0 l a1) H) as H1. pose proof (f_equal (fun l => nth 1 l a1) H) as H2. pose proof (f_equal (fun l => nth 2 l a1) H) as H3.
  simpl in *. congruence.
Qed.
Lemma vec3_fun s a b : vec3 pf s a -> vec3 pf s b -> a = b.
Proof. intros A B. apply v3_list. eapply numbers_fun; eassumption. Qed.
Lemma maybe_fun {A} (P : node -> A -> Prop) n a b : (forall k x y, P k x -> P k y -> x = y) -> maybe P n a -> maybe P n b -> a = b.
Proof. intros HP. destruct n as [n|], a, b; simpl; try contradiction; intros H1 H2; [f_equal; eapply HP; eassumption | reflexivity]. Qed.
Lemma vec3_attr_fun a n x y : vec3_attr pf a n x -> vec3_attr pf a n y -> x = y.
Proof. unfold vec3_attr. destruct (attribute a n); [apply vec3_fun | congruence]. Qed.
Lemma num_attr_fun a n x y : num_attr pf a n x -> num_attr pf a n y -> x = y.
Proof. unfold num_attr. destruct (attribute a n); congruence. Qed.
Lemma pose_fun n p q : pose_says pf n p -> pose_says pf n q -> p = q.
Proof.
  intros [A B] [C D]. destruct p as [a b], q as [c d]; cbn [p_xyz p_rpy] in *. rewrite (vec3_attr_fun _ _ _ _ A C), (vec3_attr_fun _ _ _ _ B D). reflexivity.
Qed.
Lemma axis_fun n p q : axis_says pf n p -> axis_says pf n q -> p = q.
Proof. intros (s & A & B) (s' & C & D). assert (s' = s) by congruence. subst s'. eapply vec3_fun; eassumption. Qed.
Lemma limit_fun n p q : limit_says pf n p -> limit_says pf n q -> p = q.
Proof.
  intros ((s1 & A1 & A2) & (s2 & B1 & B2) & C & D) ((t1 & A3 & A4) & (t2 & B3 & B4) & C' & D').
  destruct p as [a b c d], q as [a' b' c' d']; cbn [ul_effort ul_lower ul_upper ul_velocity] in *.
  rewrite (num_attr_fun _ _ _ _ C C'), (num_attr_fun _ _ _ _ D D'). congruence.
Qed.
Lemma named_fun t a n s s' : named t a n s -> named t a n s' -> s = s'.
Proof. intros (k & A & B) (k' & C & D). assert (k' = k) by congruence. subst. reflexivity. Qed.
Lemma ujoint_fun n i j : ujoint_says pf n i -> ujoint_says pf n j -> i = j.
Proof.
  intros (_ & A1 & A2 & A3 & A4 & A5 & A6 & A7) (_ & B1 & B2 & B3 & B4 & B5 & B6 & B7). destruct i as [a b c d e f g], j as [a' b' c' d' e' f' g'].
  cbn [uj_name uj_type uj_parent uj_child uj_origin uj_axis uj_limit] in *.
  rewrite (named_fun _ _ _ _ _ A3 B3), (named_fun _ _ _ _ _ A4 B4), (maybe_fun _ _ _ _ pose_fun A5 B5), (maybe_fun _ _ _ _ axis_fun A6 B6),
    (maybe_fun _ _ _ _ limit_fun A7 B7). congruence.
Qed.
Lemma ulink_fun n i j : ulink_says pf n i -> ulink_says pf n j -> i = j.
Proof.
  intros (_ & A1 & A2) (_ & B1 & B2). destruct i as [a b], j as [a' b']. cbn [uk_name uk_origin] in *. rewrite (maybe_fun _ _ _ _ pose_fun A2 B2). congruence.
Qed.
Lemma tag_clash n : has_tag "joint" n = true -> has_tag "link" n = true -> False.
Proof. destruct n; [|discriminate]. simpl. intros H1 H2. apply String.eqb_eq in H1. apply String.eqb_eq in H2. congruence. Qed.
Lemma elems_fun {J L} (PJ : node -> J -> Prop) (PL : node -> L -> Prop) n es es' :
  (forall k x, PJ k x -> has_tag "joint" k = true) -> (forall k x, PL k x -> has_tag "link" k = true) ->
  (forall k x y, PJ k x -> PJ k y -> x = y) -> (forall k x y, PL k x -> PL k y -> x = y) ->
  elems_say PJ PL n es -> elems_say PJ PL n es' -> es = es'.
Proof.
  intros TJ TL FJ FL A B. refine (Forall2_fun _ _ _ _ _ A B). intros k [x|x] [y|y]; simpl; intros H1 H2.
  - f_equal; eauto.
  - exfalso. eapply tag_clash; eauto.
  - exfalso. eapply tag_clash; eauto.
  - f_equal; eauto.
Qed.
Theorem urdf_fun n es es' : urdf_says pf n es -> urdf_says pf n es' -> es = es'.
Proof. apply elems_fun; [intros k x H; apply H | intros k x H; apply H | exact ujoint_fun | exact ulink_fun]. Qed.

(** ** Documents that are accepted *)
Definition attrs_of (n : node) : dict string string := match n with Node _ a _ _ => a | Comment => [] end.
Notation means n := (field_means pf read (attrs_of n) (kids n)).
Lemma object_accepts cname c n : cls cname = Some c -> wf_doc n -> n <> Comment ->
  (forall p, In p (cl_params c) -> exists v, means n p v) ->
  (forall fs, (forall p, In p (cl_params c) -> exists v, dget String.eqb (pr_var p) fs = Some v /\ means n p v) -> snd (cl_check c fs) = inl tt) ->
  exists v, ok (read n (TObj cname)) v.
Proof.
  intros Hc WD NCm G K. destruct n as [tag attrs text ks|]; [|contradiction]. cbn [kids attrs_of] in *.
  pose proof (rt_wf _ (nc_rt _ _ (nice_all _ _ Hc))) as W. assert (ND : NoDup (map fst attrs)) by apply WD.
  change (read (Node tag attrs text ks) (TObj cname)) with (read_obj pf cls cname attrs (kids_of pf cls ks)).
  destruct (read_obj_run pf c W cls cname Hc attrs (kids_of pf cls ks) ND) as (fs & o & (R1 & _) & E).
  { intros p Hp. destruct (G p Hp) as (w & Gw). exists w. apply (given_spec pf cls c _ _ _ _ (nice_all _ _ Hc) Hp); assumption. }
  exists (VObj cname fs o). unfold ok. rewrite E. rewrite (K fs); [reflexivity|].
  intros p Hp. destruct (R1 p Hp) as (w & Hw & Gw). exists w. split; [exact Hw|]. apply (given_spec pf cls c _ _ _ _ (nice_all _ _ Hc) Hp); assumption.
Qed.
Lemma attr_means n a t req d : (match attribute a n with Some s => exists v, text_means pf t (Some s) v | None => req = false end) ->
  exists v, means n (attr a t req d) v.
Proof.
  unfold field_means. cbn [pr_kind pr_xml pr_type pr_req pr_default attr]. destruct n as [tag attrs text ks|]; simpl; [|eauto].
  destruct (dget String.eqb a attrs); [auto | eauto].
Qed.
Lemma str_means n a req d : (req = true -> exists s, attribute a n = Some s) -> exists v, means n (attr a TStr req d) v.
Proof.
  intros H. apply attr_means. destruct (attribute a n); [eexists; constructor|]. destruct req; [|reflexivity]. destruct H as [s H]; [reflexivity | discriminate].
Qed.
Lemma vec3_text s x : vec3 pf s x -> exists v, text_means pf vector3 (Some s) v.
Proof. intros (ws & Sp & F). eexists. econstructor; [exact Sp | exact F | apply (Forall2_len _ _ _ F)]. Qed.
Lemma vec_means a n x : vec3_attr pf a n x -> exists v, means n (attr a vector3 false (v0 0%R)) v.
Proof. intros H. apply attr_means. unfold vec3_attr in H. destruct (attribute a n); [eapply vec3_text; exact H | reflexivity]. Qed.
Lemma num_means a n x : num_attr pf a n x -> exists v, means n (attr a TFloat false (VNum 0%R)) v.
Proof. intros H. apply attr_means. unfold num_attr in H. destruct (attribute a n); [eexists; constructor; exact H | reflexivity]. Qed.
Lemma num_req_means a n x : (exists s, attribute a n = Some s /\ pf s = Some x) -> exists v, means n (attr a TFloat true VNone) v.
Proof. intros (s & A & B). apply attr_means. rewrite A. eexists; constructor; exact B. Qed.
Lemma elem_means n t ty req : match child t n with Some k => exists v, ok (read k ty) v | None => req = false end -> exists v, means n (elem t ty req) v.
Proof.
  unfold field_means. cbn [pr_kind pr_xml pr_type pr_req pr_default elem]. destruct n as [tag attrs text ks|]; simpl; [|eauto].
  destruct (first_child t ks); [auto | eauto].
Qed.
Lemma elem_none n ts t ty : without ts n -> In t ts -> exists v, means n (elem t ty false) v.
Proof. intros H I. apply elem_means. rewrite (H t I). reflexivity. Qed.
Lemma agg_means n t ty : (forall k, In k (kids n) -> has_tag t k = true -> exists v, ok (read k ty) v) -> exists v, means n (aggr t ty) v.
Proof.
  intros H. unfold field_means. cbn [pr_kind pr_xml pr_type aggr].
  assert (X : exists l, Forall2 (fun k v => snd (read k ty) = inl v) (children t (kids n)) l).
  { assert (I : forall k, In k (children t (kids n)) -> exists v, ok (read k ty) v) by (intros k Hk; apply filter_In in Hk as [A B]; auto).
    induction (children t (kids n)) as [|k l IH]; [exists []; constructor|]. destruct (I k (or_introl eq_refl)) as [v Hv].
    destruct IH as [r Hr]; [intros; apply I; right; assumption|]. exists (v :: r). constructor; assumption. }
  destruct X as [l Hl]. exists (VList l), l. auto.
Qed.
Lemma agg_none n ts t ty : without ts n -> In t ts -> exists v, means n (aggr t ty) v.
Proof.
  intros H I. apply agg_means. intros k Hk Ht. specialize (H t I). destruct n as [tag attrs text ks|]; [|contradiction].
  simpl in *. rewrite (find_none _ _ H k Hk) in Ht. discriminate.
Qed.
Lemma tag_node t n : has_tag t n = true -> n <> Comment.
Proof. destruct n; [discriminate | simpl; discriminate]. Qed.
Lemma pose_accepts n p : wf_doc n -> n <> Comment -> pose_says pf n p -> exists v, ok (read n (TObj "urdf.Pose")) v.
Proof.
  intros WD NCm [A B]. eapply object_accepts; [reflexivity | exact WD | exact NCm | |].
  - intros q [<-|[<-|[]]]; eapply vec_means; eassumption.
  - intros fs H. destruct (H _ (or_introl eq_refl)) as (u & U1 & U2), (H _ (or_intror (or_introl eq_refl))) as (w & W1 & W2).
    cbn [cl_check pr_var attr] in *. rewrite U1, W1.
    assert (X : forall a u, means n (attr a vector3 false (v0 0%R)) u -> xyz_ok (Some u) = true).
    { intros a z Z. unfold field_means in Z. cbn [pr_kind pr_xml pr_type attr pr_default] in Z. destruct (dget String.eqb a (attrs_of n)).
      - apply text_vec3_inv in Z as (x & -> & _). reflexivity.
      - destruct Z as [_ ->]. reflexivity. }
    rewrite (X _ _ U2), (X _ _ W2). reflexivity.
Qed.
Lemma limit_accepts n l : wf_doc n -> n <> Comment -> limit_says pf n l -> exists v, ok (read n (TObj "urdf.JointLimit")) v.
Proof.
  intros WD NCm (A & B & C & D). eapply object_accepts; [reflexivity | exact WD | exact NCm | | intros; reflexivity].
  intros q [<-|[<-|[<-|[<-|[]]]]]; [eapply num_req_means | eapply num_means | eapply num_means | eapply num_req_means]; eassumption.
Qed.
Lemma opt_means {A} (P : node -> A -> Prop) n t ty o : wf_doc n ->
  (forall k a, wf_doc k -> k <> Comment -> P k a -> exists v, ok (read k ty) v) ->
  maybe P (child t n) o -> exists v, means n (elem t ty false) v.
Proof.
  intros WD HP M. apply elem_means. destruct (child t n) as [k|] eqn:E; [|reflexivity]. destruct o as [a|]; [|contradiction].
  destruct (child_wf t n k WD E) as [Wk Tk]. eapply HP; [exact Wk | eapply tag_node; exact Tk | exact M].
Qed.
Lemma axis_accepts n a : n <> Comment -> axis_says pf n a -> exists v, ok (read n (TSimple "xyz" vector3)) v.
Proof.
  intros NCm (s & A & B). apply vec3_text in B as [v B]. exists v. destruct n as [tag attrs text ks|]; [|contradiction].
  apply (text_spec pf) in B; [|reflexivity]. simpl in A. cbn [from_xml interp]. rewrite A. exact B.
Qed.
Lemma name_means n t a s : named t a n s -> exists v, means n (elem t (TSimple a TStr) true) v.
Proof.
  intros (k & A & _). apply elem_means. rewrite A. destruct k as [tag attrs text ks|]; [eexists; reflexivity|].
  destruct n; [|discriminate]. apply find_some in A as [_ A]. discriminate.
Qed.
Lemma joint_accepts n j : wf_doc n -> ujoint_says pf n j -> In (uj_type j) urdf_types ->
  without ["dynamics"; "safety_controller"; "calibration"; "mimic"] n -> exists v, ok (read n (TObj "urdf.Joint")) v.
Proof.
  intros WD (HT & A1 & A2 & A3 & A4 & A5 & A6 & A7) TY PL. eapply object_accepts; [reflexivity | exact WD | eapply tag_node; exact HT | |].
  - intros q [<-|[<-|[<-|[<-|[<-|[<-|[<-|[<-|[<-|[<-|[<-|[]]]]]]]]]]]].
    + apply str_means; eauto.
    + apply str_means; eauto.
    + eapply opt_means; [exact WD | exact pose_accepts | exact A5].
    + eapply opt_means; [exact WD | intros k a _; apply axis_accepts | exact A6].
    + eapply name_means; exact A3.
    + eapply name_means; exact A4.
    + eapply opt_means; [exact WD | exact limit_accepts | exact A7].
    + eapply elem_none; [exact PL | simpl; tauto].
    + eapply elem_none; [exact PL | simpl; tauto].
    + eapply elem_none; [exact PL | simpl; tauto].
    + eapply elem_none; [exact PL | simpl; tauto].
  - intros fs H. destruct (H _ (or_intror (or_introl eq_refl))) as (u & U1 & U2). cbn [cl_check pr_var attr] in *. rewrite U1.
    unfold field_means in U2. cbn [pr_kind pr_xml pr_type attr pr_default] in U2. destruct n as [tag attrs text ks|]; [|discriminate].
    simpl in A2. cbn [attrs_of] in U2. rewrite A2 in U2. apply str_inv in U2. subst u. unfold joint_type_ok.
    assert (existsb (String.eqb (uj_type j)) urdf_types = true) as ->; [|reflexivity].
    apply existsb_exists. exists (uj_type j). split; [exact TY | apply String.eqb_refl].
Qed.
Lemma link_accepts n l : wf_doc n -> ulink_says pf n l -> without ["visual"; "collision"; "inertial"] n -> exists v, ok (read n (TObj "urdf.Link")) v.
Proof.
  intros WD (HT & A1 & A2) PL. eapply object_accepts; [reflexivity | exact WD | eapply tag_node; exact HT | | intros; reflexivity].
  intros q [<-|[<-|[<-|[<-|[<-|[]]]]]].
  - apply str_means; eauto.
  - eapply opt_means; [exact WD | exact pose_accepts | exact A2].
  - eapply agg_none; [exact PL | simpl; tauto].
  - eapply agg_none; [exact PL | simpl; tauto].
  - eapply elem_none; [exact PL | simpl; tauto].
Qed.
Lemma says_in {J L} (PJ : node -> J -> Prop) (PL : node -> L -> Prop) n es k : elems_say PJ PL n es -> In k (kids n) ->
  has_tag "link" k || has_tag "joint" k = true -> exists e, In e es /\ elem_says PJ PL k e.
Proof.
  unfold elems_say. intros F Hk Ht. assert (I : In k (filter (fun k => has_tag "link" k || has_tag "joint" k) (kids n))) by (apply filter_In; auto).
  clear Hk Ht. induction F as [|a b l m Hab F IH]; [contradiction|]. destruct I as [->|I]; [exists b; split; [left; reflexivity | exact Hab]|].
  destruct (IH I) as (e & A & B). exists e. split; [right; exact A | exact B].
Qed.
Theorem urdf_accepts n es : wf_doc n -> n <> Comment -> urdf_says pf n es -> plain_urdf n ->
  (forall j, In (EJoint j) es -> In (uj_type j) urdf_types) -> exists v, ok (from_doc pf cls "urdf.Robot" n) v.
Proof.
  intros WD NCm U (P1 & P2 & P3) TY. unfold from_doc.
  assert (WK : forall k, In k (kids n) -> wf_doc k) by (intros k Hk; destruct n; [eapply wf_doc_kids; eassumption | contradiction]).
  eapply object_accepts; [reflexivity | exact WD | exact NCm | | intros; reflexivity].
  intros q [<-|[<-|[<-|[<-|[<-|[<-|[]]]]]]].
  - apply str_means; discriminate.
  - apply agg_means. intros k Hk Ht. destruct (says_in _ _ n es k U Hk) as ([j|l] & A & B); [rewrite Ht; reflexivity| |].
    + exfalso. eapply tag_clash; [apply B | exact Ht].
    + eapply link_accepts; [apply WK, Hk | exact B | apply P2; assumption].
  - apply agg_means. intros k Hk Ht. destruct (says_in _ _ n es k U Hk) as ([j|l] & A & B); [rewrite Ht; apply orb_true_r| |].
    + eapply joint_accepts; [apply WK, Hk | exact B | apply TY, A | apply P3; assumption].
    + exfalso. eapply tag_clash; [exact Ht | apply B].
  - apply agg_means. intros k Hk Ht. destruct k; [eexists; reflexivity | discriminate].
  - eapply agg_none; [exact P1 | simpl; tauto].
  - eapply agg_none; [exact P1 | simpl; tauto].
Qed.

(** ** SDF *)
Lemma f_leaf cname c n v t ty req : cls cname = Some c -> wf_doc n -> ok (read n (TObj cname)) v -> In (elem t ty req) (cl_params c) -> basic_type ty = true ->
  match child t n with Some k => exists w, text_means pf ty (text_of k) w /\ fld v t = Some w | None => req = false /\ fld v t = Some VNone end.
Proof.
  intros Hc WD H Hp B. destruct (field_of _ _ _ _ _ Hc WD Hp H) as (w & Hw & F). cbn [pr_kind pr_xml pr_type pr_req pr_default pr_var elem] in *.
  destruct (child t n) as [k|]; [|destruct F as [-> ->]; auto]. exists w. split; [apply leaf_read; assumption | exact Hw].
Qed.
Lemma pose6 k w : ok (read k (TVec (Some 6))) w -> exists p, as_spose w = Some p /\ spose_says pf k p.
Proof.
  intros H. apply leaf_read in H; [|reflexivity]. inversion H as [| | | | | |? s ws l Sp F L E]; subst.
  pose proof (Forall2_len _ _ _ F) as El. rewrite L in El. destruct l as [|x [|y [|z [|a [|b [|d [|]]]]]]]; try discriminate.
  exists (mkSPose (mkV3 x y z) (mkV3 a b d)). split; [reflexivity|]. exists s. split; [auto|]. exists ws. auto.
Qed.
Lemma num_leaf k w : ok (read k TFloat) w -> exists x, as_num w = Some x /\ text_num pf k x.
Proof.
  intros H. apply leaf_read in H; [|reflexivity]. apply num_inv in H as (s & x & A & B & ->). exists x. split; [reflexivity | exists s; auto].
Qed.
Lemma slimit_read n v : wf_doc n -> ok (read n (TObj "sdf.Limit")) v -> exists l, as_slimit v = Some l /\ slimit_says pf n l.
Proof.
  intros WD H. assert (X : exists c, cls "sdf.Limit" = Some c /\ In (elem "lower" TFloat false) (cl_params c) /\
    In (elem "upper" TFloat false) (cl_params c)) by (eexists; split; [reflexivity|]; simpl; tauto).
  destruct X as (c & Hc & P1 & P2).
  destruct (maybe_read _ _ _ n "lower" v WD (fun k w _ => num_leaf k w) (f_elem_opt _ _ _ _ Hc WD H _ _ P1)) as (o1 & C1 & D1).
  destruct (maybe_read _ _ _ n "upper" v WD (fun k w _ => num_leaf k w) (f_elem_opt _ _ _ _ Hc WD H _ _ P2)) as (o2 & C2 & D2).
  exists (o1, o2). unfold as_slimit. rewrite C1, C2. split; [reflexivity | split; assumption].
Qed.
Lemma sjoint_read n v : wf_doc n -> has_tag "joint" n = true -> (exists s, attribute "name" n = Some s) -> ok (read n (TObj "sdf.Joint")) v ->
  exists j, as_sjoint v = Some j /\ sjoint_says pf n j.
Proof.
  intros WD HT [s1 A1] H. assert (X : exists c, cls "sdf.Joint" = Some c /\ In (attr "name" TStr false VNone) (cl_params c) /\
    In (attr "type" TStr false VNone) (cl_params c) /\ In (elem "axis" (TObj "sdf.Axis") true) (cl_params c) /\
    In (elem "parent" TStr true) (cl_params c) /\ In (elem "child" TStr true) (cl_params c)) by (eexists; split; [reflexivity|]; simpl; tauto).
  destruct X as (c & Hc & P1 & P2 & P3 & P4 & P5).
  assert (Y : exists c, cls "sdf.Axis" = Some c /\ In (elem "xyz" vector3 true) (cl_params c) /\
    In (elem "limit" (TObj "sdf.Limit") false) (cl_params c)) by (eexists; split; [reflexivity|]; simpl; tauto).
  destruct Y as (d & Hd & Q1 & Q2).
  pose proof (f_str_opt _ _ _ _ Hc WD H _ P1) as B1. rewrite A1 in B1. pose proof (f_str_opt _ _ _ _ Hc WD H _ P2) as B2.
  destruct (f_elem _ _ _ _ Hc WD H _ _ P3) as (k3 & w3 & A3 & R3 & B3).
  destruct (f_elem _ _ _ _ Hc WD H _ _ P4) as (k4 & w4 & A4 & R4 & B4), (f_elem _ _ _ _ Hc WD H _ _ P5) as (k5 & w5 & A5 & R5 & B5).
  apply leaf_read in R4; [|reflexivity]. apply str_inv in R4. apply leaf_read in R5; [|reflexivity]. apply str_inv in R5.
  destruct (child_wf _ _ _ WD A3) as [WD3 _].
  destruct (f_elem _ _ _ _ Hd WD3 R3 _ _ Q1) as (k6 & w6 & A6 & R6 & B6). apply leaf_read in R6; [|reflexivity].
  apply vec3_inv in R6 as (s6 & x6 & T6 & V6 & ->).
  destruct (maybe_read _ _ _ k3 "limit" w3 WD3 slimit_read (f_elem_opt _ _ _ _ Hd WD3 R3 _ _ Q2)) as (o7 & C7 & D7).
  subst w4 w5. exists (mkSJoint s1 (attribute "type" n) (match text_of k4 with Some s => s | None => "None" end)
    (match text_of k5 with Some s => s | None => "None" end) x6 o7).
  split.
  - unfold as_sjoint. rewrite B1, B2, B3, B4, B5. cbn [obind as_str]. rewrite B6, C7. destruct x6 as [x y z].
    destruct (attribute "type" n); reflexivity.
  - split; [exact HT|]. split; [exact A1|]. split; [reflexivity|]. split; [exists k4; auto|]. split; [exists k5; auto|].
    exists k3, k6. split; [exact A3|]. split; [exact A6|]. split; [exists s6; auto | exact D7].
Qed.
Lemma slink_read n v : wf_doc n -> has_tag "link" n = true -> (exists s, attribute "name" n = Some s) -> ok (read n (TObj "sdf.Link")) v ->
  exists l, as_slink v = Some l /\ slink_says pf n l.
Proof.
  intros WD HT [s1 A1] H. assert (X : exists c, cls "sdf.Link" = Some c /\ In (attr "name" TStr false VNone) (cl_params c) /\
    In (elem "pose" (TVec (Some 6)) false) (cl_params c)) by (eexists; split; [reflexivity|]; simpl; tauto).
  destruct X as (c & Hc & P1 & P2). pose proof (f_str_opt _ _ _ _ Hc WD H _ P1) as B1. rewrite A1 in B1.
  destruct (maybe_read _ _ _ n "pose" v WD (fun k w _ => pose6 k w) (f_elem_opt _ _ _ _ Hc WD H _ _ P2)) as (o & C & D).
  exists (mkSLink s1 o). unfold as_slink. rewrite B1. cbn [obind as_str]. rewrite C. split; [reflexivity|]. split; [exact HT|]. split; assumption.
Qed.
Theorem sdf_read n v : wf_doc n -> ok (from_doc pf cls "sdf.SDF" n) v ->
  match child "model" n with
  | None => fld v "model" = Some VNone
  | Some m => exists w, fld v "model" = Some w /\ w <> VNone /\
      (all_named m -> exists es, as_smodel w = Some es /\ elems_say (sjoint_says pf) (slink_says pf) m es)
  end.
Proof.
  intros WD H. assert (X : exists c, cls "sdf.SDF" = Some c /\ In (elem "model" (TObj "sdf.Model") false) (cl_params c))
    by (eexists; split; [reflexivity|]; simpl; tauto).
  destruct X as (c & Hc & P1). pose proof (f_elem_opt _ _ _ _ Hc WD H _ _ P1) as F. destruct (child "model" n) as [m|] eqn:E; [|exact F].
  destruct F as (w & R & Fw). exists w. split; [exact Fw|]. split; [eapply not_none; exact R|]. intros AN.
  destruct (child_wf _ _ _ WD E) as [WDm _].
  assert (Y : exists d, cls "sdf.Model" = Some d) by (eexists; reflexivity). destruct Y as [d Hd].
  eapply (elems_read as_sjoint as_slink) with (cname := "sdf.Model") (c := d) (tj := TObj "sdf.Joint") (tl := TObj "sdf.Link").
  - exact Hd.
  - exact WDm.
  - intros k Hk. inversion Hd; subst d. destruct k as [t a x l|]; [|discriminate]. simpl in Hk. apply String.eqb_eq in Hk. subst t. reflexivity.
  - intros k Hk. inversion Hd; subst d. destruct k as [t a x l|]; [|discriminate]. simpl in Hk. apply String.eqb_eq in Hk. subst t. reflexivity.
  - intros k u Hk Wk Tk. apply sjoint_read; auto.
  - intros k u Hk Wk Tk. apply slink_read; auto.
  - exact R.
Qed.
Lemma v3_eq6 (a b c d : V3) : [vx a; vy a; vz a; vx b; vy b; vz b] = [vx c; vy c; vz c; vx d; vy d; vz d] -> a = c /\ b = d.
Proof.
  intros H. split; apply v3_list.
  - exact (f_equal (firstn 3) H).
  - exact (f_equal (skipn 3) H).
Qed.
Lemma spose_fun n p q : spose_says pf n p -> spose_says pf n q -> p = q.
Proof.
  intros (s & A & B) (t & C & D). assert (t = s) by congruence. subst t. destruct p as [a b], q as [c d]. cbn [sp_xyz sp_rpy] in *.
  destruct (v3_eq6 _ _ _ _ (numbers_fun _ _ _ B D)) as [-> ->]. reflexivity.
Qed.
Lemma text_num_fun n x y : text_num pf n x -> text_num pf n y -> x = y.
Proof. intros (s & A & B) (t & C & D). congruence. Qed.
Lemma text_vec3_fun n x y : text_vec3 pf n x -> text_vec3 pf n y -> x = y.
Proof. intros (s & A & B) (t & C & D). assert (t = s) by congruence. subst t. eapply vec3_fun; eassumption. Qed.
Lemma slimit_fun n p q : slimit_says pf n p -> slimit_says pf n q -> p = q.
Proof.
  intros [A B] [C D]. destruct p as [a b], q as [c d]. cbn [fst snd] in *. rewrite (maybe_fun _ _ _ _ text_num_fun A C), (maybe_fun _ _ _ _ text_num_fun B D). reflexivity.
Qed.
Lemma text_named_fun t n s s' : text_named t n s -> text_named t n s' -> s = s'.
Proof. intros (k & A & B) (k' & C & D). assert (k' = k) by congruence. subst. reflexivity. Qed.
Lemma sjoint_fun n i j : sjoint_says pf n i -> sjoint_says pf n j -> i = j.
Proof.
  intros (_ & A1 & A2 & A3 & A4 & (a1 & x1 & A5 & A6 & A7 & A8)) (_ & B1 & B2 & B3 & B4 & (a2 & x2 & B5 & B6 & B7 & B8)).
  destruct i as [a b c d e f], j as [a' b' c' d' e' f']. cbn [sj_name sj_type sj_parent sj_child sj_axis sj_limit] in *.
  assert (a2 = a1) by congruence. subst a2. assert (x2 = x1) by congruence. subst x2.
  rewrite (text_named_fun _ _ _ _ A3 B3), (text_named_fun _ _ _ _ A4 B4), (text_vec3_fun _ _ _ A7 B7), (maybe_fun _ _ _ _ slimit_fun A8 B8). congruence.
Qed.
Lemma slink_fun n i j : slink_says pf n i -> slink_says pf n j -> i = j.
Proof.
  intros (_ & A1 & A2) (_ & B1 & B2). destruct i as [a b], j as [a' b']. cbn [sk_name sk_pose] in *. rewrite (maybe_fun _ _ _ _ spose_fun A2 B2). congruence.
Qed.
Theorem sdf_fun n es es' : sdf_says pf n es -> sdf_says pf n es' -> es = es'.
Proof.
  intros (m & A & B) (m' & C & D). assert (m' = m) by congruence. subst m'.
  refine (elems_fun (sjoint_says pf) (slink_says pf) m es es' _ _ sjoint_fun slink_fun B D); intros k x H; apply H.
Qed.
Theorem load_sdf_ok limit n v w es : ok (from_doc pf cls "sdf.SDF" n) v -> fld v "model" = Some w -> w <> VNone -> as_smodel w = Some es ->
  snd (load_sdf pf limit n) = match sdf_chain limit (srobot_of es) with Ok c => inl c | Err e => inr (XPy e) end.
Proof.
  intros H E N F. unfold load_sdf. rewrite (ok_step _ _ _ H). rewrite E. unfold xopt at 1. unfold xbind at 1. cbn [fst snd ret].
  destruct w; try contradiction; unfold xbind; simpl in *; try discriminate. rewrite F. simpl.
  destruct (sdf_chain limit (srobot_of es)); reflexivity.
Qed.

(** SDF documents that are accepted *)
Lemma leaf_accepts n t v : n <> Comment -> basic_type t = true -> text_means pf t (text_of n) v -> ok (read n t) v.
Proof. intros NCm B H. destruct n as [tag attrs text ks|]; [|contradiction]. apply (text_spec pf) in H; [|exact B]. destruct t; try discriminate; exact H. Qed.
Lemma child_node t n k : child t n = Some k -> k <> Comment.
Proof. intros H. destruct n; [|discriminate]. apply find_some in H as [_ H]. eapply tag_node; exact H. Qed.
Lemma num_elem_means n t req k x : child t n = Some k -> text_num pf k x -> exists v, means n (elem t TFloat req) v.
Proof.
  intros A (s & B & C). apply elem_means. rewrite A. exists (VNum x). apply leaf_accepts; [eapply child_node; exact A | reflexivity|].
  rewrite B. constructor; exact C.
Qed.
Lemma str_elem_means n t req k : child t n = Some k -> exists v, means n (elem t TStr req) v.
Proof.
  intros A. apply elem_means. rewrite A. eexists (VStr (match text_of k with Some s => s | None => "None" end)).
  apply leaf_accepts; [eapply child_node; exact A | reflexivity|]. destruct (text_of k); constructor.
Qed.
Lemma bool_elem_means n t : exists v, means n (elem t TBool false) v.
Proof.
  apply elem_means. destruct (child t n) as [k|] eqn:A; [|reflexivity].
  exists (VBool (match text_of k with Some s => negb (String.eqb s "") | None => false end)).
  apply leaf_accepts; [eapply child_node; exact A | reflexivity|].
  destruct (text_of k) as [s|]; [|constructor]. destruct (String.eqb s "") eqn:E; simpl; [apply String.eqb_eq in E; subst; constructor|].
  constructor. apply String.eqb_neq, E.
Qed.
Lemma spose_accepts k p : k <> Comment -> spose_says pf k p -> exists v, ok (read k (TVec (Some 6))) v.
Proof.
  intros NCm (s & A & (ws & B & C)). eexists. apply leaf_accepts; [exact NCm | reflexivity|]. rewrite A. econstructor; [exact B | exact C|].
  exact (Forall2_len _ _ _ C).
Qed.
Lemma inertial_accepts n : wf_doc n -> inertial_given pf n -> exists v, means n (elem "inertial" (TObj "sdf.Inertial") true) v.
Proof.
  intros WD (i & m & t & A & B & C & D & (x & X) & I). apply elem_means. rewrite A. destruct (child_wf _ _ _ WD A) as [Wi _].
  destruct (child_wf _ _ _ Wi C) as [Wt _].
  eapply object_accepts; [reflexivity | exact Wi | eapply child_node; exact A | | intros; reflexivity].
  intros q [<-|[<-|[<-|[]]]].
  - eapply num_elem_means; eassumption.
  - apply elem_means. rewrite C. eapply object_accepts; [reflexivity | exact Wt | eapply child_node; exact C | | intros; reflexivity].
    intros q Hq. cbn [cl_params map] in Hq. 
    assert (Y : exists a, In a ["ixx"; "ixy"; "ixz"; "iyy"; "iyz"; "izz"] /\ q = elem a TFloat true).
    { change (In q (map (fun k => elem k TFloat true) ["ixx"; "ixy"; "ixz"; "iyy"; "iyz"; "izz"])) in Hq.
      apply in_map_iff in Hq as (a & E & Ha). exists a. auto. }
    destruct Y as (a & Ha & ->). destruct (I a Ha) as (k & y & K1 & K2). eapply num_elem_means; eassumption.
  - eapply elem_none; [exact D | left; reflexivity].
Qed.
Lemma slink_accepts n l : wf_doc n -> slink_says pf n l -> without ["visual"; "collision"] n -> inertial_given pf n -> exists v, ok (read n (TObj "sdf.Link")) v.
Proof.
  intros WD (HT & A1 & A2) PL IG. eapply object_accepts; [reflexivity | exact WD | eapply tag_node; exact HT | | intros; reflexivity].
  intros q [<-|[<-|[<-|[<-|[<-|[<-|[]]]]]]].
  - apply str_means; discriminate.
  - apply inertial_accepts; assumption.
  - apply attr_means. destruct (attribute "kinematic" n) as [s|]; [|reflexivity].
    destruct (String.eqb s "") eqn:E; [apply String.eqb_eq in E; subst; eexists; apply TmFalse | eexists; apply TmTrue, String.eqb_neq, E].
  - eapply agg_none; [exact PL | simpl; tauto].
  - eapply agg_none; [exact PL | simpl; tauto].
  - eapply opt_means; [exact WD | intros k a _; apply spose_accepts | exact A2].
Qed.
Lemma text_num_accepts k x : k <> Comment -> text_num pf k x -> exists v, ok (read k TFloat) v.
Proof. intros NCm (s & A & B). exists (VNum x). apply leaf_accepts; [exact NCm | reflexivity|]. rewrite A. constructor; exact B. Qed.
Lemma slimit_accepts n l : wf_doc n -> n <> Comment -> slimit_says pf n l -> exists v, ok (read n (TObj "sdf.Limit")) v.
Proof.
  intros WD NCm (A & B). eapply object_accepts; [reflexivity | exact WD | exact NCm | | intros; reflexivity].
  intros q [<-|[<-|[]]]; (eapply opt_means; [exact WD | intros k a _; apply text_num_accepts | eassumption]).
Qed.
Lemma sjoint_accepts n j : wf_doc n -> sjoint_says pf n j -> without ["pose"] n -> (forall a, child "axis" n = Some a -> without ["dynamics"] a) ->
  exists v, ok (read n (TObj "sdf.Joint")) v.
Proof.
  intros WD (HT & A1 & A2 & (k3 & A3 & _) & (k4 & A4 & _) & (a & x & A5 & A6 & (s & A7 & A8) & A9)) PL PD.
  eapply object_accepts; [reflexivity | exact WD | eapply tag_node; exact HT | | intros; reflexivity].
  intros q [<-|[<-|[<-|[<-|[<-|[<-|[]]]]]]].
  - apply str_means; discriminate.
  - apply str_means; discriminate.
  - apply elem_means. rewrite A5. destruct (child_wf _ _ _ WD A5) as [Wa _].
    eapply object_accepts; [reflexivity | exact Wa | eapply child_node; exact A5 | | intros; reflexivity].
    intros q [<-|[<-|[<-|[<-|[]]]]].
    + apply elem_means. rewrite A6. apply vec3_text in A8 as [v A8]. exists v. apply leaf_accepts; [eapply child_node; exact A6 | reflexivity|].
      rewrite A7. exact A8.
    + eapply opt_means; [exact Wa | exact slimit_accepts | exact A9].
    + eapply elem_none; [apply PD, A5 | left; reflexivity].
    + apply bool_elem_means.
  - eapply str_elem_means; exact A3.
  - eapply str_elem_means; exact A4.
  - eapply elem_none; [exact PL | left; reflexivity].
Qed.
Theorem sdf_accepts n es : wf_doc n -> sdf_says pf n es -> plain_sdf pf n -> exists v, ok (from_doc pf cls "sdf.SDF" n) v.
Proof.
  intros WD (m & A & U) (m' & A' & P0 & P1 & P2). assert (m' = m) by congruence. subst m'. unfold from_doc.
  destruct (child_wf _ _ _ WD A) as [WDm _].
  assert (WK : forall k, In k (kids m) -> wf_doc k) by (intros k Hk; destruct m; [eapply wf_doc_kids; eassumption | contradiction]).
  eapply object_accepts; [reflexivity | exact WD | intros ->; discriminate | | intros; reflexivity].
  intros q [<-|[<-|[]]].
  - apply str_means; discriminate.
  - apply elem_means. rewrite A. eapply object_accepts; [reflexivity | exact WDm | eapply child_node; exact A | | intros; reflexivity].
    intros q [<-|[<-|[<-|[<-|[]]]]].
    + apply str_means; discriminate.
    + apply agg_means. intros k Hk Ht. destruct (says_in _ _ m es k U Hk) as ([j|l] & E & B); [rewrite Ht; reflexivity| |].
      * exfalso. eapply tag_clash; [apply B | exact Ht].
      * destruct (P1 k Hk Ht) as [Q1 Q2]. eapply slink_accepts; [apply WK, Hk | exact B | exact Q1 | exact Q2].
    + apply agg_means. intros k Hk Ht. destruct (says_in _ _ m es k U Hk) as ([j|l] & E & B); [rewrite Ht; apply orb_true_r| |].
      * destruct (P2 k Hk Ht) as [Q1 Q2]. eapply sjoint_accepts; [apply WK, Hk | exact B | exact Q1 | exact Q2].
      * exfalso. eapply tag_clash; [exact Ht | apply B].
    + eapply elem_none; [exact P0 | left; reflexivity].
Qed.
End Proofs.
