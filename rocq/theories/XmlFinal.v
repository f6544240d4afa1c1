(** Last steps of the proofs quoted in Properties_Xml.v. *)
From Coq Require Import Reals Lra String Ascii Bool Arith ZArith Lia List Permutation.
From Verif Require Import Prelude ExtF Tree ChainModel SpecFK ChainProofs Lin Trig RotModel RotBasic ChainInst
  T3dModel LoaderModel LoaderTree RobotModel RobotProofs LoaderProofs LoaderMore SdfProofs Examples LoaderExamples
  XmlModel XmlSchema XmlProofs XmlWrite XmlRead XmlCheck SpecXml XmlMore XmlNum SpecLoad XmlLoad XmlLoadProofs XmlExamples.
Import ListNotations.
Local Open Scope nat_scope.
Local Open Scope string_scope.
Local Open Scope list_scope.

Lemma l62_white : forall c, is_space c = true <-> In (nat_of_ascii c) [9; 10; 11; 12; 13; 28; 29; 30; 31; 32].
Proof.
  intros c. destruct c as [b0 b1 b2 b3 b4 b5 b6 b7].
  destruct b0, b1, b2, b3, b4, b5, b6, b7; vm_compute; split; intros H; try discriminate; try reflexivity;
    repeat (destruct H as [H|H]; [discriminate|]); try destruct H; tauto.
Qed.

Lemma l62_text : forall (Num : Type) (pf : string -> option Num) t s v,
  basic_type t = true -> (snd (from_string pf t s) = inl v <-> text_means pf t s v).
Proof. intros Num pf t s v H. exact (text_spec pf t s v H). Qed.

Lemma l62_object : forall (Num : Type) (pf : string -> option Num) (zero : Num) cname c tag attrs text kids v,
  classes zero cname = Some c -> NoDup (map fst attrs) ->
  (snd (from_xml pf (classes zero) (Node tag attrs text kids) (TObj cname)) = inl v <->
   exists fs order, v = VObj cname fs order /\ object_means pf (from_xml pf (classes zero)) c attrs kids fs order).
Proof.
  intros Num pf zero cname c tag attrs text kids v Hc ND.
  exact (object_spec pf (classes zero) (fun n k Hk => schema_nice zero n k Hk) cname c tag attrs text kids v Hc ND).
Qed.

Lemma l62_geometry : forall (Num : Type) (pf : string -> option Num) (zero : Num) tab tag attrs text kids v,
  snd (from_xml pf (classes zero) (Node tag attrs text kids) (TGeom tab)) = inl v <->
  exists t a x l c, elements kids = [Node t a x l] /\ dget String.eqb t tab = Some c /\
    snd (from_xml pf (classes zero) (Node t a x l) (TObj c)) = inl v.
Proof. intros Num pf zero. exact (geometry_spec pf (classes zero)). Qed.

Lemma l62_transmission : forall (Num : Type) (pf : string -> option Num) (zero : Num) cs tag attrs text kids v,
  snd (from_xml pf (classes zero) (Node tag attrs text kids) (TDuck cs)) = inl v <->
  exists cs1 c cs2, cs = cs1 ++ c :: cs2 /\ snd (from_xml pf (classes zero) (Node tag attrs text kids) (TObj c)) = inl v /\
    forall c1, In c1 cs1 -> exists e, snd (from_xml pf (classes zero) (Node tag attrs text kids) (TObj c1)) = inr e.
Proof. intros Num pf zero. exact (duck_spec pf (classes zero)). Qed.

Lemma l62_irrelevant : forall (Num : Type) (pf : string -> option Num) (zero : Num) cname c tag attrs attrs' text text' kids kids' v,
  classes zero cname = Some c -> NoDup (map fst attrs) -> NoDup (map fst attrs') ->
  (forall p, In p (cl_params c) -> pr_kind p = PAttribute -> dget String.eqb (pr_xml p) attrs' = dget String.eqb (pr_xml p) attrs) ->
  (forall p, In p (cl_params c) -> pr_kind p = PElement -> first_child (pr_xml p) kids' = first_child (pr_xml p) kids) ->
  filter (fun n => match aggregate_of c n with Some _ => true | None => false end) kids' =
  filter (fun n => match aggregate_of c n with Some _ => true | None => false end) kids ->
  snd (from_xml pf (classes zero) (Node tag attrs text kids) (TObj cname)) = inl v ->
  snd (from_xml pf (classes zero) (Node tag attrs' text' kids') (TObj cname)) = inl v.
Proof. intros Num pf zero. exact (irrelevant pf (classes zero) (fun n k Hk => schema_nice zero n k Hk)). Qed.

Lemma l62_required : forall (Num : Type) (pf : string -> option Num) (zero : Num) cname c tag attrs text kids p,
  classes zero cname = Some c -> NoDup (map fst attrs) -> In p (cl_params c) -> pr_req p = true ->
  match pr_kind p with
  | PAttribute => dget String.eqb (pr_xml p) attrs = None
  | PElement => first_child (pr_xml p) kids = None
  | PAggregate => False
  end ->
  (forall q s, In q (cl_params c) -> pr_kind q = PAttribute -> dget String.eqb (pr_xml q) attrs = Some s -> exists v, text_means pf (pr_type q) (Some s) v) ->
  (forall q n, In q (cl_params c) -> pr_kind q = PElement -> first_child (pr_xml q) kids = Some n ->
     exists v, snd (from_xml pf (classes zero) n (pr_type q)) = inl v) ->
  (forall q n, In q (cl_params c) -> pr_kind q = PAggregate -> In n (children (pr_xml q) kids) ->
     exists v, snd (from_xml pf (classes zero) n (pr_type q)) = inl v) ->
  snd (from_xml pf (classes zero) (Node tag attrs text kids) (TObj cname)) = inr XParse.
Proof. intros Num pf zero. exact (missing_fails pf (classes zero) (fun n k Hk => schema_nice zero n k Hk)). Qed.

Lemma l62_messages : forall (Num : Type) (pf : string -> option Num) (zero : Num) cname c tag attrs text kids v,
  classes zero cname = Some c -> snd (from_xml pf (classes zero) (Node tag attrs text kids) (TObj cname)) = inl v ->
  (forall a, In a (map fst attrs) -> (forall p, In p (cl_params c) -> pr_kind p = PAttribute -> pr_xml p <> a) ->
     In (WAttr a) (fst (from_xml pf (classes zero) (Node tag attrs text kids) (TObj cname)))) /\
  (forall t a x l, In (Node t a x l) kids -> (forall p, In p (cl_params c) -> pr_kind p <> PAttribute -> pr_xml p <> t) ->
     In (WTag t) (fst (from_xml pf (classes zero) (Node tag attrs text kids) (TObj cname)))).
Proof. intros Num pf zero. exact (messages pf (classes zero)). Qed.

Lemma l62_silent : forall (Num : Type) (pf : string -> option Num) (zero : Num) cname c tag attrs text kids,
  classes zero cname = Some c ->
  (forall a, In a (map fst attrs) -> exists p, In p (cl_params c) /\ pr_kind p = PAttribute /\ pr_xml p = a) ->
  (forall t a x l, In (Node t a x l) kids -> exists p, In p (cl_params c) /\ pr_kind p <> PAttribute /\ pr_xml p = t) ->
  (forall p, In p (cl_params c) -> pr_kind p = PElement -> length (children (pr_xml p) kids) <= 1) ->
  (forall n p, In n kids -> In p (cl_params c) -> pr_kind p <> PAttribute -> has_tag (pr_xml p) n = true ->
     fst (from_xml pf (classes zero) n (pr_type p)) = []) ->
  (forall fs, fst (cl_check c fs) = []) ->
  fst (from_xml pf (classes zero) (Node tag attrs text kids) (TObj cname)) = [].
Proof. intros Num pf zero. exact (silent pf (classes zero) (fun n k Hk => schema_nice zero n k Hk)). Qed.

Lemma l63_stable : forall (Num : Type) (pf : string -> option Num) (sf : Num -> string) (zero : Num) cname c tag n v,
  (forall x, pf (sf x) = Some x) -> (forall x, solid (sf x)) ->
  classes zero cname = Some c -> cl_tag c = Some tag -> wf_doc n ->
  snd (from_doc pf (classes zero) cname n) = inl v -> clean v = true ->
  exists m, snd (to_xml sf (classes zero) v) = inl m /\ snd (from_doc pf (classes zero) cname m) = inl v.
Proof.
  intros Num pf sf zero cname c tag n v HP HS Hc Ht WD H C.
  assert (NC : forall n k, classes zero n = Some k -> nice_class (classes zero) k) by (intros n' k Hk; exact (schema_nice zero n' k Hk)).
  apply (round_trip pf sf HP HS (classes zero) cname c tag v Hc Ht).
  apply (doc_typed pf (classes zero) NC cname n v WD H C).
Qed.

Lemma l63_false_refuted : exists n v m w, snd (from_doc zf (classes 0%Z) "sdf.Axis" n) = inl v /\
  snd (to_xml zs (classes 0%Z) v) = inl m /\ snd (from_doc zf (classes 0%Z) "sdf.Axis" m) = inl w /\
  fld' v "use_parent_model_frame" = Some (VBool false) /\ fld' w "use_parent_model_frame" = Some (VBool true).
Proof.
  exists (E "axis" [] [T "xyz" "0 0 1"; E "use_parent_model_frame" [] []]). eexists. eexists. eexists.
  split; [vm_compute; reflexivity|]. split; [vm_compute; reflexivity|]. split; [vm_compute; reflexivity|]. split; reflexivity.
Qed.

Lemma l63_untagged_refuted : forall (Num : Type) (sf : Num -> string) (zero : Num) cname fs agg,
  cname = "sdf.Inertia" \/ cname = "sdf.Inertial" ->
  snd (to_xml sf (classes zero) (VObj cname fs agg)) = inr (XPy AssertionError).
Proof. intros Num sf zero cname fs agg [-> | ->]; reflexivity. Qed.

Lemma l63_raw_text_refuted : exists n v m w, snd (from_doc zf (classes 0%Z) "urdf.Robot" n) = inl v /\
  snd (to_xml zs (classes 0%Z) v) = inl m /\ snd (from_doc zf (classes 0%Z) "urdf.Robot" m) = inl w /\ 
  fld' v "gazebos" = Some (VList [VRaw (T "gazebo" "static")]) /\ fld' w "gazebos" = Some (VList [VRaw (E "gazebo" [] [])]).
Proof.
  exists (E "robot" [("name", "a")] [T "gazebo" "static"]). eexists. eexists. eexists.
  split; [vm_compute; reflexivity|]. split; [vm_compute; reflexivity|]. split; [vm_compute; reflexivity|]. split; reflexivity.
Qed.

Lemma l63_write_twice_refuted : exists n v m1 m2, snd (from_doc zf (classes 0%Z) "urdf.Robot" n) = inl v /\ clean v = true /\
  snd (to_xml zs (classes 0%Z) v) = inl m1 /\ snd (to_xml zs (classes 0%Z) (moved v)) = inl m2 /\
  m1 = n /\ m2 = E "robot" [("name", "a")] [E "gazebo" [] []].
Proof.
  exists (E "robot" [("name", "a")] [E "gazebo" [] [E "static" [] []]]). eexists. eexists. eexists.
  split; [vm_compute; reflexivity|]. split; [reflexivity|]. split; [vm_compute; reflexivity|]. split; [vm_compute; reflexivity|]. split; reflexivity.
Qed.

Lemma l63_constructed_refuted : forall k, k = "sdf.Visual" \/ k = "sdf.SDF" -> exists c geometry v,
  classes 0%Z k = Some c /\
  v = VObj k (match k with "sdf.Visual" => dset String.eqb "geometry" geometry (cl_init c) | _ => cl_init c end) [] /\
  snd (to_xml zs (classes 0%Z) geometry) = inl (E "sphere" [] [T "radius" "1"]) /\
  snd (to_xml zs (classes 0%Z) v) = inr (XPy AttributeError).
Proof.
  intros k [->| ->].
  - eexists. exists (VObj "sdf.Sphere" [("radius", VNum 1%Z)] []). eexists.
    split; [reflexivity|]. split; [reflexivity|]. split; vm_compute; reflexivity.
  - eexists. exists (VObj "sdf.Sphere" [("radius", VNum 1%Z)] []). eexists.
    split; [reflexivity|]. split; [reflexivity|]. split; vm_compute; reflexivity.
Qed.

Lemma l63_empty_text_refuted : exists v m w, snd (to_xml zs (classes 0%Z) v) = inl m /\
  snd (from_doc zf (classes 0%Z) "sdf.Script" m) = inl v /\ snd (from_doc zf (classes 0%Z) "sdf.Script" (reparse m)) = inl w /\
  fld' v "uri" = Some (VStr "") /\ fld' w "uri" = Some (VStr "None").
Proof.
  exists (VObj "sdf.Script" [("uri", VStr ""); ("name", VNone)] []). eexists. eexists.
  split; [vm_compute; reflexivity|]. split; [vm_compute; reflexivity|]. split; [vm_compute; reflexivity|]. split; reflexivity.
Qed.

Lemma l64_urdf_document : forall (pf : string -> option R) limit n v, wf_doc n ->
  snd (from_doc pf (classes 0%R) "urdf.Robot" n) = inl v ->
  exists! es, urdf_says pf n es /\
    snd (load_urdf pf limit n) = match urdf_chain limit (urobot_of es) with Ok c => inl c | Err e => inr (XPy e) end.
Proof.
  intros pf limit n v WD H. destruct (urdf_read pf n v WD H) as (es & E1 & E2). exists es. split.
  - split; [exact E2|]. eapply load_urdf_ok; [exact H | exact E1].
  - intros es' [E3 _]. eapply urdf_fun; eassumption.
Qed.

Lemma l64_urdf_rejected : forall (pf : string -> option R) limit n e,
  snd (from_doc pf (classes 0%R) "urdf.Robot" n) = inr e -> snd (load_urdf pf limit n) = inr e.
Proof. intros pf limit n e H. unfold load_urdf. apply bind_err. exact H. Qed.

Lemma l64_urdf_accepted : forall (pf : string -> option R) limit n es, wf_doc n -> n <> Comment -> urdf_says pf n es -> plain_urdf n ->
  (forall j, In (EJoint j) es -> In (uj_type j) ["unknown"; "revolute"; "continuous"; "prismatic"; "floating"; "planar"; "fixed"]) ->
  snd (load_urdf pf limit n) = match urdf_chain limit (urobot_of es) with Ok c => inl c | Err e => inr (XPy e) end.
Proof.
  intros pf limit n es WD NC U P TY. destruct (urdf_accepts pf n es WD NC U P TY) as [v H].
  destruct (urdf_read pf n v WD H) as (es' & E1 & E2). rewrite (urdf_fun pf n es es' U E2). eapply load_urdf_ok; [exact H | exact E1].
Qed.

Lemma l64_urdf_same : forall (pf : string -> option R) limit n n' v v' es, wf_doc n -> wf_doc n' ->
  snd (from_doc pf (classes 0%R) "urdf.Robot" n) = inl v -> snd (from_doc pf (classes 0%R) "urdf.Robot" n') = inl v' ->
  urdf_says pf n es -> urdf_says pf n' es -> snd (load_urdf pf limit n) = snd (load_urdf pf limit n').
Proof.
  intros pf limit n n' v v' es W1 W2 H1 H2 U1 U2.
  destruct (urdf_read pf n v W1 H1) as (e1 & A1 & B1), (urdf_read pf n' v' W2 H2) as (e2 & A2 & B2).
  rewrite (load_urdf_ok pf limit n v e1 H1 A1), (load_urdf_ok pf limit n' v' e2 H2 A2).
  rewrite <- (urdf_fun pf n es e1 U1 B1), <- (urdf_fun pf n' es e2 U2 B2). reflexivity.
Qed.

Lemma l64_urdf_forward_kinematics : forall (pf : string -> option R) n (es : list uelem) (top : string) (limit : nat) (vs : list config),
  wf_doc n -> n <> Comment -> urdf_says pf n es -> plain_urdf n ->
  tree_shaped uj_parent uj_child (joints_of es) top ->
  (forall x, x = top \/ In x (map uj_child (joints_of es)) -> In x (map uk_name (links_of es))) ->
  (forall l, In l (links_of es) -> uk_origin l = None) ->
  (forall j, In j (joints_of es) -> exists k, urdf_kind (uj_type j) = Some k /\
     (k <> Fixed -> exists a, uj_axis j = Some a /\ a <> vzero)) ->
  NoDup (map uj_name (filter urdf_moves (joints_of es))) ->
  (forall x, x = top \/ In x (map uj_child (joints_of es)) -> strip_nl x = x) ->
  length (joints_of es) < limit ->
  exists c d, snd (load_urdf pf limit n) = inl c /\ f_name (c_root c) = top /\
    forward_kinematics mops c (config_tensor (c_root c) vs) None = Ok d /\
    forall l x, jpath uj_parent uj_child (joints_of es) top l x ->
      dget String.eqb x d = Some (map (fun v => fold_left m4mul (map (urdf_rel v) l) I4) vs).
Proof.
  intros pf n es top limit vs WD NC U P HT HL HO HK HN HS HD.
  destruct (urdf_fk es top limit vs HT HL HO HK HN HS HD) as (c & d & jl & Hc & Hr & _ & _ & Hd & _ & Hp).
  exists c, d. split; [|auto]. rewrite (l64_urdf_accepted pf limit n es WD NC U P); [rewrite Hc; reflexivity|].
  intros j Hj. assert (Hin : In j (joints_of es)) by (unfold joints_of; apply in_flat_map; exists (EJoint j); split; [exact Hj | left; reflexivity]).
  destruct (HK j Hin) as (k & Hk & _). unfold urdf_kind in Hk. revert Hk.
  destruct (String.eqb_spec (uj_type j) "revolute") as [->|]; [simpl; tauto|].
  destruct (String.eqb_spec (uj_type j) "continuous") as [->|]; [simpl; tauto|].
  destruct (String.eqb_spec (uj_type j) "prismatic") as [->|]; [simpl; tauto|].
  destruct (String.eqb_spec (uj_type j) "fixed") as [->|]; [simpl; tauto | discriminate].
Qed.

Lemma l65_sdf_document : forall (pf : string -> option R) limit n v m, wf_doc n ->
  snd (from_doc pf (classes 0%R) "sdf.SDF" n) = inl v -> child "model" n = Some m -> all_named m ->
  exists! es, sdf_says pf n es /\
    snd (load_sdf pf limit n) = match sdf_chain limit (srobot_of es) with Ok c => inl c | Err e => inr (XPy e) end.
Proof.
  intros pf limit n v m WD H Hm AN. pose proof (sdf_read pf n v WD H) as X. rewrite Hm in X. destruct X as (w & F & N & X).
  destruct (X AN) as (es & E1 & E2). assert (U : sdf_says pf n es) by (exists m; auto). exists es. split.
  - split; [exact U|]. eapply load_sdf_ok; eassumption.
  - intros es' [E3 _]. eapply sdf_fun; eassumption.
Qed.

Lemma l65_sdf_rejected : forall (pf : string -> option R) limit n e,
  snd (from_doc pf (classes 0%R) "sdf.SDF" n) = inr e -> snd (load_sdf pf limit n) = inr e.
Proof. intros pf limit n e H. unfold load_sdf. apply bind_err. exact H. Qed.

Lemma l65_sdf_accepted : forall (pf : string -> option R) limit n es, wf_doc n -> sdf_says pf n es -> plain_sdf pf n ->
  snd (load_sdf pf limit n) = match sdf_chain limit (srobot_of es) with Ok c => inl c | Err e => inr (XPy e) end.
Proof.
  intros pf limit n es WD U P. destruct (sdf_accepts pf n es WD U P) as [v H]. pose proof (sdf_read pf n v WD H) as X.
  pose proof U as (m & Hm & Um). rewrite Hm in X. destruct X as (w & F & N & X). destruct X as (es' & E1 & E2).
  - intros k Hk Tk. destruct (says_in _ _ m es k Um Hk) as ([j|l] & _ & B).
    + destruct Tk as [-> | ->]; [reflexivity | apply orb_true_r].
    + destruct B as (_ & B & _). eauto.
    + destruct B as (_ & B & _). eauto.
  - assert (es = es') by (apply (sdf_fun pf n); [exact U | exists m; auto]). subst es'. eapply load_sdf_ok; eassumption.
Qed.

Lemma l65_sdf_forward_kinematics : forall (pf : string -> option R) n (es : list selem) (top : string) (limit : nat) (vs : list config),
  wf_doc n -> sdf_says pf n es -> plain_sdf pf n ->
  tree_shaped sj_parent sj_child (joints_of es) top ->
  (forall x, x = top \/ In x (map sj_child (joints_of es)) -> In x (map sk_name (links_of es))) ->
  (forall j, In j (joints_of es) -> complete j /\ exists k, sdf_kind (sj_type j) = Some k /\ (k <> Fixed -> sj_axis j <> vzero)) ->
  NoDup (map sj_name (filter sdf_moves (joints_of es))) ->
  (forall x, x = top \/ In x (map sj_child (joints_of es)) -> strip_nl x = x) ->
  length (joints_of es) < limit ->
  exists c d, snd (load_sdf pf limit n) = inl c /\ f_name (c_root c) = top /\
    forward_kinematics mops c (config_tensor (c_root c) vs) None = Ok d /\
    forall l x, jpath sj_parent sj_child (joints_of es) top l x ->
      dget String.eqb x d = Some (map (fun v => m4mul (swapped_pose (declared es top)) (fold_left m4mul (map (sdf_rel es v) l) I4)) vs).
Proof.
  intros pf n es top limit vs WD U P HT HL HK HN HS HD.
  destruct (sdf_fk es top limit vs HT HL HK HN HS HD) as (c & d & jl & Hc & Hr & _ & _ & Hd & _ & Hp).
  exists c, d. split; [|auto]. rewrite (l65_sdf_accepted pf limit n es WD U P), Hc. reflexivity.
Qed.

Lemma l65_no_model : forall (pf : string -> option R) limit n v, wf_doc n ->
  snd (from_doc pf (classes 0%R) "sdf.SDF" n) = inl v -> child "model" n = None -> snd (load_sdf pf limit n) = inr (XPy AttributeError).
Proof.
  intros pf limit n v WD H Hm. pose proof (sdf_read pf n v WD H) as X. rewrite Hm in X. unfold load_sdf. rewrite (ok_step _ _ _ H). rewrite X. reflexivity.
Qed.

Lemma l65_no_model_refuted : exists n v, wf_doc n /\ snd (from_doc rf (classes 0%R) "sdf.SDF" n) = inl v /\
  forall limit, snd (load_sdf rf limit n) = inr (XPy AttributeError).
Proof.
  exists (E "sdf" [("version", "1.6")] []). eexists. split; [simpl; repeat constructor; intros []|]. split; [reflexivity|].
  intros limit. eapply l65_no_model; [simpl; repeat constructor; intros [] | reflexivity | reflexivity].
Qed.

Lemma l66_false_is_true_refuted : exists l k, snd (from_doc zf (classes 0%Z) "sdf.Link" l) = inl k /\ attribute "kinematic" l = Some "false" /\
  fld' k "kinematic" = Some (VBool true).
Proof.
  exists (E "link" [("name", "a"); ("kinematic", "false")] [ex_inertial]). eexists. split; [vm_compute; reflexivity|]. split; reflexivity.
Qed.

Lemma l66_no_parent_refuted : exists n v, child "parent" n = Some (E "parent" [] []) /\
  snd (from_doc zf (classes 0%Z) "urdf.Joint" n) = inl v /\ fld' v "parent" = Some (VStr "None").
Proof.
  exists (E "joint" [("name", "j"); ("type", "fixed")] [E "parent" [] []; E "child" [("link", "b")] []]).
  eexists. split; [reflexivity|]. split; [vm_compute; reflexivity | reflexivity].
Qed.

Lemma l66_sdf_required : forall (pf : string -> option R) n,
  (has_tag "link" n = true -> child "inertial" n = None -> wf_doc n -> exists e, snd (from_doc pf (classes 0%R) "sdf.Link" n) = inr e) /\
  (has_tag "joint" n = true -> child "axis" n = None -> wf_doc n -> exists e, snd (from_doc pf (classes 0%R) "sdf.Joint" n) = inr e).
Proof.
  intros pf n. split; intros HT HC WD.
  - destruct (snd (from_doc pf (classes 0%R) "sdf.Link" n)) as [v|e] eqn:H; [|eauto]. exfalso.
    assert (X : exists c, classes 0%R "sdf.Link" = Some c /\ In (elem "inertial" (TObj "sdf.Inertial") true) (cl_params c)) by (eexists; split; [reflexivity|]; simpl; tauto).
    destruct X as (c & Hc & Hp). destruct (f_elem pf _ _ _ _ Hc WD H _ _ Hp) as (k & w & A & _). congruence.
  - destruct (snd (from_doc pf (classes 0%R) "sdf.Joint" n)) as [v|e] eqn:H; [|eauto]. exfalso.
    assert (X : exists c, classes 0%R "sdf.Joint" = Some c /\ In (elem "axis" (TObj "sdf.Axis") true) (cl_params c)) by (eexists; split; [reflexivity|]; simpl; tauto).
    destruct X as (c & Hc & Hp). destruct (f_elem pf _ _ _ _ Hc WD H _ _ Hp) as (k & w & A & _). congruence.
Qed.

Lemma l66_sdf_required_refuted : exists l j, l = E "link" [("name", "a")] [] /\
  j = E "joint" [("name", "j"); ("type", "fixed")] [T "parent" "a"; T "child" "b"] /\
  snd (from_doc zf (classes 0%Z) "sdf.Link" l) = inr XParse /\ snd (from_doc zf (classes 0%Z) "sdf.Joint" j) = inr XParse.
Proof. eexists. eexists. split; [reflexivity|]. split; [reflexivity|]. split; vm_compute; reflexivity. Qed.

Lemma l66_untrimmed_refuted : exists n v, child "parent" n = Some (T "parent" " base ") /\
  snd (from_doc zf (classes 0%Z) "sdf.Joint" n) = inl v /\ fld' v "parent" = Some (VStr " base ").
Proof.
  exists (E "joint" [("name", "j"); ("type", "fixed")] [T "parent" " base "; T "child" "b"; E "axis" [] [T "xyz" "0 0 1"]]).
  eexists. split; [reflexivity|]. split; [vm_compute; reflexivity | reflexivity].
Qed.

Lemma l66_raw_errors_refuted : exists n1 n2 n3, snd (from_doc zf (classes 0%Z) "urdf.Joint" n1) = inr (XPy AttributeError) /\
  snd (from_doc zf (classes 0%Z) "sdf.Axis" n2) = inr (XPy AssertionError) /\ snd (from_doc zf (classes 0%Z) "sdf.Limit" n3) = inr (XPy ValueError).
Proof.
  exists (E "joint" [("name", "j"); ("type", "revolute")] [E "axis" [] []; E "parent" [("link", "a")] []; E "child" [("link", "b")] []]).
  exists (E "axis" [] [T "xyz" "0 1"]). exists (E "limit" [] [T "lower" "low"]). split; [|split]; vm_compute; reflexivity.
Qed.

Lemma l66_root_tag_refuted : exists n v, has_tag "sdf" n = true /\ snd (from_doc zf (classes 0%Z) "urdf.Robot" n) = inl v /\
  fld' v "links" = Some (VList []).
Proof. exists sample_sdf. eexists. split; [reflexivity|]. split; [vm_compute; reflexivity | reflexivity]. Qed.
