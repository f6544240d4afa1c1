(** C62 - C66: reading and writing robot descriptions, and the chains of URDF and SDF documents. *)
From Coq Require Import Reals Lra String Ascii Bool Arith ZArith Lia List Permutation.
From Verif Require Import Prelude ExtF Tree ChainModel SpecFK ChainProofs Lin Trig RotModel RotBasic ChainInst
  T3dModel LoaderModel LoaderTree RobotModel RobotProofs LoaderProofs LoaderMore SdfProofs Examples LoaderExamples
  XmlModel XmlSchema XmlProofs XmlWrite XmlRead XmlCheck SpecXml XmlMore XmlNum SpecLoad XmlLoad XmlLoadProofs XmlExamples.
From Verif Require Import XmlFinal.
Import ListNotations.
Local Open Scope nat_scope.
Local Open Scope string_scope.
Local Open Scope list_scope.


(** C62: what counts as white space between words: tab, line feed, vertical tab, form feed, carriage return, the four
    separators 28-31 and the blank, as for Python's [str.split()] on ASCII text. *)
Theorem C62_white : forall c, is_space c = true <-> In (nat_of_ascii c) [9; 10; 11; 12; 13; 28; 29; 30; 31; 32].
Proof. exact l62_white. Qed.
Print Assumptions C62_white.

(** C62.  The words of a text are the runs of other characters between white space. *)
Theorem C62_words : forall s ws, split s = ws <-> spaced ws s.
Proof. exact split_spec. Qed.
Print Assumptions C62_words.

Example C62_words_example : spaced ["1"; "-2"; "3"] "  1 -2  3 ".
Proof. apply C62_words. reflexivity. Qed.

(** C62.  Text is read as strings, numbers, truth values and vectors exactly as [text_means] says. *)
Theorem C62_text : forall (Num : Type) (pf : string -> option Num) t s v,
  basic_type t = true -> (snd (from_string pf t s) = inl v <-> text_means pf t s v).
Proof. exact l62_text. Qed.
Print Assumptions C62_text.

Example C62_text_example : text_means zf (TVec (Some 3)) (Some " 4 5 6") (VVec [4; 5; 6]%Z) /\ ~ exists v, text_means zf (TVec (Some 3)) (Some "4 5") v.
Proof.
  split; [apply C62_text; reflexivity|]. intros [v H]. apply (C62_text Z zf (TVec (Some 3)) (Some "4 5") v eq_refl) in H. discriminate.
Qed.

(** C62.  An element is read as an object of a URDF or SDF class exactly if the object holds what the element says: every
    attribute and child of the schema, defaults for what is missing, all repeated children in document order. *)
Theorem C62_object : forall (Num : Type) (pf : string -> option Num) (zero : Num) cname c tag attrs text kids v,
  classes zero cname = Some c -> NoDup (map fst attrs) ->
  (snd (from_xml pf (classes zero) (Node tag attrs text kids) (TObj cname)) = inl v <->
   exists fs order, v = VObj cname fs order /\ object_means pf (from_xml pf (classes zero)) c attrs kids fs order).
Proof. exact l62_object. Qed.
Print Assumptions C62_object.

(** C62.  A geometry has exactly one child that is no comment, and its tag selects the class. *)
Theorem C62_geometry : forall (Num : Type) (pf : string -> option Num) (zero : Num) tab tag attrs text kids v,
  snd (from_xml pf (classes zero) (Node tag attrs text kids) (TGeom tab)) = inl v <->
  exists t a x l c, elements kids = [Node t a x l] /\ dget String.eqb t tab = Some c /\
    snd (from_xml pf (classes zero) (Node t a x l) (TObj c)) = inl v.
Proof. exact l62_geometry. Qed.
Print Assumptions C62_geometry.

(** C62.  A transmission is of the first of the two classes that accepts it. *)
Theorem C62_transmission : forall (Num : Type) (pf : string -> option Num) (zero : Num) cs tag attrs text kids v,
  snd (from_xml pf (classes zero) (Node tag attrs text kids) (TDuck cs)) = inl v <->
  exists cs1 c cs2, cs = cs1 ++ c :: cs2 /\ snd (from_xml pf (classes zero) (Node tag attrs text kids) (TObj c)) = inl v /\
    forall c1, In c1 cs1 -> exists e, snd (from_xml pf (classes zero) (Node tag attrs text kids) (TObj c1)) = inr e.
Proof. exact l62_transmission. Qed.
Print Assumptions C62_transmission.

(** C62.  The order of attributes, text, comments, attributes and children that the class does not know, and repetitions of a
    child that may occur once do not matter. *)
Theorem C62_irrelevant : forall (Num : Type) (pf : string -> option Num) (zero : Num) cname c tag attrs attrs' text text' kids kids' v,
  classes zero cname = Some c -> NoDup (map fst attrs) -> NoDup (map fst attrs') ->
  (forall p, In p (cl_params c) -> pr_kind p = PAttribute -> dget String.eqb (pr_xml p) attrs' = dget String.eqb (pr_xml p) attrs) ->
  (forall p, In p (cl_params c) -> pr_kind p = PElement -> first_child (pr_xml p) kids' = first_child (pr_xml p) kids) ->
  filter (fun n => match aggregate_of c n with Some _ => true | None => false end) kids' =
  filter (fun n => match aggregate_of c n with Some _ => true | None => false end) kids ->
  snd (from_xml pf (classes zero) (Node tag attrs text kids) (TObj cname)) = inl v ->
  snd (from_xml pf (classes zero) (Node tag attrs' text' kids') (TObj cname)) = inl v.
Proof. exact l62_irrelevant. Qed.
Print Assumptions C62_irrelevant.

Example C62_irrelevant_example : forall v,
  snd (from_xml zf (classes 0%Z) (E "origin" [("xyz", "1 2 3"); ("rpy", "0 0 0")] []) (TObj "urdf.Pose")) = inl v ->
  snd (from_xml zf (classes 0%Z) (Node "origin" [("rpy", "0 0 0"); ("frame", "a"); ("xyz", "1 2 3")] (Some "x") [Comment; T "note" "y"]) (TObj "urdf.Pose")) = inl v.
Proof.
  intros v H. eapply C62_irrelevant; [reflexivity | | | | | | exact H].
  - repeat constructor; simpl; intuition congruence.
  - repeat constructor; simpl; intuition congruence.
  - intros p [<-|[<-|[]]] _; reflexivity.
  - intros p [<-|[<-|[]]] K; discriminate K.
  - reflexivity.
Qed.

(** C62.  If a required attribute or child is missing and the rest can be read, the result is a ParseError. *)
Theorem C62_required : forall (Num : Type) (pf : string -> option Num) (zero : Num) cname c tag attrs text kids p,
  classes zero cname = Some c -> NoDup (map fst attrs) -> In p (cl_params c) -> pr_req p = true ->
  match pr_kind p with
  | PAttribute => dget String.eqb (pr_xml p) attrs = None
  | PElement => first_child (pr_xml p) kids = None
  | PAggregate => False
  end ->
  (forall q s, In q (cl_params c) -> pr_kind q = PAttribute -> dget String.eqb (pr_xml q) attrs = Some s -> exists v, text_means pf (pr_type q) (Some s) v) ->
  (forall q n, In q (cl_params c) -> pr_kind q = PElement -> first_child (pr_xml q) kids = Some n ->
     exists v, snd (from_xml pf (classes zero) n (pr_type q)) = inl v) ->
  (forall q n, In q (cl_params c) -> pr_kind q = PAggregate -> In n (children (pr_xml q) kids) ->
     exists v, snd (from_xml pf (classes zero) n (pr_type q)) = inl v) ->
  snd (from_xml pf (classes zero) (Node tag attrs text kids) (TObj cname)) = inr XParse.
Proof. exact l62_required. Qed.
Print Assumptions C62_required.

Example C62_required_example : snd (from_xml zf (classes 0%Z) (E "limit" [("effort", "1")] []) (TObj "urdf.JointLimit")) = inr XParse.
Proof.
  eapply C62_required with (p := attr "velocity" TFloat true VNone).
  - reflexivity.
  - repeat constructor; simpl; intuition congruence.
  - simpl; tauto.
  - reflexivity.
  - reflexivity.
  - intros q s Hq K H. simpl in Hq. destruct Hq as [<-|[<-|[<-|[<-|[]]]]]; try discriminate H. inversion H; subst. exists (VNum 1%Z). constructor. reflexivity.
  - intros q n _ _ H. discriminate.
  - intros q n _ _ [].
Qed.

(** C62.  Attributes and children that the class does not know are reported, and nothing else is if no child is given twice. *)
Theorem C62_messages : forall (Num : Type) (pf : string -> option Num) (zero : Num) cname c tag attrs text kids v,
  classes zero cname = Some c -> snd (from_xml pf (classes zero) (Node tag attrs text kids) (TObj cname)) = inl v ->
  (forall a, In a (map fst attrs) -> (forall p, In p (cl_params c) -> pr_kind p = PAttribute -> pr_xml p <> a) ->
     In (WAttr a) (fst (from_xml pf (classes zero) (Node tag attrs text kids) (TObj cname)))) /\
  (forall t a x l, In (Node t a x l) kids -> (forall p, In p (cl_params c) -> pr_kind p <> PAttribute -> pr_xml p <> t) ->
     In (WTag t) (fst (from_xml pf (classes zero) (Node tag attrs text kids) (TObj cname)))).
Proof. exact l62_messages. Qed.
Print Assumptions C62_messages.
Theorem C62_silent : forall (Num : Type) (pf : string -> option Num) (zero : Num) cname c tag attrs text kids,
  classes zero cname = Some c ->
  (forall a, In a (map fst attrs) -> exists p, In p (cl_params c) /\ pr_kind p = PAttribute /\ pr_xml p = a) ->
  (forall t a x l, In (Node t a x l) kids -> exists p, In p (cl_params c) /\ pr_kind p <> PAttribute /\ pr_xml p = t) ->
  (forall p, In p (cl_params c) -> pr_kind p = PElement -> length (children (pr_xml p) kids) <= 1) ->
  (forall n p, In n kids -> In p (cl_params c) -> pr_kind p <> PAttribute -> has_tag (pr_xml p) n = true ->
     fst (from_xml pf (classes zero) n (pr_type p)) = []) ->
  (forall fs, fst (cl_check c fs) = []) ->
  fst (from_xml pf (classes zero) (Node tag attrs text kids) (TObj cname)) = [].
Proof. exact l62_silent. Qed.
Print Assumptions C62_silent.

Example C62_example : fst (from_doc zf (classes 0%Z) "urdf.Robot" sample_urdf) = [WTwice "origin"; WAttr "version"; WTag "sensor"] /\
  exists fs order, snd (from_doc zf (classes 0%Z) "urdf.Robot" sample_urdf) = inl (VObj "urdf.Robot" fs order) /\
    map fst order = ["link"; "joint"; "gazebo"; "link"] /\
    exists js jo, nth_error order 1 = Some ("joint", VObj "urdf.Joint" js jo) /\ dget String.eqb "axis" js = Some (VVec [0; 0; 1]%Z) /\
      dget String.eqb "origin" js = Some (VObj "urdf.Pose" [("xyz", VVec [0; 0; 3]%Z); ("rpy", VVec [0; 0; 0]%Z)] []).
Proof.
  split; [vm_compute; reflexivity|]. eexists. eexists. split; [vm_compute; reflexivity|]. split; [reflexivity|].
  eexists. eexists. split; [reflexivity|]. split; reflexivity.
Qed.

(** C63.  A description that was read from a document can be written, and the written document reads back as the same
    description, provided numbers are printed exactly and without white space, and the description holds no false truth value
    and no raw element with text or comments ([clean]). *)
Theorem C63_stable : forall (Num : Type) (pf : string -> option Num) (sf : Num -> string) (zero : Num) cname c tag n v,
  (forall x, pf (sf x) = Some x) -> (forall x, solid (sf x)) ->
  classes zero cname = Some c -> cl_tag c = Some tag -> wf_doc n ->
  snd (from_doc pf (classes zero) cname n) = inl v -> clean v = true ->
  exists m, snd (to_xml sf (classes zero) v) = inl m /\ snd (from_doc pf (classes zero) cname m) = inl v.
Proof. exact l63_stable. Qed.
Print Assumptions C63_stable.

Example C63_example : exists v m, snd (from_doc zf (classes 0%Z) "urdf.Robot" sample_urdf) = inl v /\
  snd (to_xml zs (classes 0%Z) v) = inl m /\ m <> sample_urdf /\ snd (from_doc zf (classes 0%Z) "urdf.Robot" m) = inl v.
Proof.
  eexists. eexists. split; [vm_compute; reflexivity|]. split; [vm_compute; reflexivity|]. split; [discriminate|]. vm_compute; reflexivity.
Qed.
Example C63_sdf_example : exists v m, snd (from_doc zf (classes 0%Z) "sdf.SDF" sample_sdf) = inl v /\ clean v = true /\
  snd (to_xml zs (classes 0%Z) v) = inl m /\ snd (from_doc zf (classes 0%Z) "sdf.SDF" m) = inl v.
Proof.
  assert (H : exists v, snd (from_doc zf (classes 0%Z) "sdf.SDF" sample_sdf) = inl v /\ clean v = true)
    by (eexists; split; [vm_compute; reflexivity | vm_compute; reflexivity]).
  destruct H as (v & H & C). exists v. destruct (C63_stable Z zf zs 0%Z "sdf.SDF" _ _ sample_sdf v zf_zs zs_solid eq_refl eq_refl) as (m & M1 & M2).
  - simpl. repeat split; repeat constructor; simpl; intuition congruence.
  - exact H.
  - exact C.
  - exists m. auto.
Qed.

(** C63 fails for false: it is written as "False", which reads as true. *)
Theorem C63_false_refuted : exists n v m w, snd (from_doc zf (classes 0%Z) "sdf.Axis" n) = inl v /\
  snd (to_xml zs (classes 0%Z) v) = inl m /\ snd (from_doc zf (classes 0%Z) "sdf.Axis" m) = inl w /\
  fld' v "use_parent_model_frame" = Some (VBool false) /\ fld' w "use_parent_model_frame" = Some (VBool true).
Proof. exact l63_false_refuted. Qed.
Print Assumptions C63_false_refuted.

(** C63 fails for the inertia and the inertial of SDF: their classes have no tag, so that no such object can be written by itself. *)
Theorem C63_untagged_refuted : forall (Num : Type) (sf : Num -> string) (zero : Num) cname fs agg,
  cname = "sdf.Inertia" \/ cname = "sdf.Inertial" ->
  snd (to_xml sf (classes zero) (VObj cname fs agg)) = inr (XPy AssertionError).
Proof. exact l63_untagged_refuted. Qed.
Print Assumptions C63_untagged_refuted.

(** C63 fails for raw elements with text: the text is lost. *)
Theorem C63_raw_text_refuted : exists n v m w, snd (from_doc zf (classes 0%Z) "urdf.Robot" n) = inl v /\
  snd (to_xml zs (classes 0%Z) v) = inl m /\ snd (from_doc zf (classes 0%Z) "urdf.Robot" m) = inl w /\ 
  fld' v "gazebos" = Some (VList [VRaw (T "gazebo" "static")]) /\ fld' w "gazebos" = Some (VList [VRaw (E "gazebo" [] [])]).
Proof. exact l63_raw_text_refuted. Qed.
Print Assumptions C63_raw_text_refuted.

(** C63 fails for writing twice: the first time moves the children of raw elements away. *)
Theorem C63_write_twice_refuted : exists n v m1 m2, snd (from_doc zf (classes 0%Z) "urdf.Robot" n) = inl v /\ clean v = true /\
  snd (to_xml zs (classes 0%Z) v) = inl m1 /\ snd (to_xml zs (classes 0%Z) (moved v)) = inl m2 /\
  m1 = n /\ m2 = E "robot" [("name", "a")] [E "gazebo" [] []].
Proof. exact l63_write_twice_refuted. Qed.
Print Assumptions C63_write_twice_refuted.

(** C63 fails for objects made by constructors: [sdf.Visual] and [sdf.SDF] do not have all the fields that writing looks up. *)
Theorem C63_constructed_refuted : forall k, k = "sdf.Visual" \/ k = "sdf.SDF" -> exists c geometry v,
  classes 0%Z k = Some c /\
  v = VObj k (match k with "sdf.Visual" => dset String.eqb "geometry" geometry (cl_init c) | _ => cl_init c end) [] /\
  snd (to_xml zs (classes 0%Z) geometry) = inl (E "sphere" [] [T "radius" "1"]) /\
  snd (to_xml zs (classes 0%Z) v) = inr (XPy AttributeError).
Proof. exact l63_constructed_refuted. Qed.
Print Assumptions C63_constructed_refuted.

(** C63 fails for empty strings once the document is turned into a string: they come back as "None". *)
Theorem C63_empty_text_refuted : exists v m w, snd (to_xml zs (classes 0%Z) v) = inl m /\
  snd (from_doc zf (classes 0%Z) "sdf.Script" m) = inl v /\ snd (from_doc zf (classes 0%Z) "sdf.Script" (reparse m)) = inl w /\
  fld' v "uri" = Some (VStr "") /\ fld' w "uri" = Some (VStr "None").
Proof. exact l63_empty_text_refuted. Qed.
Print Assumptions C63_empty_text_refuted.

(** C64.  The chain of a URDF document that is accepted is the chain of the links and joints that the document describes, and
    the document describes exactly one list of links and joints. *)
Theorem C64_urdf_document : forall (pf : string -> option R) limit n v, wf_doc n ->
  snd (from_doc pf (classes 0%R) "urdf.Robot" n) = inl v ->
  exists! es, urdf_says pf n es /\
    snd (load_urdf pf limit n) = match urdf_chain limit (urobot_of es) with Ok c => inl c | Err e => inr (XPy e) end.
Proof. exact l64_urdf_document. Qed.
Print Assumptions C64_urdf_document.

(** C64.  A document that is not accepted gives no chain, but the same error. *)
Theorem C64_urdf_rejected : forall (pf : string -> option R) limit n e,
  snd (from_doc pf (classes 0%R) "urdf.Robot" n) = inr e -> snd (load_urdf pf limit n) = inr e.
Proof. exact l64_urdf_rejected. Qed.
Print Assumptions C64_urdf_rejected.

(** C64.  A document that describes links and joints of known types, and nothing else of the schema, is accepted. *)
Theorem C64_urdf_accepted : forall (pf : string -> option R) limit n es, wf_doc n -> n <> Comment -> urdf_says pf n es -> plain_urdf n ->
  (forall j, In (EJoint j) es -> In (uj_type j) ["unknown"; "revolute"; "continuous"; "prismatic"; "floating"; "planar"; "fixed"]) ->
  snd (load_urdf pf limit n) = match urdf_chain limit (urobot_of es) with Ok c => inl c | Err e => inr (XPy e) end.
Proof. exact l64_urdf_accepted. Qed.
Print Assumptions C64_urdf_accepted.

(** C64.  Two accepted documents that describe the same links and joints give the same result. *)
Theorem C64_urdf_same : forall (pf : string -> option R) limit n n' v v' es, wf_doc n -> wf_doc n' ->
  snd (from_doc pf (classes 0%R) "urdf.Robot" n) = inl v -> snd (from_doc pf (classes 0%R) "urdf.Robot" n') = inl v' ->
  urdf_says pf n es -> urdf_says pf n' es -> snd (load_urdf pf limit n) = snd (load_urdf pf limit n').
Proof. exact l64_urdf_same. Qed.
Print Assumptions C64_urdf_same.

(** C64.  From the document to poses: C50 for a URDF document. *)
Theorem C64_urdf_forward_kinematics : forall (pf : string -> option R) n (es : list uelem) (top : string) (limit : nat) (vs : list config),
  wf_doc n -> n <> Comment -> urdf_says pf n es -> plain_urdf n ->
  tree_shaped uj_parent uj_child (joints_of es) top ->
  (forall x, x = top \/ In x (map uj_child (joints_of es)) -> In x (map uk_name (links_of es))) ->
  (forall l, In l (links_of es) -> uk_origin l = None) ->
  (forall j, In j (joints_of es) -> exists k, urdf_kind (uj_type j) = Some k /\
     (k <> Fixed -> exists a, uj_axis j = Some a /\ a <> vzero)) ->
  NoDup (map uj_name (filter urdf_moves (joints_of es))) ->
  (forall x, x = top \/ In x (map uj_child (joints_of es)) -> strip_nl x = x) ->
  length (joints_of es) < limit ->
  exists c d, snd (load_urdf pf limit n) = inl c /\ f_name (c_root c) = top /\
    forward_kinematics mops c (config_tensor (c_root c) vs) None = Ok d /\
    forall l x, jpath uj_parent uj_child (joints_of es) top l x ->
      dget String.eqb x d = Some (map (fun v => fold_left m4mul (map (urdf_rel v) l) I4) vs).
Proof. exact l64_urdf_forward_kinematics. Qed.
Print Assumptions C64_urdf_forward_kinematics.

Example C64_example : exists c d, snd (load_urdf rf 9 ex_urdf_doc) = inl c /\
  forward_kinematics mops c (config_tensor (c_root c) [ex_uconfig]) None = Ok d /\
  exists M, dget String.eqb "tool" d = Some [M] /\ trp M = mkV3 (-2) 1 0.
Proof.
  destruct (C64_urdf_forward_kinematics rf ex_urdf_doc ex_urdf "base" 9 [ex_uconfig] ex_urdf_doc_wf) as (c & d & Hc & _ & Hd & Hp).
  - discriminate.
  - exact ex_urdf_says.
  - exact ex_urdf_plain.
  - exact ex_urdf_tree.
  - exact ex_urdf_links.
  - exact ex_urdf_origins.
  - exact ex_urdf_kinds.
  - exact ex_urdf_names.
  - exact ex_urdf_clean.
  - simpl; lia.
  - exists c, d. split; [exact Hc|]. split; [exact Hd|]. eexists. split; [apply (Hp _ _ ex_urdf_path)|]. apply ex_urdf_pose.
Qed.

(** C65.  The same for SDF, for models whose links and joints have names. *)
Theorem C65_sdf_document : forall (pf : string -> option R) limit n v m, wf_doc n ->
  snd (from_doc pf (classes 0%R) "sdf.SDF" n) = inl v -> child "model" n = Some m -> all_named m ->
  exists! es, sdf_says pf n es /\
    snd (load_sdf pf limit n) = match sdf_chain limit (srobot_of es) with Ok c => inl c | Err e => inr (XPy e) end.
Proof. exact l65_sdf_document. Qed.
Print Assumptions C65_sdf_document.

(** C65.  A document that is not accepted gives the same error. *)
Theorem C65_sdf_rejected : forall (pf : string -> option R) limit n e,
  snd (from_doc pf (classes 0%R) "sdf.SDF" n) = inr e -> snd (load_sdf pf limit n) = inr e.
Proof. exact l65_sdf_rejected. Qed.
Print Assumptions C65_sdf_rejected.

(** C65.  A document that describes links with inertia and joints, and nothing else of the schema, is accepted. *)
Theorem C65_sdf_accepted : forall (pf : string -> option R) limit n es, wf_doc n -> sdf_says pf n es -> plain_sdf pf n ->
  snd (load_sdf pf limit n) = match sdf_chain limit (srobot_of es) with Ok c => inl c | Err e => inr (XPy e) end.
Proof. exact l65_sdf_accepted. Qed.
Print Assumptions C65_sdf_accepted.

(** C65.  From the document to poses: C53 for an SDF document. *)
Theorem C65_sdf_forward_kinematics : forall (pf : string -> option R) n (es : list selem) (top : string) (limit : nat) (vs : list config),
  wf_doc n -> sdf_says pf n es -> plain_sdf pf n ->
  tree_shaped sj_parent sj_child (joints_of es) top ->
  (forall x, x = top \/ In x (map sj_child (joints_of es)) -> In x (map sk_name (links_of es))) ->
  (forall j, In j (joints_of es) -> complete j /\ exists k, sdf_kind (sj_type j) = Some k /\ (k <> Fixed -> sj_axis j <> vzero)) ->
  NoDup (map sj_name (filter sdf_moves (joints_of es))) ->
  (forall x, x = top \/ In x (map sj_child (joints_of es)) -> strip_nl x = x) ->
  length (joints_of es) < limit ->
  exists c d, snd (load_sdf pf limit n) = inl c /\ f_name (c_root c) = top /\
    forward_kinematics mops c (config_tensor (c_root c) vs) None = Ok d /\
    forall l x, jpath sj_parent sj_child (joints_of es) top l x ->
      dget String.eqb x d = Some (map (fun v => m4mul (swapped_pose (declared es top)) (fold_left m4mul (map (sdf_rel es v) l) I4)) vs).
Proof. exact l65_sdf_forward_kinematics. Qed.
Print Assumptions C65_sdf_forward_kinematics.

Example C65_example : exists c d, snd (load_sdf rf 5 ex_sdf_doc) = inl c /\
  forward_kinematics mops c (config_tensor (c_root c) [fun _ => 0%R]) None = Ok d /\ exists M, dget String.eqb "tip" d = Some [M].
Proof.
  destruct (C65_sdf_forward_kinematics rf ex_sdf_doc ex_sdf "base" 5 [fun _ => 0%R] ex_sdf_doc_wf ex_sdf_says ex_sdf_plain
    (ex_sdf_tree _) (ex_sdf_links _) (ex_sdf_kinds _) (ex_sdf_names _) (ex_sdf_clean _)) as (c & d & Hc & _ & Hd & Hp); [simpl; lia|].
  exists c, d. split; [exact Hc|]. split; [exact Hd|]. eexists. apply (Hp [mkSJoint "j" (Some "revolute") "base" "tip" (mkV3 0 0 1) (Some (Some (-1)%R, Some 1%R))]).
  eapply jp_step; [left; reflexivity | reflexivity | constructor].
Qed.

(** C65.  A document without a model is accepted as a description, but building the chain is an AttributeError. *)
Theorem C65_no_model : forall (pf : string -> option R) limit n v, wf_doc n ->
  snd (from_doc pf (classes 0%R) "sdf.SDF" n) = inl v -> child "model" n = None -> snd (load_sdf pf limit n) = inr (XPy AttributeError).
Proof. exact l65_no_model. Qed.
Print Assumptions C65_no_model.
Theorem C65_no_model_refuted : exists n v, wf_doc n /\ snd (from_doc rf (classes 0%R) "sdf.SDF" n) = inl v /\
  forall limit, snd (load_sdf rf limit n) = inr (XPy AttributeError).
Proof. exact l65_no_model_refuted. Qed.
Print Assumptions C65_no_model_refuted.

(** C66.  A truth value is false only if its text is empty: "false" and "0" are true. *)
Theorem C66_false_is_true_refuted : exists l k, snd (from_doc zf (classes 0%Z) "sdf.Link" l) = inl k /\ attribute "kinematic" l = Some "false" /\
  fld' k "kinematic" = Some (VBool true).
Proof. exact l66_false_is_true_refuted. Qed.
Print Assumptions C66_false_is_true_refuted.

(** C66.  A parent element without a link is no error: the name of the parent becomes "None". *)
Theorem C66_no_parent_refuted : exists n v, child "parent" n = Some (E "parent" [] []) /\
  snd (from_doc zf (classes 0%Z) "urdf.Joint" n) = inl v /\ fld' v "parent" = Some (VStr "None").
Proof. exact l66_no_parent_refuted. Qed.
Print Assumptions C66_no_parent_refuted.

(** C66.  An SDF link without inertia and a fixed SDF joint without an axis, both legal, are refused, whatever else they hold. *)
Theorem C66_sdf_required : forall (pf : string -> option R) n,
  (has_tag "link" n = true -> child "inertial" n = None -> wf_doc n -> exists e, snd (from_doc pf (classes 0%R) "sdf.Link" n) = inr e) /\
  (has_tag "joint" n = true -> child "axis" n = None -> wf_doc n -> exists e, snd (from_doc pf (classes 0%R) "sdf.Joint" n) = inr e).
Proof. exact l66_sdf_required. Qed.
Print Assumptions C66_sdf_required.
Theorem C66_sdf_required_refuted : exists l j, l = E "link" [("name", "a")] [] /\
  j = E "joint" [("name", "j"); ("type", "fixed")] [T "parent" "a"; T "child" "b"] /\
  snd (from_doc zf (classes 0%Z) "sdf.Link" l) = inr XParse /\ snd (from_doc zf (classes 0%Z) "sdf.Joint" j) = inr XParse.
Proof. exact l66_sdf_required_refuted. Qed.
Print Assumptions C66_sdf_required_refuted.

(** C66.  White space around a name in SDF stays part of the name. *)
Theorem C66_untrimmed_refuted : exists n v, child "parent" n = Some (T "parent" " base ") /\
  snd (from_doc zf (classes 0%Z) "sdf.Joint" n) = inl v /\ fld' v "parent" = Some (VStr " base ").
Proof. exact l66_untrimmed_refuted. Qed.
Print Assumptions C66_untrimmed_refuted.

(** C66.  Errors below an element are not all ParseErrors: an axis without a direction is an AttributeError, a wrong number of
    coordinates in SDF an AssertionError, a word in place of a number a ValueError. *)
Theorem C66_raw_errors_refuted : exists n1 n2 n3, snd (from_doc zf (classes 0%Z) "urdf.Joint" n1) = inr (XPy AttributeError) /\
  snd (from_doc zf (classes 0%Z) "sdf.Axis" n2) = inr (XPy AssertionError) /\ snd (from_doc zf (classes 0%Z) "sdf.Limit" n3) = inr (XPy ValueError).
Proof. exact l66_raw_errors_refuted. Qed.
Print Assumptions C66_raw_errors_refuted.

(** C66.  The tag of the document is not looked at: an SDF document is a URDF robot without links. *)
Theorem C66_root_tag_refuted : exists n v, has_tag "sdf" n = true /\ snd (from_doc zf (classes 0%Z) "urdf.Robot" n) = inl v /\
  fld' v "links" = Some (VList []).
Proof. exact l66_root_tag_refuted. Qed.
Print Assumptions C66_root_tag_refuted.
