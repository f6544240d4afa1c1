(** C81: errors and messages of the description parsers name the element that is at fault. *)
From Coq Require Import String Ascii Bool Arith ZArith Lia List.
From Verif Require Import Prelude XmlModel XmlSchema XmlProofs XmlWrite XmlRead XmlCheck SpecXml XmlMore XmlNum PathModel SpecPath PathProofs.
From Verif Require Import PathFinal.
Import ListNotations.
Local Open Scope nat_scope.
Local Open Scope string_scope.
Local Open Scope list_scope.


(** a document is accepted, with the same object and messages, or rejected, exactly as the reader without paths does it *)
Theorem C81_same : forall (Num : Type) (pf : string -> option Num) (zero : Num) cname doc,
  let o := pfrom_doc pf (classes zero) cname doc in
  map fst (o_warn o) = fst (from_doc pf (classes zero) cname doc) /\
  match o_res o with
  | inl v => snd (from_doc pf (classes zero) cname doc) = inl v
  | inr (EAt _ _) => snd (from_doc pf (classes zero) cname doc) = inr XParse
  | inr (ERaw e) => snd (from_doc pf (classes zero) cname doc) = inr e
  end.
Proof. exact l81_same. Qed.
Print Assumptions C81_same.

(** a ParseError is about an element that is read and has the fault the error says; its path selects this element, or, for the shape of
    a geometry, the geometry around it *)
Theorem C81_located : forall (Num : Type) (pf : string -> option Num) (zero : Num) cname cl tag attrs text ks p w,
  let doc := Node tag attrs text ks in
  wf_doc doc -> classes zero cname = Some cl -> cl_tag cl = Some tag -> o_res (pfrom_doc pf (classes zero) cname doc) = inr (EAt p w) ->
  exists q t m, reads (classes zero) (TObj cname) doc t m /\ blames pf (classes zero) q t m p w /\
    (In m (select p doc) \/
     exists g tab, reads (classes zero) (TObj cname) doc (TGeom tab) g /\ elements (kids g) = [m] /\ In g (select q doc)).
Proof. exact l81_located. Qed.
Print Assumptions C81_located.

Definition bad_axis : node := E "robot" [("name", "arm")] [E "link" [("name", "base")] []; E "link" [("name", "tool")] [E "visual" [] [E "geometry" [] [E "box" [("size", "1 1 1")] []]]; E "visual" [] [E "origin" [("xyz", "0 x 0")] []; E "geometry" [] [E "box" [("size", "1 1 1")] []]]]].
Example C81_example : wf_doc bad_axis /\
  o_res (pfrom_doc zf (classes 0%Z) "urdf.Robot" bad_axis) =
    inr (EAt [("origin", [PHas "xyz"]); ("visual", [PIndex 2]); ("link", [PNamed "tool"]); ("robot", [PNamed "arm"])] (CValue (XPy ValueError))) /\
  path_str [("origin", [PHas "xyz"]); ("visual", [PIndex 2]); ("link", [PNamed "tool"]); ("robot", [PNamed "arm"])] = "/robot[@name='arm']/link[@name='tool']/visual[2]/origin[@xyz]" /\
  select [("origin", [PHas "xyz"]); ("visual", [PIndex 2]); ("link", [PNamed "tool"]); ("robot", [PNamed "arm"])] bad_axis = [E "origin" [("xyz", "0 x 0")] []].
Proof. split; [simpl; repeat split; repeat constructor; simpl; intuition congruence|]. split; [vm_compute; reflexivity|]. split; reflexivity. Qed.

(** where names and single elements are not repeated, the path selects nothing else *)
Theorem C81_unique : forall (Num : Type) (pf : string -> option Num) (zero : Num) cname cl tag attrs text ks p w,
  let doc := Node tag attrs text ks in
  wf_doc doc -> classes zero cname = Some cl -> cl_tag cl = Some tag -> distinct_siblings (classes zero) doc (TObj cname) ->
  o_res (pfrom_doc pf (classes zero) cname doc) = inr (EAt p w) ->
  exists q t m, reads (classes zero) (TObj cname) doc t m /\ blames pf (classes zero) q t m p w /\
    (select p doc = [m] \/
     exists g tab, reads (classes zero) (TObj cname) doc (TGeom tab) g /\ elements (kids g) = [m] /\ select q doc = [g]).
Proof. exact l81_unique. Qed.
Print Assumptions C81_unique.
Example C81_unique_example : distinct_siblings (classes 0%Z) bad_axis (TObj "urdf.Robot").
Proof. apply tidy_distinct. vm_compute. reflexivity. Qed.

(** an exception that names no place comes from an element without fields that holds no value of its type *)
Theorem C81_unlocated : forall (Num : Type) (pf : string -> option Num) (zero : Num) cname cl tag attrs text ks e,
  let doc := Node tag attrs text ks in
  wf_doc doc -> classes zero cname = Some cl -> cl_tag cl = Some tag -> o_res (pfrom_doc pf (classes zero) cname doc) = inr (ERaw e) ->
  exists t m, reads (classes zero) (TObj cname) doc t m /\ bad_value pf t m.
Proof. exact l81_unlocated. Qed.
Print Assumptions C81_unlocated.

(** messages about unknown attributes and elements name the element that has them *)
Theorem C81_messages : forall (Num : Type) (pf : string -> option Num) (zero : Num) cname cl tag attrs text ks u r,
  let doc := Node tag attrs text ks in
  wf_doc doc -> classes zero cname = Some cl -> cl_tag cl = Some tag -> In (u, r) (o_warn (pfrom_doc pf (classes zero) cname doc)) ->
  match u with
  | WAttr a => exists q c k m, r = Some q /\ reads (classes zero) (TObj cname) doc (TObj c) m /\ classes zero c = Some k /\
      attribute a m <> None /\ (forall pr, In pr (cl_params k) -> pr_kind pr = PAttribute -> pr_xml pr <> a) /\
      (In m (select q doc) \/ exists g tab, reads (classes zero) (TObj cname) doc (TGeom tab) g /\ elements (kids g) = [m] /\ In g (select q doc))
  | WTag t => exists q c k m, r = Some q /\ reads (classes zero) (TObj cname) doc (TObj c) m /\ classes zero c = Some k /\
      children t (kids m) <> [] /\ (forall pr, In pr (cl_params k) -> pr_kind pr <> PAttribute -> pr_xml pr <> t) /\
      (In m (select q doc) \/ exists g tab, reads (classes zero) (TObj cname) doc (TGeom tab) g /\ elements (kids g) = [m] /\ In g (select q doc))
  | WTwice t => exists c k m pr, reads (classes zero) (TObj cname) doc (TObj c) m /\ classes zero c = Some k /\ In pr (cl_params k) /\
      pr_kind pr = PElement /\ pr_xml pr = t /\ 2 <= length (children t (kids m))
  | WNoColor => True
  end.
Proof. exact l81_messages. Qed.
Print Assumptions C81_messages.
Example C81_messages_example :
  In (WAttr "colour", Some [("visual", [PIndex 1]); ("link", [PNamed "tool"]); ("robot", [])])
     (o_warn (pfrom_doc zf (classes 0%Z) "urdf.Robot" (E "robot" [] [E "link" [("name", "tool")] [E "visual" [("colour", "red")] [E "geometry" [] [E "sphere" [("radius", "1")] []]]]]))).
Proof. vm_compute. left. reflexivity. Qed.

(** when no alternative fits, the message has the error of the first one only *)
Theorem C81_alternatives : forall (Num : Type) (pf : string -> option Num) (zero : Num) c l tag attrs text ks p e,
  o_res (pfrom_xml pf (classes zero) (Node tag attrs text ks) (TDuck (c :: l)) p) = inr e ->
  exists q f, e = EAt q (CNone (Some f)) /\ o_res (pfrom_xml pf (classes zero) (Node tag attrs text ks) (TObj c) p) = inr f.
Proof. exact l81_alternatives. Qed.
Print Assumptions C81_alternatives.
(** an old-style transmission with a wrong reduction is told that it lacks the [type] of the new style *)
Example C81_alternatives_example :
  o_res (pfrom_doc zf (classes 0%Z) "urdf.Robot" (E "robot" [] [E "transmission" [("name", "t"); ("type", "simple")]
      [E "actuator" [("name", "motor")] []; E "joint" [("name", "turn")] [T "hardwareInterface" "effort"]; T "mechanicalReduction" "fast"]])) =
    inr (EAt [("transmission", [PNamed "t"]); ("robot", [])] (CNone (Some (EAt [("transmission", [PNamed "t"]); ("robot", [])] (CMissing PElement "type"))))).
Proof. vm_compute. reflexivity. Qed.

(** a wrong attribute of a shape is reported with a path that selects nothing *)
Theorem C81_geometry_refuted : exists doc p w, wf_doc doc /\ distinct_siblings (classes 0%Z) doc (TObj "urdf.Robot") /\
  o_res (pfrom_doc zf (classes 0%Z) "urdf.Robot" doc) = inr (EAt p w) /\ path_str p = "/robot/link[@name='base']/visual[1]/geometry[@size]" /\ select p doc = [].
Proof. exact l81_geometry_refuted. Qed.
Print Assumptions C81_geometry_refuted.

(** with two links of one name the path also selects the one that has no fault *)
Theorem C81_duplicate_refuted : exists doc p w a b, wf_doc doc /\ o_res (pfrom_doc zf (classes 0%Z) "urdf.Robot" doc) = inr (EAt p w) /\ select p doc = [a; b] /\
  (exists v, snd (from_xml zf (classes 0%Z) a (TObj "urdf.Joint")) = inl v) /\ snd (from_xml zf (classes 0%Z) b (TObj "urdf.Joint")) = inr XParse.
Proof. exact l81_duplicate_refuted. Qed.
Print Assumptions C81_duplicate_refuted.

(** the path starts with the tag that the root should have, not the one it has *)
Theorem C81_root_refuted : exists doc p w, wf_doc doc /\ o_res (pfrom_doc zf (classes 0%Z) "urdf.Robot" doc) = inr (EAt p w) /\ path_str p = "/robot/joint[@name='j']" /\ select p doc = [].
Proof. exact l81_root_refuted. Qed.
Print Assumptions C81_root_refuted.

(** a mass that is no number raises Python's own error, which names no place *)
Theorem C81_mass_refuted : exists doc, wf_doc doc /\ distinct_siblings (classes 0%Z) doc (TObj "urdf.Robot") /\ o_res (pfrom_doc zf (classes 0%Z) "urdf.Robot" doc) = inr (ERaw (XPy ValueError)).
Proof. exact l81_mass_refuted. Qed.
Print Assumptions C81_mass_refuted.
