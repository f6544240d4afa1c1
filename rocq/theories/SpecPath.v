(** What a path selects, which elements a schema reads as what, and what can be wrong with them. *)
From Coq Require Import String Bool Arith List.
From Verif Require Import Prelude XmlModel SpecXml PathModel.
Import ListNotations.
Local Open Scope string_scope.
Local Open Scope list_scope.

(** ** XPath *)
Definition kids (n : node) : list node := match n with Node _ _ _ ks => ks | Comment => [] end.
Definition attribute (a : string) (n : node) : option string := match n with Node _ at_ _ _ => dget String.eqb a at_ | Comment => None end.
Definition text_of (n : node) : option string := match n with Node _ _ x _ => x | Comment => None end.
(** a predicate keeps some of the children with the step's tag *)
Definition keep (d : pred) (l : list node) : list node :=
  match d with
  | PIndex n => match n with O => [] | S k => match nth_error l k with Some m => [m] | None => [] end end
  | PNamed v => filter (fun m => match attribute "name" m with Some w => String.eqb w v | None => false end) l
  | PHas a => filter (fun m => match attribute a m with Some _ => true | None => false end) l
  end.
Definition select_step (s : step) (l : list node) : list node := fold_left (fun l d => keep d l) (snd s) (children (fst s) l).
(** the elements that a path selects, from the document (whose only child is the root element) *)
Fixpoint select (p : path) (doc : node) : list node :=
  match p with
  | [] => [Node "" [] None [doc]]
  | s :: r => flat_map (fun m => select_step s (kids m)) (select r doc)
  end.

Section Spec.
Context {Num : Type}.
Variable pf : string -> option Num.
Variable classes : string -> option (class Num).

(** ** Which elements are read as what *)
(** [reads t n t' m]: to read [n] as [t], [m] (which is [n] or inside [n]) is read as [t'] *)
Inductive reads : vtype -> node -> vtype -> node -> Prop :=
| RdSelf t n : reads t n t n
| RdKid t n c cl p k : reads t n (TObj c) k -> classes c = Some cl -> In p (cl_params cl) -> pr_kind p <> PAttribute ->
    forall m, In m (children (pr_xml p) (kids k)) -> reads t n (pr_type p) m
| RdGeom t n tab g m c : reads t n (TGeom tab) g -> elements (kids g) = [m] -> dget String.eqb (match m with Node x _ _ _ => x | Comment => "" end) tab = Some c ->
    reads t n (TObj c) m
| RdDuck t n cs m c : reads t n (TDuck cs) m -> In c cs -> reads t n (TObj c) m.

(** ** What can be wrong *)
(** an attribute whose text is no value of the declared type *)
Definition bad_attribute (cl : class Num) (m : node) (a : string) : Prop :=
  exists p s, In p (cl_params cl) /\ pr_kind p = PAttribute /\ pr_xml p = a /\ attribute a m = Some s /\ forall v, ~ text_means pf (pr_type p) (Some s) v.
(** a required attribute or child that is not there *)
Definition lacks (cl : class Num) (m : node) (k : pkind) (x : string) : Prop :=
  exists p, In p (cl_params cl) /\ pr_kind p = k /\ pr_xml p = x /\ pr_req p = true /\
    match k with PAttribute => attribute x m = None | _ => children x (kids m) = [] end.
(** all fields can be read, but the object breaks a rule of its class *)
Definition breaks_rule (cl : class Num) (m : node) (e : xexn) : Prop :=
  exists fs, (forall p, In p (cl_params cl) -> exists v, dget String.eqb (pr_var p) fs = Some v /\
      field_means pf (from_xml pf classes) (match m with Node _ a _ _ => a | Comment => [] end) (kids m) p v) /\ snd (cl_check cl fs) = inr e.
(** none of the alternatives can be read *)
Definition fits_none (cs : list string) (m : node) : Prop := forall c v, In c cs -> snd (from_xml pf classes m (TObj c)) <> inl v.
(** an element that holds no value of a type without fields *)
Definition bad_value (t : vtype) (m : node) : Prop :=
  match t with
  | TStr | TFloat | TBool | TVec _ => forall v, ~ text_means pf t (text_of m) v
  | TSimple a t => forall v, ~ text_means pf t (attribute a m) v
  | TGeom tab => forall k c, elements (kids m) = [k] -> dget String.eqb (match k with Node x _ _ _ => x | Comment => "" end) tab <> Some c
  | TRaw | TObj _ | TDuck _ => False
  end.
(** what an error message may say about [m], read as [t], when [q] is a path to [m] and [p] is the path it names *)
Definition blames (q : path) (t : vtype) (m : node) (p : path) (w : cause) : Prop :=
  match w with
  | CValue _ => exists c cl a, t = TObj c /\ classes c = Some cl /\ p = add_has a q /\ bad_attribute cl m a
  | CMissing k x => exists c cl, t = TObj c /\ classes c = Some cl /\ p = q /\ lacks cl m k x
  | CCheck e => exists c cl, t = TObj c /\ classes c = Some cl /\ p = q /\ breaks_rule cl m e
  | CNone _ => exists cs, t = TDuck cs /\ p = q /\ fits_none cs m
  end.
End Spec.
