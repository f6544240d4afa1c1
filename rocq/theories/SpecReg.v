(** Vocabulary for the type registry: names without dots, and statements that stay within one namespace. *)
From Coq Require Import String Ascii Bool List.
From Verif Require Import Prelude XmlModel RegModel.
Import ListNotations.
Local Open Scope list_scope.

Section Spec.
Context {C V : Type}.

(** a name without a dot *)
Definition nodot (s : string) : Prop := ~ In "."%char (list_ascii_of_string s).
Definition key_nodot (k : key) : Prop := match k with KStr s => nodot s | _ => True end.
Definition pexp_key (p : pexp V) : key := match p with EAttr _ t _ _ _ => t | EElem _ t _ _ _ _ => t | EAggr _ t _ _ => t end.
Definition param_nodot (p : string + pexp V) : Prop := match p with inl _ => True | inr p => key_nodot (pexp_key p) end.
(** a statement that opens and closes no namespace, adds types under names only, and whose names have no dots *)
Definition plain (s : stmt C V) : Prop :=
  match s with
  | SStart _ | SEnd => False
  | SAdd (KStr n) (ESimple _ t) => nodot n /\ key_nodot t
  | SAdd (KStr n) (EVal _) => nodot n
  | SAdd _ _ => False
  | SGet k => key_nodot k
  | SLet _ p => key_nodot (pexp_key p)
  | SReflect _ _ ps => Forall param_nodot ps
  | SSub _ _ => True
  end.
(** the same, but namespaces may open and close *)
Definition tidy (s : stmt C V) : Prop := match s with SStart _ | SEnd => True | s => plain s end.
(** the statement adds a type under the name *)
Definition adds (n : string) (s : stmt C V) : Prop := match s with SAdd (KStr m) _ => m = n | _ => False end.
(** the statement adds a type under a key that is no string *)
Definition adds_key (k : key) (s : stmt C V) : Prop := match s with SAdd k' _ => k' = k | _ => False end.
(** a module in a namespace *)
Definition within (ns : string) (body : list (stmt C V)) : list (stmt C V) := SStart ns :: body ++ [SEnd].
End Spec.

Section Bad.
Context {C : Type}.
Variable pc : string -> option C.
(** what no type can be made of, and the exception *)
Inductive bad : key -> xexn -> Prop :=
| BadName n : (forall d, n <> ("vector" ++ d)%string) -> bad (KStr n) XExc
| BadCount d : d <> ""%string -> pc d = None -> bad (KStr ("vector" ++ d)) (XPy ValueError)
| BadClass c : bad (KOther c) XExc
| BadValue i : bad (KNoClass i) (XPy TypeError).
End Bad.

(** What the schemas of [XmlSchema] say about a class, in terms of the registry. *)
Section Schema.
Context {Num : Type}.
Fixpoint of_vtype (t : vtype) : rtype nat :=
  match t with
  | TStr => RStr | TFloat => RFloat | TBool => RBool | TVec n => RVec n | TRaw => RRaw | TSimple a t => RSimple a (of_vtype t)
  | TObj c => RObj c | TGeom m => RGeom m | TDuck cs => RDuck cs
  end.
Definition of_param (p : param Num) : rparam nat (value Num) :=
  mkRParam (pr_kind p) (pr_xml p) (pr_var p) (of_vtype (pr_type p)) (pr_req p)
    (match pr_default p with VNone => None | v => Some v end) (pr_raw p).
Definition of_class (c : string * class Num) : string * (option string * list (rparam nat (value Num))) :=
  (fst c, (cl_tag (snd c), map of_param (cl_params (snd c)))).
End Schema.
