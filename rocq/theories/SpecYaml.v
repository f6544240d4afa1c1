(** What there is to print in a parsed description. *)
From Coq Require Import String List.
From Verif Require Import Prelude XmlModel YamlModel.
Import ListNotations.
Local Open Scope string_scope.
Local Open Scope list_scope.

Section Spec.
Context {Num : Type}.
Notation value := (value Num).
Variable classes : string -> option (class Num).
(** [shows v u]: [u] is [v] itself or found in it along the declared fields of objects *)
Inductive shows : value -> value -> Prop :=
| ShHere v : shows v v
| ShField c cl fs order p w u : classes c = Some cl -> In p (cl_params cl) -> dget String.eqb (pr_var p) fs = Some w ->
    shows w u -> shows (VObj c fs order) u.
(** a Python list *)
Definition a_list (u : value) : Prop := (exists l, u = VVec l) \/ (exists l, u = VList l).
Definition has_list (v : value) : Prop := exists u, shows v u /\ a_list u.
(** how a value looks in the output, given how objects and the members of lists look *)
Definition looks (out : value -> yaml Num -> Prop) (v : value) (y : yaml Num) : Prop :=
  match v with
  | VNone => y = YStr "None"
  | VStr s => y = YStr s
  | VNum x => y = YNum x
  | VBool b => y = YBool b
  | VVec l => y = YList (map YNum l)
  | VRaw n => y = YBytes n
  | VList l => exists ys, y = YList ys /\ Forall2 out l ys
  | VObj _ _ _ => out v y
  end.
End Spec.
