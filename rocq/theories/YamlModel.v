(** Printing parsed descriptions: [str(robot)].  Up to the nested dictionary handed to PyYAML; what PyYAML does with it is not modelled. *)
From Coq Require Import String Bool Arith List.
From Verif Require Import Prelude XmlModel.
Import ListNotations.
Local Open Scope string_scope.
Local Open Scope list_scope.

Section Yaml.
Context {Num : Type}.
Notation value := (value Num).
Notation param := (param Num).
Notation class := (class Num).
Variable classes : string -> option class.

(** what [yaml.dump] gets.  [YBytes n]: the bytes [etree.tostring] returns for an element. *)
Inductive yaml :=
| YStr (s : string) | YNum (x : Num) | YBool (b : bool) | YBytes (n : node) | YList (l : list yaml) | YDict (d : list (string * yaml)).

(** core.py:428-453: [XML_REFL.vars], attributes first, then elements; returned by core.py:567-568 [get_refl_vars] *)
Definition refl_vars (c : class) : list string :=
  map pr_var (filter (is_kind PAttribute) (cl_params c)) ++ map pr_var (filter is_elem (cl_params c)).

(** basics.py:51-75 [to_yaml] and 83-86 [YamlReflection.to_yaml].
    [old]: does the module [collections] still have [Iterable]?  It does up to Python 3.9; from 3.10 on line 71 raises AttributeError
    for everything that gets there, which of the values of parsed objects are the lists.  The dictionary [raw] of line 85 is built
    before anything is converted.  Objects with a class that is not in the schema do not occur. *)
Fixpoint to_yaml (old : bool) (v : value) : res yaml :=
  match v with
  | VNone => Ok (YStr "None")
  | VStr s => Ok (YStr s)
  | VNum x => Ok (YNum x)
  | VBool b => Ok (YBool b)
  | VRaw n => Ok (YBytes n)
  | VVec l => if old then Ok (YList (map YNum l)) else Err AttributeError
  | VList l => if old then do ys <- rmap (fun r => r) (map (to_yaml old) l); Ok (YList ys) else Err AttributeError
  | VObj c fs _ =>
      match classes c with
      | None => Err AttributeError
      | Some cl =>
          let out := map (fun e => (fst e, to_yaml old (snd e))) fs in
          do raw <- rmap (fun x => of_opt AttributeError (option_map (fun r => (x, r)) (dget String.eqb x out))) (refl_vars cl);
          do d <- rmap (fun e => do y <- snd e; Ok (fst e, y)) raw;
          Ok (YDict d)
      end
  end.
End Yaml.
Arguments yaml Num : clear implicits.
