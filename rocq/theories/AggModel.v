(** Editing the aggregates of parsed objects: urdf_parser_py/xml_reflection/core.py:627-663, and the name maps of urdf.py [Robot] and
    sdf.py [Model] under edits. *)
From Coq Require Import String Bool Arith List.
From Verif Require Import Prelude RobotModel.
Import ListNotations.
Local Open Scope list_scope.

Section Agg.
(** aggregated values, with Python's [==]: identity for objects and lxml elements, equality for strings *)
Context {A : Type}.
Variable eqb : A -> A -> bool.
(** the parameters of the class that are aggregates: XML name and attribute of the object (core.py:382-388), in order *)
Variable aggs : list (string * string).
(** XML names of all parameters with their attributes (core.py:425-448 [paramMap]); [aggs] are among them *)
Variable params : dict string string.

(** the attributes of the object that hold lists, [aggregate_order] and [aggregate_type] *)
Record ag := mkAg { ag_lists : dict string (list A); ag_order : list A; ag_type : dict A string }.

(** core.py:633-637, called by the constructors, which also set the lists to [] *)
Definition aggregate_init (s : ag) : ag := mkAg (ag_lists s) [] [].
Definition ag_new : ag := mkAg (map (fun p => (snd p, [])) aggs) [] [].

(** core.py:627-631; an attribute that is no list is an AttributeError here instead of an AssertionError *)
Definition get_aggregate_list (xml : string) (s : ag) : res (string * list A) :=
  do var <- of_opt KeyError (dget String.eqb xml params);
  do l <- of_opt AttributeError (dget String.eqb var (ag_lists s));
  Ok (var, l).
(** core.py:639-644 *)
Definition add_aggregate (xml : string) (x : A) (s : ag) : res ag :=
  do vl <- get_aggregate_list xml s;
  Ok (mkAg (dset String.eqb (fst vl) (snd vl ++ [x]) (ag_lists s)) (ag_order s ++ [x]) (dset eqb x xml (ag_type s))).

(** [l.remove(x)]: the first occurrence; ValueError if there is none *)
Fixpoint list_remove (x : A) (l : list A) : option (list A) :=
  match l with
  | [] => None
  | y :: r => if eqb y x then Some r else option_map (cons y) (list_remove x r)
  end.
(** [del d[k]] *)
Definition dict_del {W} (x : A) (d : dict A W) : dict A W := filter (fun e => negb (eqb (fst e) x)) d.
(** core.py:652-656; what was done before an exception stays done *)
Definition remove_aggregate (x : A) (s : ag) : ag * res unit :=
  match list_remove x (ag_order s) with
  | None => (s, Err ValueError)
  | Some o =>
      let s := mkAg (ag_lists s) o (ag_type s) in
      match dget eqb x (ag_type s) with
      | None => (s, Err KeyError)
      | Some xml =>
          let s := mkAg (ag_lists s) o (dict_del x (ag_type s)) in
          match get_aggregate_list xml s with
          | Err e => (s, Err e)
          | Ok vl => match list_remove x (snd vl) with
                     | None => (s, Err ValueError)
                     | Some l => (mkAg (dset String.eqb (fst vl) l (ag_lists s)) (ag_order s) (ag_type s), Ok tt)
                     end
          end
      end
  end.

(** core.py:646-650: the values in order, each with the parameter it is written with *)
Definition written (s : ag) : res (list (string * A)) :=
  rmap (fun x => do xml <- of_opt KeyError (dget eqb x (ag_type s)); Ok (xml, x)) (ag_order s).

(** core.py:662-663: the loop runs over the list while the body appends to lists; [i] is the position of the iterator *)
Fixpoint lump_loop (fuel : nat) (xml var : string) (i : nat) (s : ag) : ag * res unit :=
  match get_aggregate_list xml s with
  | Err e => (s, Err e)
  | Ok vl =>
      match nth_error (snd vl) i with
      | None => (s, Ok tt)
      | Some x =>
          match fuel with
          | O => (s, Err OutOfFuel)
          | S f => match add_aggregate var x s with
                   | Ok s' => lump_loop f xml var (S i) s'
                   | Err e => (s, Err e)
                   end
          end
      end
  end.
(** core.py:661 *)
Fixpoint lump_all (fuel : nat) (ps : list (string * string)) (s : ag) : ag * res unit :=
  match ps with
  | [] => (s, Ok tt)
  | p :: ps => match lump_loop fuel (fst p) (snd p) 0 s with
               | (s', Ok _) => lump_all fuel ps s'
               | (s', Err e) => (s', Err e)
               end
  end.
(** core.py:658-663 [lump_aggregates] *)
Definition lump_aggregates (fuel : nat) (s : ag) : ag * res unit := lump_all fuel aggs (aggregate_init s).
End Agg.
Arguments ag : clear implicits.

(** ** Robots *)
Section Robot.
Context {J L : Type}.
Variables (jname jpar jchi : J -> string) (lname : L -> string).
(** the object with an identity *)
Variable obj : nat -> elem J L.
(** urdf.py:560-567 and sdf.py:301-306, links and joints only *)
Definition robot_aggs : list (string * string) := [("link", "links"); ("joint", "joints")]%string.
(** a robot under edits: aggregates, and the name maps.  The maps are those of [RobotModel.robot]; the two lists there are not used *)
Record erobot := mkER { er_ag : ag nat; er_maps : robot J L }.
(** urdf.py:485-499, sdf.py:267-277 *)
Definition erobot_new : erobot := mkER (ag_new robot_aggs) robot_init.
Definition er_name (x : nat) : string := match obj x with EJoint _ => "joint" | ELink _ => "link" end.
(** urdf.py:501-520, sdf.py:279-298 [add_link], [add_joint]: the override of [add_aggregate] fills the name maps *)
Definition er_add (x : nat) (r : erobot) : res erobot :=
  do a <- add_aggregate Nat.eqb robot_aggs (er_name x) x (er_ag r);
  Ok (mkER a (add_elem jname jpar jchi lname (er_maps r) (obj x))).
(** core.py:652-656, inherited as it is *)
Definition er_remove (x : nat) (r : erobot) : erobot * res unit :=
  let '(a, u) := remove_aggregate Nat.eqb robot_aggs x (er_ag r) in (mkER a (er_maps r), u).
End Robot.
Arguments erobot : clear implicits.
