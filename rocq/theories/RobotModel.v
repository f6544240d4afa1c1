(** The element lists and name maps of a parsed robot: urdf_parser_py/urdf.py [Robot], urdf_parser_py/sdf.py [Model]. *)
From Coq Require Import Reals String Bool Arith List.
From Verif Require Import Prelude ExtF Tree ChainModel Lin ChainInst LoaderModel.
Import ListNotations.
Local Open Scope nat_scope.

Section Robot.
Context {J L : Type}.
Variables (jname jpar jchi : J -> string) (jtyp : J -> string) (lname : L -> string).

(** urdf.py:484-499, sdf.py:266-277; materials, gazebos, transmissions and the aggregate order are left out *)
Record robot := mkRobot {
  rb_joints : list J; rb_links : list L;
  rb_joint_map : dict string J; rb_link_map : dict string L;
  rb_parent_map : dict string (string * string);
  rb_child_map : dict string (list (string * string)) }.
Definition robot_init : robot := mkRobot [] [] [] [] [] [].

(** urdf.py:501-514, sdf.py:279-292 [add_aggregate] *)
Definition add_joint (r : robot) (j : J) : robot :=
  mkRobot (rb_joints r ++ [j]) (rb_links r)
    (dset String.eqb (jname j) j (rb_joint_map r)) (rb_link_map r)
    (dset String.eqb (jchi j) (jname j, jpar j) (rb_parent_map r))
    (match dget String.eqb (jpar j) (rb_child_map r) with
     | Some l => dset String.eqb (jpar j) (l ++ [(jname j, jchi j)]) (rb_child_map r)
     | None => dset String.eqb (jpar j) [(jname j, jchi j)] (rb_child_map r)
     end).
Definition add_link (r : robot) (l : L) : robot :=
  mkRobot (rb_joints r) (rb_links r ++ [l]) (rb_joint_map r)
    (dset String.eqb (lname l) l (rb_link_map r)) (rb_parent_map r) (rb_child_map r).

(** the elements of a description in document order *)
Inductive elem := EJoint (j : J) | ELink (l : L).
Definition add_elem (r : robot) (e : elem) : robot :=
  match e with EJoint j => add_joint r j | ELink l => add_link r l end.
Definition robot_of (es : list elem) : robot := fold_left add_elem es robot_init.

(** urdf.py:522-536 [get_chain], the while loop with fuel; [chain] is built from the tip and reversed at the end *)
Fixpoint get_chain_loop (r : robot) (root : string) (joints links fixed : bool) (fuel : nat) (link : string)
  (chain : list string) : res (list string) :=
  if String.eqb link root then Ok (rev chain) else
  match fuel with
  | O => Err OutOfFuel
  | S n =>
      do jp <- of_opt KeyError (dget String.eqb link (rb_parent_map r));
      do chain <- (if joints then
                     if fixed then Ok (chain ++ [fst jp])
                     else do j <- of_opt KeyError (dget String.eqb (fst jp) (rb_joint_map r));
                          Ok (if String.eqb (jtyp j) "fixed" then chain else chain ++ [fst jp])
                   else Ok chain);
      let chain := if links then chain ++ [snd jp] else chain in
      get_chain_loop r root joints links fixed n (snd jp) chain
  end.
Definition get_chain (fuel : nat) (r : robot) (root tip : string) (joints links fixed : bool) : res (list string) :=
  get_chain_loop r root joints links fixed fuel tip (if links then [tip] else []).

(** urdf.py:538-545 [get_root] *)
Fixpoint get_root_loop (parent_map : dict string (string * string)) (links : list string) (root : option string)
  : res (option string) :=
  match links with
  | [] => Ok root
  | l :: rest =>
      match dget String.eqb l parent_map with
      | Some _ => get_root_loop parent_map rest root
      | None => match root with
                | None => get_root_loop parent_map rest (Some l)
                | Some _ => Err AssertionError
                end
      end
  end.
Definition get_root (r : robot) : res string :=
  do root <- get_root_loop (rb_parent_map r) (map fst (rb_link_map r)) None;
  of_opt AssertionError root.
End Robot.
Arguments robot : clear implicits.
Arguments elem : clear implicits.

(** URDF robots and SDF models *)
Notation urobot := (robot ujoint ulink).
Notation uelem := (elem ujoint ulink).
Notation srobot := (robot sjoint slink).
Notation selem := (elem sjoint slink).
Definition urobot_of : list uelem -> urobot := robot_of uj_name uj_parent uj_child uk_name.
Definition srobot_of : list selem -> srobot := robot_of sj_name sj_parent sj_child sk_name.

(** urdf.py:104-124 *)
Definition urdf_chain (limit : nat) (r : urobot) : res (@chain M4 V3) :=
  build_chain_from_urdf limit (rb_link_map r) (rb_joints r).
(** sdf.py:81-102 *)
Definition sdf_chain (limit : nat) (r : srobot) : res (@chain M4 V3) :=
  build_chain_from_sdf limit (rb_link_map r) (rb_joints r).
