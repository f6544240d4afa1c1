(** Vocabulary for serial chains built from robot descriptions. *)
From Coq Require Import Reals String Bool Arith List.
From Verif Require Import Prelude ExtF Tree ChainModel SpecFK Input Lin RotModel ChainInst SerialModel LoaderTree LoaderProofs MjcfModel MjcfProofs.
Import ListNotations.
Local Open Scope nat_scope.
Local Open Scope string_scope.
Local Open Scope list_scope.

(** [given is_nan names vs i]: the input [i] gives the configurations [vs] of the joints called [names], in their order:
    one configuration as a vector (tensor, array or list), several as the rows of a matrix, or a dictionary of batches
    with exactly these names.  As a list of rows, there have to be at least as many rows as joints. *)
Inductive given (is_nan : R -> bool) (names : list (option string)) : list (@config R) -> input R -> Prop :=
| g_vector v : given is_nan names [v] (InTensor (T1 (map v names)))
| g_numpy v : given is_nan names [v] (InNumpy (T1 (map v names)))
| g_list v : given is_nan names [v] (InList (T1 (map v names)))
| g_batch vs : given is_nan names vs (InTensor (T2 (length names) (map (fun v => map v names) vs)))
| g_batch_numpy vs : given is_nan names vs (InNumpy (T2 (length names) (map (fun v => map v names) vs)))
| g_list_rows vs : length names <= length vs -> given is_nan names vs (InList (T2 (length names) (map (fun v => map v names) vs)))
| g_dict vs d : d <> [] -> NoDup (map fst d) -> (forall k, In k (map fst d) <-> In k names) ->
    (forall k x, In (k, x) d -> x = DV (map (fun v => v k) vs) /\ (forall v, In v vs -> is_nan (v k) = false)) ->
    given is_nan names vs (InDict d).

(** [serves made names rel]: making the serial chain succeeds; it has the joints [names]; and for every input that gives
    configurations of these joints, its end poses are [rel] of the configurations. *)
Definition serves (made : res (@schain M4 V3)) (names : list (option string)) (rel : @config R -> M4) : Prop :=
  exists s, made = Ok s /\ c_names (s_chain s) = names /\
    forall nan is_nan vs i, given is_nan names vs i -> serial_fk_end mops nan is_nan s i = Ok (map rel vs).

(** [serial_spec par chi joints root jn mv rel made]: what a builder of serial chains [made end root_name] does on a tree of
    joints.  The root name is empty or the name of a link; an empty name stands for the root of the tree.  The serial chain
    from x to a link below x has the joints on the way that move, in order, and its end pose is the product of the relative
    poses of the joints on the way.  An end that is not at or below x is a KeyError, a root that is no link a ValueError. *)
Definition serial_spec {J} (par chi : J -> string) (joints : list J) (root : string) (jn : J -> string) (mv : J -> bool)
    (rel : @config R -> J -> M4) (made : string -> string -> res (schain M4 V3)) : Prop :=
  (forall l1 x rname, jpath par chi joints root l1 x -> (rname = "" /\ x = root) \/ (rname <> "" /\ rname = x) ->
     (forall l2 y, jpath par chi joints x l2 y ->
        serves (made y rname) (map (fun j => Some (jn j)) (filter mv l2)) (fun v => fold_left m4mul (map (rel v) l2) I4)) /\
     (forall e, (forall l2, ~ jpath par chi joints x l2 e) -> made e rname = Err KeyError)) /\
  (forall e rname, rname <> "" -> (forall l, ~ jpath par chi joints root l rname) -> made e rname = Err ValueError).

(** the bodies on the way from body x (excluded) down to body y (included) *)
Inductive mj_path (m : mjmodel) (x : nat) : nat -> list mbody -> Prop :=
| mp_here : mj_path m x x []
| mp_step y b l : nth_error (mm_bodies m) y = Some b -> y <> x -> mj_path m x (mb_parentid b) l -> mj_path m x y (l ++ [b]).
(** the names of their joints *)
Definition mj_names (m : mjmodel) (l : list mbody) : list (option string) :=
  flat_map (fun b => match joint_of m b with Some j => [Some (mn_name j)] | None => [] end) l.
