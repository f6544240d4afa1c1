(** Vocabulary for edits of aggregates: what a sequence of additions and removals should leave. *)
From Coq Require Import String Bool Arith List.
From Verif Require Import Prelude RobotModel XmlModel AggModel.
Import ListNotations.
Local Open Scope list_scope.

Section Spec.
Context {A : Type}.
Variable eqb : A -> A -> bool.
Variable aggs : list (string * string).
Variable params : dict string string.

Inductive op := Add (xml : string) (x : A) | Remove (x : A).
(** what is there after the edits, with names, oldest first *)
Definition edit (l : list (string * A)) (o : op) : list (string * A) :=
  match o with Add xml x => l ++ [(xml, x)] | Remove x => filter (fun e => negb (eqb (snd e) x)) l end.
Definition left_after (os : list op) : list (string * A) := fold_left edit os [].
(** only what is not there is added, under the name of a repeated child, and only what is there is removed *)
Definition allowed (l : list (string * A)) (o : op) : Prop :=
  match o with
  | Add xml x => ~ In x (map snd l) /\ In xml (map fst aggs)
  | Remove x => In x (map snd l)
  end.
Fixpoint legal (l : list (string * A)) (os : list op) : Prop :=
  match os with [] => True | o :: os => allowed l o /\ legal (edit l o) os end.
(** the code, one edit after the other, until one raises *)
Definition do_op (o : op) (s : ag A) : res (ag A) :=
  match o with
  | Add xml x => add_aggregate eqb params xml x s
  | Remove x => let '(s, u) := remove_aggregate eqb params x s in do _ <- u; Ok s
  end.
Fixpoint do_ops (os : list op) (s : ag A) : res (ag A) :=
  match os with [] => Ok s | o :: os => do s <- do_op o s; do_ops os s end.
(** the declarations of a class: distinct attributes for the aggregates, which are parameters *)
Definition declared : Prop := NoDup (map snd aggs) /\ forall xml var, In (xml, var) aggs -> dget String.eqb xml params = Some var.
(** no attribute that holds a list is called like a child or XML attribute of the class *)
Definition plural : Prop := forall xml var, In (xml, var) aggs -> dget String.eqb var params = None.
(** the values added under the name *)
Definition named (xml : string) (l : list (string * A)) : list A := map snd (filter (fun e => String.eqb (fst e) xml) l).
(** the object has a list for every aggregate *)
Definition has_lists (s : ag A) : Prop := forall xml var, In (xml, var) aggs -> exists l, dget String.eqb var (ag_lists s) = Some l.
(** nothing in any list *)
Definition no_values (s : ag A) : Prop := forall xml var, In (xml, var) aggs -> dget String.eqb var (ag_lists s) = Some [].
End Spec.
Arguments op : clear implicits.

(** aggregates and parameters of a class of [XmlSchema] *)
Definition class_params {Num} (c : class Num) : dict string string :=
  fold_left (fun d p => dset String.eqb (pr_xml p) (pr_var p) d) (cl_params c) [].
Definition class_aggs {Num} (c : class Num) : list (string * string) :=
  map (fun p => (pr_xml p, pr_var p)) (filter (fun p => match pr_kind p with PAggregate => true | _ => false end) (cl_params c)).

Section Robot.
Context {J L : Type}.
Variables (jname jpar jchi : J -> string) (lname : L -> string).
Variable obj : nat -> elem J L.
(** edits of a robot: objects added, objects removed *)
Inductive rop := RAdd (x : nat) | RRemove (x : nat).
Definition op_of (o : rop) : op nat := match o with RAdd x => Add (match obj x with EJoint _ => "joint" | ELink _ => "link" end) x | RRemove x => Remove x end.
Definition do_rop (o : rop) (r : erobot J L) : res (erobot J L) :=
  match o with
  | RAdd x => er_add jname jpar jchi lname obj x r
  | RRemove x => let '(r, u) := er_remove x r in do _ <- u; Ok r
  end.
Fixpoint do_rops (os : list rop) (r : erobot J L) : res (erobot J L) :=
  match os with [] => Ok r | o :: os => do r <- do_rop o r; do_rops os r end.
(** all objects that were ever added *)
Definition ever_added (os : list rop) : list nat := concat (map (fun o => match o with RAdd x => [x] | RRemove _ => [] end) os).
(** the robot that holds just these objects, added one after the other *)
Definition fresh_robot (xs : list nat) : robot J L := robot_of jname jpar jchi lname (map obj xs).
End Robot.
