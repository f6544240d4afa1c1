(** C72: editing the aggregates of an object. *)
From Coq Require Import String Bool Arith Lia List.
From Verif Require Import Prelude RobotModel XmlModel XmlSchema AggModel SpecAgg.
From Verif Require Import AggFinal.
Import ListNotations.
Local Open Scope string_scope.
Local Open Scope list_scope.


(** C72.  Adding what is not there and removing what is there never fails; afterwards the order, the list of every name and what is
    written are just what was added and not removed, in the order of addition. *)
Theorem C72_edits : forall (A : Type) (eqb : A -> A -> bool) (aggs : list (string * string)) (params : dict string string) (os : list (op A)),
  (forall a b, eqb a b = true <-> a = b) -> declared aggs params -> legal eqb aggs [] os ->
  exists s, do_ops eqb params os (ag_new aggs) = Ok s
    /\ ag_order s = map snd (left_after eqb os)
    /\ (forall xml var, In (xml, var) aggs -> dget String.eqb var (ag_lists s) = Some (named xml (left_after eqb os)))
    /\ written eqb s = Ok (left_after eqb os).
Proof. exact l72_edits. Qed.
Print Assumptions C72_edits.

Example C72_edits_example :
  let os := [Add "link" 1; Add "joint" 2; Add "link" 3; Remove 1; Add "link" 1] in
  legal Nat.eqb robot_aggs [] os /\ left_after Nat.eqb os = [("joint", 2); ("link", 3); ("link", 1)]
  /\ exists s, do_ops Nat.eqb robot_aggs os (ag_new robot_aggs) = Ok s /\ ag_order s = [2; 3; 1]
       /\ dget String.eqb "links" (ag_lists s) = Some [3; 1] /\ written Nat.eqb s = Ok [("joint", 2); ("link", 3); ("link", 1)].
Proof.
  assert (Lg : legal Nat.eqb robot_aggs [] [Add "link" 1; Add "joint" 2; Add "link" 3; Remove 1; Add "link" 1]).
  { cbn. intuition discriminate. }
  cbv zeta. split; [exact Lg|]. split; [reflexivity|].
  destruct (C72_edits nat Nat.eqb robot_aggs robot_aggs _ neqb_eq robot_declared Lg) as (s & R & O & G & W).
  exists s. split; [exact R|]. split; [exact O|]. split; [apply (G "link"); left; reflexivity|exact W].
Qed.

(** C72.  Every class of the two formats meets the condition on declarations, and none calls a list like one of its parameters. *)
Theorem C72_classes : forall (Num : Type) (zero : Num) name c, In (name, c) (urdf_classes zero ++ sdf_classes zero) ->
  declared (class_aggs c) (class_params c) /\ plural (class_aggs c) (class_params c).
Proof. exact l72_classes. Qed.
Print Assumptions C72_classes.

Example C72_classes_example :
  exists c, In ("urdf.Robot", c) (urdf_classes 0 ++ sdf_classes 0)
    /\ class_aggs c = [("link", "links"); ("joint", "joints"); ("gazebo", "gazebos"); ("transmission", "transmissions"); ("material", "materials")].
Proof.
  destruct (dget String.eqb "urdf.Robot" (urdf_classes 0 ++ sdf_classes 0)) as [c|] eqn:E; [|vm_compute in E; discriminate].
  exists c. split; [apply (dget_in _ seqb_eq); exact E|]. vm_compute in E. assert (H : forall X (a b : X), Some a = Some b -> a = b) by congruence.
  apply H in E. subst c. vm_compute. reflexivity.
Qed.

(** C72.  Removing what is not there raises a ValueError and changes nothing. *)
Theorem C72_remove_absent : forall (A : Type) (eqb : A -> A -> bool) (params : dict string string) (x : A) (s : ag A),
  (forall a b, eqb a b = true <-> a = b) -> ~ In x (ag_order s) -> remove_aggregate eqb params x s = (s, Err ValueError).
Proof. exact l72_remove_absent. Qed.
Print Assumptions C72_remove_absent.

Example C72_remove_absent_example :
  remove_aggregate Nat.eqb robot_aggs 7 (ag_new robot_aggs) = (ag_new robot_aggs, Err ValueError).
Proof. apply C72_remove_absent; [exact neqb_eq|intros []]. Qed.

(** C72.  Values that were added twice cannot be removed once: whatever the removal returns, nothing can be written afterwards. *)
Theorem C72_twice : forall (A : Type) (eqb : A -> A -> bool) (params : dict string string) (x : A) (s s' : ag A) (u : res unit) (i j : nat),
  (forall a b, eqb a b = true <-> a = b) -> i <> j -> nth_error (ag_order s) i = Some x -> nth_error (ag_order s) j = Some x ->
  remove_aggregate eqb params x s = (s', u) -> written eqb s' = Err KeyError.
Proof. exact l72_twice. Qed.
Print Assumptions C72_twice.

(** C72, refuted without the condition that values are added once: the joint of a transmission with the same hardware interface twice,
    of which one is removed without an exception, cannot be written. *)
Theorem C72_twice_refuted : exists (s : ag string),
  let params := [("name", "name"); ("hardwareInterface", "hardwareInterfaces")] in
  do_ops String.eqb params [Add "hardwareInterface" "EffortJointInterface"; Add "hardwareInterface" "EffortJointInterface"; Remove "EffortJointInterface"]
    (ag_new [("hardwareInterface", "hardwareInterfaces")]) = Ok s
  /\ dget String.eqb "hardwareInterfaces" (ag_lists s) = Some ["EffortJointInterface"] /\ written String.eqb s = Err KeyError.
Proof. exact l72_twice_refuted. Qed.
Print Assumptions C72_twice_refuted.

(** C72.  Lumping the aggregates of an object of any class: without values it does nothing; with values it raises a KeyError, after which
    the lists are as before but nothing is written any more. *)
Theorem C72_lump : forall (A : Type) (eqb : A -> A -> bool) (aggs : list (string * string)) (params : dict string string) (s : ag A) (fuel : nat),
  declared aggs params -> plural aggs params -> has_lists aggs s -> fuel <> 0 ->
  exists s' u, lump_aggregates eqb aggs params fuel s = (s', u)
    /\ ag_lists s' = ag_lists s /\ ag_order s' = [] /\ ag_type s' = [] /\ written eqb s' = Ok []
    /\ (no_values aggs s /\ u = Ok tt \/ ~ no_values aggs s /\ u = Err KeyError).
Proof. exact l72_lump. Qed.
Print Assumptions C72_lump.

(** C72, refuted for lumping: the robot with a link and a joint keeps both in its lists, but is written without them. *)
Theorem C72_lump_refuted : exists (s s' : ag nat),
  do_ops Nat.eqb robot_aggs [Add "joint" 1; Add "link" 2] (ag_new robot_aggs) = Ok s /\ written Nat.eqb s = Ok [("joint", 1); ("link", 2)]
  /\ lump_aggregates Nat.eqb robot_aggs robot_aggs 9 s = (s', Err KeyError)
  /\ ag_lists s' = ag_lists s /\ written Nat.eqb s' = Ok [].
Proof. exact l72_lump_refuted. Qed.
Print Assumptions C72_lump_refuted.

(** C72.  With a list that is called like its child, lumping a single value never ends. *)
Theorem C72_lump_forever : forall (A : Type) (eqb : A -> A -> bool) (params : dict string string) (xml : string) (x : A) (fuel : nat),
  dget String.eqb xml params = Some xml ->
  snd (lump_aggregates eqb [(xml, xml)] params fuel (mkAg [(xml, [x])] [x] [(x, xml)])) = Err OutOfFuel.
Proof. exact l72_lump_forever. Qed.
Print Assumptions C72_lump_forever.

Example C72_lump_forever_example :
  snd (lump_aggregates Nat.eqb [("sensor", "sensor")] [("name", "name"); ("sensor", "sensor")] 100 (mkAg [("sensor", [1])] [1] [(1, "sensor")])) = Err OutOfFuel.
Proof. apply C72_lump_forever. reflexivity. Qed.

(** C72.  Two lists that are each called like the other's child: lumping ends, and copies each list into the other. *)
Theorem C72_lump_swapped : exists (aggs : list (string * string)) (s s' : ag nat),
  declared aggs aggs /\ ~ plural aggs aggs /\ ag_lists s = [("b", [1; 2]); ("a", [])] /\ lump_aggregates Nat.eqb aggs aggs 9 s = (s', Ok tt)
  /\ ag_lists s' = [("b", [1; 2; 1; 2]); ("a", [1; 2])] /\ written Nat.eqb s' = Ok [("a", 1); ("a", 2); ("a", 1); ("a", 2)].
Proof. exact l72_lump_swapped. Qed.
Print Assumptions C72_lump_swapped.

(** C72.  Robots: edits keep lists and order as above, and the name maps are those of the robot that holds everything ever added. *)
Theorem C72_robot : forall (J L : Type) (jname jpar jchi : J -> string) (lname : L -> string) (obj : nat -> RobotModel.elem J L) (os : list rop),
  legal Nat.eqb robot_aggs [] (map (op_of obj) os) ->
  exists r, do_rops jname jpar jchi lname obj os erobot_new = Ok r
    /\ ag_order (er_ag r) = map snd (left_after Nat.eqb (map (op_of obj) os))
    /\ dget String.eqb "links" (ag_lists (er_ag r)) = Some (named "link" (left_after Nat.eqb (map (op_of obj) os)))
    /\ dget String.eqb "joints" (ag_lists (er_ag r)) = Some (named "joint" (left_after Nat.eqb (map (op_of obj) os)))
    /\ er_maps r = fresh_robot jname jpar jchi lname obj (ever_added os).
Proof. exact l72_robot. Qed.
Print Assumptions C72_robot.

(** joints as name, parent and child; links as names *)
Example C72_robot_example :
  let obj := fun x => nth x [ELink "base"; ELink "arm"; EJoint ("j", "base", "arm")] (ELink "") in
  exists r, do_rops (fun j => fst (fst j)) (fun j => snd (fst j)) (fun j => snd j) (fun l => l) obj [RAdd 0; RAdd 1; RAdd 2] erobot_new = Ok r
    /\ ag_order (er_ag r) = [0; 1; 2] /\ get_root (er_maps r) = Ok "base".
Proof. cbv zeta. eexists. split; [reflexivity|]. split; reflexivity. Qed.

(** C72, refuted for robots: after a removal the name maps need not be those of what is left.  Without its second root the robot still has
    "multiple roots", and the path to a link still runs through a joint that is gone. *)
Theorem C72_robot_refuted :
  (exists (os : list rop) (r : erobot (string * string * string) string),
    let jn := fun j : string * string * string => fst (fst j) in let jp := fun j : string * string * string => snd (fst j) in
    let jc := fun j : string * string * string => snd j in let ln := fun l : string => l in
    let obj := fun x => nth x [ELink "base"; ELink "arm"; EJoint ("j", "base", "arm"); ELink "other"] (ELink "") in
    legal Nat.eqb robot_aggs [] (map (op_of obj) os) /\ do_rops jn jp jc ln obj os erobot_new = Ok r
    /\ ag_order (er_ag r) = [0; 1; 2] /\ get_root (fresh_robot jn jp jc ln obj [0; 1; 2]) = Ok "base"
    /\ get_root (er_maps r) = Err AssertionError)
  /\ (exists (os : list rop) (r : erobot (string * string * string) string),
    let jn := fun j : string * string * string => fst (fst j) in let jp := fun j : string * string * string => snd (fst j) in
    let jc := fun j : string * string * string => snd j in let ln := fun l : string => l in
    let obj := fun x => nth x [ELink "base"; ELink "arm"; EJoint ("j", "base", "arm"); ELink "other"] (ELink "") in
    legal Nat.eqb robot_aggs [] (map (op_of obj) os) /\ do_rops jn jp jc ln obj os erobot_new = Ok r
    /\ ag_order (er_ag r) = [0; 1] /\ get_chain (fun _ => "revolute") 9 (fresh_robot jn jp jc ln obj [0; 1]) "base" "arm" true true true = Err KeyError
    /\ get_chain (fun _ => "revolute") 9 (er_maps r) "base" "arm" true true true = Ok ["base"; "j"; "arm"]).
Proof. exact l72_robot_refuted. Qed.
Print Assumptions C72_robot_refuted.
