(** C76: printing parsed descriptions. *)
From Coq Require Import String Bool Arith Lia List ZArith.
From Verif Require Import Prelude XmlModel XmlSchema XmlProofs XmlRead XmlCheck SpecXml XmlMore XmlNum YamlModel SpecYaml YamlProofs.
From Verif Require Import YamlFinal.
Import ListNotations.
Local Open Scope string_scope.
Local Open Scope list_scope.


(** C76.  Where the collections module has Iterable (Python 3.9), every description that was read can be printed. *)
Theorem C76_old : forall (Num : Type) (pf : string -> option Num) (zero : Num) n t v,
  wf_doc n -> snd (from_xml pf (classes zero) n t) = inl v -> exists y, to_yaml (classes zero) true v = Ok y.
Proof. exact l76_old. Qed.
Print Assumptions C76_old.

(** C76.  What is printed for an object names its attributes and then its elements, all of them, each with what its field holds.
    This is so whatever the version of Python if anything is printed at all. *)
Theorem C76_fields : forall (Num : Type) (pf : string -> option Num) (zero : Num) cname c n v old y,
  classes zero cname = Some c -> wf_doc n -> snd (from_xml pf (classes zero) n (TObj cname)) = inl v ->
  to_yaml (classes zero) old v = Ok y ->
  exists fs order d, v = VObj cname fs order /\ y = YDict d /\
    map fst d = map pr_var (filter (is_kind PAttribute) (cl_params c)) ++ map pr_var (filter is_elem (cl_params c)) /\
    forall p, In p (cl_params c) -> exists w z, dget String.eqb (pr_var p) fs = Some w /\ dget String.eqb (pr_var p) d = Some z
      /\ to_yaml (classes zero) old w = Ok z /\ looks (fun u y => to_yaml (classes zero) old u = Ok y) w z.
Proof. exact l76_fields. Qed.
Print Assumptions C76_fields.

Example C76_fields_example : exists v, snd (from_doc zf (classes 0%Z) "urdf.Robot" sample_urdf) = inl v /\
  exists y, to_yaml (classes 0%Z) true v = Ok y.
Proof.
  eexists. split; [vm_compute; reflexivity|]. eexists. vm_compute. reflexivity.
Qed.

(** C76.  On Python 3.10 and later a description that was read can be printed exactly if it shows no list, and the attempt
    raises AttributeError otherwise. *)
Theorem C76_new : forall (Num : Type) (pf : string -> option Num) (zero : Num) n t v,
  wf_doc n -> snd (from_xml pf (classes zero) n t) = inl v ->
  ((exists y, to_yaml (classes zero) false v = Ok y) <-> ~ has_list (classes zero) v) /\
  (has_list (classes zero) v <-> to_yaml (classes zero) false v = Err AttributeError) /\
  (forall y, to_yaml (classes zero) false v = Ok y -> to_yaml (classes zero) true v = Ok y).
Proof. exact l76_new. Qed.
Print Assumptions C76_new.

Example C76_new_example : exists v y,
  snd (from_doc zf (classes 0%Z) "urdf.JointLimit" (E "limit" [("effort", "5"); ("velocity", "2")] [])) = inl v /\
  to_yaml (classes 0%Z) false v = Ok y /\
  y = YDict [("effort", YNum 5%Z); ("lower", YNum 0%Z); ("upper", YNum 0%Z); ("velocity", YNum 2%Z)].
Proof. eexists; eexists. split; [vm_compute; reflexivity|]. split; [vm_compute; reflexivity | reflexivity]. Qed.

(** C76.  So on Python 3.10 and later no robot, link, pose, colour, transmission or SDF model and joint can be printed at all. *)
Theorem C76_robot_refuted : forall (Num : Type) (pf : string -> option Num) (zero : Num) cname n v,
  In cname ["urdf.Robot"; "urdf.Link"; "urdf.Pose"; "urdf.Color"; "urdf.Box"; "urdf.Transmission"; "urdf.TransmissionJoint";
            "sdf.Model"; "sdf.Link"; "sdf.Axis"; "sdf.Box"] ->
  wf_doc n -> snd (from_doc pf (classes zero) cname n) = inl v -> to_yaml (classes zero) false v = Err AttributeError.
Proof. exact l76_robot_refuted. Qed.
Print Assumptions C76_robot_refuted.

Example C76_robot_example : exists v, snd (from_doc zf (classes 0%Z) "urdf.Robot" sample_urdf) = inl v /\
  to_yaml (classes 0%Z) false v = Err AttributeError.
Proof.
  eexists. split; [vm_compute; reflexivity|]. vm_compute. reflexivity.
Qed.

(** C76.  A URDF joint can be printed on Python 3.10 exactly if it has neither an origin nor an axis. *)
Theorem C76_joint_refuted : forall (Num : Type) (pf : string -> option Num) (zero : Num) tag attrs text kids v,
  wf_doc (Node tag attrs text kids) -> snd (from_doc pf (classes zero) "urdf.Joint" (Node tag attrs text kids)) = inl v ->
  ((exists y, to_yaml (classes zero) false v = Ok y) <-> first_child "origin" kids = None /\ first_child "axis" kids = None).
Proof. exact l76_joint_refuted. Qed.
Print Assumptions C76_joint_refuted.

Example C76_joint_example : exists v y, snd (from_doc zf (classes 0%Z) "urdf.Joint"
    (E "joint" [("name", "j"); ("type", "fixed")] [E "parent" [("link", "a")] []; E "child" [("link", "b")] []])) = inl v /\
  to_yaml (classes 0%Z) false v = Ok y.
Proof. eexists; eexists. split; [vm_compute; reflexivity | vm_compute; reflexivity]. Qed.

(** C76.  Two objects of one class that print the same have the same numbers, truth values and vectors, and the same strings
    except for a missing string and the string None. *)
Theorem C76_kept : forall (Num : Type) (pf : string -> option Num) (zero : Num) cname c n1 n2 fs1 fs2 o1 o2 old y p v1 v2,
  classes zero cname = Some c -> wf_doc n1 -> wf_doc n2 ->
  snd (from_doc pf (classes zero) cname n1) = inl (VObj cname fs1 o1) -> snd (from_doc pf (classes zero) cname n2) = inl (VObj cname fs2 o2) ->
  to_yaml (classes zero) old (VObj cname fs1 o1) = Ok y -> to_yaml (classes zero) old (VObj cname fs2 o2) = Ok y ->
  In p (cl_params c) -> dget String.eqb (pr_var p) fs1 = Some v1 -> dget String.eqb (pr_var p) fs2 = Some v2 ->
  (forall x, v1 = VNum x <-> v2 = VNum x) /\ (forall b, v1 = VBool b <-> v2 = VBool b) /\
  (forall l, v1 = VVec l -> (forall k, v2 <> VList k) -> v2 = VVec l) /\
  (forall s, v1 = VStr s -> v2 = VStr s \/ s = "None" /\ v2 = VNone).
Proof. exact l76_kept. Qed.
Print Assumptions C76_kept.

Example C76_kept_example : exists v w y z,
  snd (from_doc zf (classes 0%Z) "urdf.Sphere" (E "sphere" [("radius", "1")] [])) = inl v /\
  snd (from_doc zf (classes 0%Z) "urdf.Sphere" (E "sphere" [("radius", "2")] [])) = inl w /\
  to_yaml (classes 0%Z) false v = Ok y /\ to_yaml (classes 0%Z) false w = Ok z /\ y <> z.
Proof.
  eexists; eexists; eexists; eexists. split; [vm_compute; reflexivity|]. split; [vm_compute; reflexivity|].
  split; [vm_compute; reflexivity|]. split; [vm_compute; reflexivity|]. discriminate.
Qed.

(** C76.  The kind of a geometry is not printed: a cylinder and a capsule print the same and are written to different XML. *)
Theorem C76_capsule_refuted : exists n m v w y, snd (from_doc zf (classes 0%Z) "urdf.Collision" n) = inl v /\
  snd (from_doc zf (classes 0%Z) "urdf.Collision" m) = inl w /\ v <> w /\ snd (to_xml zs (classes 0%Z) v) <> snd (to_xml zs (classes 0%Z) w) /\
  forall old, to_yaml (classes 0%Z) old v = Ok y /\ to_yaml (classes 0%Z) old w = Ok y.
Proof. exact l76_capsule_refuted. Qed.
Print Assumptions C76_capsule_refuted.

(** C76.  The order in which links and joints follow each other is not printed, but written. *)
Theorem C76_order_refuted : exists n m v w y, snd (from_doc zf (classes 0%Z) "urdf.Robot" n) = inl v /\
  snd (from_doc zf (classes 0%Z) "urdf.Robot" m) = inl w /\ v <> w /\ snd (to_xml zs (classes 0%Z) v) <> snd (to_xml zs (classes 0%Z) w) /\
  to_yaml (classes 0%Z) true v = Ok y /\ to_yaml (classes 0%Z) true w = Ok y.
Proof. exact l76_order_refuted. Qed.
Print Assumptions C76_order_refuted.

(** C76.  A robot without a name prints like a robot called None. *)
Theorem C76_none_refuted : exists n m v w y, snd (from_doc zf (classes 0%Z) "urdf.Robot" n) = inl v /\
  snd (from_doc zf (classes 0%Z) "urdf.Robot" m) = inl w /\ v <> w /\ snd (to_xml zs (classes 0%Z) v) <> snd (to_xml zs (classes 0%Z) w) /\
  to_yaml (classes 0%Z) true v = Ok y /\ to_yaml (classes 0%Z) true w = Ok y.
Proof. exact l76_none_refuted. Qed.
Print Assumptions C76_none_refuted.
