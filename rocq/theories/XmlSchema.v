(** The classes of urdf_parser_py/urdf.py and urdf_parser_py/sdf.py as schemas for [XmlModel]. *)
From Coq Require Import String Bool Arith List.
From Verif Require Import Prelude XmlModel.
Import ListNotations.
Local Open Scope string_scope.
Local Open Scope list_scope.

Section Schema.
Context {Num : Type}.
(** the number 0 of the defaults and of the constructors *)
Variable zero : Num.
Notation value := (value Num).
Notation param := (param Num).
Notation class := (class Num).
Notation fields := (@fields Num).

(** core.py:321-325 [Attribute(x, t, required, default)] *)
Definition attr (x : string) (t : vtype) (req : bool) (d : value) : param := mkParam PAttribute x x t req d false.
(** core.py:353-358 [Element(x, t, required)] *)
Definition elem (x : string) (t : vtype) (req : bool) : param := mkParam PElement x x t req VNone false.
(** core.py:382-388 [AggregateElement(x, t)]: the field is the plural *)
Definition aggr (x : string) (t : vtype) : param := mkParam PAggregate x (x ++ "s")%string t false VNone false.
(** a constructor that sets all these fields to None (or to a number that reading overwrites) *)
Definition nones (fs : list string) : fields := map (fun f => (f, VNone)) fs.
Definition num0 (fs : list string) : fields := map (fun f => (f, VNum zero)) fs.
Definition lists (fs : list string) : fields := map (fun f => (f, VList [])) fs.
(** core.py:570-571 *)
Definition no_check : fields -> xr unit := fun _ => ret tt.
Definition assert (b : bool) : xr unit := if b then ret tt else fail (XPy AssertionError).
Definition is_none (v : option value) : bool := match v with Some VNone => true | _ => false end.
(** [len(values) > 0] *)
Definition nonempty (v : option value) : bool := match v with Some (VList (_ :: _)) => true | _ => false end.

Notation name_attribute := (attr "name" TStr true VNone).
Notation vector3 := (TVec (Some 3)).
Definition v0 : value := VVec [zero; zero; zero].
Notation origin_element := (elem "origin" (TObj "urdf.Pose") false).
Definition xyz_ok (v : option value) : bool :=
  match v with Some VNone => true | Some (VVec l) => Nat.eqb (length l) 3 | _ => false end.

(** urdf.py:140-144 *)
Definition urdf_geometric : vtype :=
  TGeom [("box", "urdf.Box"); ("cylinder", "urdf.Cylinder"); ("sphere", "urdf.Sphere"); ("mesh", "urdf.Mesh"); ("capsule", "urdf.Capsule")].
(** urdf.py:318-319 *)
Definition urdf_types : list string := ["unknown"; "revolute"; "continuous"; "prismatic"; "floating"; "planar"; "fixed"].
Definition joint_type_ok (v : option value) : bool :=
  match v with Some (VStr s) => existsb (String.eqb s) urdf_types | _ => false end.

(** urdf.py:16-567, in the order of the file.  The constructor of [Color] without arguments sets [rgba] to None (49-64).
    [Robot.add_aggregate] also fills the name maps: see [RobotModel.robot_of]. *)
Definition urdf_classes : dict string class :=
  [ (* 16-42 *)
    ("urdf.Pose", mkClass (Some "origin") [attr "xyz" vector3 false v0; attr "rpy" vector3 false v0] (nones ["xyz"; "rpy"])
       (fun fs => assert (xyz_ok (dget String.eqb "xyz" fs) && xyz_ok (dget String.eqb "rpy" fs))));
    (* 49-68 *)
    ("urdf.Color", mkClass (Some "color") [attr "rgba" (TVec (Some 4)) true VNone] (nones ["rgba"]) no_check);
    (* 71-80 *)
    ("urdf.JointDynamics", mkClass (Some "dynamics") [attr "damping" TFloat false VNone; attr "friction" TFloat false VNone]
       (nones ["damping"; "friction"]) no_check);
    (* 83-90 *)
    ("urdf.Box", mkClass (Some "box") [attr "size" vector3 true VNone] (nones ["size"]) no_check);
    (* 93-102 *)
    ("urdf.Cylinder", mkClass (Some "cylinder") [attr "radius" TFloat true VNone; attr "length" TFloat true VNone] (num0 ["radius"; "length"]) no_check);
    (* 104-112 *)
    ("urdf.Capsule", mkClass (Some "capsule") [attr "radius" TFloat true VNone; attr "length" TFloat true VNone] (num0 ["radius"; "length"]) no_check);
    (* 114-121 *)
    ("urdf.Sphere", mkClass (Some "sphere") [attr "radius" TFloat true VNone] (num0 ["radius"]) no_check);
    (* 124-133 *)
    ("urdf.Mesh", mkClass (Some "mesh") [attr "filename" TStr true VNone; attr "scale" vector3 false VNone] (nones ["filename"; "scale"]) no_check);
    (* 160-169 *)
    ("urdf.Collision", mkClass (Some "collision") [origin_element; elem "geometry" urdf_geometric true] (nones ["geometry"; "origin"]) no_check);
    (* 172-179 *)
    ("urdf.Texture", mkClass (Some "texture") [attr "filename" TStr true VNone] (nones ["filename"]) no_check);
    (* 182-197 *)
    ("urdf.Material", mkClass (Some "material")
       [name_attribute; elem "color" (TObj "urdf.Color") false; elem "texture" (TObj "urdf.Texture") false]
       (nones ["name"; "color"; "texture"])
       (fun fs => if is_none (dget String.eqb "color" fs) && is_none (dget String.eqb "texture" fs) then warn WNoColor else ret tt));
    (* 200-202, with the reflection of Material *)
    ("urdf.LinkMaterial", mkClass (Some "material")
       [name_attribute; elem "color" (TObj "urdf.Color") false; elem "texture" (TObj "urdf.Texture") false]
       (nones ["name"; "color"; "texture"]) no_check);
    (* 205-216 *)
    ("urdf.Visual", mkClass (Some "visual")
       [origin_element; elem "geometry" urdf_geometric true; elem "material" (TObj "urdf.LinkMaterial") false]
       (nones ["geometry"; "material"; "origin"]) no_check);
    (* 219-238 *)
    ("urdf.Inertia", mkClass (Some "inertia") (map (fun k => attr k TFloat true VNone) ["ixx"; "ixy"; "ixz"; "iyy"; "iyz"; "izz"])
       (num0 ["ixx"; "ixy"; "ixz"; "iyy"; "iyz"; "izz"]) no_check);
    (* 241-252 *)
    ("urdf.Inertial", mkClass (Some "inertial")
       [origin_element; elem "mass" (TSimple "value" TFloat) true; elem "inertia" (TObj "urdf.Inertia") false]
       (num0 ["mass"] ++ nones ["inertia"; "origin"]) no_check);
    (* 256-265 *)
    ("urdf.JointCalibration", mkClass (Some "calibration") [attr "rising" TFloat false (VNum zero); attr "falling" TFloat false (VNum zero)]
       (nones ["rising"; "falling"]) no_check);
    (* 268-281 *)
    ("urdf.JointLimit", mkClass (Some "limit")
       [attr "effort" TFloat true VNone; attr "lower" TFloat false (VNum zero); attr "upper" TFloat false (VNum zero); attr "velocity" TFloat true VNone]
       (nones ["effort"; "velocity"; "lower"; "upper"]) no_check);
    (* 287-298 *)
    ("urdf.JointMimic", mkClass (Some "mimic") [attr "joint" TStr true VNone; attr "multiplier" TFloat false VNone; attr "offset" TFloat false VNone]
       (nones ["joint"; "multiplier"; "offset"]) no_check);
    (* 301-314 *)
    ("urdf.SafetyController", mkClass (Some "safety_controller")
       [attr "k_velocity" TFloat true VNone; attr "k_position" TFloat false (VNum zero);
        attr "soft_lower_limit" TFloat false (VNum zero); attr "soft_upper_limit" TFloat false (VNum zero)]
       (nones ["k_velocity"; "k_position"; "soft_lower_limit"; "soft_upper_limit"]) no_check);
    (* 317-360 *)
    ("urdf.Joint", mkClass (Some "joint")
       [name_attribute; attr "type" TStr true VNone; origin_element; elem "axis" (TSimple "xyz" vector3) false;
        elem "parent" (TSimple "link" TStr) true; elem "child" (TSimple "link" TStr) true;
        elem "limit" (TObj "urdf.JointLimit") false; elem "dynamics" (TObj "urdf.JointDynamics") false;
        elem "safety_controller" (TObj "urdf.SafetyController") false; elem "calibration" (TObj "urdf.JointCalibration") false;
        elem "mimic" (TObj "urdf.JointMimic") false]
       (nones ["name"; "parent"; "child"; "type"; "axis"; "origin"; "limit"; "dynamics"; "safety_controller"; "calibration"; "mimic"])
       (fun fs => assert (joint_type_ok (dget String.eqb "type" fs))));
    (* 363-408 *)
    ("urdf.Link", mkClass (Some "link")
       [name_attribute; origin_element; aggr "visual" (TObj "urdf.Visual"); aggr "collision" (TObj "urdf.Collision");
        elem "inertial" (TObj "urdf.Inertial") false]
       (nones ["name"] ++ lists ["visuals"] ++ nones ["inertial"] ++ lists ["collisions"] ++ nones ["origin"]) no_check);
    (* 411-427; mechanicalReduction is 1 in the constructor, but required *)
    ("urdf.PR2Transmission", mkClass (Some "pr2_transmission")
       [name_attribute; attr "type" TStr true VNone; elem "joint" (TSimple "name" TStr) true; elem "actuator" (TSimple "name" TStr) true;
        elem "mechanicalReduction" TFloat true]
       (nones ["name"; "type"; "joint"; "actuator"; "mechanicalReduction"]) no_check);
    (* 430-439 *)
    ("urdf.Actuator", mkClass (Some "actuator") [name_attribute; elem "mechanicalReduction" TFloat false]
       (nones ["name"; "mechanicalReduction"]) no_check);
    (* 442-455 *)
    ("urdf.TransmissionJoint", mkClass (Some "joint") [name_attribute; aggr "hardwareInterface" TStr]
       (nones ["name"] ++ lists ["hardwareInterfaces"]) (fun fs => assert (nonempty (dget String.eqb "hardwareInterfaces" fs))));
    (* 458-477 *)
    ("urdf.Transmission", mkClass (Some "new_transmission")
       [name_attribute; elem "type" TStr true; aggr "joint" (TObj "urdf.TransmissionJoint"); aggr "actuator" (TObj "urdf.Actuator")]
       (nones ["name"] ++ lists ["joints"; "actuators"])
       (fun fs => assert (nonempty (dget String.eqb "joints" fs) && nonempty (dget String.eqb "actuators" fs))));
    (* 484-567 *)
    ("urdf.Robot", mkClass (Some "robot")
       [attr "name" TStr false VNone; aggr "link" (TObj "urdf.Link"); aggr "joint" (TObj "urdf.Joint"); aggr "gazebo" TRaw;
        aggr "transmission" (TDuck ["urdf.Transmission"; "urdf.PR2Transmission"]); aggr "material" (TObj "urdf.Material")]
       (nones ["name"] ++ lists ["joints"; "links"; "materials"; "gazebos"; "transmissions"]) no_check) ].

(** sdf.py:8-9 *)
Notation sname_attribute := (attr "name" TStr false VNone).
Notation pose_element := (elem "pose" (TVec (Some 6)) false).
(** sdf.py:98-103 *)
Definition sdf_geometric : vtype :=
  TGeom [("box", "sdf.Box"); ("cylinder", "sdf.Cylinder"); ("sphere", "sdf.Sphere"); ("mesh", "sdf.Mesh")].

(** sdf.py:12-317, in the order of the file.  The constructors of [Visual] and [SDF] do not set [material] and [model]. *)
Definition sdf_classes : dict string class :=
  [ (* 12-31 *)
    ("sdf.Inertia", mkClass None (map (fun k => elem k TFloat true) ["ixx"; "ixy"; "ixz"; "iyy"; "iyz"; "izz"])
       (num0 ["ixx"; "ixy"; "ixz"; "iyy"; "iyz"; "izz"]) no_check);
    (* 38-49 *)
    ("sdf.Inertial", mkClass None [elem "mass" TFloat true; elem "inertia" (TObj "sdf.Inertia") true; pose_element]
       (num0 ["mass"] ++ nones ["inertia"; "pose"]) no_check);
    (* 52-59 *)
    ("sdf.Box", mkClass (Some "box") [elem "size" vector3 true] (nones ["size"]) no_check);
    (* 62-71 *)
    ("sdf.Cylinder", mkClass (Some "cylinder") [elem "radius" TFloat true; elem "length" TFloat true] (num0 ["radius"; "length"]) no_check);
    (* 74-81 *)
    ("sdf.Sphere", mkClass (Some "sphere") [elem "radius" TFloat true] (num0 ["radius"]) no_check);
    (* 84-93 *)
    ("sdf.Mesh", mkClass (Some "mesh") [elem "filename" TStr true; elem "scale" vector3 false] (nones ["filename"; "scale"]) no_check);
    (* 119-128 *)
    ("sdf.Script", mkClass (Some "script") [elem "name" TStr false; elem "uri" TStr false] (nones ["uri"; "name"]) no_check);
    (* 131-140 *)
    ("sdf.Material", mkClass (Some "material") [sname_attribute; elem "script" (TObj "sdf.Script") false] (nones ["name"; "script"]) no_check);
    (* 143-155 *)
    ("sdf.Visual", mkClass (Some "visual")
       [sname_attribute; elem "geometry" sdf_geometric true; elem "material" (TObj "sdf.Material") false; pose_element]
       (nones ["name"; "geometry"; "pose"]) no_check);
    (* 158-169 *)
    ("sdf.Collision", mkClass (Some "collision") [sname_attribute; elem "geometry" sdf_geometric true; pose_element]
       (nones ["name"; "geometry"; "pose"]) no_check);
    (* 172-181 *)
    ("sdf.Dynamics", mkClass (Some "dynamics") [elem "damping" TFloat false; elem "friction" TFloat false] (nones ["damping"; "friction"]) no_check);
    (* 184-193 *)
    ("sdf.Limit", mkClass (Some "limit") [elem "lower" TFloat false; elem "upper" TFloat false] (nones ["lower"; "upper"]) no_check);
    (* 196-210 *)
    ("sdf.Axis", mkClass (Some "axis")
       [elem "xyz" vector3 true; elem "limit" (TObj "sdf.Limit") false; elem "dynamics" (TObj "sdf.Dynamics") false;
        elem "use_parent_model_frame" TBool false]
       (nones ["xyz"; "limit"; "dynamics"; "use_parent_model_frame"]) no_check);
    (* 213-242 *)
    ("sdf.Joint", mkClass (Some "joint")
       [sname_attribute; attr "type" TStr false VNone; elem "axis" (TObj "sdf.Axis") true; elem "parent" TStr true; elem "child" TStr true;
        pose_element]
       (nones ["name"; "parent"; "child"; "type"; "axis"; "pose"]) no_check);
    (* 245-263 *)
    ("sdf.Link", mkClass (Some "link")
       [sname_attribute; elem "inertial" (TObj "sdf.Inertial") true; attr "kinematic" TBool false VNone;
        aggr "visual" (TObj "sdf.Visual"); aggr "collision" (TObj "sdf.Collision"); pose_element]
       (nones ["name"; "pose"; "inertial"] ++ [("kinematic", VBool false)] ++ lists ["visuals"; "collisions"]) no_check);
    (* 266-306 *)
    ("sdf.Model", mkClass (Some "model") [sname_attribute; aggr "link" (TObj "sdf.Link"); aggr "joint" (TObj "sdf.Joint"); pose_element]
       (nones ["name"; "pose"] ++ lists ["links"; "joints"]) no_check);
    (* 309-317 *)
    ("sdf.SDF", mkClass (Some "sdf") [attr "version" TStr false VNone; elem "model" (TObj "sdf.Model") false] (nones ["version"]) no_check) ].

Definition classes (c : string) : option class := dget String.eqb c (urdf_classes ++ sdf_classes).
End Schema.
