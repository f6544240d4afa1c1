(** The statements at module level of core.py, urdf.py and sdf.py that use the registry, as written there, with types as keys. *)
From Coq Require Import String Ascii Bool Arith List.
From Verif Require Import Prelude XmlModel RegModel.
Import ListNotations.
Local Open Scope string_scope.
Local Open Scope list_scope.

(** [float(s)] for counts: texts of decimal digits.  Python reads more texts (such as '3.5'), which the three modules do not use. *)
Fixpoint digits_loop (s : string) (n : nat) : option nat :=
  match s with
  | "" => Some n
  | String c s => let d := nat_of_ascii c in
                  if (Nat.leb 48 d && Nat.leb d 57)%bool then digits_loop s (10 * n + (d - 48)) else None
  end.
Definition digits (s : string) : option nat := match s with "" => None | s => digits_loop s 0 end.

Section Decl.
Context {Num : Type}.
Variable zero : Num.
Notation value := (value Num).
Notation pexp := (pexp value).
Notation stmt := (stmt nat value).

(** the [RawType()] of urdf.py:564 is the only instance passed as a type *)
Definition raw_obj (_ : nat) : rtype nat := RRaw.
(** calls with the default arguments of core.py:322-323, 354-355, 383 *)
Definition attribute (x : string) (t : key) (req : bool) : string + pexp := inr (EAttr x t req None None).
Definition attribute_d (x : string) (t : key) (d : value) : string + pexp := inr (EAttr x t false (Some d) None).
Definition element (x : string) (t : key) (req : bool) : string + pexp := inr (EElem x t req None None false).
Definition aggregate (x : string) (t : key) : string + pexp := inr (EAggr x t None false).
Definition aggregate_v (x : string) (t : key) (var : string) : string + pexp := inr (EAggr x t (Some var) false).
Notation "'str'" := KPyStr.
Notation "'float'" := KPyFloat.
Notation "'bool_'" := KPyBool.
Notation k := KStr.
Notation name_attribute := (inl "name_attribute").
Notation origin_element := (inl "origin_element").
Notation pose_element := (inl "pose_element").
Definition zeros : value := VVec [zero; zero; zero].
Definition zero_ : value := VNum zero.

(** core.py:674-682 *)
Definition core_body : list stmt :=
  [ SAdd (k "element_name") (ESimple "name" str); SAdd (k "element_value") (ESimple "value" float);
    SGet (k "vector3"); SGet (k "vector4"); SGet (k "vector6") ].

(** class [c] of urdf.py, and its reflection *)
Notation U c := (KClass (String.append "urdf." c)).
Notation refl c tag ps := (SReflect (String.append "urdf." c) (Some tag) ps).
(** urdf.py:10-568, between the two statements for the namespace *)
Definition urdf_body : list stmt :=
  [ (* 10-11 *)
    SAdd (k "element_link") (ESimple "link" str); SAdd (k "element_xyz") (ESimple "xyz" (k "vector3"));
    (* 39-46 *)
    refl "Pose" "origin" [attribute_d "xyz" (k "vector3") zeros; attribute_d "rpy" (k "vector3") zeros];
    SLet "name_attribute" (EAttr "name" str true None None); SLet "origin_element" (EElem "origin" (U "Pose") false None None false);
    (* 66-68 *)
    refl "Color" "color" [attribute "rgba" (k "vector4") true];
    (* 77-80 *)
    refl "JointDynamics" "dynamics" [attribute "damping" float false; attribute "friction" float false];
    (* 88-133 *)
    refl "Box" "box" [attribute "size" (k "vector3") true];
    refl "Cylinder" "cylinder" [attribute "radius" float true; attribute "length" float true];
    refl "Capsule" "capsule" [attribute "radius" float true; attribute "length" float true];
    refl "Sphere" "sphere" [attribute "radius" float true];
    refl "Mesh" "mesh" [attribute "filename" str true; attribute "scale" (k "vector3") false];
    (* 138-144, 157 *)
    SAdd (k "geometric") (EVal (RGeom [("box", "urdf.Box"); ("cylinder", "urdf.Cylinder"); ("sphere", "urdf.Sphere");
                                       ("mesh", "urdf.Mesh"); ("capsule", "urdf.Capsule")]));
    (* 166-169 *)
    refl "Collision" "collision" [origin_element; element "geometry" (k "geometric") true];
    (* 177-197 *)
    refl "Texture" "texture" [attribute "filename" str true];
    refl "Material" "material" [name_attribute; element "color" (U "Color") false; element "texture" (U "Texture") false];
    (* 200-202 *)
    SSub "urdf.LinkMaterial" "urdf.Material";
    (* 212-216 *)
    refl "Visual" "visual" [origin_element; element "geometry" (k "geometric") true; element "material" (U "LinkMaterial") false];
    (* 237-252 *)
    refl "Inertia" "inertia" (map (fun x => attribute x float true) ["ixx"; "ixy"; "ixz"; "iyy"; "iyz"; "izz"]);
    refl "Inertial" "inertial" [origin_element; element "mass" (k "element_value") true; element "inertia" (U "Inertia") false];
    (* 262-314 *)
    refl "JointCalibration" "calibration" [attribute_d "rising" float zero_; attribute_d "falling" float zero_];
    refl "JointLimit" "limit" [attribute "effort" float true; attribute_d "lower" float zero_; attribute_d "upper" float zero_;
                               attribute "velocity" float true];
    refl "JointMimic" "mimic" [attribute "joint" str true; attribute "multiplier" float false; attribute "offset" float false];
    refl "SafetyController" "safety_controller"
      [attribute "k_velocity" float true; attribute_d "k_position" float zero_; attribute_d "soft_lower_limit" float zero_;
       attribute_d "soft_upper_limit" float zero_];
    (* 348-360 *)
    refl "Joint" "joint"
      [name_attribute; attribute "type" str true; origin_element; element "axis" (k "element_xyz") false;
       element "parent" (k "element_link") true; element "child" (k "element_link") true; element "limit" (U "JointLimit") false;
       element "dynamics" (U "JointDynamics") false; element "safety_controller" (U "SafetyController") false;
       element "calibration" (U "JointCalibration") false; element "mimic" (U "JointMimic") false];
    (* 402-408 *)
    refl "Link" "link" [name_attribute; origin_element; aggregate "visual" (U "Visual"); aggregate "collision" (U "Collision");
                        element "inertial" (U "Inertial") false];
    (* 421-477 *)
    refl "PR2Transmission" "pr2_transmission"
      [name_attribute; attribute "type" str true; element "joint" (k "element_name") true; element "actuator" (k "element_name") true;
       element "mechanicalReduction" float true];
    refl "Actuator" "actuator" [name_attribute; element "mechanicalReduction" float false];
    refl "TransmissionJoint" "joint" [name_attribute; aggregate "hardwareInterface" str];
    refl "Transmission" "new_transmission"
      [name_attribute; element "type" str true; aggregate "joint" (U "TransmissionJoint"); aggregate "actuator" (U "Actuator")];
    (* 479-481 *)
    SAdd (k "transmission") (EVal (RDuck ["urdf.Transmission"; "urdf.PR2Transmission"]));
    (* 560-567 *)
    refl "Robot" "robot"
      [attribute "name" str false; aggregate "link" (U "Link"); aggregate "joint" (U "Joint"); aggregate "gazebo" (KVal 0);
       aggregate "transmission" (k "transmission"); aggregate "material" (U "Material")] ].

Notation S c := (KClass (String.append "sdf." c)).
Notation srefl c tag ps := (SReflect (String.append "sdf." c) tag ps).
(** sdf.py:8-317, between the two statements for the namespace *)
Definition sdf_body : list stmt :=
  [ (* 8-9 *)
    SLet "name_attribute" (EAttr "name" str false None None); SLet "pose_element" (EElem "pose" (k "vector6") false None None false);
    (* 30-49 *)
    srefl "Inertia" None (map (fun x => element x float true) ["ixx"; "ixy"; "ixz"; "iyy"; "iyz"; "izz"]);
    srefl "Inertial" None [element "mass" float true; element "inertia" (S "Inertia") true; pose_element];
    (* 57-93 *)
    srefl "Box" (Some "box") [element "size" (k "vector3") true];
    srefl "Cylinder" (Some "cylinder") [element "radius" float true; element "length" float true];
    srefl "Sphere" (Some "sphere") [element "radius" float true];
    srefl "Mesh" (Some "mesh") [element "filename" str true; element "scale" (k "vector3") false];
    (* 98-103, 116 *)
    SAdd (k "geometric") (EVal (RGeom [("box", "sdf.Box"); ("cylinder", "sdf.Cylinder"); ("sphere", "sdf.Sphere"); ("mesh", "sdf.Mesh")]));
    (* 125-169 *)
    srefl "Script" (Some "script") [element "name" str false; element "uri" str false];
    srefl "Material" (Some "material") [name_attribute; element "script" (S "Script") false];
    srefl "Visual" (Some "visual") [name_attribute; element "geometry" (k "geometric") true; element "material" (S "Material") false; pose_element];
    srefl "Collision" (Some "collision") [name_attribute; element "geometry" (k "geometric") true; pose_element];
    (* 178-210 *)
    srefl "Dynamics" (Some "dynamics") [element "damping" float false; element "friction" float false];
    srefl "Limit" (Some "limit") [element "lower" float false; element "upper" float false];
    srefl "Axis" (Some "axis") [element "xyz" (k "vector3") true; element "limit" (S "Limit") false; element "dynamics" (S "Dynamics") false;
                                element "use_parent_model_frame" bool_ false];
    (* 235-242 *)
    srefl "Joint" (Some "joint") [name_attribute; attribute "type" str false; element "axis" (S "Axis") true; element "parent" str true;
                                  element "child" str true; pose_element];
    (* 256-263 *)
    srefl "Link" (Some "link") [name_attribute; element "inertial" (S "Inertial") true; attribute "kinematic" bool_ false;
                                aggregate_v "visual" (S "Visual") "visuals"; aggregate_v "collision" (S "Collision") "collisions"; pose_element];
    (* 301-317 *)
    srefl "Model" (Some "model") [name_attribute; aggregate_v "link" (S "Link") "links"; aggregate_v "joint" (S "Joint") "joints"; pose_element];
    srefl "SDF" (Some "sdf") [attribute "version" str false; element "model" (S "Model") false] ].

(** a module body within its namespace: urdf.py:8, 572 and sdf.py:6, 319 *)
Definition module (ns : string) (body : list stmt) : list stmt := SStart ns :: body ++ [SEnd].
Definition urdf_module : list stmt := module "urdf" urdf_body.
Definition sdf_module : list stmt := module "sdf" sdf_body.
End Decl.
