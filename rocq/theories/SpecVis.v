(** What URDF and SDF documents say about the visuals of links, and what a visual should hold. *)
From Coq Require Import Reals String Ascii Bool Arith List.
From Verif Require Import Prelude Lin LoaderModel RobotModel XmlModel SpecXml SpecLoad VisModel.
Import ListNotations.
Local Open Scope nat_scope.
Local Open Scope string_scope.
Local Open Scope list_scope.

Section Spec.
Variable pf : string -> option R.
Definition num_given (a : string) (n : node) (x : R) : Prop := exists s, attribute a n = Some s /\ pf s = Some x.
Definition vec3_maybe (a : string) (n : node) (o : option V3) : Prop :=
  match attribute a n, o with Some s, Some v => vec3 pf s v | None, None => True | _, _ => False end.
(** the element inside [<geometry>] of a URDF document: parameters are attributes *)
Definition ushape_says (k : node) (g : geometry) : Prop :=
  match g with
  | GBox v => has_tag "box" k = true /\ exists s, attribute "size" k = Some s /\ vec3 pf s v
  | GCylinder r l => has_tag "cylinder" k = true /\ num_given "radius" k r /\ num_given "length" k l
  | GSphere r => has_tag "sphere" k = true /\ num_given "radius" k r
  | GMesh f s => has_tag "mesh" k = true /\ attribute "filename" k = Some f /\ vec3_maybe "scale" k s
  | GCapsule r l => has_tag "capsule" k = true /\ num_given "radius" k r /\ num_given "length" k l
  end.
(** in SDF, as this schema reads it, they are child elements *)
Definition num_child (t : string) (n : node) (x : R) : Prop := exists k, child t n = Some k /\ text_num pf k x.
Definition sshape_says (k : node) (g : geometry) : Prop :=
  match g with
  | GBox v => has_tag "box" k = true /\ exists c, child "size" k = Some c /\ text_vec3 pf c v
  | GCylinder r l => has_tag "cylinder" k = true /\ num_child "radius" k r /\ num_child "length" k l
  | GSphere r => has_tag "sphere" k = true /\ num_child "radius" k r
  | GMesh f s => has_tag "mesh" k = true /\ text_named "filename" k f /\ maybe (text_vec3 pf) (child "scale" k) s
  | GCapsule _ _ => False
  end.
(** [<geometry>] holds exactly one element *)
Definition geometry_says (shape : node -> geometry -> Prop) (n : node) (o : option geometry) : Prop :=
  exists x k g, child "geometry" n = Some x /\ elements (kids x) = [k] /\ shape k g /\ o = Some g.
Definition uvisual_says (n : node) (v : uvisual) : Prop :=
  maybe (pose_says pf) (child "origin" n) (uv_origin v) /\ geometry_says ushape_says n (uv_geometry v).
Definition svisual_says (n : node) (v : svisual) : Prop :=
  maybe (spose_says pf) (child "pose" n) (sv_pose v) /\ geometry_says sshape_says n (sv_geometry v).
(** the last link named [x] below [n] has the visuals [vs], in order *)
Definition link_declares {V} (says : node -> V -> Prop) (n : node) (x : string) (vs : list V) : Prop :=
  exists l1 k l2, children "link" (kids n) = l1 ++ k :: l2 /\ attribute "name" k = Some x /\
    (forall k', In k' l2 -> attribute "name" k' <> Some x) /\ Forall2 says (children "visual" (kids k)) vs.
End Spec.

(** the type and parameters that stand for a shape *)
Inductive stands_for : geometry -> vtag -> gparam -> Prop :=
| SfBox v : stands_for (GBox v) (TypeName "box") (Size v)
| SfCylinder r l : stands_for (GCylinder r l) (TypeName "cylinder") (RadiusLength r l)
| SfSphere r : stands_for (GSphere r) (TypeName "sphere") (Radius r)
| SfMesh f s : stands_for (GMesh f s) (TypeName "mesh") (MeshScaled f s)
| SfCapsule r l : stands_for (GCapsule r l) (TypeName "capsule") (RadiusLength r l).

(** the points of a solid around the origin: boxes by edge lengths, cylinders and capsules along z.  A mesh has no points here. *)
Definition inside (g : geometry) (p : V3) : Prop :=
  (match g with
  | GBox s => Rabs (vx p) <= vx s / 2 /\ Rabs (vy p) <= vy s / 2 /\ Rabs (vz p) <= vz s / 2
  | GCylinder r l => vx p ^ 2 + vy p ^ 2 <= r ^ 2 /\ Rabs (vz p) <= l / 2
  | GSphere r => vx p ^ 2 + vy p ^ 2 + vz p ^ 2 <= r ^ 2
  | GMesh _ _ => False
  | GCapsule r l => exists z, Rabs z <= l / 2 /\ vx p ^ 2 + vy p ^ 2 + (vz p - z) ^ 2 <= r ^ 2
  end)%R.
(** the points of the solid placed by [M] *)
Definition occupies (M : M4) (g : geometry) (p : V3) : Prop := exists q, inside g q /\ p = vadd (m3vec (rotp M) q) (trp M).
