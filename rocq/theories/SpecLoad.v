(** What a URDF or SDF document says about links and joints. *)
From Coq Require Import Reals String Ascii Bool Arith List.
From Verif Require Import Prelude Lin LoaderModel RobotModel XmlModel SpecXml.
Import ListNotations.
Local Open Scope nat_scope.
Local Open Scope string_scope.
Local Open Scope list_scope.

Definition attribute (a : string) (n : node) : option string := match n with Node _ attrs _ _ => dget String.eqb a attrs | Comment => None end.
Definition text_of (n : node) : option string := match n with Node _ _ t _ => t | Comment => None end.
Definition child (t : string) (n : node) : option node := match n with Node _ _ _ kids => first_child t kids | Comment => None end.
(** no child has one of these tags *)
Definition without (ts : list string) (n : node) : Prop := forall t, In t ts -> child t n = None.
Definition kids (n : node) : list node := match n with Node _ _ _ kids => kids | Comment => [] end.

Section Spec.
Variable pf : string -> option R.

(** [s] holds the numbers [l] separated by white space *)
Definition numbers (s : string) (l : list R) : Prop := exists ws, spaced ws s /\ Forall2 (fun w x => pf w = Some x) ws l.
Definition vec3 (s : string) (v : V3) : Prop := numbers s [vx v; vy v; vz v].
(** an attribute that may be left out *)
Definition vec3_attr (a : string) (n : node) (v : V3) : Prop :=
  match attribute a n with Some s => vec3 s v | None => v = mkV3 0 0 0 end.
Definition num_attr (a : string) (n : node) (x : R) : Prop :=
  match attribute a n with Some s => pf s = Some x | None => x = 0%R end.
(** an optional child element *)
Definition maybe {A} (P : node -> A -> Prop) (n : option node) (a : option A) : Prop :=
  match n, a with Some n, Some a => P n a | None, None => True | _, _ => False end.
(** the name in the attribute [a] of the child [t]; if the attribute is missing the name is "None" *)
Definition named (t a : string) (n : node) (s : string) : Prop :=
  exists k, child t n = Some k /\ s = match attribute a k with Some s => s | None => "None" end.

(** ** URDF *)
Definition pose_says (n : node) (p : upose) : Prop := vec3_attr "xyz" n (p_xyz p) /\ vec3_attr "rpy" n (p_rpy p).
Definition axis_says (n : node) (v : V3) : Prop := exists s, attribute "xyz" n = Some s /\ vec3 s v.
Definition limit_says (n : node) (l : ulimit) : Prop :=
  (exists s, attribute "effort" n = Some s /\ pf s = Some (ul_effort l)) /\
  (exists s, attribute "velocity" n = Some s /\ pf s = Some (ul_velocity l)) /\
  num_attr "lower" n (ul_lower l) /\ num_attr "upper" n (ul_upper l).
Definition ujoint_says (n : node) (j : ujoint) : Prop :=
  has_tag "joint" n = true /\ attribute "name" n = Some (uj_name j) /\ attribute "type" n = Some (uj_type j) /\
  named "parent" "link" n (uj_parent j) /\ named "child" "link" n (uj_child j) /\
  maybe pose_says (child "origin" n) (uj_origin j) /\ maybe axis_says (child "axis" n) (uj_axis j) /\
  maybe limit_says (child "limit" n) (uj_limit j).
Definition ulink_says (n : node) (l : ulink) : Prop :=
  has_tag "link" n = true /\ attribute "name" n = Some (uk_name l) /\ maybe pose_says (child "origin" n) (uk_origin l).
Definition elem_says {J L} (PJ : node -> J -> Prop) (PL : node -> L -> Prop) (n : node) (e : elem J L) : Prop :=
  match e with EJoint j => PJ n j | ELink l => PL n l end.
(** the links and joints below [n], in order *)
Definition elems_say {J L} (PJ : node -> J -> Prop) (PL : node -> L -> Prop) (n : node) (es : list (elem J L)) : Prop :=
  Forall2 (elem_says PJ PL) (filter (fun k => has_tag "link" k || has_tag "joint" k) (kids n)) es.
Definition urdf_says : node -> list uelem -> Prop := elems_say ujoint_says ulink_says.

(** nothing but names, poses, axes and limits in it: no geometry, inertia, materials, dynamics, transmissions *)
Definition plain_urdf (n : node) : Prop :=
  without ["transmission"; "material"] n /\
  (forall k, In k (kids n) -> has_tag "link" k = true -> without ["visual"; "collision"; "inertial"] k) /\
  (forall k, In k (kids n) -> has_tag "joint" k = true -> without ["dynamics"; "safety_controller"; "calibration"; "mimic"] k).

(** ** SDF *)
Definition text_num (n : node) (x : R) : Prop := exists s, text_of n = Some s /\ pf s = Some x.
Definition text_vec3 (n : node) (v : V3) : Prop := exists s, text_of n = Some s /\ vec3 s v.
Definition spose_says (n : node) (p : spose) : Prop :=
  exists s, text_of n = Some s /\ numbers s [vx (sp_xyz p); vy (sp_xyz p); vz (sp_xyz p); vx (sp_rpy p); vy (sp_rpy p); vz (sp_rpy p)].
Definition slimit_says (n : node) (l : option R * option R) : Prop :=
  maybe text_num (child "lower" n) (fst l) /\ maybe text_num (child "upper" n) (snd l).
(** the text of the child [t], "None" if it is empty *)
Definition text_named (t : string) (n : node) (s : string) : Prop :=
  exists k, child t n = Some k /\ s = match text_of k with Some s => s | None => "None" end.
Definition sjoint_says (n : node) (j : sjoint) : Prop :=
  has_tag "joint" n = true /\ attribute "name" n = Some (sj_name j) /\ attribute "type" n = sj_type j /\
  text_named "parent" n (sj_parent j) /\ text_named "child" n (sj_child j) /\
  exists a x, child "axis" n = Some a /\ child "xyz" a = Some x /\ text_vec3 x (sj_axis j) /\ maybe slimit_says (child "limit" a) (sj_limit j).
Definition slink_says (n : node) (l : slink) : Prop :=
  has_tag "link" n = true /\ attribute "name" n = Some (sk_name l) /\ maybe spose_says (child "pose" n) (sk_pose l).
(** every link and joint of the model has a name *)
Definition all_named (m : node) : Prop :=
  forall k, In k (kids m) -> has_tag "link" k = true \/ has_tag "joint" k = true -> exists s, attribute "name" k = Some s.
(** a readable [<inertial>] without a pose *)
Definition inertial_given (n : node) : Prop :=
  exists i m t, child "inertial" n = Some i /\ child "mass" i = Some m /\ child "inertia" i = Some t /\ without ["pose"] i /\
    (exists x, text_num m x) /\
    forall a, In a ["ixx"; "ixy"; "ixz"; "iyy"; "iyz"; "izz"] -> exists k x, child a t = Some k /\ text_num k x.
(** only names, poses of links, axes, limits and the required inertia *)
Definition plain_sdf (n : node) : Prop :=
  exists m, child "model" n = Some m /\ without ["pose"] m /\
  (forall k, In k (kids m) -> has_tag "link" k = true -> without ["visual"; "collision"] k /\ inertial_given k) /\
  (forall k, In k (kids m) -> has_tag "joint" k = true -> without ["pose"] k /\ forall a, child "axis" k = Some a -> without ["dynamics"] a).
Definition sdf_says (n : node) (es : list selem) : Prop := exists m, child "model" n = Some m /\ elems_say sjoint_says slink_says m es.
End Spec.
