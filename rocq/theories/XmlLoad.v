(** From documents to chains: build_chain_from_urdf and build_chain_from_sdf on element trees. *)
From Coq Require Import Reals String Ascii Bool Arith Lia List.
From Verif Require Import Prelude ExtF Tree ChainModel Lin ChainInst LoaderModel RobotModel XmlModel XmlSchema.
Import ListNotations.
Local Open Scope nat_scope.
Local Open Scope string_scope.
Local Open Scope list_scope.

Notation rvalue := (value R).
(** ** Reading attributes of parsed objects; [None] where the value does not have the type that the loaders expect *)
Definition fld (v : rvalue) (k : string) : option rvalue := match v with VObj _ fs _ => dget String.eqb k fs | _ => None end.
Definition obind {A B} (o : option A) (f : A -> option B) : option B := match o with Some a => f a | None => None end.
Notation "'opt' x <- e ; f" := (obind e (fun x => f)) (at level 200, x binder, e at level 100, f at level 200).
Definition as_str (v : rvalue) : option string := match v with VStr s => Some s | _ => None end.
Definition as_num (v : rvalue) : option R := match v with VNum x => Some x | _ => None end.
Definition as_vec3 (v : rvalue) : option V3 := match v with VVec [a; b; c] => Some (mkV3 a b c) | _ => None end.
(** a value or None *)
Definition optional {A} (f : rvalue -> option A) (v : rvalue) : option (option A) :=
  match v with VNone => Some None | _ => opt a <- f v; Some (Some a) end.
Fixpoint omap {A B} (f : A -> option B) (l : list A) : option (list B) :=
  match l with [] => Some [] | a :: l => opt b <- f a; opt r <- omap f l; Some (b :: r) end.

(** the parts of [LoaderModel.ujoint] etc. in objects of the classes of urdf_parser_py/urdf.py:16-42, 268-281, 317-360, 363-408 *)
Definition as_pose (v : rvalue) : option upose :=
  opt a <- obind (fld v "xyz") as_vec3; opt b <- obind (fld v "rpy") as_vec3; Some (mkUPose a b).
Definition as_limit (v : rvalue) : option ulimit :=
  opt e <- obind (fld v "effort") as_num; opt l <- obind (fld v "lower") as_num;
  opt u <- obind (fld v "upper") as_num; opt w <- obind (fld v "velocity") as_num; Some (mkULimit e l u w).
Definition as_ujoint (v : rvalue) : option ujoint :=
  opt n <- obind (fld v "name") as_str; opt t <- obind (fld v "type") as_str;
  opt p <- obind (fld v "parent") as_str; opt c <- obind (fld v "child") as_str;
  opt o <- obind (fld v "origin") (optional as_pose); opt a <- obind (fld v "axis") (optional as_vec3);
  opt l <- obind (fld v "limit") (optional as_limit); Some (mkUJoint n t p c o a l).
Definition as_ulink (v : rvalue) : option ulink :=
  opt n <- obind (fld v "name") as_str; opt o <- obind (fld v "origin") (optional as_pose); Some (mkULink n o).
(** the links and joints of a robot in document order *)
Definition elems_of {J L} (fj : rvalue -> option J) (fl : rvalue -> option L) (v : rvalue) : option (list (RobotModel.elem J L)) :=
  match v with
  | VObj _ _ order =>
      omap (fun o => if String.eqb (fst o) "link" then opt l <- fl (snd o); Some (ELink l) else opt j <- fj (snd o); Some (EJoint j))
        (filter (fun o => String.eqb (fst o) "link" || String.eqb (fst o) "joint") order)
  | _ => None
  end.
Definition as_urobot : rvalue -> option (list uelem) := elems_of as_ujoint as_ulink.

(** urdf_parser_py/sdf.py:184-317.  Links and joints without a name are left out of the model. *)
Definition as_spose (v : rvalue) : option spose :=
  match v with VVec [a; b; c; r; p; y] => Some (mkSPose (mkV3 a b c) (mkV3 r p y)) | _ => None end.
Definition as_slimit (v : rvalue) : option (option R * option R) :=
  opt l <- obind (fld v "lower") (optional as_num); opt u <- obind (fld v "upper") (optional as_num); Some (l, u).
Definition as_sjoint (v : rvalue) : option sjoint :=
  opt n <- obind (fld v "name") as_str; opt t <- obind (fld v "type") (optional as_str);
  opt p <- obind (fld v "parent") as_str; opt c <- obind (fld v "child") as_str;
  opt a <- fld v "axis"; opt x <- obind (fld a "xyz") as_vec3; opt l <- obind (fld a "limit") (optional as_slimit);
  Some (mkSJoint n t p c x l).
Definition as_slink (v : rvalue) : option slink :=
  opt n <- obind (fld v "name") as_str; opt o <- obind (fld v "pose") (optional as_spose); Some (mkSLink n o).
Definition as_smodel : rvalue -> option (list selem) := elems_of as_sjoint as_slink.

Section Load.
(** [float(s)]; floats are real numbers here, as in all of the kinematics *)
Variable pf : string -> option R.
(** urdf.py:104-124 [build_chain_from_urdf] on the element tree of its argument *)
Definition load_urdf (limit : nat) (doc : node) : xr (@chain M4 V3) :=
  let! v := from_doc pf (classes 0%R) "urdf.Robot" doc in
  let! es := xopt XUnmodelled (as_urobot v) in
  lift (urdf_chain limit (urobot_of es)).
(** sdf.py:81-102 [build_chain_from_sdf]; without a model [sdf.model] is None and [None.link_map] an AttributeError *)
Definition load_sdf (limit : nat) (doc : node) : xr (@chain M4 V3) :=
  let! v := from_doc pf (classes 0%R) "sdf.SDF" doc in
  let! m := xopt (XPy AttributeError) (fld v "model") in
  match m with
  | VNone => fail (XPy AttributeError)
  | _ => let! es := xopt XUnmodelled (as_smodel m) in lift (sdf_chain limit (srobot_of es))
  end.
End Load.
