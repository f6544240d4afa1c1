(** Integers in decimal notation as numbers of the XML layer, and sample documents. *)
From Coq Require Import String Ascii Bool Arith ZArith Lia List DecimalString DecimalZ Decimal.
From Verif Require Import Prelude XmlModel XmlSchema XmlProofs XmlWrite XmlRead SpecXml.
Import ListNotations.
Local Open Scope string_scope.
Local Open Scope list_scope.

Definition zf (s : string) : option Z := option_map Z.of_int (NilZero.int_of_string s).
Definition zs (z : Z) : string := NilZero.string_of_int (Z.to_int z).

Lemma zf_zs z : zf (zs z) = Some z.
Proof.
  unfold zf, zs. rewrite NilZero.isi; [simpl; f_equal; apply DecimalZ.of_to| |];
    intros E; pose proof (f_equal Z.of_int E) as K; rewrite DecimalZ.of_to in K; simpl in K; subst z; discriminate E.
Qed.
Lemma uint_solid d : Forall (fun c => is_space c = false) (list_ascii_of_string (NilEmpty.string_of_uint d)).
Proof. induction d; simpl; constructor; (reflexivity || assumption). Qed.
Lemma zero_solid d : solid (NilZero.string_of_uint d).
Proof.
  split; [destruct d; discriminate|]. destruct d; try apply uint_solid. repeat constructor.
Qed.
Lemma zs_solid z : solid (zs z).
Proof.
  unfold zs. destruct (Z.to_int z) as [d|d]; simpl; [apply zero_solid|]. destruct (zero_solid d) as [_ F].
  split; [discriminate|]. constructor; [reflexivity | exact F].
Qed.

(** an element without text *)
Definition E (tag : string) (attrs : list (string * string)) (kids : list node) : node := Node tag attrs None kids.
(** an element with text only *)
Definition T (tag text : string) : node := Node tag [] (Some text) [].

Definition sample_urdf : node :=
  E "robot" [("name", "arm"); ("version", "1.0")]
    [ Comment;
      E "link" [("name", "base")] [];
      E "joint" [("type", "revolute"); ("name", "j")]
        [ E "limit" [("effort", "1"); ("velocity", "2"); ("lower", "-1")] [];
          E "parent" [("link", "base")] []; E "child" [("link", "tip")] [];
          E "axis" [("xyz", " 0 0  1 ")] []; E "origin" [("xyz", "0 0 3")] []; E "origin" [("xyz", "7 7 7")] [] ];
      E "gazebo" [("reference", "base")] [E "material" [] []];
      E "link" [("name", "tip")] [ E "visual" [] [E "geometry" [] [Comment; E "box" [("size", "1 2 3")] []]] ];
      E "sensor" [] [] ].
Definition sample_sdf : node :=
  let inertial := E "inertial" [] [T "mass" "1"; E "inertia" [] (map (fun k => T k "0") ["ixx"; "ixy"; "ixz"; "iyy"; "iyz"; "izz"])] in
  E "sdf" [("version", "1.6")]
    [ E "model" [("name", "arm")]
        [ E "link" [("name", "base")] [inertial];
          E "joint" [("name", "j"); ("type", "revolute")]
            [ T "parent" "base"; T "child" "tip"; E "axis" [] [T "xyz" "0 0 1"; T "use_parent_model_frame" "true"] ];
          E "link" [("name", "tip"); ("kinematic", "true")] [inertial; T "pose" "0 0 1 0 0 0"] ] ].
(** the field [k] of an object *)
Definition fld' (v : value Z) (k : string) : option (value Z) := match v with VObj _ fs _ => dget String.eqb k fs | _ => None end.
