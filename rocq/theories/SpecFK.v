(** What forward kinematics should compute, stated on the tree alone (no index tables). *)
From Coq Require Import String Bool Arith Lia List Permutation.
From Verif Require Import Prelude ExtF Tree ChainModel.
Import ListNotations.

Section Spec.
Context {T A S : Type}.
Notation frame := (frame T A).
Notation joint := (joint T A).

(** all frames, depth first *)
Fixpoint preorder (f : frame) : list frame :=
  match f with Frame _ _ _ cs => f :: flat_map preorder cs end.

(** the list of frames from the root down to a frame, both included *)
Inductive root_path : frame -> list frame -> Prop :=
| rp_here f : root_path f [f]
| rp_child f c fs : In c (f_children f) -> root_path c fs -> root_path f (f :: fs).

Definition moving (f : frame) : bool :=
  match j_type (f_joint f) with Fixed => false | _ => true end.

(** names of the moving joints, depth first *)
Definition moving_names (root : frame) : list (option string) :=
  map (fun f => j_name (f_joint f)) (filter moving (preorder root)).

(** distinct moving-joint names; distinct frame names *)
Definition distinct_joints (root : frame) : Prop := NoDup (moving_names root).
Definition distinct_frames (root : frame) : Prop := NoDup (map f_name (preorder root)).
(** no frame name starts or ends with a newline *)
Definition clean_names (root : frame) : Prop :=
  forall f, In f (preorder root) -> strip_nl (f_name f) = f_name f.

(** A configuration gives a value to each joint name. *)
Definition config := option string -> S.

Variable O : Ops T A S.

(** the transform of a frame relative to its parent: link offset, joint offset, joint motion *)
Definition or_one (o : option T) : T := match o with Some m => m | None => t_one O end.
Definition joint_motion (v : config) (j : joint) : T :=
  match j_type j with
  | Fixed => t_one O
  | Revolute => t_rev O (j_axis j) (v (j_name j))
  | Prismatic => t_pris O (j_axis j) (v (j_name j))
  end.
Definition rel_pose (v : config) (f : frame) : T :=
  t_mul O (t_mul O (or_one (l_off (f_link f))) (or_one (j_off (f_joint f))))
          (joint_motion v (f_joint f)).

(** ordered product along a path *)
Definition path_pose (v : config) (fs : list frame) : T :=
  fold_left (fun acc f => t_mul O acc (rel_pose v f)) fs (t_one O).

(** the joint tensor whose rows are the given configurations, columns in depth-first joint order *)
Definition config_tensor (root : frame) (vs : list config) : thT S :=
  mkTh (length (moving_names root)) (map (fun v => map v (moving_names root)) vs).

(** the algebraic laws of the transforms *)
Record MonoidLaws : Prop := mkLaws {
  law_assoc : forall a b c, t_mul O a (t_mul O b c) = t_mul O (t_mul O a b) c;
  law_1_l : forall a, t_mul O (t_one O) a = a;
  law_1_r : forall a, t_mul O a (t_one O) = a }.
End Spec.
