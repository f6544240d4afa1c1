(** What it means that back-propagation through a conversion is right. *)
From Coq Require Import Reals List.
From Coquelicot Require Import Coquelicot.
From Verif Require Import Prelude ExtF Lin RotModel MathModel GradModel.
Import ListNotations.
Local Open Scope R_scope.

Fixpoint dotl (a b : list R) : R := match a, b with x :: a, y :: b => x * y + dotl a b | _, _ => 0 end.
(** the point [x + t d] *)
Fixpoint moved (x d : list R) (t : R) : list R := match x, d with a :: x, b :: d => a + t * b :: moved x d t | _, _ => [] end.
(** [g] is the gradient at [x] of the scalar [cot . f]: the derivative in every direction is its product with the direction *)
Definition is_gradient (f : list R -> list R) (x cot g : list R) : Prop :=
  length g = length x /\ forall d, length d = length x -> is_derive (fun t => dotl cot (f (moved x d t))) 0 (dotl g d).
(** at [x] the tape computes [f], and for all cotangents its backward pass leaves the gradient of [f] in the inputs *)
Definition differentiates (old : bool) (p : prog) (f : list R -> list R) (x : list R) : Prop :=
  outputs p (map Fin x) = map Fin (f x) /\
  forall cot, exists g, gradient old p (map Fin x) (map Fin cot) = map Fin g /\ is_gradient f x cot g.

(** ** The conversions as functions on rows of numbers *)
Definition m3_list (A : M3) : list R := [m00 A; m01 A; m02 A; m10 A; m11 A; m12 A; m20 A; m21 A; m22 A].
Definition list_m3 (l : list R) : M3 := let v k := nth k l 0 in mkM3 (v 0%nat) (v 1%nat) (v 2%nat) (v 3%nat) (v 4%nat) (v 5%nat) (v 6%nat) (v 7%nat) (v 8%nat).
Definition q_list (q : Q) : list R := [qw q; qx q; qy q; qz q].
Definition v_list (v : V3) : list R := [vx v; vy v; vz v].
Definition list_v (l : list R) : V3 := mkV3 (nth 0 l 0) (nth 1 l 0) (nth 2 l 0).
Definition list_q (l : list R) : Q := mkQ (nth 0 l 0) (nth 1 l 0) (nth 2 l 0) (nth 3 l 0).
Definition fin (a : F) : R := match a with Fin r => r | _ => 0 end.
Definition q2m_list (l : list R) : list R := m3_list (quaternion_to_matrix (list_q l)).
Definition a2q_list (l : list R) : list R := q_list (axis_angle_to_quaternion (list_v l)).
Definition q2a_list (l : list R) : list R := let r := quaternion_to_axis_angle (list_q l) in [fin (f3x r); fin (f3y r); fin (f3z r)].
Definition m2q_list (l : list R) : list R := q_list (matrix_to_quaternion (list_m3 l)).
Definition exp_list (eps : R) (l : list R) : list R := m3_list (so3_exp_map eps (list_v l)).
Definition log_listf (eps : R) (l : list R) : list R := match so3_log_map [list_m3 l] eps with Ok [v] => v_list v | _ => [] end.
Definition pair_of (l : list R) : Q * Q := (list_q l, list_q (skipn 4 l)).
Definition dist_list (l : list R) : list R := quaternion_angular_distance [pair_of l].
(** what the four roots of [matrix_to_quaternion] are taken of: for a rotation, four times the squares of the quaternion's components *)
Definition diag4 (A : M3) (k : nat) : R :=
  match k with
  | 0%nat => 1 + m00 A + m11 A + m22 A | 1%nat => 1 + m00 A - m11 A - m22 A | 2%nat => 1 - m00 A + m11 A - m22 A | _ => 1 - m00 A - m11 A + m22 A
  end.
