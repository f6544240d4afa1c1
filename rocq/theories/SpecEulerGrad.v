(** The 6D and Euler angle conversions as functions on rows of numbers, for the statements about their gradients. *)
From Coq Require Import Reals List String.
From Verif Require Import Prelude ExtF Lin RotModel SpecGrad.
Import ListNotations.
Local Open Scope R_scope.

Definition six_list (l : list R) : list R := m3_list (rotation_6d_to_matrix (list_v l) (list_v (skipn 3 l))).
(** the part of [a2] at right angles to [a1] *)
Definition perp (a1 a2 : V3) : V3 := vsub a2 (vscale (vdot a1 a2 / vdot a1 a1) a1).
Definition e2m_list (s : string) (l : list R) : list R := match euler_angles_to_matrix (list_v l) s with Ok A => m3_list A | Err _ => [] end.
Definition m2e_list (s : string) (l : list R) : list R :=
  match matrix_to_euler_angles (list_m3 l) s with Ok e => [fin (f3x e); fin (f3y e); fin (f3z e)] | Err _ => [] end.
(** the entries of row [i] and of column [j] other than the one where they meet *)
Definition in_cross (i j k : nat) : bool := (Nat.eqb (k / 3) i || Nat.eqb (k mod 3) j) && negb (Nat.eqb k (3 * i + j)).
(** infinite or NaN *)
Definition unbounded (x : F) : Prop := match x with Fin _ => False | _ => True end.
