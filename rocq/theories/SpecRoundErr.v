(** What it means for the pose error of the solver to be close to the true one. *)
From Coq Require Import Reals Lra Bool Arith List.
From Verif Require Import Prelude Lin Trig RotModel RotBasic SpecRound.
Local Open Scope R_scope.

(** library functions with relative error [t], on the arguments that occur: the half angle of a quaternion with non-negative real part *)
Definition half_within (t : R) (fsin : R -> R) (fatan2 : R -> R -> R) : Prop :=
  (forall x, 0 <= x <= 2 -> Rabs (fsin x - sin x) <= t * sin x) /\
  (forall y x, 0 <= y -> 0 <= x -> Rabs (fatan2 y x - atan2 y x) <= t * atan2 y x).

(** [a] is the angle of the rotation that takes [A] to [B] *)
Definition turn (A B : M3) (a : R) : Prop := 0 <= a <= PI /\ trace3 (m3mul B (m3tr A)) = 1 + 2 * cos a.
