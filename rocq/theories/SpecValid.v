(** Matrices of numbers, and how far they are from rotations. *)
From Coq Require Import Reals Bool Arith List.
From Verif Require Import Prelude ExtF Lin ValidModel.
Import ListNotations.
Local Open Scope R_scope.

Definition ent (A : M3) (i j : nat) : R :=
  match i, j with
  | 0, 0 => m00 A | 0, 1 => m01 A | 0, _ => m02 A
  | 1, 0 => m10 A | 1, 1 => m11 A | 1, _ => m12 A
  | _, 0 => m20 A | _, 1 => m21 A | _, _ => m22 A
  end%nat.
(** [M] holds the numbers [A] *)
Definition holds (M : FM) (A : M3) : Prop := forall i j, (i < 3)%nat -> (j < 3)%nat -> M i j = Fin (ent A i j).
(** all entries within [d] *)
Definition within (d : R) (A B : M3) : Prop := forall i j, (i < 3)%nat -> (j < 3)%nat -> Rabs (ent A i j - ent B i j) <= d.
