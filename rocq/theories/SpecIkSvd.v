(** Vocabulary for the statements about the step by singular values on tensors. *)
From Coq Require Import Reals Bool Arith List.
From Verif Require Import Prelude TorchModel SpecIkTorch.
Import ListNotations.
Local Open Scope nat_scope.

Definition delta (i j : nat) : R := if i =? j then 1%R else 0%R.
(** the full singular value decomposition of a batch of [B] matrices of size 6 x n: orthogonal factors and at most six values each *)
Definition decomposes (n B : nat) (A : tensor R) (x : tensor R * tensor R * tensor R) : Prop :=
  let '(U, D, Vh) := x in
  shape U = [6; 6; B] /\ shape D = [Nat.min 6 n; B] /\ shape Vh = [n; n; B] /\
  forall r, r < B ->
    (forall k l, k < 6 -> l < 6 -> total 6 (fun i => Rmult (at_ U [k; i; r]) (at_ U [l; i; r])) = delta k l) /\
    (forall i l, i < 6 -> l < 6 -> total 6 (fun k => Rmult (at_ U [k; i; r]) (at_ U [k; l; r])) = delta i l) /\
    (forall k l, k < n -> l < n -> total n (fun j => Rmult (at_ Vh [j; k; r]) (at_ Vh [j; l; r])) = delta k l) /\
    (forall i j, i < 6 -> j < n -> at_ A [j; i; r] = total (Nat.min 6 n) (fun k => Rmult (Rmult (at_ U [k; i; r]) (at_ D [k; r])) (at_ Vh [j; k; r]))).
(** [A] is the batch of Jacobians [J] with the rows weighted *)
Definition weighted (n B : nat) (w : option (tensor R)) (J A : tensor R) : Prop :=
  shape A = [n; 6; B] /\ forall i j r, i < 6 -> j < n -> r < B -> at_ A [j; i; r] = Rmult (weight_at w i) (at_ J [j; i; r]).
