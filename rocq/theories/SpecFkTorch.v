(** How the tensors of forward kinematics, the backward pass and the Jacobian stand for lists of matrices, vectors and numbers. *)
From Coq Require Import Reals Bool Arith List.
From Verif Require Import Prelude ExtF Lin RotModel TorchModel SpecTorch ChainModel.
Import ListNotations.
Local Open Scope nat_scope.

(** the rows of a joint tensor of shape (B, cols) *)
Definition rows_of (th : tensor R) (cols B : nat) : thT R := mkTh cols (map (fun b => map (fun j => at_ th [j; b]) (seq 0 cols)) (seq 0 B)).
(** a tensor of shape (n, 4, 4) or (n, 3) holds a list of matrices or vectors *)
Definition holds_m4 (t : tensor R) (l : list M4) : Prop := shape t = [4; 4; length l] /\ forall k M, nth_error l k = Some M -> m4_at t [k] = M.
Definition holds_v3 (t : tensor R) (l : list V3) : Prop := shape t = [3; length l] /\ forall k v, nth_error l k = Some v -> v_at t [k] = v.
(** a tensor of shape (J, L) holds a list of flags for each degree of freedom, as the numbers 0 and 1 *)
Definition maskv (m : bool) : R := if m then 1%R else 0%R.
Definition holds_mask (t : tensor R) (L : nat) (l : list (list bool)) : Prop := shape t = [L; length l] /\ forall j k m x, nth_error l j = Some m -> nth_error m k = Some x -> at_ t [k; j] = maskv x.
(** the matrices of a tensor of shape (L, B, 4, 4), by frame and row *)
Definition mats (t : tensor R) (L B : nat) : list (list M4) := map (fun f => map (fun b => m4_at t [b; f]) (seq 0 B)) (seq 0 L).
(** the column of degree of freedom [j] at row [b] of a tensor of shape (B, 6, ndof) *)
Definition col_at (t : tensor R) (b j : nat) : V3 * V3 := let a r := at_ t [j; r; b] in (mkV3 (a 0) (a 1) (a 2), mkV3 (a 3) (a 4) (a 5)).
(** a joint tensor with entry [j] of row [b] replaced *)
Definition put_at (th : tensor R) (j b : nat) (q : R) : tensor R := mkT (shape th) (fun i => match i with [x; y] => if (x =? j) && (y =? b) then q else at_ th i | _ => at_ th i end).
