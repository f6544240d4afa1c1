(** The operations of forward kinematics in rounded arithmetic. *)
From Coq Require Import Reals Lra String Bool Arith List Permutation.
From Verif Require Import Prelude ExtF Tree ChainModel Lin RotModel.
Import ListNotations.
Local Open Scope R_scope.

(** One entry of a matrix product is a sum of four products.  The code writes [@] (chain.py:82, :91, :321) and leaves
    the order of the sum to the library, so it is a parameter: a tree whose leaves are the products, with the roundings
    at its nodes; a fused multiply-add rounds a product and a sum together. *)
Inductive stree := Prod (k : nat) | Plus (l r : stree) | Fma (k : nat) (t : stree).
Fixpoint s_leaves (t : stree) : list nat :=
  match t with Prod k => [k] | Plus l r => s_leaves l ++ s_leaves r | Fma k t => k :: s_leaves t end.
(** every product is summed exactly once *)
Definition s_full (t : stree) : Prop := Permutation (s_leaves t) [0; 1; 2; 3]%nat.
(** from left to right *)
Definition s_left : stree := Plus (Plus (Plus (Prod 0) (Prod 1)) (Prod 2)) (Prod 3).

Definition row4 (i : nat) (A : M4) (k : nat) : R :=
  match i, k with
  | 0, 0 => a00 A | 0, 1 => a01 A | 0, 2 => a02 A | 0, _ => a03 A
  | 1, 0 => a10 A | 1, 1 => a11 A | 1, 2 => a12 A | 1, _ => a13 A
  | 2, 0 => a20 A | 2, 1 => a21 A | 2, 2 => a22 A | 2, _ => a23 A
  | _, 0 => a30 A | _, 1 => a31 A | _, 2 => a32 A | _, _ => a33 A
  end%nat.
Definition col4 (j : nat) (B : M4) (k : nat) : R := row4 k B j.

Section Fl.
(** rounding of one operation, and the library's cosine and sine *)
Variables (rnd fcos fsin : R -> R).
Definition fmul (x y : R) : R := rnd (x * y).
Definition fadd (x y : R) : R := rnd (x + y).
Definition fsub (x y : R) : R := rnd (x - y).

Fixpoint s_eval (p : nat -> R) (t : stree) : R :=
  match t with Prod k => rnd (p k) | Plus l r => fadd (s_eval p l) (s_eval p r) | Fma k t => rnd (p k + s_eval p t) end.

(** chain.py:82, :91, :321 [@]; the order may differ from entry to entry *)
Definition fl_matmul (st : nat -> nat -> stree) (A B : M4) : M4 :=
  let e i j := s_eval (fun k => row4 i A k * col4 j B k) (st i j) in
  mkM4 (e 0 0)%nat (e 0 1)%nat (e 0 2)%nat (e 0 3)%nat (e 1 0)%nat (e 1 1)%nat (e 1 2)%nat (e 1 3)%nat
       (e 2 0)%nat (e 2 1)%nat (e 2 2)%nat (e 2 3)%nat (e 3 0)%nat (e 3 1)%nat (e 3 2)%nat (e 3 3)%nat.

(** rotation_conversions.py:508-524, one rounding per operation in the order written *)
Definition fl_rot33 (k : V3) (theta : R) : M3 :=
  let c := fcos theta in let o := fsub 1 c in let s := fsin theta in
  let kx := vx k in let ky := vy k in let kz := vz k in
  mkM3 (fadd c (fmul (fmul kx kx) o)) (fsub (fmul (fmul kx ky) o) (fmul kz s)) (fadd (fmul (fmul kx kz) o) (fmul ky s))
       (fadd (fmul (fmul ky kx) o) (fmul kz s)) (fadd c (fmul (fmul ky ky) o)) (fsub (fmul (fmul ky kz) o) (fmul kx s))
       (fsub (fmul (fmul kz kx) o) (fmul ky s)) (fadd (fmul (fmul kz ky) o) (fmul kx s)) (fadd c (fmul (fmul kz kz) o)).
(** rotation_conversions.py:475-492: copied into an identity matrix, no arithmetic *)
Definition fl_rot44 (k : V3) (theta : R) : M4 := aff (fl_rot33 k theta) vzero.
(** rotation_conversions.py:452-472: one product per component *)
Definition fl_pris (k : V3) (d : R) : M4 := aff I3 (mkV3 (fmul (vx k) d) (fmul (vy k) d) (fmul (vz k) d)).

Definition fl_ops (st : nat -> nat -> stree) : Ops M4 V3 R := mkOps M4 V3 R (fl_matmul st) I4 fl_rot44 fl_pris vzero.
End Fl.
