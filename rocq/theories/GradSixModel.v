(** Back-propagation through the 6D representation: the tape, as in [GradModel]. *)
From Coq Require Import Reals Bool Arith List.
From Verif Require Import Prelude ExtF Lin RotModel MathModel GradModel.
Import ListNotations.
Local Open Scope R_scope.

(** [torch.nn.functional.normalize]: [x / x.norm(2, dim, keepdim=True).clamp_min(1e-12)] *)
Definition tape_normalize (x y z : nat) : rec (nat * nat * nat) :=
  let* n := node (ONorm x y z) in let* c := node (OClamp eps12 None n) in
  let* a := div x c in let* b := div y c in let* d := div z c in rret (a, b, d).
(** rotation_conversions.py:616-637 on one row of six numbers *)
Definition tape_rotation_6d_to_matrix : prog := record 6
  (let* b1 := tape_normalize 0 1 2 in let '(x1, y1, z1) := b1 in
   let* p := mul x1 3 in let* q := mul y1 4 in let* r := mul z1 5 in let* s := add p q in let* dot := add s r in
   let* fx := mul dot x1 in let* fy := mul dot y1 in let* fz := mul dot z1 in
   let* gx := sub 3 fx in let* gy := sub 4 fy in let* gz := sub 5 fz in
   let* b2 := tape_normalize gx gy gz in let '(x2, y2, z2) := b2 in
   let* a1 := mul y1 z2 in let* a2 := mul z1 y2 in let* x3 := sub a1 a2 in
   let* a3 := mul z1 x2 in let* a4 := mul x1 z2 in let* y3 := sub a3 a4 in
   let* a5 := mul x1 y2 in let* a6 := mul y1 x2 in let* z3 := sub a5 a6 in
   rret [x1; y1; z1; x2; y2; z2; x3; y3; z3]).
