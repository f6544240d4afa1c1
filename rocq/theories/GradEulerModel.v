(** Back-propagation through the Euler angle conversions: the tapes, as in [GradModel].  The letters of the convention select the
    operations, so that there is one tape per convention. *)
From Coq Require Import Reals Bool Arith List String Ascii.
From Verif Require Import Prelude ExtF Lin RotModel MathModel GradModel.
Import ListNotations.
Local Open Scope R_scope.

(** nine positions, by rows *)
Definition nine : Type := (nat * nat * nat) * (nat * nat * nat) * (nat * nat * nat).
(** rotation_conversions.py:157-182 on one angle; the letter is one of X, Y, Z *)
Definition tape_axis_angle_rotation (axis : ascii) (angle : nat) : rec nine :=
  let* c := node (OCos angle) in let* s := node (OSin angle) in let* one := const 1 in let* zero := const 0 in let* m := node (ONeg s) in
  rret (if Ascii.eqb axis "X" then ((one, zero, zero), (zero, c, m), (zero, s, c))
        else if Ascii.eqb axis "Y" then ((c, zero, s), (zero, one, zero), (m, zero, c))
        else ((c, m, zero), (s, c, zero), (zero, zero, one))).
(** one entry, one row and all of a product; the sum goes from left to right *)
Definition tape_dot (r c : nat * nat * nat) : rec nat :=
  let '(a, b, d) := r in let '(x, y, z) := c in
  let* p := mul a x in let* q := mul b y in let* s := add p q in let* t := mul d z in add s t.
Definition columns (m : nine) : nine :=
  let '((a, b, c), (d, e, f), (g, h, i)) := m in ((a, d, g), (b, e, h), (c, f, i)).
Definition tape_row (r : nat * nat * nat) (cs : nine) : rec (nat * nat * nat) :=
  let '(c0, c1, c2) := cs in let* x := tape_dot r c0 in let* y := tape_dot r c1 in let* z := tape_dot r c2 in rret (x, y, z).
Definition tape_matmul (a b : nine) : rec nine :=
  let '(r0, r1, r2) := a in let cs := columns b in
  let* x := tape_row r0 cs in let* y := tape_row r1 cs in let* z := tape_row r2 cs in rret (x, y, z).
(** rotation_conversions.py:206-207 after the checks *)
Definition tape_euler_angles_to_matrix (a b c : ascii) : prog := record 3
  (let* ra := tape_axis_angle_rotation a 0 in let* rb := tape_axis_angle_rotation b 1 in let* rc := tape_axis_angle_rotation c 2 in
   let* ab := tape_matmul ra rb in let* m := tape_matmul ab rc in
   let '((m00, m01, m02), (m10, m11, m12), (m20, m21, m22)) := m in rret [m00; m01; m02; m10; m11; m12; m20; m21; m22]).

(** rotation_conversions.py:210-240; [data k] is the position of entry [k] of the row or column *)
Definition tape_angle_from_tan (axis other : ascii) (data : nat -> nat) (horizontal tait_bryan : bool) : rec nat :=
  let '(i1, i2) := if Ascii.eqb axis "X" then (2%nat, 1%nat) else if Ascii.eqb axis "Y" then (0%nat, 2%nat) else (1%nat, 0%nat) in
  let '(i1, i2) := if horizontal then (i2, i1) else (i1, i2) in
  let even := (Ascii.eqb axis "X" && Ascii.eqb other "Y") || (Ascii.eqb axis "Y" && Ascii.eqb other "Z")
              || (Ascii.eqb axis "Z" && Ascii.eqb other "X") in
  if Bool.eqb horizontal even then node (OAtan2 (data i1) (data i2))
  else if tait_bryan then let* n := node (ONeg (data i2)) in node (OAtan2 n (data i1))
  else let* n := node (ONeg (data i1)) in node (OAtan2 (data i2) n).
(** rotation_conversions.py:273-291; the nine entries are given by rows *)
Definition tape_matrix_to_euler_angles (a b c : ascii) : prog := record 9
  (let i0 := index_from_letter a in let i2 := index_from_letter c in let tait_bryan := negb (Nat.eqb i0 i2) in
   let* central := if tait_bryan
     then let* s := const (if Nat.eqb i2 (1 + i0) || Nat.eqb i0 (2 + i2) then -1 else 1) in let* x := mul (3 * i0 + i2) s in node (OAsin x)
     else node (OArccos (3 * i0 + i0)) in
   let* first := tape_angle_from_tan a b (fun k => 3 * k + i2)%nat false tait_bryan in
   let* last := tape_angle_from_tan c b (fun k => 3 * i0 + k)%nat true tait_bryan in
   rret [first; central; last]).
