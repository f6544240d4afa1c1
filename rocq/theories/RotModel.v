(** Model of transforms/rotation_conversions.py.

    Every function of this file works on the last one or two dimensions of its arguments and maps over the
    leading (batch) dimensions; the model is the function on one batch element.  Tensor elements are exact
    reals.  Where a division by zero is reachable the result is an extended value [F] (ExtF.v). *)
From Coq Require Import Reals Lra String Ascii Bool Arith List.
From Verif Require Import Prelude ExtF Lin Trig.
Import ListNotations.
Local Open Scope R_scope.

(** a 3-vector whose entries may be non-finite *)
Record F3 := mkF3 { f3x : F; f3y : F; f3z : F }.
Definition fin3 (v : V3) : F3 := mkF3 (Fin (vx v)) (Fin (vy v)) (Fin (vz v)).

(** the squared length and the scaling of a quaternion ([(q * q).sum(-1)], [k * q]) *)
Definition qnorm2 (q : Q) : R := qw q * qw q + qx q * qx q + qy q * qy q + qz q * qz q.
Definition qscale (k : R) (q : Q) : Q := mkQ (k * qw q) (k * qx q) (k * qy q) (k * qz q).
Definition qopp (q : Q) : Q := mkQ (- qw q) (- qx q) (- qy q) (- qz q).
Definition qvec (q : Q) : V3 := mkV3 (qx q) (qy q) (qz q).
Definition qdot (p q : Q) : R := qw p * qw q + qx p * qx q + qy p * qy q + qz p * qz q.
Definition qadd (p q : Q) : Q := mkQ (qw p + qw q) (qx p + qx q) (qy p + qy q) (qz p + qz q).
Definition qone : Q := mkQ 1 0 0 0.

(** rotation_conversions.py:36-37: (x, y, z, w) to (w, x, y, z).  The record fields are positions 0..3. *)
Definition xyzw_to_wxyz (q : V4) : Q := mkQ (v3 q) (v0 q) (v1 q) (v2 q).
(** rotation_conversions.py:40-41 *)
Definition wxyz_to_xyzw (q : Q) : V4 := mkV4 (qx q) (qy q) (qz q) (qw q).

(** rotation_conversions.py:44-72.  For the zero quaternion the code yields non-finite entries; this
    function is only meaningful when [qnorm2 q <> 0], and the theorems say so. *)
Definition quaternion_to_matrix (q : Q) : M3 :=
  let r := qw q in let i := qx q in let j := qy q in let k := qz q in
  let two_s := 2 / qnorm2 q in
  mkM3 (1 - two_s * (j * j + k * k)) (two_s * (i * j - k * r)) (two_s * (i * k + j * r))
       (two_s * (i * j + k * r)) (1 - two_s * (i * i + k * k)) (two_s * (j * k - i * r))
       (two_s * (i * k - j * r)) (two_s * (j * k + i * r)) (1 - two_s * (i * i + j * j)).

(** rotation_conversions.py:75-90 *)
Definition copysign (a b : R) : R :=
  if xorb (Rltb a 0) (Rltb b 0) then - a else a.

(** rotation_conversions.py:93-98 *)
Definition sqrt_positive_part (x : R) : R := sqrt (Rmax x 0).

(** rotation_conversions.py:116-126: the four candidate magnitudes *)
Definition q_abs (A : M3) (i : nat) : R :=
  match i with
  | 0%nat => sqrt_positive_part (1 + m00 A + m11 A + m22 A)
  | 1%nat => sqrt_positive_part (1 + m00 A - m11 A - m22 A)
  | 2%nat => sqrt_positive_part (1 - m00 A + m11 A - m22 A)
  | _ => sqrt_positive_part (1 - m00 A - m11 A + m22 A)
  end.
(** rotation_conversions.py:129-137: row [i] of [quat_by_rijk] *)
Definition quat_by_rijk (A : M3) (i : nat) : Q :=
  match i with
  | 0%nat => mkQ (q_abs A 0 * q_abs A 0) (m21 A - m12 A) (m02 A - m20 A) (m10 A - m01 A)
  | 1%nat => mkQ (m21 A - m12 A) (q_abs A 1 * q_abs A 1) (m10 A + m01 A) (m02 A + m20 A)
  | 2%nat => mkQ (m02 A - m20 A) (m10 A + m01 A) (q_abs A 2 * q_abs A 2) (m12 A + m21 A)
  | _ => mkQ (m10 A - m01 A) (m20 A + m02 A) (m21 A + m12 A) (q_abs A 3 * q_abs A 3)
  end.
(** rotation_conversions.py:141-142: floor at 0.1, then divide *)
Definition quat_candidate (A : M3) (i : nat) : Q :=
  qscale (/ (2 * Rmax (q_abs A i) (1 / 10))) (quat_by_rijk A i).
(** [argmax]: first index of a largest entry *)
Definition argmax4 (f : nat -> R) : nat :=
  let i1 := if Rltb (f 0%nat) (f 1%nat) then 1%nat else 0%nat in
  let i2 := if Rltb (f i1) (f 2%nat) then 2%nat else i1 in
  if Rltb (f i2) (f 3%nat) then 3%nat else i2.
(** rotation_conversions.py:101-154.  The check of the trailing shape (110-111) cannot fail here. *)
Definition matrix_to_quaternion (A : M3) : Q := quat_candidate A (argmax4 (q_abs A)).

(** rotation_conversions.py:157-182.  A letter other than X, Y, Z leaves [R_flat] unbound. *)
Definition axis_angle_rotation (axis : ascii) (t : R) : res M3 :=
  if Ascii.eqb axis "X" then Ok (mkM3 1 0 0 0 (cos t) (- sin t) 0 (sin t) (cos t))
  else if Ascii.eqb axis "Y" then Ok (mkM3 (cos t) 0 (sin t) 0 1 0 (- sin t) 0 (cos t))
  else if Ascii.eqb axis "Z" then Ok (mkM3 (cos t) (- sin t) 0 (sin t) (cos t) 0 0 0 1)
  else Err UnboundLocalError.

(** rotation_conversions.py:199-205, 264-270: the checks on a convention string, in order *)
Definition is_letter (c : ascii) : bool :=
  Ascii.eqb c "X" || Ascii.eqb c "Y" || Ascii.eqb c "Z".
Definition check_convention (s : string) : res (ascii * ascii * ascii) :=
  match s with
  | String a (String b (String c EmptyString)) =>
      if Ascii.eqb b a || Ascii.eqb b c then Err ValueError
      else if is_letter a && is_letter b && is_letter c then Ok (a, b, c)
      else Err ValueError
  | _ => Err ValueError
  end.

(** rotation_conversions.py:185-207.  The check of the trailing shape (197-198) cannot fail here.
    [functools.reduce(torch.matmul, ...)] is the left-associated product. *)
Definition euler_angles_to_matrix (e : V3) (convention : string) : res M3 :=
  do abc <- check_convention convention;
  let '(a, b, c) := abc in
  do ra <- axis_angle_rotation a (vx e);
  do rb <- axis_angle_rotation b (vy e);
  do rc <- axis_angle_rotation c (vz e);
  Ok (m3mul (m3mul ra rb) rc).

Definition v3get (v : V3) (i : nat) : R :=
  match i with 0%nat => vx v | 1%nat => vy v | _ => vz v end.
Definition m3row (A : M3) (i : nat) : V3 :=
  match i with
  | 0%nat => mkV3 (m00 A) (m01 A) (m02 A)
  | 1%nat => mkV3 (m10 A) (m11 A) (m12 A)
  | _ => mkV3 (m20 A) (m21 A) (m22 A)
  end.
Definition m3col (A : M3) (i : nat) : V3 := m3row (m3tr A) i.
Definition m3get (A : M3) (i j : nat) : R := v3get (m3row A i) j.

(** rotation_conversions.py:243-249; the Python [None] for another letter is unreachable after the checks
    and mapped to 2 here *)
Definition index_from_letter (c : ascii) : nat :=
  if Ascii.eqb c "X" then 0%nat else if Ascii.eqb c "Y" then 1%nat else 2%nat.

(** rotation_conversions.py:210-240; [data] is a row or a column of the matrix *)
Definition angle_from_tan (axis other : ascii) (data : V3) (horizontal tait_bryan : bool) : R :=
  let '(i1, i2) := if Ascii.eqb axis "X" then (2%nat, 1%nat)
                   else if Ascii.eqb axis "Y" then (0%nat, 2%nat) else (1%nat, 0%nat) in
  let '(i1, i2) := if horizontal then (i2, i1) else (i1, i2) in
  let even := (Ascii.eqb axis "X" && Ascii.eqb other "Y") || (Ascii.eqb axis "Y" && Ascii.eqb other "Z")
              || (Ascii.eqb axis "Z" && Ascii.eqb other "X") in
  if Bool.eqb horizontal even then atan2 (v3get data i1) (v3get data i2)
  else if tait_bryan then atan2 (- v3get data i2) (v3get data i1)
  else atan2 (v3get data i2) (- v3get data i1).

(** [torch.asin], [torch.acos] on finite arguments: NaN outside [-1, 1] *)
Definition tasin (x : R) : F := if Rleb (-1) x && Rleb x 1 then Fin (asin x) else NaN.
Definition tacos (x : R) : F := if Rleb (-1) x && Rleb x 1 then Fin (acos x) else NaN.

(** rotation_conversions.py:252-291 *)
Definition matrix_to_euler_angles (A : M3) (convention : string) : res F3 :=
  do abc <- check_convention convention;
  let '(a, b, c) := abc in
  let i0 := index_from_letter a in
  let i2 := index_from_letter c in
  let tait_bryan := negb (Nat.eqb i0 i2) in
  let central := if tait_bryan
    then tasin (m3get A i0 i2 * (if Nat.eqb i2 (1 + i0) || Nat.eqb i0 (2 + i2) then -1 else 1))
    else tacos (m3get A i0 i0) in
  Ok (mkF3 (Fin (angle_from_tan a b (m3col A i2) false tait_bryan))
           central
           (Fin (angle_from_tan c b (m3row A i0) true tait_bryan))).

(** rotation_conversions.py:294-315; [o] is one row of [torch.randn((n, 4))].  For the zero draw the code
    divides by zero; the theorems assume a non-zero draw. *)
Definition random_quaternion (o : Q) : Q :=
  qscale (/ copysign (sqrt (qnorm2 o)) (qw o)) o.
(** rotation_conversions.py:318-338 *)
Definition random_rotation (o : Q) : M3 := quaternion_to_matrix (random_quaternion o).

(** rotation_conversions.py:360-372 *)
Definition standardize_quaternion (q : Q) : Q := if Rltb (qw q) 0 then qopp q else q.

(** rotation_conversions.py:375-393 *)
Definition quaternion_raw_multiply (a b : Q) : Q :=
  mkQ (qw a * qw b - qx a * qx b - qy a * qy b - qz a * qz b)
      (qw a * qx b + qx a * qw b + qy a * qz b - qz a * qy b)
      (qw a * qy b - qx a * qz b + qy a * qw b + qz a * qx b)
      (qw a * qz b + qx a * qy b - qy a * qx b + qz a * qw b).
(** rotation_conversions.py:396-410 *)
Definition quaternion_multiply (a b : Q) : Q := standardize_quaternion (quaternion_raw_multiply a b).
(** rotation_conversions.py:413-426 *)
Definition quaternion_invert (q : Q) : Q := mkQ (qw q * 1) (qx q * -1) (qy q * -1) (qz q * -1).
(** rotation_conversions.py:429-449 *)
Definition quaternion_apply (q : Q) (p : V3) : V3 :=
  let pq := mkQ 0 (vx p) (vy p) (vz p) in
  qvec (quaternion_raw_multiply (quaternion_raw_multiply q pq) (quaternion_invert q)).

(** rotation_conversions.py:495-524 *)
Definition axis_and_angle_to_matrix_33 (k : V3) (theta : R) : M3 :=
  let c := cos theta in let o := 1 - c in let s := sin theta in
  let kx := vx k in let ky := vy k in let kz := vz k in
  mkM3 (c + kx * kx * o) (kx * ky * o - kz * s) (kx * kz * o + ky * s)
       (ky * kx * o + kz * s) (c + ky * ky * o) (ky * kz * o - kx * s)
       (kz * kx * o - ky * s) (kz * ky * o + kx * s) (c + kz * kz * o).
(** rotation_conversions.py:475-492 *)
Definition axis_and_angle_to_matrix_44 (k : V3) (theta : R) : M4 :=
  let r := axis_and_angle_to_matrix_33 k theta in
  mkM4 (m00 r) (m01 r) (m02 r) 0 (m10 r) (m11 r) (m12 r) 0 (m20 r) (m21 r) (m22 r) 0 0 0 0 1.
(** rotation_conversions.py:452-472 *)
Definition axis_and_d_to_pris_matrix (k : V3) (d : R) : M4 :=
  mkM4 1 0 0 (vx k * d) 0 1 0 (vy k * d) 0 0 1 (vz k * d) 0 0 0 1.

(** rotation_conversions.py:574-583, 603-611: [sin(x/2)/x] with the Taylor polynomial below 1e-6 *)
Definition eps6 : R := / 1000000.
Definition sin_half_over (half angle : R) : R :=
  if Rltb (Rabs angle) eps6 then / 2 - angle * angle / 48 else sin half / angle.
(** rotation_conversions.py:563-587 *)
Definition axis_angle_to_quaternion (v : V3) : Q :=
  let angle := vnorm v in
  let half := / 2 * angle in
  let s := sin_half_over half angle in
  mkQ (cos half) (vx v * s) (vy v * s) (vz v * s).
(** rotation_conversions.py:590-613 *)
Definition quaternion_to_axis_angle (q : Q) : F3 :=
  let n := vnorm (qvec q) in
  let half := atan2 n (qw q) in
  let angle := 2 * half in
  let s := sin_half_over half angle in
  mkF3 (fdivr (Fin (qx q)) s) (fdivr (Fin (qy q)) s) (fdivr (Fin (qz q)) s).
(** rotation_conversions.py:527-544 *)
Definition axis_angle_to_matrix (v : V3) : M3 := quaternion_to_matrix (axis_angle_to_quaternion v).
(** rotation_conversions.py:547-560 *)
Definition matrix_to_axis_angle (A : M3) : F3 := quaternion_to_axis_angle (matrix_to_quaternion A).

(** [torch.nn.functional.normalize]: divide by [max(norm, 1e-12)] *)
Definition eps12 : R := / 1000000000000.
Definition normalize (v : V3) : V3 := vscale (/ Rmax (vnorm v) eps12) v.
(** rotation_conversions.py:616-637; the input row is the pair (first three, last three) *)
Definition rotation_6d_to_matrix (a1 a2 : V3) : M3 :=
  let b1 := normalize a1 in
  let b2 := normalize (vsub a2 (vscale (vdot b1 a2) b1)) in
  let b3 := vcross b1 b2 in
  mkM3 (vx b1) (vy b1) (vz b1) (vx b2) (vy b2) (vz b2) (vx b3) (vy b3) (vz b3).
(** rotation_conversions.py:640-655 *)
Definition matrix_to_rotation_6d (A : M3) : V3 * V3 := (m3row A 0, m3row A 1).
(** rotation_conversions.py:658-661 *)
Definition matrix44_to_se3_9d (A : M4) : V3 * V3 * V3 := (matrix_to_rotation_6d (rotp A), trp A).
(** rotation_conversions.py:664-670 *)
Definition se3_9d_to_matrix44 (x : V3 * V3 * V3) : M4 :=
  let '(a1, a2, t) := x in aff (rotation_6d_to_matrix a1 a2) t.
(** rotation_conversions.py:673-678 *)
Definition matrix_to_pos_rot (A : M4) : V3 * V4 :=
  (trp A, wxyz_to_xyzw (matrix_to_quaternion (rotp A))).
(** rotation_conversions.py:681-687 *)
Definition pos_rot_to_matrix (pos : V3) (rot : V4) : M4 :=
  aff (quaternion_to_matrix (xyzw_to_wxyz rot)) pos.

(** rotation_conversions.py:694-719: the table [_AXES2TUPLE] *)
Definition axes_table : list (string * (nat * nat * nat * nat)) :=
  [("sxyz", (0, 0, 0, 0)); ("sxyx", (0, 0, 1, 0)); ("sxzy", (0, 1, 0, 0)); ("sxzx", (0, 1, 1, 0));
   ("syzx", (1, 0, 0, 0)); ("syzy", (1, 0, 1, 0)); ("syxz", (1, 1, 0, 0)); ("syxy", (1, 1, 1, 0));
   ("szxy", (2, 0, 0, 0)); ("szxz", (2, 0, 1, 0)); ("szyx", (2, 1, 0, 0)); ("szyz", (2, 1, 1, 0));
   ("rzyx", (0, 0, 0, 1)); ("rxyx", (0, 0, 1, 1)); ("ryzx", (0, 1, 0, 1)); ("rxzx", (0, 1, 1, 1));
   ("rxzy", (1, 0, 0, 1)); ("ryzy", (1, 0, 1, 1)); ("rzxy", (1, 1, 0, 1)); ("ryxy", (1, 1, 1, 1));
   ("ryxz", (2, 0, 0, 1)); ("rzxz", (2, 0, 1, 1)); ("rxyz", (2, 1, 0, 1)); ("rzyz", (2, 1, 1, 1))]%string%nat.
(** [str.lower()] on ASCII *)
Definition lower_ascii (c : ascii) : ascii :=
  let n := nat_of_ascii c in
  if (65 <=? n)%nat && (n <=? 90)%nat then ascii_of_nat (n + 32) else c.
Fixpoint lower (s : string) : string :=
  match s with EmptyString => EmptyString | String c r => String (lower_ascii c) (lower r) end.
(** the axes argument: a string or an encoded tuple *)
Inductive axes_arg := AxStr (s : string) | AxTup (t : nat * nat * nat * nat).
Definition tup_eqb (a b : nat * nat * nat * nat) : bool :=
  let '(a1, a2, a3, a4) := a in let '(b1, b2, b3, b4) := b in
  Nat.eqb a1 b1 && Nat.eqb a2 b2 && Nat.eqb a3 b3 && Nat.eqb a4 b4.
(** rotation_conversions.py:733-737: a string not in the table is looked up again in [_TUPLE2AXES] and
    raises KeyError there *)
Definition decode_axes (a : axes_arg) : res (nat * nat * nat * nat) :=
  match a with
  | AxStr s => of_opt KeyError (dget String.eqb (lower s) axes_table)
  | AxTup t => if existsb (tup_eqb t) (map snd axes_table) then Ok t else Err KeyError
  end.
Definition next_axis (i : nat) : nat := nth i [1; 2; 0; 1]%nat 0%nat.
Definition qset (i : nat) (r : R) (q : Q) : Q :=
  match i with
  | 0%nat => mkQ r (qx q) (qy q) (qz q)
  | 1%nat => mkQ (qw q) r (qy q) (qz q)
  | 2%nat => mkQ (qw q) (qx q) r (qz q)
  | _ => mkQ (qw q) (qx q) (qy q) r
  end.
Definition qget (i : nat) (q : Q) : R :=
  match i with 0%nat => qw q | 1%nat => qx q | 2%nat => qy q | _ => qz q end.
(** rotation_conversions.py:724-777.  [torch.unbind] returns views of [rpy], so the in-place divisions
    [ai /= 2.0] etc. write to the caller's tensor; [aj = -aj] makes a copy first.  Returns the quaternion
    and the caller's tensor after the call. *)
Definition quaternion_from_euler (rpy : V3) (axes : axes_arg) : res (Q * V3) :=
  do t <- decode_axes axes;
  let '(firstaxis, parity, repetition, frame) := t in
  let i := (firstaxis + 1)%nat in
  let j := (next_axis (i + parity - 1) + 1)%nat in
  let k := (next_axis (i - parity) + 1)%nat in
  let '(ai0, ak0) := if Nat.eqb frame 1 then (vz rpy, vx rpy) else (vx rpy, vz rpy) in
  let aj0 := if Nat.eqb parity 1 then - vy rpy else vy rpy in
  let ai := ai0 / 2 in let aj := aj0 / 2 in let ak := ak0 / 2 in
  let rpy' := mkV3 (vx rpy / 2) (if Nat.eqb parity 1 then vy rpy else vy rpy / 2) (vz rpy / 2) in
  let ci := cos ai in let si := sin ai in let cj := cos aj in let sj := sin aj in
  let ck := cos ak in let sk := sin ak in
  let cc := ci * ck in let cs := ci * sk in let sc := si * ck in let ss := si * sk in
  let q0 := mkQ 0 0 0 0 in
  let q := if Nat.eqb repetition 1
    then qset k (sj * (cs - sc)) (qset j (sj * (cc + ss)) (qset i (cj * (cs + sc)) (qset 0 (cj * (cc - ss)) q0)))
    else qset k (cj * cs - sj * sc) (qset j (cj * ss + sj * cc)
           (qset i (cj * sc - sj * cs) (qset 0 (cj * cc + sj * ss) q0))) in
  let q := if Nat.eqb parity 1 then qset j (qget j q * -1) q else q in
  Ok (q, rpy').
