(** transforms/rotation_conversions.py on tensors of any shape, operation by operation; [RotModel] is the same on one row. *)
From Coq Require Import Reals Bool Arith List String Ascii.
From Verif Require Import Prelude ExtF Lin Trig RotModel TorchModel.
Import ListNotations.
Declare Scope ten_scope.
Delimit Scope ten_scope with T.
Infix "+" := (op2 Rplus) : ten_scope.
Infix "-" := (op2 Rminus) : ten_scope.
Infix "*" := (op2 Rmult) : ten_scope.
Infix "/" := (op2 Rdiv) : ten_scope.
Notation "- a" := (op1 Ropp a) : ten_scope.
Local Open Scope nat_scope.
Definition one : ten R := num 1.
Definition two : ten R := num 2.

(** rotation_conversions.py:36-41 *)
Definition xyzw_to_wxyz_t (q : ten R) : ten R := cat (unsqueeze (sel_end q)) (slice 0 3 q).
Definition wxyz_to_xyzw_t (q : ten R) : ten R := cat (from 1 q) (unsqueeze (sel 0 q)).

(** rotation_conversions.py:44-72 *)
Definition quaternion_to_matrix_t (q : ten R) : ten R :=
  let r := unb 4 0 q in let i := unb 4 1 q in let j := unb 4 2 q in let k := unb 4 3 q in
  let two_s := (two / sum_last (q * q))%T in
  let o := stack [(one - two_s * (j * j + k * k))%T; (two_s * (i * j - k * r))%T; (two_s * (i * k + j * r))%T;
                  (two_s * (i * j + k * r))%T; (one - two_s * (i * i + k * k))%T; (two_s * (j * k - i * r))%T;
                  (two_s * (i * k - j * r))%T; (two_s * (j * k + i * r))%T; (one - two_s * (i * i + j * j))%T] in
  do t <- q; reshape (3 :: 3 :: tl (shape t)) o.

(** [matrix.size(-1) != 3 or matrix.size(-2) != 3] raising ValueError; on fewer than two dimensions [size] raises *)
Definition check33 (e : ten R) : res (list nat) :=
  do t <- e;
  match shape t with
  | c :: s => if negb (c =? 3) then Err ValueError else match s with r :: b => if r =? 3 then Ok b else Err ValueError | [] => Err IndexError end
  | [] => Err IndexError
  end.
(** rotation_conversions.py:101-154, with 93-98 *)
Definition matrix_to_quaternion_t (matrix : ten R) : ten R :=
  do batch <- check33 matrix;
  let m := reshape (9 :: batch) matrix in
  let m00 := unb 9 0 m in let m01 := unb 9 1 m in let m02 := unb 9 2 m in
  let m10 := unb 9 3 m in let m11 := unb 9 4 m in let m12 := unb 9 5 m in
  let m20 := unb 9 6 m in let m21 := unb 9 7 m in let m22 := unb 9 8 m in
  let q_abs := op1 sqrt (op1 (fun x => Rmax x 0) (stack
    [(one + m00 + m11 + m22)%T; (one + m00 - m11 - m22)%T; (one - m00 + m11 - m22)%T; (one - m00 - m11 + m22)%T])) in
  let sq k := op1 (fun x => Rmult x x) (sel k q_abs) in
  let quat_by_rijk := stack2
    [stack [sq 0; (m21 - m12)%T; (m02 - m20)%T; (m10 - m01)%T];
     stack [(m21 - m12)%T; sq 1; (m10 + m01)%T; (m02 + m20)%T];
     stack [(m02 - m20)%T; (m10 + m01)%T; sq 2; (m12 + m21)%T];
     stack [(m10 - m01)%T; (m20 + m02)%T; (m21 + m12)%T; sq 3]] in
  let flr := num (1 / 10) in
  let quat_candidates := (quat_by_rijk / (two * op2 Rmax (unsqueeze q_abs) flr))%T in
  let idx := expand (4 :: 1 :: batch) (unsqueeze (unsqueeze (argmax_last q_abs))) in
  squeeze2 (gather2 quat_candidates idx).

(** rotation_conversions.py:157-182 *)
Definition axis_angle_rotation_t (axis : ascii) (angle : ten R) : ten R :=
  let c := op1 cos angle in let s := op1 sin angle in
  let o := op1 (fun _ => 1%R) angle in let z := op1 (fun _ => 0%R) angle in
  do flat <- (if Ascii.eqb axis "X" then Ok [o; z; z; z; c; (- s)%T; z; s; c]
              else if Ascii.eqb axis "Y" then Ok [c; z; s; z; o; z; (- s)%T; z; c]
              else if Ascii.eqb axis "Z" then Ok [c; (- s)%T; z; s; c; z; z; z; o] else Err UnboundLocalError);
  do t <- angle; reshape (3 :: 3 :: shape t) (stack flat).
(** rotation_conversions.py:185-207 *)
Definition euler_angles_to_matrix_t (e : ten R) (convention : string) : ten R :=
  do t <- e;
  if match shape t with n :: _ => negb (n =? 3) | [] => true end then Err ValueError else
  do abc <- check_convention convention;
  let '(a, b, c) := abc in
  matmul (matmul (axis_angle_rotation_t a (unb 3 0 e)) (axis_angle_rotation_t b (unb 3 1 e))) (axis_angle_rotation_t c (unb 3 2 e)).
(** rotation_conversions.py:210-240 *)
Definition angle_from_tan_t (axis other : ascii) (data : ten R) (horizontal tait_bryan : bool) : ten R :=
  let '(i1, i2) := if Ascii.eqb axis "X" then (2, 1) else if Ascii.eqb axis "Y" then (0, 2) else (1, 0) in
  let '(i1, i2) := if horizontal then (i2, i1) else (i1, i2) in
  let even := (Ascii.eqb axis "X" && Ascii.eqb other "Y") || (Ascii.eqb axis "Y" && Ascii.eqb other "Z")
              || (Ascii.eqb axis "Z" && Ascii.eqb other "X") in
  if Bool.eqb horizontal even then op2 atan2 (sel i1 data) (sel i2 data)
  else if tait_bryan then op2 atan2 (- sel i2 data)%T (sel i1 data)
  else op2 atan2 (sel i2 data) (- sel i1 data)%T.
(** rotation_conversions.py:252-291 *)
Definition matrix_to_euler_angles_t (matrix : ten R) (convention : string) : ten F :=
  do abc <- check_convention convention;
  let '(a, b, c) := abc in
  do _ <- check33 matrix;
  let i0 := index_from_letter a in let i2 := index_from_letter c in let tait_bryan := negb (i0 =? i2) in
  let central := if tait_bryan
    then op1 tasin (sel i2 (sel2 i0 matrix) * num (if (i2 =? 1 + i0) || (i0 =? 2 + i2) then -1 else 1))%T
    else op1 tacos (sel i0 (sel2 i0 matrix)) in
  stack [op1 Fin (angle_from_tan_t a b (sel i2 matrix) false tait_bryan); central;
         op1 Fin (angle_from_tan_t c b (sel2 i0 matrix) true tait_bryan)].

(** rotation_conversions.py:294-315 after the draw, with 75-90 *)
Definition random_quaternions_t (o : ten R) : ten R :=
  let s := sum_last (o * o)%T in
  let d := op2 copysign (op1 sqrt s) (sel 0 o) in (o / unsqueeze d)%T.
(** rotation_conversions.py:360-372 *)
Definition standardize_quaternion_t (q : ten R) : ten R := where_ (op1 (fun x => Rltb x 0) (slice 0 1 q)) (- q)%T q.
(** rotation_conversions.py:375-393 *)
Definition quaternion_raw_multiply_t (a b : ten R) : ten R :=
  let aw := unb 4 0 a in let ax := unb 4 1 a in let ay := unb 4 2 a in let az := unb 4 3 a in
  let bw := unb 4 0 b in let bx := unb 4 1 b in let by_ := unb 4 2 b in let bz := unb 4 3 b in
  stack [(aw * bw - ax * bx - ay * by_ - az * bz)%T; (aw * bx + ax * bw + ay * bz - az * by_)%T;
         (aw * by_ - ax * bz + ay * bw + az * bx)%T; (aw * bz + ax * by_ - ay * bx + az * bw)%T].
(** rotation_conversions.py:396-410 *)
Definition quaternion_multiply_t (a b : ten R) : ten R := standardize_quaternion_t (quaternion_raw_multiply_t a b).
(** rotation_conversions.py:413-426 *)
Definition quaternion_invert_t (q : ten R) : ten R := (q * Ok (mkT [4] (fun i => if hd 0 i =? 0 then 1%R else (-1)%R)))%T.
(** rotation_conversions.py:429-449 *)
Definition quaternion_apply_t (q point : ten R) : ten R :=
  do p <- point;
  match shape p with
  | 3 :: s =>
      let pq := cat (full (1 :: s) 0%R) point in
      from 1 (quaternion_raw_multiply_t (quaternion_raw_multiply_t q pq) (quaternion_invert_t q))
  | [] => Err IndexError
  | _ => Err ValueError
  end.
(** rotation_conversions.py:452-472 *)
Definition axis_and_d_to_pris_matrix_t (axis d : ten R) : ten R :=
  do a <- axis;
  let pos := (axis * unsqueeze d)%T in
  let m := full (4 :: 4 :: tl (shape a)) 0%R in
  let m := put (cell 0) cell_shape m one in let m := put (cell 1) cell_shape m one in
  let m := put (cell 2) cell_shape m one in let m := put (cell 3) cell_shape m one in
  put col3 col3_shape m pos.
(** rotation_conversions.py:495-524 *)
Definition axis_and_angle_to_matrix_33_t (axis theta : ten R) : ten R :=
  let c := op1 cos theta in let o := (one - c)%T in let s := op1 sin theta in
  let kx := unb 3 0 axis in let ky := unb 3 1 axis in let kz := unb 3 2 axis in
  stack2 [stack [(c + kx * kx * o)%T; (kx * ky * o - kz * s)%T; (kx * kz * o + ky * s)%T];
          stack [(ky * kx * o + kz * s)%T; (c + ky * ky * o)%T; (ky * kz * o - kx * s)%T];
          stack [(kz * kx * o - ky * s)%T; (kz * ky * o + kx * s)%T; (c + kz * kz * o)%T]].
(** rotation_conversions.py:475-492 *)
Definition axis_and_angle_to_matrix_44_t (axis theta : ten R) : ten R :=
  let rot := axis_and_angle_to_matrix_33_t axis theta in
  do a <- axis;
  let m := full (4 :: 4 :: tl (shape a)) 0%R in
  put (cell 3) cell_shape (put block33 block33_shape m rot) one.

(** rotation_conversions.py:574-583, 603-611 *)
Definition sin_half_over_t (half angles : ten R) : ten R :=
  where_ (op1 (fun x => Rltb (Rabs x) eps6) angles) (num (/ 2) - angles * angles / num 48)%T (op1 sin half / angles)%T.
(** rotation_conversions.py:563-587 *)
Definition axis_angle_to_quaternion_t (v : ten R) : ten R :=
  let angles := norm_keep v in let half := (num (/ 2) * angles)%T in
  cat (op1 cos half) (v * sin_half_over_t half angles)%T.
(** rotation_conversions.py:590-613 *)
Definition quaternion_to_axis_angle_t (q : ten R) : ten F :=
  let norms := norm_keep (from 1 q) in let half := op2 atan2 norms (slice 0 1 q) in let angles := (two * half)%T in
  op2 (fun x s => fdivr (Fin x) s) (from 1 q) (sin_half_over_t half angles).
(** rotation_conversions.py:527-560 *)
Definition axis_angle_to_matrix_t (v : ten R) : ten R := quaternion_to_matrix_t (axis_angle_to_quaternion_t v).
Definition matrix_to_axis_angle_t (m : ten R) : ten F := quaternion_to_axis_angle_t (matrix_to_quaternion_t m).

(** rotation_conversions.py:616-637 *)
Definition rotation_6d_to_matrix_t (d6 : ten R) : ten R :=
  let a1 := slice 0 3 d6 in let a2 := from 3 d6 in
  let b1 := normalize_last a1 in
  let b2 := normalize_last (a2 - sum_keep (b1 * a2) * b1)%T in
  stack2 [b1; b2; cross b1 b2].
(** rotation_conversions.py:640-655 *)
Definition matrix_to_rotation_6d_t (m : ten R) : ten R :=
  do t <- m; reshape (6 :: tl (tl (shape t))) (slice2 0 2 m).
(** rotation_conversions.py:658-670 *)
Definition matrix44_to_se3_9d_t (m : ten R) : ten R :=
  cat (matrix_to_rotation_6d_t (slice 0 3 (slice2 0 3 m))) (sel 3 (slice2 0 3 m)).
Definition se3_9d_to_matrix44_t (x : ten R) : ten R :=
  let r := rotation_6d_to_matrix_t (slice 0 6 x) in let t := from 6 x in
  do rt <- r;
  put col3 col3_shape (put block33 block33_shape (eyes (tl (tl (shape rt)))) r) t.
(** rotation_conversions.py:673-687 *)
Definition matrix_to_pos_rot_t (m : ten R) : ten R * ten R :=
  (sel 3 (slice2 0 3 m), wxyz_to_xyzw_t (matrix_to_quaternion_t (slice 0 3 (slice2 0 3 m)))).
Definition pos_rot_to_matrix_t (pos rot : ten R) : ten R :=
  let r := quaternion_to_matrix_t (xyzw_to_wxyz_t rot) in
  do p <- pos;
  put block33 block33_shape (put col3 col3_shape (eyes (tl (shape p))) pos) r.
