(** The pose error of the inverse kinematics solver and its comparison with the tolerances in rounded arithmetic: ik.py:36-47, 167-173 and the
    conversions they use.  One rounding per operation in the order written; [atan2] and [sin] are the library's. *)
From Coq Require Import Reals Lra Bool Arith List.
From Verif Require Import Prelude ExtF Lin RotModel RoundModel RoundJacModel.
Import ListNotations.
Local Open Scope R_scope.

Section Fl.
Variables (rnd fsin : R -> R) (fatan2 : R -> R -> R).
(** the order of the sums in a quaternion product, per component, and in a norm; elementwise operations may be fused by a compiler *)
Variables (sp : nat -> stree) (sn : stree).

(** rotation_conversions.py:118-124: the four sums, from left to right *)
Definition fl_diag (A : M3) (i : nat) : R :=
  match i with
  | 0 => fadd rnd (fadd rnd (fadd rnd 1 (m00 A)) (m11 A)) (m22 A)
  | 1 => fsub rnd (fsub rnd (fadd rnd 1 (m00 A)) (m11 A)) (m22 A)
  | 2 => fsub rnd (fadd rnd (fsub rnd 1 (m00 A)) (m11 A)) (m22 A)
  | _ => fadd rnd (fsub rnd (fsub rnd 1 (m00 A)) (m11 A)) (m22 A)
  end%nat.
(** rotation_conversions.py:93-98, 116-126 *)
Definition fl_q_abs (A : M3) (i : nat) : R := rnd (sqrt (Rmax (fl_diag A i) 0)).
(** rotation_conversions.py:129-137 *)
Definition fl_by_rijk (A : M3) (i : nat) : Q :=
  let d i := fmul rnd (fl_q_abs A i) (fl_q_abs A i) in
  match i with
  | 0 => mkQ (d 0) (fsub rnd (m21 A) (m12 A)) (fsub rnd (m02 A) (m20 A)) (fsub rnd (m10 A) (m01 A))
  | 1 => mkQ (fsub rnd (m21 A) (m12 A)) (d 1) (fadd rnd (m10 A) (m01 A)) (fadd rnd (m02 A) (m20 A))
  | 2 => mkQ (fsub rnd (m02 A) (m20 A)) (fadd rnd (m10 A) (m01 A)) (d 2) (fadd rnd (m12 A) (m21 A))
  | _ => mkQ (fsub rnd (m10 A) (m01 A)) (fadd rnd (m20 A) (m02 A)) (fadd rnd (m21 A) (m12 A)) (d 3)
  end%nat.
(** rotation_conversions.py:101-154; the constant 0.1 is stored rounded *)
Definition fl_m2q (A : M3) : Q :=
  let i := argmax4 (fl_q_abs A) in
  let d := fmul rnd 2 (Rmax (fl_q_abs A i) (rnd (1 / 10))) in
  let q := fl_by_rijk A i in
  mkQ (rnd (qw q / d)) (rnd (qx q / d)) (rnd (qy q / d)) (rnd (qz q / d)).

(** rotation_conversions.py:375-393; a difference is the sum with the product negated *)
Definition fl_raw_multiply (a b : Q) : Q :=
  let e i p0 p1 p2 p3 := s_eval rnd (fun k => match k with 0 => p0 | 1 => p1 | 2 => p2 | _ => p3 end%nat) (sp i) in
  mkQ (e 0%nat (qw a * qw b) (- (qx a * qx b)) (- (qy a * qy b)) (- (qz a * qz b)))
      (e 1%nat (qw a * qx b) (qx a * qw b) (qy a * qz b) (- (qz a * qy b)))
      (e 2%nat (qw a * qy b) (- (qx a * qz b)) (qy a * qw b) (qz a * qx b))
      (e 3%nat (qw a * qz b) (qx a * qy b) (- (qy a * qx b)) (qz a * qw b)).
(** rotation_conversions.py:396-410; the change of sign is exact *)
Definition fl_multiply (a b : Q) : Q := standardize_quaternion (fl_raw_multiply a b).

(** [norm] of three entries: ik.py:169-170, rotation_conversions.py:603 *)
Definition fl_norm (v : V3) : R := rnd (sqrt (s_eval rnd (fun k => vcomp v k * vcomp v k) sn)).

(** rotation_conversions.py:590-613; the threshold is stored rounded.  The divisor is not zero ([fl_divisor_pos] in RoundErrAngle.v). *)
Definition fl_divisor (half angle : R) : R :=
  if Rltb (Rabs angle) (rnd eps6) then fsub rnd (/ 2) (rnd (fmul rnd angle angle / 48)) else rnd (fsin half / angle).
Definition fl_axis_angle (q : Q) : V3 :=
  let half := fatan2 (fl_norm (qvec q)) (qw q) in
  let s := fl_divisor half (fmul rnd 2 half) in
  mkV3 (rnd (qx q / s)) (rnd (qy q / s)) (rnd (qz q / s)).

(** ik.py:36-47 and 397-429; the products with 1 and -1 in [quaternion_invert] are exact *)
Definition fl_delta_pose (m : M4) (target_pos : V3) (target_wxyz : Q) : V3 * V3 :=
  (fl_vsub rnd target_pos (trp m), fl_axis_angle (fl_multiply target_wxyz (quaternion_invert (fl_m2q (rotp m))))).
(** ik.py:466-470: the target as [solve] prepares it *)
Definition fl_pose_error (m target : M4) : V3 * V3 := fl_delta_pose m (trp target) (fl_m2q (rotp target)).
(** ik.py:168-173: the two norms and the flag *)
Definition fl_converged (ptol rtol : R) (dx : V3 * V3) : bool := Rltb (fl_norm (fst dx)) ptol && Rltb (fl_norm (snd dx)) rtol.
End Fl.
