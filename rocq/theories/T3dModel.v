(** Model of transforms/transform3d.py.

    A transform object is its class (only the classes that override [_get_matrix_inverse] matter) and its batch of
    4x4 matrices.  dtype, device and the unused field [_lu] are not modelled.  The option [batch_to_batch=True] calls
    a function of another package (arm_pytorch_utilities) and is not modelled. *)
From Coq Require Import Reals Lra String Ascii Bool Arith ZArith List.
From Verif Require Import Prelude ExtF Lin Trig RotModel.
Import ListNotations.
Local Open Scope R_scope.

(** the class of a transform object; RotateAxisAngle (593-630) inherits everything from Rotate *)
Inductive tkind := KBase | KTranslate | KScale | KRotate.
Record transform := mkT { tk : tkind; tm : list M4 }.

(** transform3d.py:724-751.  [f] is the product of one batch element of [a] with one of [b].  [expand] of a batch of
    size one repeats its element; the cast of dtypes is not modelled. *)
Definition expand {A} (l : list A) (n : nat) : list A :=
  match l with [x] => repeat x n | _ => l end.
Definition broadcast_bmm {A B C} (f : A -> B -> C) (a : list A) (b : list B) : res (list C) :=
  if (length a =? length b)%nat then Ok (zip_with f a b)
  else if negb ((length a =? 1) || (length b =? 1))%nat then Err ValueError
  else let a' := if (length a =? 1)%nat then expand a (length b) else a in
       let b' := if (length b =? 1)%nat then expand b (length a') else b in
       Ok (zip_with f a' b').

(** transform3d.py:146-218: the arguments by shape.  [MNone n] is [matrix=None] with [default_batch_size=n]. *)
Inductive mat_arg := MNone (n : nat) | MMat (A : M4) | MBatch (l : list M4) | MBadDim | MBadShape.
(** [pos] of shape (3,), (N, 3), (N, K, 3) *)
Inductive pos_arg := PosNone | Pos1 (v : V3) | Pos2 (l : list V3) | Pos3 (l : list (list V3)).
(** [rot] of shape (4,), (N, 4), (3,), (N, 3) read as N rows, (3, 3), (N, 3, 3) *)
Inductive rot_arg := RotNone | RotQ (q : Q) | RotQs (l : list Q) | RotE (e : V3) | RotRows (l : list V3)
  | RotM (A : M3) | RotMs (l : list M3).
(** column 3 replaced by (p, 1): transform3d.py:191-199 *)
Definition set_pos (T : M4) (p : V3) : M4 :=
  mkM4 (a00 T) (a01 T) (a02 T) (vx p) (a10 T) (a11 T) (a12 T) (vy p)
       (a20 T) (a21 T) (a22 T) (vz p) (a30 T) (a31 T) (a32 T) 1.
(** columns 0..2 replaced by the rotation over a zero row: transform3d.py:201-214 *)
Definition set_rot (T : M4) (A : M3) : M4 :=
  mkM4 (m00 A) (m01 A) (m02 A) (a03 T) (m10 A) (m11 A) (m12 A) (a13 T)
       (m20 A) (m21 A) (m22 A) (a23 T) 0 0 0 (a33 T).
(** [torch.cat] along the last dimension needs equal batch sizes *)
Definition cat_last {B} (f : M4 -> B -> M4) (ms : list M4) (l : list B) : res (list M4) :=
  if (length ms =? length l)%nat then Ok (zip_with f ms l) else Err RuntimeError.
Definition grow (ms : list M4) (n : nat) : list M4 :=
  if ((1 <? n) && (length ms =? 1))%nat then expand ms n else ms.
Definition init_matrix (m : mat_arg) : res (list M4) :=
  match m with
  | MNone n => Ok (repeat I4 n)
  | MMat A => Ok [A]
  | MBatch l => Ok l
  | MBadDim | MBadShape => Err ValueError
  end.
Definition init_pos (ms : list M4) (p : pos_arg) : res (list M4) :=
  match p with
  | PosNone => Ok ms
  | Pos1 v => cat_last set_pos ms [v]
  | Pos2 l => cat_last set_pos (grow ms (length l)) l
  | Pos3 l => cat_last set_pos (grow ms (length l)) (concat l)
  end.
(** transform3d.py:205-208: four columns are quaternions; three columns are Euler angles unless there are exactly
    three rows *)
Definition rows_to_m3 (l : list V3) : M3 :=
  match l with
  | [a; b; c] => mkM3 (vx a) (vy a) (vz a) (vx b) (vy b) (vz b) (vx c) (vy c) (vz c)
  | _ => I3
  end.
Definition default_euler_convention : string := "XYZ".
Definition init_rot (ms : list M4) (r : rot_arg) : res (list M4) :=
  match r with
  | RotNone => Ok ms
  | RotQ q => cat_last set_rot ms [quaternion_to_matrix q]
  | RotQs l => cat_last set_rot (grow ms (length l)) (map quaternion_to_matrix l)
  | RotE e => do A <- euler_angles_to_matrix e default_euler_convention; cat_last set_rot ms [A]
  | RotRows l => if (length l =? 3)%nat then cat_last set_rot ms [rows_to_m3 l]
                 else do As <- rmap (fun e => euler_angles_to_matrix e default_euler_convention) l;
                      cat_last set_rot (grow ms (length l)) As
  | RotM A => cat_last set_rot ms [A]
  | RotMs l => cat_last set_rot (grow ms (length l)) l
  end.
Definition transform3d_init (m : mat_arg) (p : pos_arg) (r : rot_arg) : res transform :=
  do ms <- init_matrix m;
  do ms <- init_pos ms p;
  do ms <- init_rot ms r;
  Ok (mkT KBase ms).

(** transform3d.py:220-221 *)
Definition tlen (t : transform) : nat := length (tm t).
(** transform3d.py:223-224 with an integer index *)
Definition py_index {A} (l : list A) (i : Z) : res A :=
  let n := Z.of_nat (length l) in
  let j := if (i <? 0)%Z then (i + n)%Z else i in
  if ((0 <=? j) && (j <? n))%Z then get l (Z.to_nat j) else Err IndexError.
Definition tgetitem (t : transform) (i : Z) : res transform :=
  do A <- py_index (tm t) i; Ok (mkT KBase [A]).
(** transform3d.py:223-224 with a slice [a:b], 0 <= a, 0 <= b *)
Definition tslice (t : transform) (a b : nat) : transform := mkT KBase (skipn a (firstn b (tm t))).

(** transform3d.py:232-250 *)
Fixpoint compose_mats (ms : list M4) (others : list transform) : res (list M4) :=
  match others with
  | [] => Ok ms
  | o :: r => do ms <- broadcast_bmm m4mul ms (tm o); compose_mats ms r
  end.
Definition compose (t : transform) (others : list transform) : res transform :=
  do ms <- compose_mats (tm t) others; Ok (mkT KBase ms).

(** transform3d.py:265-274 on one matrix *)
Definition invert_transformation_matrix (T : M4) : M4 :=
  let R := rotp T in let t := trp T in
  let Rt := m3tr R in
  let p := m3vec (m3opp Rt) t in
  mkM4 (m00 Rt) (m01 Rt) (m02 Rt) (vx p) (m10 Rt) (m11 Rt) (m12 Rt) (vy p)
       (m20 Rt) (m21 Rt) (m22 Rt) (vz p) (a30 T) (a31 T) (a32 T) (a33 T).
(** transform3d.py:501-508 *)
Definition translate_inverse (T : M4) : M4 :=
  mkM4 (a00 T * 1) (a01 T * 1) (a02 T * 1) (a03 T * -1) (a10 T * 1) (a11 T * 1) (a12 T * 1) (a13 T * -1)
       (a20 T * 1) (a21 T * 1) (a22 T * 1) (a23 T * -1) (a30 T * 1) (a31 T * 1) (a32 T * 1) (a33 T * 1).
(** transform3d.py:541-548; a zero factor gives an infinite entry in the code, the theorems assume non-zero factors *)
Definition scale_inverse (T : M4) : M4 :=
  mkM4 (1 / a00 T) 0 0 0 0 (1 / a11 T) 0 0 0 0 (1 / a22 T) 0 0 0 0 (1 / a33 T).
(** transform3d.py:586-590 *)
Definition rotate_inverse (T : M4) : M4 := m4tr T.
(** transform3d.py:258-263 and the three overrides *)
Definition get_matrix_inverse (k : tkind) : M4 -> M4 :=
  match k with
  | KBase => invert_transformation_matrix
  | KTranslate => translate_inverse
  | KScale => scale_inverse
  | KRotate => rotate_inverse
  end.
(** transform3d.py:276-293 *)
Definition inverse (t : transform) : transform := mkT KBase (map (get_matrix_inverse (tk t)) (tm t)).
(** transform3d.py:295-299 *)
Definition stack (t : transform) (others : list transform) : transform :=
  mkT KBase (tm t ++ concat (map tm others)).

(** tensors of points or normals: shape (P, 3), (N, P, 3), or another number of dimensions *)
Inductive tens (A : Type) := T2 (l : list A) | T3 (l : list (list A)) | TBad.
Arguments T2 {A}. Arguments T3 {A}. Arguments TBad {A}.
(** row vector times matrix *)
Definition v4row (v : V4) (A : M4) : V4 := m4vec (m4tr A) v.
Definition v3row (v : V3) (A : M3) : V3 := m3vec (m3tr A) v.
(** transform3d.py:337-342.  Where the denominator is zero the code yields non-finite values; the theorems exclude it. *)
Definition Rsign (x : R) : R := if Rltb 0 x then 1 else if Rltb x 0 then -1 else 0.
Definition dehom (eps : option R) (v : V4) : V3 :=
  let d := v3 v in
  let d := match eps with
           | None => d
           | Some e => (Rsign d + (if Reqb d 0 then 1 else 0)) * Rmax (Rabs d) e
           end in
  mkV3 (v0 v / d) (v1 v / d) (v2 v / d).
Definition hom (p : V3) : V4 := mkV4 (vx p) (vy p) (vz p) 1.
(** transform3d.py:301-349, [batch_to_batch=False] *)
Definition unwrap {A} (was2 : bool) (out : list (list A)) : tens A :=
  match was2, out with true, [l] => T2 l | _, _ => T3 out end.
Definition transform_points (t : transform) (eps : option R) (p : tens V3) : res (tens V3) :=
  match p with
  | TBad => Err ValueError
  | T2 _ | T3 _ =>
      let '(batch, was2) := match p with T2 l => ([l], true) | T3 b => (b, false) | TBad => ([], false) end in
      do out <- broadcast_bmm (fun ps M => map (fun q => v4row (hom q) M) ps) batch (map m4tr (tm t));
      Ok (unwrap was2 (map (map (dehom eps)) out))
  end.
(** transform3d.py:351-384, [batch_to_batch=False] *)
Definition transform_normals (t : transform) (p : tens V3) : res (tens V3) :=
  match p with
  | TBad => Err ValueError
  | T2 _ | T3 _ =>
      let '(batch, was2) := match p with T2 l => ([l], true) | T3 b => (b, false) | TBad => ([], false) end in
      do out <- broadcast_bmm (fun ps A => map (fun q => v3row q A) ps) batch (map rotp (tm (inverse t)));
      Ok (unwrap was2 out)
  end.
(** transform3d.py:386-409.  A tensor of shape (P, 3, 3) is a batch of P matrices.  For a tensor of shape
    (N, P, 3, 3) the size check of [_broadcast_bmm] comes first, then [expand(n, -1, -1)] or [bmm] fails on four
    dimensions. *)
Definition transform_shape_operator (t : transform) (s : tens M3) : res (list M3) :=
  let mats := map rotp (tm (inverse t)) in
  match s with
  | TBad => Err ValueError
  | T2 l => do r <- broadcast_bmm m3mul l mats; broadcast_bmm m3mul (map m3tr mats) r
  | T3 b => if ((length b =? length mats) || (length b =? 1) || (length mats =? 1))%nat
            then Err RuntimeError else Err ValueError
  end.

(** transform3d.py:431-443 *)
Definition clone (t : transform) : transform := mkT KBase (tm t).
(** transform3d.py:445-468: [same] says that device and dtype already match and no copy is asked for *)
Definition to (same : bool) (t : transform) : transform := if same then t else mkT (tk (clone t)) (tm t).

(** transform3d.py:650-704: arguments by kind; [CMat] is a tensor of shape (N, 3), [CMatBad] one of shape (N, k), k <> 3 *)
Inductive coord := CScalar (r : R) | CVec (l : list R) | CMat (l : list V3) | CMatBad.
(** transform3d.py:633-647.  [torch.tensor(None, dtype=...)] is a TypeError.  A 2-dimensional tensor as second or third
    argument fails later, in the size check or in [expand]; the class of that error is not distinguished. *)
Definition handle_coord (c : option coord) : res (list R) :=
  match c with
  | None => Err TypeError
  | Some (CScalar r) => Ok [r]
  | Some (CVec l) => Ok l
  | Some (CMat _) | Some CMatBad => Err RuntimeError
  end.
Definition handle_input (x : coord) (y z : option coord) (allow_singleton : bool) : res (list V3) :=
  match x with
  | CMatBad => Err ValueError
  | CMat l => match y, z with None, None => Ok l | _, _ => Err ValueError end
  | _ =>
      let '(y, z) := match allow_singleton, y, z with true, None, None => (Some x, Some x) | _, _, _ => (y, z) end in
      do xs <- handle_coord (Some x);
      do ys <- handle_coord y;
      do zs <- handle_coord z;
      let n := Nat.max (length xs) (Nat.max (length ys) (length zs)) in
      let ok := fun l : list R => ((length l =? 1) || (length l =? n))%nat in
      if ok xs && ok ys && ok zs
      then Ok (zip_with (fun a bc => mkV3 a (fst bc) (snd bc)) (expand xs n) (zip_with pair (expand ys n) (expand zs n)))
      else Err ValueError
  end.
(** transform3d.py:477-499 *)
Definition translate_matrix (v : V3) : M4 := mkM4 1 0 0 (vx v) 0 1 0 (vy v) 0 0 1 (vz v) 0 0 0 1.
Definition Translate (x : coord) (y z : option coord) : res transform :=
  do l <- handle_input x y z false; Ok (mkT KTranslate (map translate_matrix l)).
(** transform3d.py:511-539 *)
Definition scale_matrix (v : V3) : M4 := mkM4 (vx v) 0 0 0 0 (vy v) 0 0 0 0 (vz v) 0 0 0 0 1.
Definition Scale (x : coord) (y z : option coord) : res transform :=
  do l <- handle_input x y z true; Ok (mkT KScale (map scale_matrix l)).
(** transform3d.py:551-584.  [_check_valid_rotation_matrix] (754-782) only warns. *)
Definition rotate_matrix (A : M3) : M4 :=
  mkM4 (m00 A) (m01 A) (m02 A) 0 (m10 A) (m11 A) (m12 A) 0 (m20 A) (m21 A) (m22 A) 0 0 0 0 1.
Definition Rotate (r : rot_arg) : res transform :=
  do As <- match r with
           | RotNone => Err TypeError
           | RotQ q => Ok [quaternion_to_matrix q]
           | RotQs l => Ok (map quaternion_to_matrix l)
           | RotE e => do A <- euler_angles_to_matrix e default_euler_convention; Ok [A]
           | RotRows l => if (length l =? 3)%nat then Ok [rows_to_m3 l]
                          else rmap (fun e => euler_angles_to_matrix e default_euler_convention) l
           | RotM A => Ok [A]
           | RotMs l => Ok l
           end;
  Ok (mkT KRotate (map rotate_matrix As)).
(** transform3d.py:593-630; [str.upper] on ASCII.  The axis is compared with the one-letter strings. *)
Definition upper_ascii (c : ascii) : ascii :=
  let n := nat_of_ascii c in
  if (97 <=? n)%nat && (n <=? 122)%nat then ascii_of_nat (n - 32) else c.
Definition one_letter (s : string) : res ascii :=
  match s with
  | String c EmptyString => if is_letter (upper_ascii c) then Ok (upper_ascii c) else Err ValueError
  | _ => Err ValueError
  end.
Definition handle_angle_input (c : coord) : res (list R) :=
  match c with
  | CScalar r => Ok [r]
  | CVec l => Ok l
  | CMat _ | CMatBad => Err ValueError
  end.
Definition RotateAxisAngle (angle : coord) (axis : string) (degrees : bool) : res transform :=
  do a <- one_letter axis;
  do l <- handle_angle_input angle;
  let l := if degrees then map (fun t => t / 180 * PI) l else l in
  do As <- rmap (axis_angle_rotation a) l;
  Rotate (RotMs As).

(** transform3d.py:411-421 *)
Definition translate (t : transform) (x : coord) (y z : option coord) : res transform :=
  do o <- Translate x y z; compose t [o].
Definition scale (t : transform) (x : coord) (y z : option coord) : res transform :=
  do o <- Scale x y z; compose t [o].
Definition rotate (t : transform) (r : rot_arg) : res transform :=
  do o <- Rotate r; compose t [o].
Definition rotate_axis_angle (t : transform) (angle : coord) (axis : string) (degrees : bool) : res transform :=
  do o <- RotateAxisAngle angle axis degrees; compose t [o].
