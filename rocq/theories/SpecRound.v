(** What it means for computed poses to be close to the true ones, and for matrix arithmetic to be rounded. *)
From Coq Require Import Reals Lra String Bool Arith List.
From Verif Require Import Prelude ExtF Tree ChainModel SpecFK Lin Trig RotModel RotBasic ChainInst.
Import ListNotations.
Local Open Scope R_scope.

Definition m3sub (A B : M3) : M3 := m3add A (m3opp B).

(** [close x M' M P]: the computed pose [M'] agrees with the true pose [M] up to the factor [x]: its rotation part is
    off by at most [x - 1] as a linear map, its position by at most [x - 1] times [P], where [P] bounds the true distance
    from the origin. *)
Definition close (x : R) (M' M : M4) (P : R) : Prop :=
  affine M' /\ is_rigid M /\
  (forall u, vnorm (vsub (m3vec (rotp M') u) (m3vec (rotp M) u)) <= (x - 1) * vnorm u) /\
  vnorm (vsub (trp M') (trp M)) <= (x - 1) * P /\ vnorm (trp M) <= P.

(** absolute values, entry by entry *)
Definition m3abs (A : M3) : M3 :=
  mkM3 (Rabs (m00 A)) (Rabs (m01 A)) (Rabs (m02 A)) (Rabs (m10 A)) (Rabs (m11 A)) (Rabs (m12 A)) (Rabs (m20 A)) (Rabs (m21 A)) (Rabs (m22 A)).
Definition vabs (v : V3) : V3 := mkV3 (Rabs (vx v)) (Rabs (vy v)) (Rabs (vz v)).
(** inequality, entry by entry *)
Definition m3le (A B : M3) : Prop :=
  (m00 A <= m00 B /\ m01 A <= m01 B /\ m02 A <= m02 B) /\ (m10 A <= m10 B /\ m11 A <= m11 B /\ m12 A <= m12 B) /\
  (m20 A <= m20 B /\ m21 A <= m21 B /\ m22 A <= m22 B).
Definition vle (u v : V3) : Prop := vx u <= vx v /\ vy u <= vy v /\ vz u <= vz v.

(** A rounded matrix product: every entry is a sum of products that is off by at most [g] times the sum of the absolute
    values of the products, whatever the order of summation; the last row (0, 0, 0, 1) stays exact. *)
Definition rounded_product (g : R) (mul : M4 -> M4 -> M4) : Prop := forall A B, affine A -> affine B ->
  affine (mul A B) /\
  m3le (m3abs (m3sub (rotp (mul A B)) (rotp (m4mul A B)))) (m3scale g (m3mul (m3abs (rotp A)) (m3abs (rotp B)))) /\
  vle (vabs (vsub (trp (mul A B)) (trp (m4mul A B)))) (vscale g (vadd (m3vec (m3abs (rotp A)) (vabs (trp B))) (vabs (trp A)))).

(** Computed joint motions: for stored axes within [a] of a unit axis, entry by entry, they agree up to the factor [j]. *)
Definition accurate_motions (a j : R) (O : Ops M4 V3 R) : Prop := forall k' k q, unit3 k ->
  Rabs (vx k' - vx k) <= a -> Rabs (vy k' - vy k) <= a -> Rabs (vz k' - vz k) <= a ->
  close j (t_rev O k' q) (axis_and_angle_to_matrix_44 k q) 0 /\
  close j (t_pris O k' q) (axis_and_d_to_pris_matrix k q) (Rabs q).

(** The stored tree against the true one: the same tree of named joints, offsets up to the factor [o], axes up to [a]. *)
Definition close_offset (o : R) (x y : option M4) : Prop :=
  match x, y with
  | Some m', Some m => close o m' m (vnorm (trp m))
  | None, None => True
  | _, _ => False
  end.
Definition close_node (a o : R) (f' f : mframe) : Prop :=
  f_name f' = f_name f /\ close_offset o (l_off (f_link f')) (l_off (f_link f)) /\
  close_offset o (j_off (f_joint f')) (j_off (f_joint f)) /\
  j_name (f_joint f') = j_name (f_joint f) /\ j_type (f_joint f') = j_type (f_joint f) /\
  (moving f = true -> unit3 (j_axis (f_joint f)) /\
     Rabs (vx (j_axis (f_joint f')) - vx (j_axis (f_joint f))) <= a /\
     Rabs (vy (j_axis (f_joint f')) - vy (j_axis (f_joint f))) <= a /\
     Rabs (vz (j_axis (f_joint f')) - vz (j_axis (f_joint f))) <= a).
Inductive close_tree (a o : R) : mframe -> mframe -> Prop :=
| ct_node f' f : close_node a o f' f -> Forall2 (close_tree a o) (f_children f') (f_children f) -> close_tree a o f' f.

(** how far a frame can be from its parent: the lengths of its offsets, and the travel of a prismatic joint *)
Definition reach (v : config (S := R)) (f : mframe) : R :=
  match l_off (f_link f) with Some m => vnorm (trp m) | None => 0 end +
  match j_off (f_joint f) with Some m => vnorm (trp m) | None => 0 end +
  match j_type (f_joint f) with Prismatic => Rabs (v (j_name (f_joint f))) | _ => 0 end.
Definition path_reach (v : config (S := R)) (fs : list mframe) : R := fold_right (fun f s => reach v f + s) 0 fs.

(** the factor of a path of [n] frames: two offsets and one joint motion per frame, three products per frame but one *)
Definition path_factor (g o j : R) (n : nat) : R := (o * o * j) ^ n * (1 + 3 * g) ^ (3 * n - 1).

(** Rounding with unit [u] (2^-24 for float32, 2^-53 for float64, no overflow or underflow); 1 is a machine number. *)
Definition rounding (u : R) (rnd : R -> R) : Prop := rnd 1 = 1 /\ forall x, Rabs (rnd x - x) <= u * Rabs x.
(** library cosine and sine with absolute error at most [t] *)
Definition trig_within (t : R) (fcos fsin : R -> R) : Prop :=
  forall q, Rabs (fcos q - cos q) <= t /\ Rabs (fsin q - sin q) <= t.
(** a matrix with every entry rounded *)
Definition round_m4 (rnd : R -> R) (M : M4) : M4 :=
  mkM4 (rnd (a00 M)) (rnd (a01 M)) (rnd (a02 M)) (rnd (a03 M)) (rnd (a10 M)) (rnd (a11 M)) (rnd (a12 M)) (rnd (a13 M))
       (rnd (a20 M)) (rnd (a21 M)) (rnd (a22 M)) (rnd (a23 M)) (rnd (a30 M)) (rnd (a31 M)) (rnd (a32 M)) (rnd (a33 M)).
(** a tree whose numbers are rounded one by one *)
Fixpoint round_tree (rnd : R -> R) (f : mframe) : mframe :=
  match f with
  | Frame n l j cs =>
      Frame n (mkLink (l_name l) (option_map (round_m4 rnd) (l_off l)))
        (mkJoint (j_name j) (option_map (round_m4 rnd) (j_off j)) (j_type j)
           (mkV3 (rnd (vx (j_axis j))) (rnd (vy (j_axis j))) (rnd (vz (j_axis j)))) (j_lim j) (j_vlim j) (j_elim j))
        (map (round_tree rnd) cs)
  end.
