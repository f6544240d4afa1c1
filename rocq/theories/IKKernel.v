(** The step kernels of the inverse kinematics solver (ik.py:13-129) and the pose error (ik.py:397-429). *)
From Coq Require Import Reals Bool Arith Lia List.
From Verif Require Import Prelude ExtF Lin Trig RotModel JacModel.
Import ListNotations.
Local Open Scope nat_scope.

(** sums over a dimension of a tensor *)
Fixpoint rsum (n : nat) (f : nat -> R) : R :=
  match n with 0 => 0%R | S n => (f O + rsum n (fun i => f (S i)))%R end.

(** [torch.linalg.solve] on one n x n system: elimination, LinAlgError (a RuntimeError) on a zero pivot.  No rows are exchanged: the
    matrices met here are positive semi-definite and have a zero pivot only if they are singular, and the exact solution of a
    regular system does not depend on the pivoting. *)
Fixpoint lin_solve (n : nat) (A : nat -> nat -> R) (b : nat -> R) : res (nat -> R) :=
  match n with
  | 0 => Ok (fun _ => 0%R)
  | S n =>
      if Reqb (A O O) 0%R then Err RuntimeError
      else
        do y <- lin_solve n (fun i j => A (S i) (S j) - A (S i) O * A O (S j) / A O O)%R (fun i => b (S i) - A (S i) O * b O / A O O)%R;
        Ok (fun i => match i with 0 => ((b O - rsum n (fun j => A O (S j) * y j)%R) / A O O)%R | S i => y i end)
  end.

(** the six rows of a column: the first three from the translation part, the last three from the rotation part *)
Definition six (c : V3 * V3) (i : nat) : R :=
  match i with 0 => vx (fst c) | 1 => vy (fst c) | 2 => vz (fst c) | 3 => vx (snd c) | 4 => vy (snd c) | 5 => vz (snd c) | _ => 0%R end.

(** ik.py:36-47 and 397-429 for one pose and its target (the batch index runs in step in every operation): position difference and
    rotation difference *)
Definition delta_pose (m : M4) (target_pos : V3) (target_wxyz : Q) : V3 * F3 :=
  let cur := matrix_to_quaternion (rotp m) in
  let diff := quaternion_multiply target_wxyz (quaternion_invert cur) in
  (vsub target_pos (trp m), quaternion_to_axis_angle diff).

(** ik.py:49-57 and 107-114: [w * J], [w * dx] *)
Definition weigh (w : option (nat -> R)) (x : V3 * V3) (i : nat) : R :=
  match w with Some w => (w i * six x i)%R | None => six x i end.
(** entry (i, j) of the weighted Jacobian *)
Definition jac_w (w : option (nat -> R)) (J : jac) (i j : nat) : R := weigh w (nth j J (vzero, vzero)) i.

(** the damping added to the diagonal: [reg_matrix] is reg times the identity (ik.py:440), plus mu (ik.py:61-65).  Where the code leaves
    mu out it is zero here. *)
Definition damping (reg lm : R) (dxw : nat -> R) : R :=
  (reg + (if Rltb 0 lm then lm * rsum 6 (fun i => dxw i * dxw i) else 0))%R.

(** ik.py:49-69 for one row of the batch *)
Definition ik_step (J : jac) (dx : V3 * V3) (reg lm : R) (w : option (nat -> R)) : res (list R) :=
  let n := length J in
  let Jw := jac_w w J in
  let dxw := weigh w dx in
  let K := damping reg lm dxw in
  do x <- lin_solve 6 (fun i k => (rsum n (fun j => Jw i j * Jw k j) + (if Nat.eqb i k then K else 0))%R) dxw;
  Ok (map (fun j => rsum 6 (fun i => Jw i j * x i)%R) (seq 0 n)).

(** ik.py:107-129 for one row of the batch; [svd] is [torch.linalg.svd] with full matrices: U is 6 x 6, D has min(6, n) entries, Vh is
    n x n.  The product [inverted @ U^T] of shapes (m_sv, m_sv) and (6, 6) raises RuntimeError unless m_sv = 6. *)
Definition ik_step_svd (svd : (nat -> nat -> R) -> nat -> (nat -> nat -> R) * (nat -> R) * (nat -> nat -> R))
    (J : jac) (dx : V3 * V3) (reg lm : R) (w : option (nat -> R)) : res (list R) :=
  let n := length J in
  let dxw := weigh w dx in
  let K := damping reg lm dxw in
  let '(U, D, Vh) := svd (jac_w w J) n in
  let m_sv := Nat.min 6 n in
  let prod := fun k => (D k / (D k ^ 2 + K))%R in
  let inverted := fun k l => if Nat.eqb k l then prod k else 0%R in
  if Nat.eqb m_sv 6 then
    let total := fun j i => rsum m_sv (fun l => rsum m_sv (fun k => Vh k j * inverted k l) * U i l)%R in
    Ok (map (fun j => rsum 6 (fun i => total j i * dxw i)%R) (seq 0 n))
  else Err RuntimeError.
