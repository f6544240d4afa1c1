(** The Jacobian of a serial chain in rounded arithmetic: chain.py:714-817. *)
From Coq Require Import Reals Lra String Bool Arith List Permutation.
From Verif Require Import Prelude ExtF Tree ChainModel Input Lin RotModel ChainInst SerialModel JacModel RoundModel.
Import ListNotations.
Local Open Scope R_scope.

(** the arithmetic of the Jacobian: matrix times vector (chain.py:741, :800), difference (:744, :796), cross product (:748, :802) and sum (:806) *)
Record jops := mkJops { jo_vec : M3 -> V3 -> V3; jo_sub : V3 -> V3 -> V3; jo_cross : V3 -> V3 -> V3; jo_add : V3 -> V3 -> V3 }.
(** chain.py:729-759 as in [JacModel.jacobian_from], with this arithmetic *)
Definition jacobian_from_with (o : jops) (s : schain M4 V3) (all : list (option (list M4))) : res (list jac * list M4) :=
  do T_ee <- read_slot all (s_eef s);
  let p_ee := map trp T_ee in
  do T_dof <- rmap (read_slot all) (s_dof_idx s);
  let p_dof := map (map trp) T_dof in
  let z := zip_with (fun Ts a => map (fun T => jo_vec o (rotp T) a) Ts) T_dof (s_dof_axes s) in
  let dp := map (fun ps => zip_with (jo_sub o) p_ee ps) p_dof in
  let cross := zip_with (zip_with (jo_cross o)) z dp in
  let is_rev := map (Nat.eqb 1) (s_dof_types s) in
  let J_v := where_dof is_rev cross z in
  let J_w := where_dof is_rev z (map (map (fun _ => vzero)) z) in
  let cols := zip_with (zip_with pair) J_v J_w in
  do J <- batch_major (length T_ee) cols;
  Ok (J, T_ee).
Definition jacobian_with (O : Ops M4 V3 R) (o : jops) (s : schain M4 V3) (th : thT R) : res (list jac * list M4) :=
  do all <- forward_kinematics_tensor O (s_chain s) th;
  jacobian_from_with o s all.
(** chain.py:761-817 with [locations], as in [JacModel.jacobian]; [ms] are the matrices of the tools *)
Definition bmatmul_with (mul : M4 -> M4 -> M4) (x y : list M4) : res (list M4) :=
  if Nat.eqb (length x) (length y) then Ok (zip_with mul x y)
  else match y with
       | [b] => Ok (map (fun a => mul a b) x)
       | _ => match x with [a] => Ok (map (mul a) y) | _ => Err RuntimeError end
       end.
Definition bsub_with (sub : V3 -> V3 -> V3) (x y : list V3) : list V3 :=
  if Nat.eqb (length x) (length y) then zip_with sub x y
  else match y with [b] => map (fun a => sub a b) x | _ => [] end.
Definition jacobian_tool_with (O : Ops M4 V3 R) (o : jops) (s : schain M4 V3) (th : thT R) (ms : list M4) : res (list jac * list M4) :=
  do all <- forward_kinematics_tensor O (s_chain s) th;
  do JT <- jacobian_from_with o s all;
  let '(J, T_ee) := JT in
  do T_ee_tool <- bmatmul_with (t_mul O) T_ee ms;
  let delta_p := bsub_with (jo_sub o) (map trp T_ee_tool) (map trp T_ee) in
  do T_dof <- rmap (read_slot all) (s_dof_idx s);
  let z := zip_with (fun Ts a => map (fun T => jo_vec o (rotp T) a) Ts) T_dof (s_dof_axes s) in
  do dp <- expand_batch (length T_ee) delta_p;
  let correction := map (fun zs => zip_with (jo_cross o) zs dp) z in
  let is_rev := map (Nat.eqb 1) (s_dof_types s) in
  let correction := where_dof is_rev correction (map (map (fun _ => vzero)) correction) in
  do corr <- batch_major (length T_ee) correction;
  let J := zip_with (zip_with (fun (col : V3 * V3) d => (jo_add o (fst col) d, snd col))) J corr in
  Ok (J, T_ee_tool).
(** exact arithmetic gives the Jacobian of [JacModel] *)
Definition exact_jops : jops := mkJops m3vec vsub vcross vadd.

Section Fl.
Variable rnd : R -> R.
(** [einsum] and [torch.cross] leave the order of their sums, and whether they fuse, to the library: [sv] and [sc] choose them per entry *)
Variables (sv sc : nat -> stree).
Definition mrow (i : nat) (A : M3) (k : nat) : R :=
  match i, k with
  | 0, 0 => m00 A | 0, 1 => m01 A | 0, _ => m02 A | 1, 0 => m10 A | 1, 1 => m11 A | 1, _ => m12 A
  | _, 0 => m20 A | _, 1 => m21 A | _, _ => m22 A
  end%nat.
Definition vcomp (v : V3) (k : nat) : R := match k with 0 => vx v | 1 => vy v | _ => vz v end%nat.
(** chain.py:741 *)
Definition fl_vec (A : M3) (v : V3) : V3 :=
  let e i := s_eval rnd (fun k => mrow i A k * vcomp v k) (sv i) in mkV3 (e 0%nat) (e 1%nat) (e 2%nat).
(** chain.py:744 *)
Definition fl_vsub (a b : V3) : V3 := mkV3 (fsub rnd (vx a) (vx b)) (fsub rnd (vy a) (vy b)) (fsub rnd (vz a) (vz b)).
(** chain.py:748; a difference of products is the sum with the second product negated *)
Definition fl_cross (a b : V3) : V3 :=
  let e i x y := s_eval rnd (fun k => match k with O => x | _ => - y end) (sc i) in
  mkV3 (e 0%nat (vy a * vz b) (vz a * vy b)) (e 1%nat (vz a * vx b) (vx a * vz b)) (e 2%nat (vx a * vy b) (vy a * vx b)).
(** chain.py:806 *)
Definition fl_vadd (a b : V3) : V3 := mkV3 (fadd rnd (vx a) (vx b)) (fadd rnd (vy a) (vy b)) (fadd rnd (vz a) (vz b)).
Definition fl_jops : jops := mkJops fl_vec fl_vsub fl_cross fl_vadd.
End Fl.
(** every product is summed exactly once *)
Definition s_full3 (t : stree) : Prop := Permutation (s_leaves t) [0; 1; 2]%nat.
Definition s_full2 (t : stree) : Prop := Permutation (s_leaves t) [0; 1]%nat.
