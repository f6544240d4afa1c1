(** The Jacobian of a serial chain (chain.py:714-817, jacobian.py) and the analytical backward pass (chain.py:130-169). *)
From Coq Require Import Reals String Bool Arith Lia List.
From Verif Require Import Prelude ExtF Tree ChainModel Input Lin Trig RotModel RotBasic ChainInst SerialModel.
Import ListNotations.
Local Open Scope nat_scope.

(** A tensor of shape (B, 6, ndof) is a list of B Jacobians; a Jacobian is the list of its columns, each a pair
    (rows 0-2, rows 3-5). *)
Definition jac : Type := list (V3 * V3).

(** [torch.where] with a mask of shape (ndof, 1, 1) *)
Definition where_dof {X} (mask : list bool) (x y : list (list X)) : list (list X) :=
  zip_with (fun (m : bool) (p : list X * list X) => if m then fst p else snd p) mask (zip_with pair x y).
(** [permute] from (ndof, B, 6) to (B, 6, ndof) *)
Definition batch_major {X} (B : nat) (cols : list (list X)) : res (list (list X)) :=
  rmap (fun b => rmap (fun col => get col b) cols) (seq 0 B).

(** world axes [z_i = R_i @ axis_i], chain.py:741 and 800 *)
Definition world_axes (Tdof : list (list M4)) (axes : list V3) : list (list V3) :=
  zip_with (fun Ts a => map (fun T => m3vec (rotp T) a) Ts) Tdof axes.

(** chain.py:729-759 given the transforms of all frames.  A frame that was never written would be read as garbage; it is an
    error here ([read_slot]) and the theorems exclude it. *)
Definition jacobian_from (s : schain M4 V3) (all : list (option (list M4))) : res (list jac * list M4) :=
  do T_ee <- read_slot all (s_eef s);
  let p_ee := map trp T_ee in
  do T_dof <- rmap (read_slot all) (s_dof_idx s);
  let p_dof := map (map trp) T_dof in
  let z := world_axes T_dof (s_dof_axes s) in
  let dp := map (fun ps => zip_with vsub p_ee ps) p_dof in
  let cross := zip_with (zip_with vcross) z dp in
  let is_rev := map (Nat.eqb 1) (s_dof_types s) in
  let J_v := where_dof is_rev cross z in
  let J_w := where_dof is_rev z (map (map (fun _ => vzero)) z) in
  let cols := zip_with (zip_with pair) J_v J_w in
  do J <- batch_major (length T_ee) cols;
  Ok (J, T_ee).
(** chain.py:714-759; the pose is dropped when [ret_eef_pose] is false *)
Definition jacobian_tensor (s : schain M4 V3) (th : thT R) : res (list jac * list M4) :=
  do all <- forward_kinematics_tensor mops (s_chain s) th;
  jacobian_from s all.

(** chain.py:773-776: dictionaries are documented but [torch.tensor] of a dictionary raises RuntimeError *)
Definition jac_input (i : input R) : res (thT R) :=
  match i with
  | InTensor t | InNumpy t | InList t =>
      Ok (match t with T0 x => mkTh 1 [[x]] | T1 l => mkTh (length l) [l] | T2 c rows => mkTh c rows end)
  | InDict _ => Err RuntimeError
  end.

(** [locations]: a [Transform3d] (its matrices) or offset positions, wrapped by [Transform3d(pos=...)] (chain.py:787-790) *)
Inductive tool := ToolT (ms : list M4) | ToolPos (ps : list V3).
Definition tool_matrix (t : tool) : list M4 :=
  match t with ToolT ms => ms | ToolPos ps => map (fun p => aff I3 p) ps end.

(** [T_ee @ tool_matrix] for batches of B and N matrices: equal sizes pair up, size one broadcasts *)
Definition bmatmul (x y : list M4) : res (list M4) :=
  if Nat.eqb (length x) (length y) then Ok (zip_with m4mul x y)
  else match y with
       | [b] => Ok (map (fun a => m4mul a b) x)
       | _ => match x with [a] => Ok (map (m4mul a) y) | _ => Err RuntimeError end
       end.
(** [delta_p.unsqueeze(0).expand_as(z)] for [z] of batch size B (chain.py:802); [delta_p] has as many rows as the product
    above, so sizes differ only when one configuration meets several tools *)
Definition expand_batch (B : nat) (d : list V3) : res (list V3) :=
  if Nat.eqb (length d) B then Ok d else match d with [x] => Ok (repeat x B) | _ => Err RuntimeError end.
(** [T_ee_tool[:, :3, 3] - T_ee[:, :3, 3]] with the same broadcasting *)
Definition bsub (x y : list V3) : list V3 :=
  if Nat.eqb (length x) (length y) then zip_with vsub x y
  else match y with [b] => map (fun a => vsub a b) x | _ => [] end.

(** chain.py:761-817.  Result: the Jacobians and the pose returned with [ret_eef_pose=True]. *)
Definition jacobian (s : schain M4 V3) (i : input R) (locations : option tool) : res (list jac * list M4) :=
  do th <- jac_input i;
  match locations with
  | None => jacobian_tensor s th
  | Some t =>
      do all <- forward_kinematics_tensor mops (s_chain s) th;
      do JT <- jacobian_from s all;
      let '(J, T_ee) := JT in
      do T_ee_tool <- bmatmul T_ee (tool_matrix t);
      let delta_p := bsub (map trp T_ee_tool) (map trp T_ee) in
      do T_dof <- rmap (read_slot all) (s_dof_idx s);
      let z := world_axes T_dof (s_dof_axes s) in
      do dp <- expand_batch (length T_ee) delta_p;
      let correction := map (fun zs => zip_with vcross zs dp) z in
      let is_rev := map (Nat.eqb 1) (s_dof_types s) in
      let correction := where_dof is_rev correction (map (map (fun _ => vzero)) correction) in
      do corr <- batch_major (length T_ee) correction;
      let J := zip_with (zip_with (fun (col : V3 * V3) d => (vadd (fst col) d, snd col))) J corr in
      Ok (J, T_ee_tool)
  end.
(** jacobian.py:1-6 *)
Definition calc_jacobian (s : schain M4 V3) (i : input R) (t : option tool) : res (list jac * list M4) := jacobian s i t.

(** ** the backward pass *)
(** [dof_ancestor_mask @ x] for one degree of freedom: the mask entries are the numbers 0 and 1; frames are summed in order *)
Fixpoint vsum (l : list V3) : V3 := match l with [] => vzero | v :: r => vadd v (vsum r) end.
Definition masked_sum (mask : list bool) (xs : list V3) : V3 :=
  vsum (zip_with (fun (m : bool) x => vscale (if m then 1%R else 0%R) x) mask xs).
(** the axial vector of [M] (chain.py:146-148) *)
Definition axial (M : M3) : V3 := mkV3 (m12 M - m21 M) (m20 M - m02 M) (m01 M - m10 M).

(** chain.py:130-169 for one row of the batch: [Ts] the world transforms of the frames, [Gs] the upstream gradients (bottom rows
    are ignored by the code).  The row index of the batch is the same in every operation of the code. *)
Definition backward_row (Ts Gs : list M4) (dof_frame : list nat) (mask : list (list bool)) (is_rev : list bool) (axes : list V3)
  : res (list R) :=
  let tau := zip_with (fun T G => axial (m3mul (rotp T) (m3tr (rotp G)))) Ts Gs in
  let grad_t := map trp Gs in
  do T_dof <- rmap (get Ts) dof_frame;
  let z := zip_with (fun T a => m3vec (rotp T) a) T_dof axes in
  let o := map trp T_dof in
  let sum_tau := map (fun m => masked_sum m tau) mask in
  let sum_grad_t := map (fun m => masked_sum m grad_t) mask in
  let cross_t_grad := zip_with vcross (map trp Ts) grad_t in
  let sum_cross := map (fun m => masked_sum m cross_t_grad) mask in
  let rev_grad := zip_with (fun zv rest => vdot zv rest) z
    (zip_with vsub (zip_with vadd sum_tau sum_cross) (zip_with vcross o sum_grad_t)) in
  let pris_grad := zip_with vdot z sum_grad_t in
  Ok (zip_with (fun (m : bool) (p : R * R) => if m then fst p else snd p) is_rev (zip_with pair rev_grad pris_grad)).

(** chain.py:130-169 for a batch: [Ts] and [Gs] are frame-major, (L, B); the result is (B, J) *)
Definition backward (c : chain M4 V3) (B : nat) (Ts Gs : list (list M4)) : res (list (list R)) :=
  rmap (fun b =>
    do Tb <- rmap (fun w => get w b) Ts;
    do Gb <- rmap (fun w => get w b) Gs;
    backward_row Tb Gb (c_dof_frame c) (c_mask c) (c_dof_rev c) (c_axes c)) (seq 0 B).
