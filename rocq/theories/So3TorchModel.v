(** The exponential and logarithm of rotations as programs on tensors (transforms/so3.py, transforms/math.py:80-153).

    [MathModel] has them on lists of rows.  Shapes and indices run from the last dimension to the first, as in [TorchModel].  A tensor
    that does not have the number of dimensions that is unpacked raises ValueError.  Dtype and device are left out. *)
From Coq Require Import Reals Bool Arith List.
From Verif Require Import Prelude ExtF Lin Trig RotModel MathModel TorchModel RotTorchModel FkTorchModel T3dTorchModel.
Import ListNotations.
Local Open Scope nat_scope.

(** [h[:, r, c]] as a place to write to, and [t[:, None, None]] *)
Definition entry (r c : nat) (i : list nat) : option (list nat) := match i with c' :: r' :: b => if (c' =? c) && (r' =? r) then Some b else None | _ => None end.
Definition wide (e : ten R) : ten R := unsqueeze (unsqueeze e).
Definition neg (e : ten R) : ten R := op1 Ropp e.
(** so3.py:217-252 *)
Definition hat_t (v : tensor R) : ten R :=
  match shape v with
  | [3; N] =>
      let h := full [3; 3; N] 0%R in
      let x := sel 0 (Ok v) in let y := sel 1 (Ok v) in let z := sel 2 (Ok v) in
      let h := put (entry 0 1) cell_shape h (neg z) in
      let h := put (entry 0 2) cell_shape h y in
      let h := put (entry 1 0) cell_shape h z in
      let h := put (entry 1 2) cell_shape h (neg x) in
      let h := put (entry 2 0) cell_shape h (neg y) in
      put (entry 2 1) cell_shape h x
  | _ => Err ValueError
  end.
(** so3.py:113-141; the division is that of the reals *)
Definition so3_exp_map_t (log_rot : tensor R) (eps : R) : ten R :=
  match shape log_rot with
  | [3; _] =>
      let nrms := sum_last (Ok log_rot * Ok log_rot)%T in
      let rot_angles := op1 sqrt (op1 (fun x => Rmax x eps) nrms) in
      let rot_angles_inv := op2 Rdiv (num 1) rot_angles in
      let fac1 := (rot_angles_inv * op1 sin rot_angles)%T in
      let fac2 := (rot_angles_inv * rot_angles_inv * op2 Rminus (num 1) (op1 cos rot_angles))%T in
      let skews := hat_t log_rot in
      let skews_square := bmm skews skews in
      let eye := Ok (mkT [3; 3; 1] (fun i => if nth 0 i 0 =? nth 1 i 0 then 1%R else 0%R)) in
      (wide fac1 * skews + wide fac2 * skews_square + eye)%T
  | _ => Err ValueError
  end.
(** math.py:112-139 with a float bound; an assignment under a mask is written entry by entry *)
Definition acos_linear_extrapolation_t (x : ten R) (bound : R) : ten R :=
  let upper_bound := bound in let lower_bound := Ropp bound in
  if Rltb upper_bound lower_bound then Err ValueError
  else if Rleb lower_bound (-1) || Rleb 1 upper_bound then Err ValueError
  else op1 (fun x =>
    let x_upper := Rleb upper_bound x in let x_lower := Rleb x lower_bound in let x_mid := negb x_upper && negb x_lower in
    let a := if x_mid then acos x else 0%R in
    let a := if x_upper then acos_linear_approximation x upper_bound else a in
    if x_lower then acos_linear_approximation x lower_bound else a) x.
(** [t.any()] of a one-dimensional tensor *)
Definition any_of (t : tensor bool) : bool := existsb (fun r => at_ t [r]) (seq 0 (hd 0 (shape t))).
(** so3.py:66-89 with [cos_angle] false and a positive bound for the cosine *)
Definition so3_rotation_angle_t (m : tensor R) (eps cos_bound : R) : ten R :=
  match shape m with
  | [3; 3; _] =>
      let d k := sel k (sel2 k (Ok m)) in
      let rot_trace := (d 0 + d 1 + d 2)%T in
      do bad <- op1 (fun t => Rltb t (-1 - eps) || Rltb (3 + eps) t) rot_trace;
      if any_of bad then Err ValueError
      else acos_linear_extrapolation_t (op2 Rmult (op2 Rminus rot_trace (num 1)) (num (/ 2))) (1 - cos_bound)
  | _ => Err ValueError
  end.
(** so3.py:12-37 with [cos_angle] false *)
Definition so3_relative_angle_t (R1 R2 : tensor R) : ten R := do R12 <- bmm (Ok R1) (tr2 (Ok R2)); so3_rotation_angle_t R12 eps4 eps4.
(** [t.max()] of a three-dimensional tensor; it fails on an empty one *)
Definition entries (t : tensor R) : list R :=
  match shape t with [n; m; N] => flat_map (fun r => flat_map (fun p => map (fun c => at_ t [c; p; r]) (seq 0 n)) (seq 0 m)) (seq 0 N) | _ => [] end.
Definition max_all (t : tensor R) : res R := match entries t with [] => Err RuntimeError | x :: l => Ok (fold_left Rmax l x) end.
(** so3.py:183-214 *)
Definition hat_inv_t (h : tensor R) : ten R :=
  match shape h with
  | [3; 3; _] =>
      do s <- op1 Rabs (Ok h + tr2 (Ok h))%T;
      do ss_diff <- max_all s;
      if Rltb hat_tol ss_diff then Err ValueError
      else TorchModel.stack [sel 1 (sel2 2 (Ok h)); sel 2 (sel2 0 (Ok h)); sel 0 (sel2 1 (Ok h))]
  | _ => Err ValueError
  end.
(** so3.py:144-180; the division is that of the reals *)
Definition so3_log_map_t (m : tensor R) (eps : R) : ten R :=
  match shape m with
  | [3; 3; _] =>
      let phi := so3_rotation_angle_t m eps4 eps4 in
      let phi_sin := op1 sin phi in
      let phi_denom := (op1 (fun s => Rmax (Rabs s) eps) phi_sin * op1 Rsgn phi_sin + op1 (fun s => Rmult (if Reqb s 0 then 1%R else 0%R) eps) phi_sin)%T in
      do log_rot_hat <- (wide (op2 Rdiv phi (op2 Rmult (num 2) phi_denom)) * op2 Rminus (Ok m) (tr2 (Ok m)))%T;
      hat_inv_t log_rot_hat
  | _ => Err ValueError
  end.
