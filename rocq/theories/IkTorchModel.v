(** The step of the inverse kinematics solver as a program on tensors: ik.py:13-69 and 397-429.

    [IKKernel] and [IKSolve] have it for one row of the batch.  Here it is written with the tensor operations of the code, in the order of the
    code, for N problems with M retries each.  Shapes and indices run from the last dimension to the first, as in [TorchModel]. *)
From Coq Require Import Reals Bool Arith List.
From Verif Require Import Prelude ExtF Lin RotModel TorchModel RotTorchModel ChainModel ChainInst SerialModel IKKernel FkTorchModel.
Import ListNotations.
Local Open Scope nat_scope.

(** [torch.cat((a, b), dim=1)] of three-dimensional tensors *)
Definition cat2 {A} (e1 e2 : ten A) : ten A :=
  do t <- e1; do u <- e2;
  match shape t, shape u with
  | k :: n :: s, k' :: m :: s' =>
      if (k =? k') && eqb_list s s'
      then Ok (mkT (k :: n + m :: s) (fun i => if nth 1 i 0 <? n then at_ t i else at_ u (hd 0 i :: nth 1 i 0 - n :: tl (tl i)))) else Err RuntimeError
  | _, _ => Err RuntimeError
  end.
(** [t.view(-1, 3, 1)] *)
Definition view31 {A} (e : ten A) : ten A := do t <- e; reshape [1; 3; prod (shape t) / 3] e.
(** [t.sum(dim=1, keepdim=True)] of a three-dimensional tensor *)
Definition sum2_keep (e : ten R) : ten R :=
  do t <- e; match shape t with k :: n :: s => Ok (mkT (k :: 1 :: s) (fun i => TorchModel.rsum n (fun j => at_ t (hd 0 i :: j :: tl (tl i))))) | _ => Err IndexError end.
(** [torch.eye(6)] *)
Definition eye6 : ten R := Ok (mkT [6; 6] (fun i => if hd 0 i =? nth 1 i 0 then 1%R else 0%R)).
(** [torch.linalg.solve] of a batch of systems, each by [lin_solve]; the batch fails if one of its systems does.
    Broadcasting of the batch dimension is not modelled: the code only calls it on equal batch sizes here. *)
Definition solve_t (e1 e2 : ten R) : ten R :=
  do t <- e1; do u <- e2;
  match shape t, shape u with
  | [n; n'; B], [k; m; B'] =>
      if (n =? n') && (n =? m) && (B =? B') then
        do xs <- rmap (fun b => rmap (fun c => lin_solve n (fun i j => at_ t [j; i; b]) (fun i => at_ u [c; i; b])) (seq 0 k)) (seq 0 B);
        Ok (mkT [k; n; B] (fun i => nth (nth 0 i 0) (nth (nth 2 i 0) xs []) (fun _ => 0%R) (nth 1 i 0)))
      else Err RuntimeError
  | _, _ => Err RuntimeError
  end.

(** ik.py:408-421: position difference and rotation difference, each of shape (N*M, 3, 1).  [out] is not used by the solver and left out. *)
Definition delta_pose_t (m target_pos target_wxyz : tensor R) : ten R * ten F :=
  let pos_diff := view31 (unsq 1 (Ok target_pos) - pos_of (Ok m))%T in
  let cur_wxyz := matrix_to_quaternion_t (rot_of (Ok m)) in
  let diff_wxyz := quaternion_multiply_t (unsq 1 (Ok target_wxyz)) (quaternion_invert_t cur_wxyz) in
  (pos_diff, view31 (quaternion_to_axis_angle_t diff_wxyz)).
(** ik.py:34-46; NM // M raises for M = 0, ZeroDivisionError, which is a ValueError here *)
Definition pose_error_t (m_flat target_pos target_wxyz : tensor R) (M : nat) : ten R * ten F :=
  match shape m_flat with
  | [_; _; NM] =>
      if M =? 0 then (Err ValueError, Err ValueError) else
      match reshape [4; 4; M; NM / M] (Ok m_flat) with
      | Ok m => delta_pose_t m target_pos target_wxyz
      | Err x => (Err x, Err x)
      end
  | _ => (Err ValueError, Err ValueError)
  end.
(** the indices of a tensor of shape (NM, 3, 1); the numbers of a tensor whose entries are all finite.  The step below is modelled for finite
    errors only, as in [IKSolve]. *)
Definition finite3 (e : ten F) : ten R :=
  do t <- e;
  match shape t with
  | [1; 3; B] =>
      if forallb (fun b => forallb (fun c => match at_ t [0; c; b] with Fin _ => true | _ => false end) (seq 0 3)) (seq 0 B)
      then Ok (mkT [1; 3; B] (fun i => match at_ t i with Fin x => x | _ => 0%R end)) else Err ValueError
  | _ => Err ValueError
  end.
(** ik.py:49-69 *)
Definition dls_t (dx J reg : tensor R) (lm : R) (task_weight : option (tensor R)) : ten R :=
  let weigh e := match task_weight with Some w => (reshape [1; 6; 1] (Ok w) * e)%T | None => e end in
  let J_w := weigh (Ok J) in
  let dx_w := weigh (Ok dx) in
  let A := (matmul J_w (tr2 J_w) + Ok reg)%T in
  let tmpA := if Rltb 0 lm then (A + (num lm * sum2_keep (dx_w * dx_w)) * eye6)%T else A in
  matmul (tr2 J_w) (solve_t tmpA dx_w).
(** ik.py:13-69: dq of shape (N*M, DOF, 1) and dx of shape (N*M, 6, 1) *)
Definition ik_step_t (m_flat target_pos target_wxyz J reg : tensor R) (M : nat) (lm : R) (task_weight : option (tensor R)) : res (tensor R * tensor R) :=
  let '(pos_diff, rot_diff) := pose_error_t m_flat target_pos target_wxyz M in
  do dx <- cat2 pos_diff (finite3 rot_diff);
  do dq <- dls_t dx J reg lm task_weight;
  Ok (dq, dx).
(** [regularlization * torch.eye(6)], ik.py:445 *)
Definition reg_t (reg : R) : tensor R := mkT [6; 6] (fun i => Rmult reg (if hd 0 i =? nth 1 i 0 then 1%R else 0%R)).
(** the target as [solve] prepares it (ik.py:466-470), then one call of the Jacobian and the step (ik.py:496-500) *)
Definition ik_iteration_t (junk : list nat -> R) (s : schain M4 V3) (static axes dof_axes target q : tensor R) (M : nat) (reg lm : R) (task_weight : option (tensor R))
  : res (tensor R * tensor R) :=
  do target_pos <- pos_of (Ok target);
  do target_wxyz <- matrix_to_quaternion_t (rot_of (Ok target));
  do Jm <- jacobian_t junk s static axes dof_axes q None;
  let '(J, m) := Jm in
  ik_step_t m target_pos target_wxyz J (reg_t reg) M lm task_weight.
