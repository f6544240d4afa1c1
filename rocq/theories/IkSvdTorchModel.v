(** The step of the inverse kinematics solver by singular values as a program on tensors: ik.py:72-129, used by PseudoInverseIKWithSVD (ik.py:646-660).

    [IKKernel] has it for one row of the batch.  Shapes and indices run from the last dimension to the first, as in [TorchModel]. *)
From Coq Require Import Reals Bool Arith List.
From Verif Require Import Prelude ExtF Lin RotModel TorchModel RotTorchModel FkTorchModel IkTorchModel.
Import ListNotations.
Local Open Scope nat_scope.

(** [torch.diag_embed] *)
Definition diag_embed (e : ten R) : ten R :=
  do t <- e;
  match shape t with
  | m :: s => Ok (mkT (m :: m :: s) (fun i => if hd 0 i =? hd 0 (tl i) then at_ t (hd 0 i :: tl (tl i)) else 0%R))
  | [] => Err IndexError
  end.
(** ik.py:107-128; [svd] stands for [torch.linalg.svd] of a batch.  Simplification: the division is that of the reals, so this says nothing where
    a denominator is zero, which takes a regularisation of zero. *)
Definition dls_svd_t (svd : tensor R -> tensor R * tensor R * tensor R) (dx J reg : tensor R) (lm : R) (task_weight : option (tensor R)) : ten R :=
  let weigh e := match task_weight with Some w => (reshape [1; 6; 1] (Ok w) * e)%T | None => e end in
  let J_w := weigh (Ok J) in
  let dx_w := weigh (Ok dx) in
  let regularization := sel 0 (sel 0 (Ok reg)) in
  let regularization := if Rltb 0 lm then (regularization + squeeze1 (num lm * sum2_keep (dx_w * dx_w)))%T else regularization in
  do jw <- J_w;
  let '(U, D, Vh) := svd jw in
  let m_sv := hd 0 (shape D) in
  let denom := (op1 (fun d => pow d 2) (Ok D) + regularization)%T in
  let inverted := diag_embed (op2 Rdiv (Ok D) denom) in
  let Vh := slice2 0 m_sv (Ok Vh) in
  let total := matmul (matmul (tr2 Vh) inverted) (tr2 (Ok U)) in
  matmul total dx_w.
(** ik.py:72-129: the error is computed as in [ik_step_t] *)
Definition ik_step_svd_t (svd : tensor R -> tensor R * tensor R * tensor R) (m_flat target_pos target_wxyz J reg : tensor R) (M : nat) (lm : R) (task_weight : option (tensor R))
  : res (tensor R * tensor R) :=
  let '(pos_diff, rot_diff) := pose_error_t m_flat target_pos target_wxyz M in
  do dx <- cat2 pos_diff (finite3 rot_diff);
  do dq <- dls_svd_t svd dx J reg lm task_weight;
  Ok (dq, dx).
