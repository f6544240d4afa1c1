(** The backtracking line search as PseudoInverseIK uses it on a serial chain (ik.py:216-260, 539-547). *)
From Coq Require Import Reals String Bool Arith Lia List.
From Verif Require Import Prelude ExtF Tree ChainModel Input Lin Trig RotModel ChainInst SerialModel JacModel IKModel IKKernel IKSolve.
Import ListNotations.
Local Open Scope nat_scope.

(** ik.py:241-248 for one row: forward kinematics of the stepped row, read at the end frame, then the norm of its unweighted pose error.
    [fk_fn] and [eef_frame_idx] are always passed by [solve] (ik.py:540-543), so only that branch is modelled; they are
    [forward_kinematics_tensor] and the end's index (ik.py:452-457).  Rows do not influence each other (C02).  A row that is not finite gives NaN, and so
    does a row of the wrong width or one on which the code raises, neither of which happens for the chains of the theorems. *)
Definition line_err (s : schain M4 V3) (target : M4) (q : list F) : F :=
  match fin_row_of q with
  | Some row =>
      if Nat.eqb (length row) (length (c_names (s_chain s))) then
        match (do all <- forward_kinematics_tensor mops (s_chain s) (mkTh (length row) [row]); read_slot all (s_eef s)) with
        | Ok [m] =>
            let '(dp, dr) := delta_pose m (trp target) (matrix_to_quaternion (rotp target)) in
            fnorm [Fin (vx dp); Fin (vy dp); Fin (vz dp); f3x dr; f3y dr; f3z dr]
        | _ => NaN
        end
      else NaN
  | None => NaN
  end.

(** ik.py:539-544: the learning rates of a batch of [nr] rows for each problem; row [i] belongs to problem [i / nr] ([m.view(-1, M, 4, 4)] against the targets,
    ik.py:243-247).  The mean improvement, returned as well, is dropped by [solve]. *)
Definition line_search (s : schain M4 V3) (targets : nat -> M4) (ls : lsearch) (nr : nat) (q dq dx : list (list F)) (rem : list bool) : list F :=
  map l_lr (do_line_search (fun i => line_err s (targets (i / nr))) ls nr q dq dx rem).
