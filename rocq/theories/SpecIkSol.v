(** Vocabulary for the statements about the inverse kinematics solver on tensors. *)
From Coq Require Import Reals Bool Arith List.
From Verif Require Import Prelude ExtF TorchModel IKModel IkSolTorchModel.
Import ListNotations.
Local Open Scope nat_scope.

(** row [r] of a tensor of shape (_, k); all rows of a tensor of shape (n, k) *)
Definition row_of {A} (t : tensor A) (k r : nat) : list A := map (fun j => at_ t [j; r]) (seq 0 k).
Definition rows_of {A} (t : tensor A) (n k : nat) : list (list A) := map (row_of t k) (seq 0 n).
(** the solution tensors read problem by problem and retry by retry *)
Definition solution_of (dof np nr : nat) (ptol rtol : F) (s : solt) : iksol :=
  let each {A} (f : nat -> A) := map f (seq 0 np) in
  mkSol (t_iter s) dof nr ptol rtol
    (each (fun p => map (fun r => mkEntry (map (fun j => at_ (t_solutions s) [j; r; p]) (seq 0 dof)) (at_ (t_err_pos s) [r; p]) (at_ (t_err_rot s) [r; p])
                                    (at_ (t_conv_pos s) [r; p]) (at_ (t_conv_rot s) [r; p]) (at_ (t_conv s) [r; p])) (seq 0 nr)))
    (each (fun p => at_ (t_remaining s) [p])) (each (fun p => at_ (t_any s) [p])) (each (fun p => at_ (t_pos_any s) [p])) (each (fun p => at_ (t_rot_any s) [p])).
(** the tensor program [eval] computes in row [r] what [kern] gives for problem [r / nr] and that row *)
Definition acts_as (eval : tensor F -> res (tensor F * tensor F)) (kern : nat -> list F -> list F * list F) (dof np nr : nat) : Prop :=
  forall q, shape q = [dof; np * nr] -> exists dq dx, eval q = Ok (dq, dx) /\ shape dq = [1; dof; np * nr] /\ shape dx = [1; 6; np * nr] /\
    forall r, r < np * nr -> kern (r / nr) (row_of q dof r) = (map (fun j => at_ dq [0; j; r]) (seq 0 dof), map (fun i => at_ dx [0; i; r]) (seq 0 6)).
