(** Part of a batch of inverse kinematics problems. *)
From Coq Require Import List Arith.
From Verif Require Import Prelude ExtF IKModel.
Import ListNotations.
Local Open Scope nat_scope.

(** the starting rows of problem [p] *)
Definition rows_of (nr : nat) (q0 : list (list F)) (p : nat) : list (list F) := firstn nr (skipn (p * nr) q0).
(** the batch that consists of the problems [pick], in that order *)
Definition sub_rows (nr : nat) (q0 : list (list F)) (pick : list nat) : list (list F) := flat_map (rows_of nr q0) pick.
Definition sub_kern (kern : nat -> list F -> list F * list F) (pick : list nat) : nat -> list F -> list F * list F := fun i => kern (nth i pick 0).
(** the solver with limit enforcement off, and with a single retry *)
Definition no_enforce (k : ik) : ik :=
  mkIK (ik_dof k) (ik_nr k) (ik_ptol k) (ik_rtol k) (ik_max k) (ik_lr k) (ik_ls k) (ik_stop_any k) (ik_noimp k) (ik_patience k) false
    (ik_refine k) (ik_clamp k) (ik_low k) (ik_high k) (ik_rev k).
Definition one_retry (k : ik) : ik :=
  mkIK (ik_dof k) 1 (ik_ptol k) (ik_rtol k) (ik_max k) (ik_lr k) (ik_ls k) (ik_stop_any k) (ik_noimp k) (ik_patience k) (ik_enforce k)
    (ik_refine k) (ik_clamp k) (ik_low k) (ik_high k) (ik_rev k).
