(** Vocabulary for the statements about the inverse kinematics step on tensors. *)
From Coq Require Import Reals Bool Arith List.
From Verif Require Import Prelude TorchModel.
Import ListNotations.
Local Open Scope nat_scope.

Definition total (n : nat) (f : nat -> R) : R := fold_right Rplus 0%R (map f (seq 0 n)).
(** the weight of coordinate [i] of the error: one without weights *)
Definition weight_at (w : option (tensor R)) (i : nat) : R := match w with Some t => at_ t [i] | None => 1%R end.
(** the weighted error left in row [r] by the joint velocity [z], squared and summed, plus the damping: [reg], and [lm] times the weighted squared error *)
Definition damped_cost (dx J : tensor R) (n r : nat) (reg lm : R) (w : option (tensor R)) (z : nat -> R) : R :=
  let e i := Rmult (weight_at w i) (at_ dx [0; i; r]) in
  let v i := total n (fun j => Rmult (Rmult (weight_at w i) (at_ J [j; i; r])) (z j)) in
  Rplus (total 6 (fun i => pow (Rminus (v i) (e i)) 2)) (Rmult (Rplus reg (Rmult lm (total 6 (fun i => pow (e i) 2)))) (total n (fun j => pow (z j) 2))).
(** the target of row [r] among [K] targets, for [M] retries: a single target serves all rows *)
Definition target_of (K M r : nat) : nat := if K =? 1 then 0 else r / M.
