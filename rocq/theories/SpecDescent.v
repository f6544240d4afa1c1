(** What it means to move a serial chain along a direction and how far its end is from a target. *)
From Coq Require Import Reals String List.
From Verif Require Import Prelude ExtF Tree ChainModel Input Lin ChainInst SerialModel.
Import ListNotations.
Local Open Scope R_scope.

(** [a] is the angle of the rotation between the orientations of [target] and [T] *)
Definition angle_between (target T : M4) (a : R) : Prop := 0 <= a <= PI /\ trace3 (m3mul (rotp target) (m3tr (rotp T))) = 1 + 2 * cos a.
(** along the line through [row] with direction [dir], the end has pose [T t] at time [t] under the chain's own forward kinematics, turned from
    the target by [ang t] *)
Definition moves (nan : R) (is_nan : R -> bool) (s : schain M4 V3) (target : M4) (row dir : list R) (T : R -> M4) (ang : R -> R) : Prop :=
  length dir = length row /\
  forall t, serial_fk_end mops nan is_nan s (InTensor (T1 (zip_with (fun x d => x + t * d) row dir))) = Ok [T t] /\ angle_between target (T t) (ang t).
(** the weighted squared distance and angle to the target *)
Definition true_error (wp wr : R) (target : M4) (T : R -> M4) (ang : R -> R) (t : R) : R :=
  wp ^ 2 * vnorm (vsub (trp target) (trp (T t))) ^ 2 + wr ^ 2 * ang t ^ 2.
(** the weights of the six rows: ik.py:340-344 *)
Definition row_weights (wp wr : R) (i : nat) : R := if Nat.ltb i 3 then wp else wr.
