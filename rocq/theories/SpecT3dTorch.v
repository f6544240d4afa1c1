(** What the batch theorems about transforms speak of: batch sizes, and which matrices each class of transform holds. *)
From Coq Require Import Reals Bool Arith List.
From Verif Require Import Lin TorchModel.
From Verif Require T3dModel.
Import ListNotations.
Local Open Scope nat_scope.

(** the first size of a tensor; a batch of one goes with every batch *)
Definition batch {A} (t : tensor A) : nat := last (shape t) 0.
Definition sizes_agree (n m : nat) : Prop := n = m \/ n = 1 \/ m = 1.
Definition joint_size (n m : nat) : nat := if n =? 1 then m else n.
(** which row of a batch of [n] goes into row [r] of the result *)
Definition pick_row (n r : nat) : nat := if n =? 1 then 0 else r.
(** the matrices a transform of each class may hold: rigid motions, translations, scalings without a zero factor, rotations *)
Definition held (k : T3dModel.tkind) (M : M4) : Prop :=
  match k with
  | T3dModel.KBase => is_rigid M
  | T3dModel.KTranslate => exists v, M = aff I3 v
  | T3dModel.KScale => exists v, M = aff (mkM3 (vx v) 0 0 0 (vy v) 0 0 0 (vz v)) vzero /\ vx v <> 0%R /\ vy v <> 0%R /\ vz v <> 0%R
  | T3dModel.KRotate => exists A, M = aff A vzero /\ is_rot A
  end.
(** the denominator, kept at distance [eps] from zero on its own side if [eps] is given *)
Definition clamped (eps : option R) (d : R) : R := match eps with None => d | Some e => if Rlt_dec d 0 then Rmin d (- e) else Rmax d e end.
