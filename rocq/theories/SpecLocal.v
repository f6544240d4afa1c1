(** Configurations from which a robot can start moving in every direction, and joint values that keep clear of their limits. *)
From Coq Require Import Reals String List.
From Verif Require Import Prelude ExtF Tree ChainModel SpecFK Lin RotModel ChainInst JacModel SpecDescent.
Import ListNotations.
Local Open Scope R_scope.

(** how fast the end moves and turns when the joint belonging to each column of [J] has the speed given by [y] *)
Definition combo (J : jac) (y : list R) : V3 * V3 :=
  fold_right (fun cy acc => (vadd (vscale (snd cy) (fst (fst cy))) (fst acc), vadd (vscale (snd cy) (snd (fst cy))) (snd acc))) (vzero, vzero) (combine J y).
(** every motion of the end can be started *)
Definition reaches (J : jac) : Prop := forall u, exists y, length y = length J /\ combo J y = u.
(** [target] is within [delta] of [T], in distance and in angle *)
Definition pose_within (delta : R) (target T : M4) : Prop := vnorm (vsub (trp target) (trp T)) <= delta /\ exists a, angle_between target T a /\ a <= delta.
(** two rows of the same length that differ by at most [delta] in each entry *)
Definition row_within (delta : R) (row row0 : list R) : Prop := Forall2 (fun x y => Rabs (x - y) <= delta) row row0.
(** [x] is not at a limit of the joint of [f] or beyond *)
Definition off_limits (f : mframe) (x : R) : Prop :=
  match j_lim (f_joint f) with None => True | Some (lo, hi) => flt lo (Fin x) = true /\ flt (Fin x) hi = true end.
(** a joint that turns has finite limits, and [x] is within half a turn of the middle between them *)
Definition same_turn (f : mframe) (x : R) : Prop :=
  j_type (f_joint f) = Revolute -> exists lo hi, j_lim (f_joint f) = Some (Fin lo, Fin hi) /\ Rabs (x - (lo + hi) / 2) < PI.
(** the joints of a path with their values *)
Definition all_joints (P : mframe -> R -> Prop) (fs : list mframe) (row : list R) : Prop := Forall2 P (filter moving fs) row.
