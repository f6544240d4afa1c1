(** Configurations in which no joint can move without moving the end. *)
From Coq Require Import Reals String List.
From Verif Require Import Prelude Lin RotModel JacModel.
Import ListNotations.
Local Open Scope R_scope.

(** the torques that balance the force [fst u] and the moment [snd u] at the end, one for each column of [J] *)
Definition torques (J : jac) (u : V3 * V3) : list R := map (fun c => vdot (fst c) (fst u) + vdot (snd c) (snd u)) J.
(** any torques can be produced by pushing the end; equivalently the columns are linearly independent *)
Definition independent (J : jac) : Prop := forall y, length y = length J -> exists u, torques J u = y.
