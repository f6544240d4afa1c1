(** Robots whose joints on the way to the end all slide, and the rate at which the solver should approach a target on them. *)
From Coq Require Import Reals String List.
From Verif Require Import Prelude ExtF Tree ChainModel SpecFK Lin ChainInst.
Import ListNotations.
Local Open Scope R_scope.

(** no joint of the path turns *)
Definition gantry (fs : list mframe) : Prop := forall f, In f fs -> j_type (f_joint f) <> Revolute.
(** the directions in which the joints of a path slide, seen from the start of the path; [A] is the orientation there.  Without turning joints
    they do not depend on the joint values, so those are put to zero. *)
Fixpoint slide_axes (A : M3) (fs : list mframe) : list V3 :=
  match fs with
  | [] => []
  | f :: s =>
      let B := m3mul A (rotp (rel_pose mops (fun _ => 0) f)) in
      if moving f then m3vec B (j_axis (f_joint f)) :: slide_axes B s else slide_axes B s
  end.
(** the directions [zs] reach every direction [y], with strength [mu] *)
Definition spread (mu : R) (zs : list V3) : Prop := forall y, mu * vnorm2 y <= fold_right (fun z acc => vdot z y ^ 2 + acc) 0 zs.
(** the factor by which one iteration shrinks a distance of at most [e] *)
Definition rate (lr mu reg lm wp e : R) : R := 1 - lr * (wp ^ 2 * mu) / (wp ^ 2 * mu + reg + lm * wp ^ 2 * e ^ 2).
