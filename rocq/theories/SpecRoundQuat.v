(** What it means for computed rotations to be close to the true ones. *)
From Coq Require Import Reals.
From Verif Require Import Prelude Lin RotModel.
Local Open Scope R_scope.

(** distance of two quaternions *)
Definition qdist (p q : Q) : R :=
  sqrt ((qw p - qw q) * (qw p - qw q) + (qx p - qx q) * (qx p - qx q) + (qy p - qy q) * (qy p - qy q) + (qz p - qz q) * (qz p - qz q)).
(** the quaternion of a turn by [th] about the unit axis [k] *)
Definition turn_quat (k : V3) (th : R) : Q := mkQ (cos (th / 2)) (sin (th / 2) * vx k) (sin (th / 2) * vy k) (sin (th / 2) * vz k).
(** the quaternion scaled to length one *)
Definition unit_quat (q : Q) : Q := qscale (/ sqrt (qnorm2 q)) q.
