(** Conversions between quaternions, axis-angle vectors and matrices, and transforms of points, in rounded arithmetic.

    As in [RoundModel] a sum of products is a tree of roundings, so that the order and fused operations are left open; everything else is
    rounded once per operation in the order written. *)
From Coq Require Import Reals Bool Arith List.
From Verif Require Import Prelude ExtF Lin RotModel RoundModel RoundJacModel RoundErrModel.
Local Open Scope R_scope.

Section Fl.
Variables (rnd fcos fsin : R -> R).
(** the sum of the four squares, and the sums of two products, per entry *)
Variables (sq : stree) (se : nat -> stree).

(** rotation_conversions.py:44-71; a difference of products is the sum with the second product negated *)
Definition fl_q2m (q : Q) : M3 :=
  let r := qw q in let i := qx q in let j := qy q in let k := qz q in
  let n := s_eval rnd (fun m => match m with O => r * r | S O => i * i | S (S O) => j * j | _ => k * k end) sq in
  let two_s := rnd (2 / n) in
  let p e x y := fmul rnd two_s (s_eval rnd (fun m => match m with O => x | _ => y end) (se e)) in
  mkM3 (fsub rnd 1 (p 0%nat (j * j) (k * k))) (p 1%nat (i * j) (- (k * r))) (p 2%nat (i * k) (j * r))
       (p 3%nat (i * j) (k * r)) (fsub rnd 1 (p 4%nat (i * i) (k * k))) (p 5%nat (j * k) (- (i * r)))
       (p 6%nat (i * k) (- (j * r))) (p 7%nat (j * k) (i * r)) (fsub rnd 1 (p 8%nat (i * i) (j * j))).

(** rotation_conversions.py:429-449; the first product goes by the trees [s1], the second by [s2] *)
Definition fl_qapply (s1 s2 : nat -> stree) (q : Q) (p : V3) : V3 :=
  qvec (fl_raw_multiply rnd s2 (fl_raw_multiply rnd s1 q (mkQ 0 (vx p) (vy p) (vz p))) (quaternion_invert q)).

(** rotation_conversions.py:563-587; [fl_divisor] is the choice between the two formulas *)
Definition fl_a2q (sn : stree) (v : V3) : Q :=
  let angle := fl_norm rnd sn v in
  let half := fmul rnd (/ 2) angle in
  let s := fl_divisor rnd fsin half angle in
  mkQ (fcos half) (fmul rnd (vx v) s) (fmul rnd (vy v) s) (fmul rnd (vz v) s).
(** rotation_conversions.py:527-544 *)
Definition fl_a2m (sn : stree) (v : V3) : M3 := fl_q2m (fl_a2q sn v).

(** transform3d.py:327-343 for one transform and one point, [eps] not given *)
Definition hom (p : V3) (k : nat) : R := match k with O => vx p | S O => vy p | S (S O) => vz p | _ => 1 end.
Definition fl_point (st : nat -> stree) (T : M4) (p : V3) : V3 :=
  let e i := s_eval rnd (fun k => row4 i T k * hom p k) (st i) in
  mkV3 (rnd (e 0%nat / e 3%nat)) (rnd (e 1%nat / e 3%nat)) (rnd (e 2%nat / e 3%nat)).
End Fl.
