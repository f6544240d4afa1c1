(** What it means for the arithmetic of the Jacobian to be rounded, and for a Jacobian to be close to the true one. *)
From Coq Require Import Reals Lra String Bool Arith List.
From Verif Require Import Prelude ExtF Tree ChainModel SpecFK Lin Trig RotModel RotBasic ChainInst SpecRound JacModel RoundJacModel.
Import ListNotations.
Local Open Scope R_scope.

(** sums of absolute products, as in a cross product *)
Definition abs_cross (a b : V3) : V3 :=
  mkV3 (Rabs (vy a * vz b) + Rabs (vz a * vy b)) (Rabs (vz a * vx b) + Rabs (vx a * vz b)) (Rabs (vx a * vy b) + Rabs (vy a * vx b)).
(** every entry is off by at most the factor times the sum of the absolute values of its terms *)
Definition rounded_jops (gv us h : R) (o : jops) : Prop :=
  (forall A v, vle (vabs (vsub (jo_vec o A v) (m3vec A v))) (vscale gv (m3vec (m3abs A) (vabs v)))) /\
  (forall a b, vle (vabs (vsub (jo_sub o a b) (vsub a b))) (vscale us (vabs (vsub a b)))) /\
  (forall a b, vle (vabs (vsub (jo_cross o a b) (vcross a b))) (vscale h (abs_cross a b))) /\
  (forall a b, vle (vabs (vsub (jo_add o a b) (vadd a b))) (vscale us (vabs (vadd a b)))).

(** Columns of the computed against the true Jacobian, for the moving frames: linear part of a revolute joint within [lin], axes
    (angular part of a revolute, linear part of a prismatic joint) within [ax]; the zeros of a prismatic joint are exact. *)
Definition col_within (lin ax : R) (f : mframe) (c' c : V3 * V3) : Prop :=
  if jtype_eqb (j_type (f_joint f)) Revolute
  then vnorm (vsub (fst c') (fst c)) <= lin /\ vnorm (vsub (snd c') (snd c)) <= ax
  else vnorm (vsub (fst c') (fst c)) <= ax /\ snd c' = vzero /\ snd c = vzero.
Inductive jac_within (lin ax : R) : list mframe -> jac -> jac -> Prop :=
| jw_nil : jac_within lin ax [] [] []
| jw_cons f fs c' c J' J : col_within lin ax f c' c -> jac_within lin ax fs J' J -> jac_within lin ax (f :: fs) (c' :: J') (c :: J).
