(** C85: which matrices pass the check for rotations. *)
From Coq Require Import Reals Lra Lia Bool Arith List Psatz.
From Verif Require Import Prelude ExtF Lin ValidModel SpecValid ValidProofs.
From Verif Require Import ValidFinal.
Import ListNotations.
Local Open Scope R_scope.


(** no warning means: all numbers are finite and every matrix is near a rotation; a reflection, for one, is not *)
Theorem C85_accepted_near : forall tol Rs, 0 <= tol <= / 1000 -> check_warns false tol Rs = false ->
  forall M, In M Rs -> exists A Q, holds M A /\ is_rot Q /\ within (3 * tol + / 100000) A Q.
Proof. exact l85_accepted_near. Qed.
Print Assumptions C85_accepted_near.
Example C85_reflection_ex : check_warns false (/ 100000) [fm (mkM3 1 0 0 0 1 0 0 0 (-1))] = true.
Proof.
  destruct (check_warns false (/ 100000) [fm (mkM3 1 0 0 0 1 0 0 0 (-1))]) eqn:E; [reflexivity|]. exfalso.
  unfold check_warns in E. apply negb_false_iff, andb_true_iff in E as [_ E]. cbn [forallb] in E. rewrite andb_true_r in E. apply (distortion_iff _ _ (fm_holds _)) in E. apply abs_le in E.
  unfold det3, atol8, rtol5 in E. cbn [m00 m01 m02 m10 m11 m12 m20 m21 m22] in E. lra.
Qed.

(** no warning for matrices that are rotations up to a quarter of the tolerance; the fixed tolerance on the determinant asks for 1.9e-6 *)
Theorem C85_near_accepted : forall compiling tol d Rs, 0 <= d <= 19 / 10000000 -> 4 * d <= tol ->
  (forall M, In M Rs -> exists A Q, holds M A /\ is_rot Q /\ within d A Q) -> check_warns compiling tol Rs = false.
Proof. exact l85_near_accepted. Qed.
Print Assumptions C85_near_accepted.
(** in particular none for rotations, whatever the tolerance *)
Theorem C85_rotations_accepted : forall compiling tol Qs, 0 <= tol -> Forall is_rot Qs -> check_warns compiling tol (map fm Qs) = false.
Proof. exact l85_rotations_accepted. Qed.
Print Assumptions C85_rotations_accepted.
Example C85_rotations_accepted_ex : check_warns false (/ 100000) [fm I3] = false.
Proof. apply (C85_rotations_accepted false (/ 100000) [I3]); [lra|]. repeat constructor; apply is_rot_I. Qed.

(** a tolerance of zero does not ask for orthogonality: the relative tolerance of [torch.allclose] stays *)
Theorem C85_tolerance_zero_refuted : exists A, ~ is_rot A /\ check_warns false 0 [fm A] = false.
Proof. exact l85_tolerance_zero_refuted. Qed.
Print Assumptions C85_tolerance_zero_refuted.
(** one bad matrix in the batch, or one number that is not finite, and the warning comes; not while compiling *)
Theorem C85_one_bad : forall tol Rs M, 0 <= tol <= / 1000 -> In M Rs -> (forall A Q, holds M A -> is_rot Q -> ~ within (3 * tol + / 100000) A Q) ->
  check_warns false tol Rs = true /\ check_warns true tol Rs = false.
Proof. exact l85_one_bad. Qed.
Print Assumptions C85_one_bad.
Example C85_nan_ex : check_warns false (/ 100000) [fm I3; fun i j => NaN] = true.
Proof.
  apply (C85_one_bad (/ 100000) _ (fun i j => NaN)); [lra | right; left; reflexivity|]. intros A Q H. specialize (H 0%nat 0%nat ltac:(lia) ltac:(lia)). discriminate H.
Qed.
