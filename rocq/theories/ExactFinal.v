(** Last steps of the proofs quoted in Properties_Exact.v. *)
From Coq Require Import Reals Lra String Ascii Bool Arith Lia List Permutation.
From Verif Require Import Prelude ExtF Tree ChainModel SpecFK ChainProofs Lin Trig RotModel RotBasic T3dModel ChainInst
  LoaderModel LoaderTree RobotModel RobotProofs LoaderProofs LoaderMore SdfProofs MjcfModel MjcfProofs Examples LoaderExamples LoaderExact.
Import ListNotations.
Local Open Scope nat_scope.
Local Open Scope string_scope.
Local Open Scope list_scope.

Lemma l54_sdf_rpy_exact : forall xyz r p y,
  sdf_transform (Some (mkSPose xyz (mkV3 r p y))) = Ok (mkT KBase [aff (rpy_matrix (mkV3 r p y)) xyz]) <->
  (cos r = cos y /\ sin r = sin y) \/ sin p = (-1)%R \/ (sin p = 1%R /\ sin (r - y) = 0%R).
Proof.
  intros xyz r p y. rewrite sdf_transform_ok. pose proof (swapped_declared (Some (mkSPose xyz (mkV3 r p y)))) as H. cbn [sp_rpy sdf_pose sp_xyz] in H.
  unfold symmetric_rpy in H. cbn [vx vy vz] in H. rewrite <- H. split; [|intros ->; reflexivity].
  intros E. assert (HX : forall a b, Ok (mkT KBase [a]) = Ok (mkT KBase [b]) -> a = b) by (intros; congruence). apply HX, E.
Qed.
