(** C88: back-propagation through the 6D and Euler angle conversions. *)
From Coq Require Import Reals Lra Bool Arith Lia List String Ascii.
From Coquelicot Require Import Coquelicot.
From Verif Require Import Prelude ExtF Trig Lin RotModel RotBasic QuatProofs EulerProofs MathModel GradModel GradSixModel GradEulerModel SpecGrad SpecEulerGrad GradProofs GradDeriv GradTapes GradNan GradFinal GradSix GradEuler.
From Verif Require Import EulerGradFinal.
Import ListNotations.
Local Open Scope R_scope.



(** ** The 6D representation *)
Theorem C88_six_right : forall old a1 a2, eps12 < vnorm a1 -> eps12 < vnorm (perp a1 a2) ->
  differentiates old tape_rotation_6d_to_matrix six_list (v_list a1 ++ v_list a2).
Proof. exact l88_six_right. Qed.
Print Assumptions C88_six_right.
(** also for zero, parallel and very short vectors no gradient is infinite or NaN *)
Theorem C88_six_finite : forall old a1 a2 cot, exists g,
  gradient old tape_rotation_6d_to_matrix (map Fin (v_list a1 ++ v_list a2)) (map Fin cot) = map Fin g /\ List.length g = 6%nat.
Proof. exact l88_six_finite. Qed.
Print Assumptions C88_six_finite.
Example C88_six_example : differentiates false tape_rotation_6d_to_matrix six_list [1; 0; 0; 1; 1; 0].
Proof.
  assert (N : forall y, y = 1 -> sqrt y = 1) by (intros y ->; apply sqrt_1).
  apply (C88_six_right false (mkV3 1 0 0) (mkV3 1 1 0)); unfold perp, vsub, vscale, vnorm, vnorm2, vdot, eps12; cbn [vx vy vz]; rewrite N by field; lra.
Qed.

(** ** Angles to a matrix: right at all angles, gimbal lock or not *)
Theorem C88_angles_to_matrix : forall old a b c e, In (String a (String b (String c EmptyString))) conventions ->
  differentiates old (tape_euler_angles_to_matrix a b c) (e2m_list (String a (String b (String c EmptyString)))) (v_list e).
Proof. exact l88_angles_to_matrix. Qed.
Print Assumptions C88_angles_to_matrix.
Example C88_angles_to_matrix_example : differentiates true (tape_euler_angles_to_matrix "X" "Y" "Z") (e2m_list "XYZ") [1; PI / 2; 2].
Proof. apply (C88_angles_to_matrix true "X" "Y" "Z" (mkV3 1 (PI / 2) 2)). cbn. tauto. Qed.

(** ** A matrix to angles: right off gimbal lock and off the cut of the outer angles *)
Theorem C88_matrix_to_angles : forall old a b c A e, let s := String a (String b (String c EmptyString)) in In s conventions -> is_rot A ->
  matrix_to_euler_angles A s = Ok (fin3 e) -> vx e <> PI -> vz e <> PI -> gimbal_entry s A * gimbal_entry s A <> 1 ->
  differentiates old (tape_matrix_to_euler_angles a b c) (m2e_list s) (m3_list A).
Proof. exact l88_matrix_to_angles. Qed.
Print Assumptions C88_matrix_to_angles.
Example C88_matrix_to_angles_example : differentiates false (tape_matrix_to_euler_angles "X" "Y" "Z") (m2e_list "XYZ") (m3_list I3).
Proof.
  assert (G : gimbal_entry "XYZ" I3 * gimbal_entry "XYZ" I3 <> 1) by (cbv -[IZR Rmult not]; lra).
  assert (Z : atan2 (- 0) 1 = 0) by (replace (-0) with 0 by ring; unfold atan2; rewrite (proj2 (Rltb_true 0 1)) by lra; replace (0 / 1) with 0 by field; apply atan_0).
  pose proof PI_RGT_0. destruct (euler_matrix_back "XYZ" I3) as (e & E & _); [cbn; tauto | exact is_rot_I | exact G|].
  apply (C88_matrix_to_angles false "X" "Y" "Z" I3 e); [cbn; tauto | exact is_rot_I | exact E | | | exact G].
  - assert (X : Fin (vx e) = Fin (atan2 (- 0) 1)) by (apply (f_equal (fun r => match r with Ok q => f3x q | Err _ => NaN end)) in E; symmetry; exact E). injection X as X. lra.
  - assert (X : Fin (vz e) = Fin (atan2 (- 0) 1)) by (apply (f_equal (fun r => match r with Ok q => f3z q | Err _ => NaN end)) in E; symmetry; exact E). injection X as X. lra.
Qed.

(** ** Gimbal lock: the angles are finite, their gradients are not, whatever is done with the angles *)
Theorem C88_lock_refuted : forall old a b c A u v w, let s := String a (String b (String c EmptyString)) in In s conventions -> is_rot A ->
  gimbal_entry s A * gimbal_entry s A = 1 ->
  let i := index_from_letter a in let j := index_from_letter c in
  let g := gradient old (tape_matrix_to_euler_angles a b c) (map Fin (m3_list A)) (map Fin [u; v; w]) in
  (exists e, matrix_to_euler_angles A s = Ok (fin3 e)) /\
  (forall k, (k < 9)%nat -> in_cross i j k = true -> nth k g (Fin 0) = NaN) /\ unbounded (nth (3 * i + j) g (Fin 0)).
Proof. exact l88_lock_refuted. Qed.
Print Assumptions C88_lock_refuted.
(** the six conventions with equal outer axes are locked at the identity *)
Theorem C88_identity_refuted : forall old a b u v w, In (String a (String b (String a EmptyString))) proper_euler ->
  exists k, (k < 9)%nat /\ nth k (gradient old (tape_matrix_to_euler_angles a b a) (map Fin (m3_list I3)) (map Fin [u; v; w])) (Fin 0) = NaN.
Proof. exact l88_identity_refuted. Qed.
Print Assumptions C88_identity_refuted.
Example C88_identity_example : In "ZXZ"%string proper_euler /\ in_cross 2 2 6 = true /\ in_cross 2 2 8 = false /\ gimbal_entry "ZXZ" I3 * gimbal_entry "ZXZ" I3 = 1.
Proof. split; [cbn; tauto|]. split; [reflexivity|]. split; [reflexivity|]. cbv -[IZR Rmult]. ring. Qed.
