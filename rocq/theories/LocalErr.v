(** The pose error used by the solver next to a smooth one, and how the smooth one changes along a motion. *)
From Coq Require Import Reals Lra String Bool Arith Lia List FunctionalExtensionality.
From Coquelicot Require Import Coquelicot.
From Verif Require Import Prelude ExtF Tree ChainModel SpecFK ChainProofs Lin Trig RotModel RotBasic QuatProofs AxisAngle ChainInst Deriv JacModel JacProofs IKKernel KernelProofs DeltaPose
  IKSolve SolveProofs SerialMore SpecDescent PathDeriv AngleDeriv DescentProofs LocalNorm LocalCont.
Import ListNotations.
Local Open Scope R_scope.

(** ** the error the code computes *)
Definition comp_err (target T : M4) : V3 * V3 :=
  (vsub (trp target) (trp T), match fin3_of (snd (delta_pose T (trp target) (matrix_to_quaternion (rotp target)))) with Some v => v | None => vzero end).
(** the smooth error: position and half the axial vector of the rotation that is left *)
Definition soft_err (target T : M4) : V3 * V3 := (vsub (trp target) (trp T), vscale (1 / 2) (axial (m3mul (rotp target) (m3tr (rotp T))))).

Lemma axial_q2m q : qnorm2 q = 1 -> axial (quaternion_to_matrix q) = vscale (4 * qw q) (qvec q).
Proof.
  intros H. unfold quaternion_to_matrix, axial. rewrite H. destruct q as [a b c d]. unfold qvec, vscale. cbn [qw qx qy qz m00 m01 m02 m10 m11 m12 m20 m21 m22 vx vy vz]. apply mkV3_eq; field.
Qed.
Lemma comp_spec target T : is_rot (rotp target) -> is_rot (rotp T) -> exists a,
  delta_pose T (trp target) (matrix_to_quaternion (rotp target)) = (fst (comp_err target T), fin3 (snd (comp_err target T))) /\ angle_between target T a /\
  (a <= 1 -> vnorm (snd (comp_err target T)) <= 2 * a /\ vnorm (snd (soft_err target T)) <= vnorm (snd (comp_err target T)) /\
    vnorm (vsub (snd (comp_err target T)) (snd (soft_err target T))) <= a * a * vnorm (snd (soft_err target T))).
Proof.
  intros Ht HT. destruct (m2q_spec _ Ht) as [Nq Eq]. destruct (diff_quat T _ HT Nq) as (N & W & E). rewrite Eq in E. unfold comp_err, soft_err, delta_pose. cbn [fst snd].
  set (q := quaternion_multiply (matrix_to_quaternion (rotp target)) (quaternion_invert (matrix_to_quaternion (rotp T)))) in *.
  destruct (q2aa_spec q N W) as (v & c & a & H1 & H2 & H3 & H4 & H5 & H6 & _). exists a. rewrite H1, fin3_of_fin. split; [reflexivity|]. rewrite E in H5. split; [split; [exact H4 | exact H5]|].
  intros Ha. rewrite <- E in H5 |- *. rewrite axial_q2m by exact N. rewrite q2m_trace in H5 by exact N.
  assert (EV : vscale (1 / 2) (vscale (4 * qw q) (qvec q)) = vscale (2 * qw q) (qvec q)) by (generalize (qvec q); intros u; unfold vscale; cbn [vx vy vz]; apply mkV3_eq; field).
  rewrite EV. clear EV. pose proof PI_RGT_0 as HPI. pose proof PI2_3_2 as HP2. unfold PI2 in HP2.
  assert (S0 : 0 <= sin a) by (apply sin_ge_0; lra). pose proof (vnorm_nonneg (qvec q)) as NV.
  assert (EN : 2 * qw q * vnorm (qvec q) = sin a).
  { assert (V2 : vnorm (qvec q) * vnorm (qvec q) = 1 - qw q * qw q).
    { unfold vnorm. rewrite sqrt_sqrt by apply vnorm2_nonneg. unfold qnorm2 in N. unfold vnorm2, vdot, qvec. cbn [vx vy vz]. lra. }
    apply Rsqr_inj; [apply Rmult_le_pos; lra | exact S0|]. unfold Rsqr. replace (2 * qw q * vnorm (qvec q) * (2 * qw q * vnorm (qvec q))) with (4 * (qw q * qw q) * (vnorm (qvec q) * vnorm (qvec q))) by ring. rewrite V2.
    pose proof (sin2_cos2 a) as SC. unfold Rsqr in SC. replace (qw q * qw q) with ((1 + cos a) / 2) by lra. replace (sin a * sin a) with (1 - cos a * cos a) by lra. field. }
  assert (EN2 : vnorm (vscale (2 * qw q) (qvec q)) = sin a) by (rewrite vnorm_scale, Rabs_pos_eq by lra; exact EN).
  assert (VN : vnorm v = c * vnorm (qvec q)) by (rewrite H2, vnorm_scale, Rabs_pos_eq by lra; reflexivity).
  destruct (sin_taylor a ltac:(lra)) as [L U]. destruct H4 as [A0 _].
  assert (P3 : 0 <= a ^ 3) by (apply pow_le; exact A0). assert (P5 : a ^ 5 <= a ^ 3).
  { replace (a ^ 5) with (a ^ 3 * (a * a)) by ring. assert (a * a <= 1 * 1) by (apply Rmult_le_compat; lra). assert (a ^ 3 * (a * a) <= a ^ 3 * 1) by (apply Rmult_le_compat_l; lra). lra. }
  assert (P31 : a ^ 3 <= a). { replace (a ^ 3) with (a * (a * a)) by ring. assert (a * a <= 1 * 1) by (apply Rmult_le_compat; lra). assert (a * (a * a) <= a * 1) by (apply Rmult_le_compat_l; lra). lra. }
  assert (SA : sin a <= a) by lra.
  split; [lra|]. rewrite EN2. split; [lra|].
  assert (ED : vsub v (vscale (2 * qw q) (qvec q)) = vscale (c - 2 * qw q) (qvec q)) by (rewrite H2; generalize (qvec q); intros u; unfold vsub, vscale; cbn [vx vy vz]; apply mkV3_eq; ring).
  assert (NE : vnorm (vscale (c - 2 * qw q) (qvec q)) = vnorm v - sin a).
  { rewrite vnorm_scale, VN, <- EN. destruct (Req_dec (vnorm (qvec q)) 0) as [Z|Z]; [rewrite Z; ring|]. rewrite Rabs_pos_eq; [ring|].
    apply Rmult_le_reg_r with (vnorm (qvec q)); [lra|]. rewrite Rmult_0_l, Rmult_minus_distr_r, <- VN. rewrite EN. lra. }
  rewrite ED, NE. assert (H7 : a * a * (a - a ^ 3 / 6) <= a * a * sin a) by (apply Rmult_le_compat_l; [apply Rle_0_sqr | exact L]).
  replace (a * a * (a - a ^ 3 / 6)) with (a ^ 3 - a ^ 5 / 6) in H7 by (simpl; field). lra.
Qed.

(** ** entrywise distance of rotations *)
Definition entries : list (M3 -> R) := [m00; m01; m02; m10; m11; m12; m20; m21; m22].
Definition closeR (b : R) (A B : M3) : Prop := forall h, In h entries -> Rabs (h A - h B) <= b.
Lemma closeR_trans a b A B C : closeR a A B -> closeR b B C -> closeR (a + b) A C.
Proof. intros H1 H2 h Hh. specialize (H1 h Hh). specialize (H2 h Hh). replace (h A - h C) with ((h A - h B) + (h B - h C)) by ring. eapply Rle_trans; [apply Rabs_triang|]. lra. Qed.
Lemma closeR_sym a A B : closeR a A B -> closeR a B A.
Proof. intros H h Hh. rewrite Rabs_minus_sym. apply H. exact Hh. Qed.
Lemma closeR_mono a b A B : a <= b -> closeR a A B -> closeR b A B.
Proof. intros L H h Hh. specialize (H h Hh). lra. Qed.
Definition sqd (A B : M3) : R := (m00 A - m00 B) ^ 2 + (m01 A - m01 B) ^ 2 + (m02 A - m02 B) ^ 2 + (m10 A - m10 B) ^ 2 + (m11 A - m11 B) ^ 2 + (m12 A - m12 B) ^ 2 + (m20 A - m20 B) ^ 2 + (m21 A - m21 B) ^ 2 + (m22 A - m22 B) ^ 2.
Lemma rot_rows A : is_rot A -> m00 A * m00 A + m01 A * m01 A + m02 A * m02 A = 1 /\ m10 A * m10 A + m11 A * m11 A + m12 A * m12 A = 1 /\ m20 A * m20 A + m21 A * m21 A + m22 A * m22 A = 1.
Proof. intros [H _]. split; [apply (f_equal m00) in H; exact H|]. split; [apply (f_equal m11) in H; exact H | apply (f_equal m22) in H; exact H]. Qed.
Lemma sqd_trace A B : is_rot A -> is_rot B -> sqd A B = 6 - 2 * trace3 (m3mul A (m3tr B)).
Proof.
  intros HA HB. destruct (rot_rows A HA) as (A1 & A2 & A3). destruct (rot_rows B HB) as (B1 & B2 & B3). unfold sqd, trace3, m3mul, m3tr. cbn [m00 m01 m02 m10 m11 m12 m20 m21 m22]. lra.
Qed.
Lemma sqd_angle target T a : is_rot (rotp target) -> is_rot (rotp T) -> angle_between target T a -> sqd (rotp target) (rotp T) = 4 * (1 - cos a).
Proof. intros H1 H2 [_ H]. rewrite sqd_trace, H by assumption. ring. Qed.
Lemma closeR_sqd b A B : 0 <= b -> closeR b A B -> sqd A B <= 9 * (b * b).
Proof.
  intros Hb H. assert (Q : forall h, In h entries -> (h A - h B) ^ 2 <= b * b).
  { intros h Hh. specialize (H h Hh). rewrite <- (Rabs_pos_eq b) in H by exact Hb. apply Rsqr_le_abs_1 in H. unfold Rsqr in H. simpl. lra. }
  pose proof (Q m00 ltac:(simpl; tauto)). pose proof (Q m01 ltac:(simpl; tauto)). pose proof (Q m02 ltac:(simpl; tauto)). pose proof (Q m10 ltac:(simpl; tauto)). pose proof (Q m11 ltac:(simpl; tauto)).
  pose proof (Q m12 ltac:(simpl; tauto)). pose proof (Q m20 ltac:(simpl; tauto)). pose proof (Q m21 ltac:(simpl; tauto)). pose proof (Q m22 ltac:(simpl; tauto)). unfold sqd. lra.
Qed.
Lemma sqd_closeR b A B : 0 <= b -> sqd A B <= b * b -> closeR b A B.
Proof.
  intros Hb H. assert (P : forall h : M3 -> R, 0 <= (h A - h B) ^ 2) by (intros; apply pow2_ge_0).
  pose proof (P m00). pose proof (P m01). pose proof (P m02). pose proof (P m10). pose proof (P m11). pose proof (P m12). pose proof (P m20). pose proof (P m21). pose proof (P m22). unfold sqd in H.
  assert (Q : forall h, In h entries -> (h A - h B) ^ 2 <= b * b) by (intros h Hh; simpl in Hh; repeat (destruct Hh as [<-|Hh]; [lra|]); contradiction).
  intros h Hh. specialize (Q h Hh). rewrite <- (Rabs_pos_eq b) by exact Hb. apply Rsqr_le_abs_0. unfold Rsqr. simpl in Q. lra.
Qed.
(** a small angle means close, and close means a small angle *)
Lemma angle_closeR target T a : is_rot (rotp target) -> is_rot (rotp T) -> angle_between target T a -> closeR (2 * a) (rotp target) (rotp T).
Proof.
  intros H1 H2 H. pose proof H as [[A0 A1] _]. apply sqd_closeR; [lra|]. rewrite (sqd_angle target T a H1 H2 H).
  assert (C : 1 - cos a <= a * a / 2).
  { assert (CE : cos a = 1 - 2 * sin (a / 2) * sin (a / 2)) by (rewrite <- cos_2a_sin; f_equal; field). rewrite CE.
    assert (S : sin (a / 2) <= a / 2) by (destruct (Req_dec a 0) as [->|]; [replace (0 / 2) with 0 by field; rewrite sin_0; lra | left; apply sin_lt_x; lra]).
    assert (S0 : 0 <= sin (a / 2)) by (apply sin_ge_0; lra). assert (sin (a / 2) * sin (a / 2) <= a / 2 * (a / 2)) by (apply Rmult_le_compat; assumption). lra. }
  pose proof (Rle_0_sqr a). unfold Rsqr in *. lra.
Qed.
Lemma closeR_angle target T a b : is_rot (rotp target) -> is_rot (rotp T) -> angle_between target T a -> 0 <= b -> closeR b (rotp target) (rotp T) -> a * a <= 27 * (b * b).
Proof.
  intros H1 H2 H Hb C. pose proof (closeR_sqd b _ _ Hb C) as S. rewrite (sqd_angle target T a H1 H2 H) in S. destruct H as [A _]. pose proof (one_minus_cos a A). lra.
Qed.
