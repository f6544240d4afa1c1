(** Proofs about the pose error. *)
From Coq Require Import Reals Lra Bool Arith Lia List.
From Verif Require Import Prelude ExtF Lin Trig RotModel RotBasic QuatProofs AxisAngle RotFinal JacModel IKKernel.
Import ListNotations.
Local Open Scope R_scope.

Lemma vnorm_pos v : v <> vzero -> 0 < vnorm v.
Proof.
  intros H. destruct (Rle_lt_or_eq_dec 0 _ (vnorm_nonneg v)) as [L|L]; [exact L|]. exfalso. apply H, vnorm_zero_iff. symmetry. exact L.
Qed.
Lemma q2m_trace q : qnorm2 q = 1 -> trace3 (quaternion_to_matrix q) = 4 * (qw q * qw q) - 1.
Proof.
  intros H. assert (N : qnorm2 q <> 0) by lra. unfold quaternion_to_matrix, trace3. rewrite H. destruct q as [w x y z]. unfold qnorm2 in H. cbn [qw qx qy qz m00 m11 m22] in *.
  replace (x * x) with (1 - w * w - y * y - z * z) by lra. lra.
Qed.
(** the axis-angle vector of a unit quaternion with non-negative real part *)
Lemma q2aa_spec q : qnorm2 q = 1 -> 0 <= qw q ->
  exists v c a, quaternion_to_axis_angle q = fin3 v /\ v = vscale c (qvec q) /\ 0 < c /\ 0 <= a <= PI /\ trace3 (quaternion_to_matrix q) = 1 + 2 * cos a /\
    a <= vnorm v <= a + a ^ 5 / 960 /\ (a = 0 \/ eps6 <= a -> vnorm v = a).
Proof.
  intros Hq Hw. destruct (unit_q_polar q Hq) as (Hh & Hc & Hs). set (h := atan2 (vnorm (qvec q)) (qw q)) in *.
  pose proof eps6_pos as He. pose proof PI_RGT_0 as HPI. set (a := 2 * h) in *. assert (Eh : h = / 2 * a) by (unfold a; field).
  assert (Hh2 : h <= PI / 2).
  { destruct (Rle_lt_dec h (PI / 2)) as [|L]; [assumption|]. exfalso. assert (cos h < 0) by (apply cos_lt_0; lra). lra. }
  assert (Ha : 0 <= a <= PI) by (unfold a; lra).
  assert (Tr : trace3 (quaternion_to_matrix q) = 1 + 2 * cos a).
  { rewrite q2m_trace by exact Hq. unfold a. rewrite cos_2a_cos, Hc. ring. }
  destruct (Rlt_le_dec a eps6) as [L|L].
  - pose proof (sho_near a ltac:(lra)) as Bs. pose proof (sho_window a ltac:(rewrite Rabs_pos_eq; lra)) as Es.
    set (s := sin_half_over (/ 2 * a) a) in *. assert (D13 : 0 < / 10 ^ 13 < 1 / 100) by (simpl; lra).
    exists (vscale (/ s) (qvec q)), (/ s), a. assert (Ps : 0 < / s) by (apply Rinv_0_lt_compat; lra).
    assert (NV : vnorm (vscale (/ s) (qvec q)) = sin (/ 2 * a) / s).
    { rewrite vnorm_scale, <- Hs, Eh, Rabs_pos_eq; [field; lra | lra]. }
    assert (BV : a <= sin (/ 2 * a) / s <= a + a ^ 5 / 960).
    { destruct (sin_taylor (/ 2 * a)) as [L0 U]; [unfold eps6 in *; lra|].
      split; apply (Rmult_le_reg_r s); try lra; unfold Rdiv; rewrite (Rmult_assoc (sin _)), Rinv_l, Rmult_1_r by lra.
      - rewrite Es. simpl in *. lra.
      - assert (a * s + a ^ 5 / 3840 <= (a + a ^ 5 * / 960) * s).
        { assert (0 <= a ^ 5) by (apply pow_le; lra). nra. }
        assert (sin (/ 2 * a) <= a * s + a ^ 5 / 3840); [|lra]. rewrite Es. simpl in *. lra. }
    split; [rewrite q2aa_fin; fold h; fold a; fold s; [reflexivity | lra]|]. split; [reflexivity|]. split; [exact Ps|]. split; [exact Ha|]. split; [exact Tr|].
    rewrite NV. split; [exact BV|]. intros [Z|Z]; [|lra]. rewrite Z in *. rewrite Rmult_0_r, sin_0. unfold Rdiv. ring.
  - assert (Pa : 0 < a) by lra.
    assert (Pn : 0 < vnorm (qvec q)).
    { rewrite <- Hs. apply sin_gt_0; unfold a in Pa; lra. }
    assert (SO : sin_half_over (/ 2 * a) a = vnorm (qvec q) / a) by (rewrite sho_exact by (rewrite Rabs_pos_eq by lra; exact L); rewrite <- Eh, Hs; reflexivity).
    assert (NZ : 0 < vnorm (qvec q) / a) by (apply Rmult_lt_0_compat; [exact Pn | apply Rinv_0_lt_compat; exact Pa]).
    exists (vscale (/ (vnorm (qvec q) / a)) (qvec q)), (/ (vnorm (qvec q) / a)), a.
    assert (NV : vnorm (vscale (/ (vnorm (qvec q) / a)) (qvec q)) = a).
    { rewrite vnorm_scale, Rabs_pos_eq by (left; apply Rinv_0_lt_compat; exact NZ). field. lra. }
    split; [rewrite q2aa_fin; fold h; fold a; rewrite SO; [reflexivity | lra]|]. split; [reflexivity|]. split; [apply Rinv_0_lt_compat; exact NZ|]. split; [exact Ha|]. split; [exact Tr|].
    rewrite NV. assert (0 <= a ^ 5) by (apply pow_le; lra). split; [lra | reflexivity].
Qed.

Lemma unit_real_one q : qnorm2 q = 1 -> 0 <= qw q -> qvec q = vzero -> q = qone.
Proof.
  intros H W V. destruct q as [w x y z]. unfold qvec, vzero, qone, qnorm2 in *. cbn [qw qx qy qz] in *.
  assert (x = 0) by (apply (f_equal vx) in V; exact V). assert (y = 0) by (apply (f_equal vy) in V; exact V). assert (z = 0) by (apply (f_equal vz) in V; exact V). subst.
  assert ((w - 1) * (w + 1) = 0) as M by lra. apply Rmult_integral in M as [M|M]; apply mkQ_eq; lra.
Qed.
Lemma q2m_one_iff q : qnorm2 q = 1 -> 0 <= qw q -> (quaternion_to_matrix q = I3 <-> qvec q = vzero).
Proof.
  intros H W. split; intros E.
  - assert (T : trace3 (quaternion_to_matrix q) = 3) by (rewrite E; lin_simpl; ring). rewrite q2m_trace in T by exact H. apply qw1_vec; [exact H|].
    assert ((qw q - 1) * (qw q + 1) = 0) as M by lra. apply Rmult_integral in M as [M|M]; lra.
  - rewrite (unit_real_one q H W E). unfold quaternion_to_matrix, qone, qnorm2. cbn [qw qx qy qz]. apply mkM3_eq; field.
Qed.
Lemma diff_quat m tq : is_rot (rotp m) -> qnorm2 tq = 1 ->
  let q := quaternion_multiply tq (quaternion_invert (matrix_to_quaternion (rotp m))) in
  qnorm2 q = 1 /\ 0 <= qw q /\ quaternion_to_matrix q = m3mul (quaternion_to_matrix tq) (m3tr (rotp m)).
Proof.
  intros Hm Hq q. destruct (m2q_spec _ Hm) as [N E]. set (c := matrix_to_quaternion (rotp m)) in *.
  assert (Ni : qnorm2 (quaternion_invert c) = 1) by (rewrite <- N; destruct c; unfold quaternion_invert, qnorm2; cbn; ring).
  destruct (multiply_q2m tq (quaternion_invert c)) as (A & B & C); [lra | lra |]. fold q in A, B, C.
  split; [rewrite B, Hq, Ni; ring|]. split; [exact C|]. rewrite A. f_equal. destruct (l21_invert c N) as (D & _). rewrite D, E. reflexivity.
Qed.
Lemma rot_cancel A B : is_rot A -> is_rot B -> (m3mul A (m3tr B) = I3 <-> A = B).
Proof.
  intros HA HB. split; intros E.
  - rewrite <- (m3mul_1_r A), <- (is_rot_l B HB), m3mul_assoc, E, m3mul_1_l. reflexivity.
  - rewrite E. apply HB.
Qed.
Lemma delta_spec m tp tq : is_rot (rotp m) -> qnorm2 tq = 1 ->
  exists v a, delta_pose m tp tq = (vsub tp (trp m), fin3 v) /\ 0 <= a <= PI /\   trace3 (m3mul (quaternion_to_matrix tq) (m3tr (rotp m))) = 1 + 2 * cos a /\   a <= vnorm v <= a + a ^ 5 / 960 /\   (a = 0 \/ eps6 <= a -> vnorm v = a /\ axis_angle_to_matrix v = m3mul (quaternion_to_matrix tq) (m3tr (rotp m))) /\ (v = vzero <-> rotp m = quaternion_to_matrix tq).
Proof.
  intros Hm Hq. destruct (diff_quat m tq Hm Hq) as (N & W & E). unfold delta_pose. set (q := quaternion_multiply tq (quaternion_invert (matrix_to_quaternion (rotp m)))) in *.
  destruct (q2aa_spec q N W) as (v & c & a & H1 & H2 & H3 & H4 & H5 & H6 & H7). exists v, a. rewrite H1. rewrite E in H5.
  split; [reflexivity|]. split; [exact H4|]. split; [exact H5|]. split; [exact H6|]. split.
  - intros Ha. split; [apply H7; exact Ha|]. unfold axis_angle_to_matrix. rewrite <- E. f_equal. apply q_aa_q; [exact N | | | exact H1].
    + destruct (Req_dec (vnorm (qvec q)) 0) as [Z|Z]; [right | left; intros Z'; apply Z, vnorm_zero_iff, Z'].
      apply vnorm_zero_iff in Z. rewrite (unit_real_one q N W Z). reflexivity.
    + destruct (unit_q_polar q N) as (Hh & Hc & Hs). set (h := atan2 (vnorm (qvec q)) (qw q)) in *.
      assert (C : cos (2 * h) = cos a) by (rewrite cos_2a_cos, Hc; rewrite <- E, q2m_trace in H5 by exact N; lra).
      assert (h <= PI / 2).
      { pose proof PI_RGT_0. destruct (Rle_lt_dec h (PI / 2)) as [|L]; [assumption|]. exfalso. assert (cos h < 0) by (apply cos_lt_0; lra). lra. }
      assert (A : 2 * h = a).
      { destruct (Rtotal_order (2 * h) a) as [L|[L|L]]; [|exact L|].
        - pose proof (cos_decr_lt (2 * h) a ltac:(lra) ltac:(lra) L). lra.
        - pose proof (cos_decr_lt a (2 * h) ltac:(lra) ltac:(lra) L). lra. }
      destruct Ha as [Ha|Ha]; [right | left; lra]. rewrite <- Hc. replace h with 0 by lra. apply cos_0.
  - split.
    + intros Z. symmetry. apply rot_cancel; [| exact Hm |].
      * apply l19_in_SO3. intros Q. rewrite Q in Hq. unfold qnorm2 in Hq. cbn in Hq. lra.
      * rewrite <- E. apply q2m_one_iff; [exact N | exact W |]. assert (Z2 : vnorm (vscale c (qvec q)) = 0) by (rewrite <- H2, Z; apply vnorm_zero_iff; reflexivity).
        rewrite vnorm_scale, Rabs_pos_eq in Z2 by lra. apply Rmult_integral in Z2. destruct Z2 as [Z2|Z2]; [lra|]. apply vnorm_zero_iff. exact Z2.
    + intros Z. rewrite H2. assert (Q : qvec q = vzero).
      { apply q2m_one_iff; [exact N | exact W |]. rewrite E, <- Z. apply Hm. }
      rewrite Q. lin_simpl. apply mkV3_eq; ring.
Qed.
