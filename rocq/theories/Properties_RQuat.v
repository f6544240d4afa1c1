(** C86: rounding errors of the conversions between quaternions, axis-angle vectors and matrices. *)
From Coq Require Import Reals Lra Lia Bool Arith List Psatz Permutation.
From Verif Require Import Prelude ExtF Lin Trig RotModel RotBasic QuatProofs SlerpProofs AxisAngle MathModel ValidModel SpecValid ValidProofs ValidFinal SpecRound RoundNorm RoundProofs RoundFloat RoundFinal RoundJacModel RoundJacProofs RoundErrModel SpecRoundErr RoundErrQuat RoundErrAngle RoundModel RoundQuatModel RoundQuatProofs RoundQuatTwo RoundQuatAxis SpecRoundQuat.
From Verif Require Import RQuatFinal.
Import ListNotations.
Local Open Scope R_scope.


(** a matrix from a quaternion of any length, whatever the order of the sums *)
Theorem C86_quaternion_to_matrix : forall u rnd sq se q, rounding u rnd -> u <= / 10000 -> s_full sq -> (forall i, s_full2 (se i)) -> qnorm2 q <> 0 ->
  is_rot (quaternion_to_matrix q) /\ within (19 * u) (fl_q2m rnd sq se q) (quaternion_to_matrix q).
Proof. exact l86_quaternion_to_matrix. Qed.
Print Assumptions C86_quaternion_to_matrix.
(** in float32 such matrices always pass the check of [Rotate] with its default tolerance *)
Example C86_passes_check : forall qs, Forall (fun q => qnorm2 q <> 0) qs ->
  check_warns false (/ 100000) (map (fun q => fm (fl_q2m rnd32 s_left (fun _ => two2) q)) qs) = false.
Proof.
  intros qs H. apply (l85_near_accepted false (/ 100000) (19 * u32)); [unfold u32; lra | unfold u32; lra|]. intros M HM. apply in_map_iff in HM as (q & <- & Hq). rewrite Forall_forall in H.
  destruct (C86_quaternion_to_matrix u32 rnd32 s_left (fun _ => two2) q rnd32_rounding ltac:(unfold u32; lra) left_full (fun _ => two2_full) (H q Hq)) as [R W].
  exists (fl_q2m rnd32 s_left (fun _ => two2) q), (quaternion_to_matrix q). split; [apply fm_holds|]. split; assumption.
Qed.

(** rotating a point by a unit quaternion *)
Theorem C86_quaternion_apply : forall u rnd s1 s2 q p, rounding u rnd -> u <= / 10000 -> (forall i, s_full (s1 i)) -> (forall i, s_full (s2 i)) -> qnorm2 q = 1 ->
  vnorm (vsub (fl_qapply rnd s1 s2 q p) (m3vec (quaternion_to_matrix q) p)) <= 17 * u * vnorm p.
Proof. exact l86_quaternion_apply. Qed.
Print Assumptions C86_quaternion_apply.
Example C86_quaternion_apply_ex : vnorm (vsub (fl_qapply rnd32 (fun _ => s_left) (fun _ => s_left) (mkQ 0 1 0 0) (mkV3 1 2 2)) (mkV3 1 (-2) (-2))) <= / 100000.
Proof.
  pose proof (C86_quaternion_apply u32 rnd32 (fun _ => s_left) (fun _ => s_left) (mkQ 0 1 0 0) (mkV3 1 2 2) rnd32_rounding ltac:(unfold u32; lra) (fun _ => left_full) (fun _ => left_full)) as H.
  assert (N : qnorm2 (mkQ 0 1 0 0) = 1) by (unfold qnorm2; cbn [qw qx qy qz]; ring). specialize (H N).
  assert (E : m3vec (quaternion_to_matrix (mkQ 0 1 0 0)) (mkV3 1 2 2) = mkV3 1 (-2) (-2)).
  { rewrite (q2m_unit _ N). unfold qmat, m3vec. cbn [qw qx qy qz m00 m01 m02 m10 m11 m12 m20 m21 m22 vx vy vz]. apply mkV3_eq; ring. }
  rewrite E in H. assert (V : vnorm (mkV3 1 2 2) <= 3) by (apply vnorm_le_sqr; [lra|]; unfold vnorm2, vdot; cbn [vx vy vz]; lra). eapply Rle_trans; [exact H|]. apply Rle_trans with (17 * u32 * 3); [apply Rmult_le_compat_l; unfold u32; lra | unfold u32; lra].
Qed.

(** the product of two quaternions, read as a matrix, is the product of the matrices *)
Theorem C86_multiply : forall u rnd sq se sp a b, rounding u rnd -> u <= / 10000 -> s_full sq -> (forall i, s_full2 (se i)) -> (forall i, s_full (sp i)) ->
  qnorm2 a <> 0 -> qnorm2 b <> 0 ->
  within (52 * u) (fl_q2m rnd sq se (fl_multiply rnd sp a b)) (m3mul (quaternion_to_matrix a) (quaternion_to_matrix b)).
Proof. exact l86_multiply. Qed.
Print Assumptions C86_multiply.
Example C86_multiply_ex : within (/ 300000) (fl_q2m rnd32 s_left (fun _ => two2) (fl_multiply rnd32 (fun _ => s_left) (mkQ 1 2 3 4) (mkQ 0 0 5 1))) (m3mul (quaternion_to_matrix (mkQ 1 2 3 4)) (quaternion_to_matrix (mkQ 0 0 5 1))).
Proof.
  intros i j Hi Hj. eapply Rle_trans; [apply (C86_multiply u32 rnd32); [exact rnd32_rounding | unfold u32; lra | exact left_full | intros; exact two2_full | intros; exact left_full | | | exact Hi | exact Hj]|]; unfold qnorm2; cbn [qw qx qy qz]; unfold u32; lra.
Qed.

(** the quaternion of an axis-angle vector; the error grows with the angle, because its norm is rounded *)
Theorem C86_axis_angle_to_quaternion : forall u t e rnd fcos fsin sn k th, rounding u rnd -> trig_within t fcos fsin -> s_full3 sn ->
  u <= e -> 0 <= t <= e -> e <= / 100000 -> unit3 k -> 0 <= th ->
  qdist (fl_a2q rnd fcos fsin sn (vscale th k)) (turn_quat k th) <= e * (10 + 6 * th) + 2 / 10 ^ 30.
Proof. exact l86_axis_angle_to_quaternion. Qed.
Print Assumptions C86_axis_angle_to_quaternion.
(** and its matrix *)
Theorem C86_axis_angle_to_matrix : forall u t e rnd fcos fsin sq se sn k th, rounding u rnd -> trig_within t fcos fsin -> s_full sq -> (forall i, s_full2 (se i)) -> s_full3 sn ->
  u <= e -> 0 <= t <= e -> e <= / 100000 -> unit3 k -> 0 <= th -> e * th <= / 20 ->
  within (e * (59 + 24 * th) + 8 / 10 ^ 30) (fl_a2m rnd fcos fsin sq se sn (vscale th k)) (axis_and_angle_to_matrix_33 k th).
Proof. exact l86_axis_angle_to_matrix. Qed.
Print Assumptions C86_axis_angle_to_matrix.
Example C86_axis_angle_ex : forall th, 0 <= th <= 7 -> within (/ 50000) (fl_a2m rnd32 (fun q => rnd32 (cos q)) (fun q => rnd32 (sin q)) s_left (fun _ => two2) three3 (vscale th (mkV3 0 0 1))) (axis_and_angle_to_matrix_33 (mkV3 0 0 1) th).
Proof.
  intros th H i j Hi Hj. assert (e60 : u32 * th <= u32 * 7) by (apply Rmult_le_compat_l; unfold u32; lra). assert (tn : 0 < / 10 ^ 30 <= / 100000000) by (split; [apply Rinv_0_lt_compat, pow_lt; lra|]; apply Rinv_le_contravar; [lra|]; cbn [pow]; lra).
  eapply Rle_trans; [apply (C86_axis_angle_to_matrix u32 u32 u32 rnd32); [exact rnd32_rounding | exact ex_trig32 | exact left_full | intros; exact two2_full | exact three3_full | lra | unfold u32; lra | unfold u32; lra | unfold unit3, vnorm2, vdot; cbn [vx vy vz]; ring | lra | unfold u32 in *; lra | exact Hi | exact Hj]|].
  replace (8 / 10 ^ 30) with (8 * / 10 ^ 30) by reflexivity. set (tnn := / 10 ^ 30) in *. unfold u32 in *. lra.
Qed.

(** to a matrix and back: the unit quaternion up to sign *)
Theorem C86_round_trip : forall u rnd sq se q, rounding u rnd -> u <= / 10000 -> s_full sq -> (forall i, s_full2 (se i)) -> qnorm2 q <> 0 ->
  let q' := fl_m2q rnd (fl_q2m rnd sq se q) in
  qdist q' (unit_quat q) <= 120 * u \/ qdist q' (qopp (unit_quat q)) <= 120 * u.
Proof. exact l86_round_trip. Qed.
Print Assumptions C86_round_trip.
(** and the other way round, for matrices near a rotation *)
Theorem C86_round_trip_matrix : forall u rnd sq se A B b, rounding u rnd -> u <= / 10000 -> s_full sq -> (forall i, s_full2 (se i)) ->
  is_rot B -> within b A B -> 0 <= b <= / 100 -> within (22 * b + 111 * u) (fl_q2m rnd sq se (fl_m2q rnd A)) A.
Proof. exact l86_round_trip_matrix. Qed.
Print Assumptions C86_round_trip_matrix.
Example C86_round_trip_ex : forall q, qnorm2 q = 1 -> 0 < qw q -> let q' := fl_m2q rnd32 (fl_q2m rnd32 s_left (fun _ => two2) q) in qdist q' q <= / 100000 \/ qdist q' (qopp q) <= / 100000.
Proof.
  intros q N W q'. assert (E : unit_quat q = q) by (unfold unit_quat, qscale; rewrite N, sqrt_1, Rinv_1, !Rmult_1_l; destruct q; reflexivity).
  destruct (C86_round_trip u32 rnd32 s_left (fun _ => two2) q rnd32_rounding ltac:(unfold u32; lra) left_full (fun _ => two2_full) ltac:(lra)) as [H|H]; rewrite E in H; fold q' in H; [left | right]; unfold u32 in H; lra.
Qed.

(** points moved by a transform: five roundings *)
Theorem C86_transform_points : forall u rnd st T p, rounding u rnd -> (forall i, s_full (st i)) -> affine T ->
  vle (vabs (vsub (fl_point rnd st T p) (vadd (m3vec (rotp T) p) (trp T)))) (vscale ((1 + u) ^ 5 - 1) (vadd (m3vec (m3abs (rotp T)) (vabs p)) (vabs (trp T)))).
Proof. exact point_err. Qed.
Print Assumptions C86_transform_points.
Example C86_transform_points_ex : Rabs (vx (fl_point rnd32 (fun _ => s_left) (aff I3 (mkV3 1 2 3)) (mkV3 (-4) 5 6)) - (-3)) <= / 100000.
Proof.
  destruct (C86_transform_points u32 rnd32 (fun _ => s_left) (aff I3 (mkV3 1 2 3)) (mkV3 (-4) 5 6) rnd32_rounding (fun _ => left_full)) as (H & _); [repeat split; reflexivity|].
  unfold vabs, vsub, vadd, vscale, m3vec, m3abs, rotp, trp, aff, I3 in H. cbn [vx vy vz m00 m01 m02 m10 m11 m12 m20 m21 m22 a00 a01 a02 a03 a10 a11 a12 a13 a20 a21 a22 a23] in H. rewrite !Rabs_R1, !Rabs_R0, (Rabs_left (-4)) in H by lra.
  set (x := vx _) in *. replace (x - (1 * -4 + 0 * 5 + 0 * 6 + 1)) with (x - (-3)) in H by ring. eapply Rle_trans; [exact H|]. unfold u32. lra.
Qed.
