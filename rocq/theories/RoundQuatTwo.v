(** Nearby quaternions give nearby rotations; axis-angle vectors and points. *)
From Coq Require Import Reals Lra Psatz Bool Arith Lia List Permutation.
From Coquelicot Require Import Rcomplements.
From Verif Require Import Prelude ExtF Lin Trig RotModel RotBasic QuatProofs SlerpProofs MathModel SpecRound RoundNorm RoundModel RoundProofs RoundFloat RoundJacModel RoundJacProofs RoundErrModel SpecRoundErr RoundErrQuat RoundErrAngle RoundQuatModel RoundQuatProofs.
Local Open Scope R_scope.

Lemma qvec_le q : vnorm (qvec q) <= qlen q.
Proof. unfold vnorm, qlen. apply sqrt_le_1_alt. pose proof (part_norm q) as P. pose proof (Rle_0_sqr (qw q)) as W. unfold Rsqr in W. lra. Qed.
Lemma qlen_pure v : qlen (mkQ 0 (vx v) (vy v) (vz v)) = vnorm v.
Proof. unfold vnorm, qlen. f_equal. unfold qnorm2, vnorm2, vdot. cbn [qw qx qy qz]. ring. Qed.
Lemma qlen_inv q : qlen (quaternion_invert q) = qlen q.
Proof. unfold qlen. f_equal. unfold qnorm2, quaternion_invert. cbn [qw qx qy qz]. ring. Qed.
Lemma qvec_sub p q : qvec (qsub p q) = vsub (qvec p) (qvec q).
Proof. reflexivity. Qed.
Lemma apply_lip p q v : qnorm2 p = 1 -> qnorm2 q = 1 -> vnorm (vsub (quaternion_apply p v) (quaternion_apply q v)) <= 2 * qlen (qsub p q) * vnorm v.
Proof.
  intros Np Nq. unfold quaternion_apply. set (V := mkQ 0 (vx v) (vy v) (vz v)). rewrite <- qvec_sub. eapply Rle_trans; [apply qvec_le|].
  eapply Rle_trans; [apply (qdist_triangle _ (quaternion_raw_multiply (quaternion_raw_multiply q V) (quaternion_invert p)))|].
  rewrite raw_sub_l, raw_sub_r, raw_sub_l, !qlen_mul, qsub_inv, qlen_inv. rewrite (qlen_unit p Np), (qlen_unit q Nq). unfold V. rewrite qlen_pure. lra.
Qed.
Lemma col_entry (A B : M3) d : 0 <= d -> (forall v, vnorm (vsub (m3vec A v) (m3vec B v)) <= d * vnorm v) -> entries_within d A B.
Proof.
  intros Hd H.
  assert (U : forall a b c, a * a + b * b + c * c = 1 -> vnorm (mkV3 a b c) = 1) by (intros a b c E; unfold vnorm, vnorm2, vdot; cbn [vx vy vz]; rewrite E; apply sqrt_1).
  assert (C : forall v, vnorm v <= d -> Rabs (vx v) <= d /\ Rabs (vy v) <= d /\ Rabs (vz v) <= d).
  { intros v Hv. apply (vnorm_sqr_le v d Hd) in Hv. unfold vnorm2, vdot in Hv. pose proof (Rle_0_sqr (vx v)) as X. pose proof (Rle_0_sqr (vy v)) as Y. pose proof (Rle_0_sqr (vz v)) as Z. unfold Rsqr in *.
    repeat split; rewrite <- (Rabs_pos_eq d Hd); apply Rsqr_le_abs_0; unfold Rsqr; lra. }
  pose proof (H (mkV3 1 0 0)) as H0. rewrite (U 1 0 0), Rmult_1_r in H0 by ring. apply C in H0.
  pose proof (H (mkV3 0 1 0)) as H1. rewrite (U 0 1 0), Rmult_1_r in H1 by ring. apply C in H1.
  pose proof (H (mkV3 0 0 1)) as H2. rewrite (U 0 0 1), Rmult_1_r in H2 by ring. apply C in H2.
  unfold vsub, vadd, vopp, m3vec in H0, H1, H2. cbn [vx vy vz] in H0, H1, H2. rewrite ?Rmult_1_r, ?Rmult_0_r, ?Rplus_0_r, ?Rplus_0_l in H0, H1, H2.
  unfold entries_within, m3le, m3abs, m3sub, m3add, m3opp. cbn [m00 m01 m02 m10 m11 m12 m20 m21 m22].
  destruct H0 as (A1 & A2 & A3), H1 as (B1 & B2 & B3), H2 as (C1 & C2 & C3). repeat split; match goal with H : Rabs ?e <= d |- Rabs ?f <= d => replace f with e by ring; exact H end.
Qed.
Lemma q2m_lip_unit p q : qnorm2 p = 1 -> qnorm2 q = 1 -> entries_within (2 * qlen (qsub p q)) (quaternion_to_matrix p) (quaternion_to_matrix q).
Proof.
  intros Np Nq. apply col_entry; [pose proof (qlen_nonneg (qsub p q)); lra|]. intros v. rewrite <- (apply_unit p v Np), <- (apply_unit q v Nq). apply apply_lip; assumption.
Qed.
Lemma ew_le a b A B : entries_within a A B -> a <= b -> entries_within b A B.
Proof. unfold entries_within, m3le. cbn [m00 m01 m02 m10 m11 m12 m20 m21 m22]. intros ((H1 & H2 & H3) & (H4 & H5 & H6) & H7 & H8 & H9) L. repeat split; lra. Qed.
Lemma ew_trans a b A B C : entries_within a A B -> entries_within b B C -> entries_within (a + b) A C.
Proof.
  unfold entries_within, m3le, m3abs, m3sub, m3add, m3opp. cbn [m00 m01 m02 m10 m11 m12 m20 m21 m22].
  assert (T : forall x y z, Rabs (x + - y) <= a -> Rabs (y + - z) <= b -> Rabs (x + - z) <= a + b).
  { intros x y z X Y. replace (x + - z) with ((x + - y) + (y + - z)) by ring. eapply Rle_trans; [apply Rabs_triang|]. lra. }
  intros ((H1 & H2 & H3) & (H4 & H5 & H6) & H7 & H8 & H9) ((K1 & K2 & K3) & (K4 & K5 & K6) & K7 & K8 & K9). repeat split; eapply T; eassumption.
Qed.
(** a quaternion near a unit one *)
Lemma q2m_lip p q x : qnorm2 q = 1 -> qlen (qsub p q) <= x -> x <= / 2 -> qnorm2 p <> 0 /\ entries_within (4 * x) (quaternion_to_matrix p) (quaternion_to_matrix q).
Proof.
  intros Nq Hx H2. pose proof (qlen_nonneg (qsub p q)) as D0. pose proof (qlen_near q p) as N1. assert (SY : qlen (qsub q p) = qlen (qsub p q)).
  { unfold qlen. f_equal. unfold qnorm2, qsub. cbn [qw qx qy qz]. ring. }
  rewrite SY, (qlen_unit q Nq) in N1. pose proof (qlen_near p q) as N2. rewrite (qlen_unit q Nq) in N2.
  assert (Np : qnorm2 p <> 0) by (intros Z; unfold qlen in N1; rewrite Z, sqrt_0 in N1; unfold qlen in Hx; lra). split; [exact Np|].
  set (l := qlen p) in *. assert (l0 : 0 < l) by lra. set (p1 := qscale (/ l) p). assert (U : qnorm2 p1 = 1) by (unfold p1; rewrite qnorm2_scale, <- qlen_sqr; fold l; field; lra).
  assert (E : quaternion_to_matrix p = quaternion_to_matrix p1) by (symmetry; apply q2m_scale; [apply Rinv_neq_0_compat; lra | exact Np]). rewrite E.
  eapply ew_le; [apply q2m_lip_unit; assumption|]. assert (P : qlen (qsub p1 p) <= x).
  { assert (E2 : qsub p1 p = qscale (/ l - 1) p) by (unfold p1, qsub, qscale; cbn [qw qx qy qz]; apply mkQ_eq; ring). rewrite E2. unfold qlen at 1. rewrite qnorm2_scale, <- qlen_sqr. fold l.
    replace ((/ l - 1) * (/ l - 1) * (l * l)) with ((1 - l) * (1 - l)) by (field; lra). change ((1 - l) * (1 - l)) with (Rsqr (1 - l)). rewrite sqrt_Rsqr_abs. apply Rabs_le. lra. }
  pose proof (qdist_triangle p1 p q). lra.
Qed.

Section Round.
Variables (u : R) (rnd : R -> R).
Hypothesis Hr : rounding u rnd.
Hypothesis Hu : u <= / 10000.
Let u0 : 0 <= u := u_nonneg u rnd Hr.
Let uu : u * u <= / 10000 * u. Proof. apply Rmult_le_compat_r; [exact u0 | exact Hu]. Qed.
Let uu0 : 0 <= u * u. Proof. apply Rmult_le_pos; exact u0. Qed.
Lemma apply_err s1 s2 q p : (forall i, s_full (s1 i)) -> (forall i, s_full (s2 i)) ->
  vnorm (vsub (fl_qapply rnd s1 s2 q p) (quaternion_apply q p)) <= 17 * u * (qnorm2 q * vnorm p).
Proof.
  intros H1 H2. unfold fl_qapply, quaternion_apply. set (V := mkQ 0 (vx p) (vy p) (vz p)). rewrite <- qvec_sub. eapply Rle_trans; [apply qvec_le|].
  set (a := fl_raw_multiply rnd s1 q V). set (b := quaternion_raw_multiply q V). eapply Rle_trans; [apply (qdist_triangle _ (quaternion_raw_multiply a (quaternion_invert q)))|].
  pose proof (raw_err u rnd Hr Hu s1 H1 q V) as E1. fold a b in E1. pose proof (raw_err u rnd Hr Hu s2 H2 a (quaternion_invert q)) as E2.
  rewrite raw_sub_l, qlen_mul. rewrite qlen_inv in *. assert (LV : qlen V = vnorm p) by apply qlen_pure. rewrite LV in E1.
  pose proof (qlen_near a b) as A. assert (B : qlen b = qlen q * vnorm p) by (unfold b; rewrite qlen_mul, LV; reflexivity). rewrite <- qlen_sqr. set (l := qlen q) in *. pose proof (qlen_nonneg q) as l0. fold l in l0.
  pose proof (vnorm_nonneg p) as v0. set (v := vnorm p) in *. set (w := l * v) in *. assert (w0 : 0 <= w) by (apply Rmult_le_pos; assumption).
  assert (A2 : qlen a <= w + 82 / 10 * u * w) by lra. assert (M : qlen a * l <= (w + 82 / 10 * u * w) * l) by (apply Rmult_le_compat_r; assumption).
  assert (M2 : qlen (qsub a b) * l <= 82 / 10 * u * w * l) by (apply Rmult_le_compat_r; assumption).
  assert (M3 : 82 / 10 * u * (qlen a * l) <= 82 / 10 * u * ((w + 82 / 10 * u * w) * l)) by (apply Rmult_le_compat_l; lra).
  assert (wl : 0 <= w * l) by (apply Rmult_le_pos; assumption). assert (uw : 0 <= u * (w * l)) by (apply Rmult_le_pos; assumption). assert (uuw : u * (u * (w * l)) <= / 10000 * (u * (w * l))) by (apply Rmult_le_compat_r; assumption).
  replace (l * l * v) with (w * l) by (unfold w; ring). lra.
Qed.
End Round.
