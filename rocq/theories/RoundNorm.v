(** Norms of vectors and matrices, and the error of one rounded product of poses. *)
From Coq Require Import Reals Lra Psatz List.
From Verif Require Import Prelude ExtF Tree ChainModel SpecFK Lin Trig RotModel RotBasic ChainInst SpecRound.
Import ListNotations.
Local Open Scope R_scope.

(** ** Vectors *)
Lemma vnorm_le_sqr v c : 0 <= c -> vnorm2 v <= c * c -> vnorm v <= c.
Proof. intros Hc H. unfold vnorm. rewrite <- (sqrt_square c Hc). apply sqrt_le_1_alt, H. Qed.
Lemma vnorm_sqr_le v c : 0 <= c -> vnorm v <= c -> vnorm2 v <= c * c.
Proof. intros Hc H. rewrite <- vnorm_sqr. pose proof (vnorm_nonneg v). apply Rmult_le_compat; assumption. Qed.
Lemma vdot_sqr_le u v : vdot u v * vdot u v <= vnorm2 u * vnorm2 v.
Proof.
  assert (E : vnorm2 u * vnorm2 v - vdot u v * vdot u v = vnorm2 (vcross u v)).
  { unfold vnorm2, vdot, vcross. cbn [vx vy vz]. ring. }
  pose proof (vnorm2_nonneg (vcross u v)). lra.
Qed.
Lemma vdot_le u v : vdot u v <= vnorm u * vnorm v.
Proof.
  apply Rle_trans with (Rabs (vdot u v)); [apply Rle_abs|].
  assert (H : (Rabs (vdot u v)) * (Rabs (vdot u v)) <= (vnorm u * vnorm v) * (vnorm u * vnorm v)).
  { replace ((vnorm u * vnorm v) * (vnorm u * vnorm v)) with ((vnorm u * vnorm u) * (vnorm v * vnorm v)) by ring.
    rewrite !vnorm_sqr, <- Rabs_mult, (Rabs_pos_eq (_ * _)); [apply vdot_sqr_le|]. apply Rle_0_sqr. }
  apply Rsqr_incr_0; [unfold Rsqr; exact H|apply Rabs_pos|]. apply Rmult_le_pos; apply vnorm_nonneg.
Qed.
Lemma vnorm_triangle u v : vnorm (vadd u v) <= vnorm u + vnorm v.
Proof.
  apply vnorm_le_sqr; [pose proof (vnorm_nonneg u); pose proof (vnorm_nonneg v); lra|].
  assert (E : vnorm2 (vadd u v) = vnorm2 u + 2 * vdot u v + vnorm2 v).
  { unfold vnorm2, vdot, vadd. cbn [vx vy vz]. ring. }
  rewrite E, <- !vnorm_sqr. pose proof (vdot_le u v). lra.
Qed.
Lemma vnorm_opp v : vnorm (vopp v) = vnorm v.
Proof. unfold vnorm. f_equal. unfold vnorm2, vdot, vopp. cbn [vx vy vz]. ring. Qed.
Lemma vnorm_sub_comm u v : vnorm (vsub u v) = vnorm (vsub v u).
Proof. rewrite <- vnorm_opp. f_equal. unfold vopp, vsub. cbn [vx vy vz]. apply mkV3_eq; ring. Qed.
Lemma vnorm_split u v c d : vnorm (vsub u v) <= c -> vnorm v <= d -> vnorm u <= c + d.
Proof.
  intros H1 H2. replace u with (vadd (vsub u v) v) by (unfold vadd, vsub; destruct u as [a1 a2 a3]; cbn [vx vy vz]; apply mkV3_eq; ring).
  eapply Rle_trans; [apply vnorm_triangle|]. lra.
Qed.
Lemma vnorm_sub_split u w v c d : vnorm (vsub u w) <= c -> vnorm (vsub w v) <= d -> vnorm (vsub u v) <= c + d.
Proof.
  intros H1 H2. replace (vsub u v) with (vadd (vsub u w) (vsub w v)) by (unfold vadd, vsub; cbn [vx vy vz]; apply mkV3_eq; ring).
  eapply Rle_trans; [apply vnorm_triangle|]. lra.
Qed.
Lemma vabs_norm2 v : vnorm2 (vabs v) = vnorm2 v.
Proof.
  unfold vnorm2, vdot, vabs. cbn [vx vy vz]. rewrite <- !Rabs_mult.
  rewrite !Rabs_pos_eq by apply Rle_0_sqr. reflexivity.
Qed.
Lemma vabs_norm v : vnorm (vabs v) = vnorm v.
Proof. unfold vnorm. rewrite vabs_norm2. reflexivity. Qed.
Lemma sqr_le a b : 0 <= a -> a <= b -> a * a <= b * b.
Proof. intros. apply Rmult_le_compat; assumption. Qed.
Lemma vle_norm u v : vle (vabs u) v -> vnorm u <= vnorm v.
Proof.
  intros (H1 & H2 & H3). rewrite <- vabs_norm. unfold vnorm. apply sqrt_le_1_alt. unfold vnorm2, vdot.
  cbn [vx vy vz vabs] in *. pose proof (sqr_le _ _ (Rabs_pos _) H1). pose proof (sqr_le _ _ (Rabs_pos _) H2).
  pose proof (sqr_le _ _ (Rabs_pos _) H3). lra.
Qed.

(** ** Matrices *)
Definition row0 (A : M3) : V3 := mkV3 (m00 A) (m01 A) (m02 A).
Definition row1 (A : M3) : V3 := mkV3 (m10 A) (m11 A) (m12 A).
Definition row2 (A : M3) : V3 := mkV3 (m20 A) (m21 A) (m22 A).
Definition fnorm2 (A : M3) : R := vnorm2 (row0 A) + vnorm2 (row1 A) + vnorm2 (row2 A).
Definition fnorm (A : M3) : R := sqrt (fnorm2 A).
Lemma fnorm2_nonneg A : 0 <= fnorm2 A.
Proof. unfold fnorm2. pose proof (vnorm2_nonneg (row0 A)). pose proof (vnorm2_nonneg (row1 A)). pose proof (vnorm2_nonneg (row2 A)). lra. Qed.
Lemma fnorm_nonneg A : 0 <= fnorm A.
Proof. apply sqrt_pos. Qed.
Lemma fnorm_sqr A : fnorm A * fnorm A = fnorm2 A.
Proof. apply sqrt_sqrt, fnorm2_nonneg. Qed.
Lemma fnorm_vec A v : vnorm (m3vec A v) <= fnorm A * vnorm v.
Proof.
  apply vnorm_le_sqr; [apply Rmult_le_pos; [apply fnorm_nonneg|apply vnorm_nonneg]|].
  replace (fnorm A * vnorm v * (fnorm A * vnorm v)) with ((fnorm A * fnorm A) * (vnorm v * vnorm v)) by ring.
  rewrite fnorm_sqr, vnorm_sqr.
  assert (E : vnorm2 (m3vec A v) = vdot (row0 A) v * vdot (row0 A) v + vdot (row1 A) v * vdot (row1 A) v + vdot (row2 A) v * vdot (row2 A) v).
  { unfold vnorm2, vdot, m3vec, row0, row1, row2. cbn [vx vy vz]. ring. }
  rewrite E. unfold fnorm2. pose proof (vdot_sqr_le (row0 A) v). pose proof (vdot_sqr_le (row1 A) v). pose proof (vdot_sqr_le (row2 A) v). lra.
Qed.
(** columns *)
Lemma fnorm2_cols A : fnorm2 A = vnorm2 (m3vec A (mkV3 1 0 0)) + vnorm2 (m3vec A (mkV3 0 1 0)) + vnorm2 (m3vec A (mkV3 0 0 1)).
Proof. unfold fnorm2, vnorm2, vdot, m3vec, row0, row1, row2. cbn [vx vy vz]. ring. Qed.
Lemma fnorm_mul A B : fnorm (m3mul A B) <= fnorm A * fnorm B.
Proof.
  unfold fnorm. rewrite <- sqrt_mult by apply fnorm2_nonneg. apply sqrt_le_1_alt.
  rewrite (fnorm2_cols (m3mul A B)), (fnorm2_cols B), !m3vec_mul.
  assert (H : forall v, vnorm2 (m3vec A v) <= fnorm2 A * vnorm2 v).
  { intros v. pose proof (fnorm_vec A v) as H. rewrite <- (vnorm_sqr v), <- fnorm_sqr.
    replace (fnorm A * fnorm A * (vnorm v * vnorm v)) with ((fnorm A * vnorm v) * (fnorm A * vnorm v)) by ring.
    apply vnorm_sqr_le; [apply Rmult_le_pos; [apply fnorm_nonneg|apply vnorm_nonneg]|exact H]. }
  rewrite !Rmult_plus_distr_l. pose proof (H (m3vec B (mkV3 1 0 0))). pose proof (H (m3vec B (mkV3 0 1 0))). pose proof (H (m3vec B (mkV3 0 0 1))). lra.
Qed.
Lemma fnorm_abs A : fnorm (m3abs A) = fnorm A.
Proof.
  unfold fnorm. f_equal. unfold fnorm2.
  change (row0 (m3abs A)) with (vabs (row0 A)). change (row1 (m3abs A)) with (vabs (row1 A)). change (row2 (m3abs A)) with (vabs (row2 A)).
  rewrite !vabs_norm2. reflexivity.
Qed.
Lemma fnorm_scale g A : 0 <= g -> fnorm (m3scale g A) = g * fnorm A.
Proof.
  intros Hg. unfold fnorm. rewrite <- (sqrt_square g Hg) at 2. rewrite <- sqrt_mult; [|apply Rmult_le_pos; assumption|apply fnorm2_nonneg].
  f_equal. unfold fnorm2, vnorm2, vdot, m3scale, row0, row1, row2. cbn [vx vy vz m00 m01 m02 m10 m11 m12 m20 m21 m22]. ring.
Qed.
Lemma m3le_fnorm A B : m3le (m3abs A) B -> fnorm A <= fnorm B.
Proof.
  intros ((H1 & H2 & H3) & (H4 & H5 & H6) & (H7 & H8 & H9)). rewrite <- fnorm_abs. unfold fnorm. apply sqrt_le_1_alt.
  unfold fnorm2, vnorm2, vdot, row0, row1, row2. cbn [vx vy vz m3abs m00 m01 m02 m10 m11 m12 m20 m21 m22] in *.
  pose proof (sqr_le _ _ (Rabs_pos _) H1). pose proof (sqr_le _ _ (Rabs_pos _) H2). pose proof (sqr_le _ _ (Rabs_pos _) H3).
  pose proof (sqr_le _ _ (Rabs_pos _) H4). pose proof (sqr_le _ _ (Rabs_pos _) H5). pose proof (sqr_le _ _ (Rabs_pos _) H6).
  pose proof (sqr_le _ _ (Rabs_pos _) H7). pose proof (sqr_le _ _ (Rabs_pos _) H8). pose proof (sqr_le _ _ (Rabs_pos _) H9). lra.
Qed.
Lemma rot_vnorm A v : is_rot A -> vnorm (m3vec A v) = vnorm v.
Proof. intros H. unfold vnorm. rewrite rot_norm2 by exact H. reflexivity. Qed.
(** a map that stretches by at most [x] has Frobenius norm at most [sqrt 3 * x] *)
Lemma fnorm_stretch A x : 0 <= x -> (forall v, vnorm (m3vec A v) <= x * vnorm v) -> fnorm A <= sqrt 3 * x.
Proof.
  intros Hx H. unfold fnorm. rewrite <- (sqrt_square x Hx) at 1. rewrite <- sqrt_mult by nra. apply sqrt_le_1_alt. rewrite fnorm2_cols.
  assert (Hu : forall v, vnorm2 v = 1 -> vnorm2 (m3vec A v) <= x * x).
  { intros v Hv. apply vnorm_sqr_le; [exact Hx|]. pose proof (H v) as Hv2. rewrite (unit3_norm v Hv), Rmult_1_r in Hv2. exact Hv2. }
  assert (E1 : vnorm2 (mkV3 1 0 0) = 1) by (unfold vnorm2, vdot; cbn [vx vy vz]; ring).
  assert (E2 : vnorm2 (mkV3 0 1 0) = 1) by (unfold vnorm2, vdot; cbn [vx vy vz]; ring).
  assert (E3 : vnorm2 (mkV3 0 0 1) = 1) by (unfold vnorm2, vdot; cbn [vx vy vz]; ring).
  pose proof (Hu _ E1). pose proof (Hu _ E2). pose proof (Hu _ E3). lra.
Qed.

(** ** Close poses *)
Lemma close_stretch x M' M P : close x M' M P -> forall v, vnorm (m3vec (rotp M') v) <= x * vnorm v.
Proof.
  intros (_ & [_ Hr] & H & _) v. replace (x * vnorm v) with ((x - 1) * vnorm v + vnorm v) by ring.
  apply (vnorm_split _ (m3vec (rotp M) v)); [apply H|]. rewrite rot_vnorm by exact Hr. lra.
Qed.
Lemma close_len x M' M P : close x M' M P -> vnorm (trp M') <= x * P.
Proof.
  intros (_ & _ & _ & H1 & H2). replace (x * P) with ((x - 1) * P + P) by ring. apply (vnorm_split _ (trp M)); assumption.
Qed.
Lemma close_P x M' M P : close x M' M P -> 0 <= P.
Proof. intros (_ & _ & _ & _ & H). pose proof (vnorm_nonneg (trp M)). lra. Qed.
Lemma close_ge1 x M' M P : close x M' M P -> 1 <= x.
Proof.
  intros (_ & _ & H & _). pose proof (H (mkV3 1 0 0)) as Hv. rewrite (unit3_norm (mkV3 1 0 0)) in Hv.
  - pose proof (vnorm_nonneg (vsub (m3vec (rotp M') (mkV3 1 0 0)) (m3vec (rotp M) (mkV3 1 0 0)))). lra.
  - unfold unit3, vnorm2, vdot. cbn [vx vy vz]. ring.
Qed.
Lemma close_weaken x y M' M P Q : close x M' M P -> x <= y -> P <= Q -> close y M' M Q.
Proof.
  intros H Hxy HPQ. pose proof (close_P _ _ _ _ H) as HP. pose proof (close_ge1 _ _ _ _ H) as H1. destruct H as (Ha & Hr & H & Hp & Hl).
  split; [exact Ha|]. split; [exact Hr|]. split; [|split].
  - intros u. eapply Rle_trans; [apply H|]. apply Rmult_le_compat_r; [apply vnorm_nonneg|lra].
  - eapply Rle_trans; [exact Hp|]. apply Rmult_le_compat; lra.
  - lra.
Qed.
Lemma close_refl M P : is_rigid M -> vnorm (trp M) <= P -> close 1 M M P.
Proof.
  intros H HP. split; [apply H|]. split; [exact H|]. split; [|split; [|exact HP]].
  - intros u. rewrite vsub_self. replace (vnorm vzero) with 0 by (symmetry; apply vnorm_zero_iff; reflexivity). lra.
  - rewrite vsub_self. replace (vnorm vzero) with 0 by (symmetry; apply vnorm_zero_iff; reflexivity). lra.
Qed.
Lemma sqrt3_le2 : 0 <= sqrt 3 <= 2.
Proof. split; [apply sqrt_pos|]. replace 2 with (sqrt (2 * 2)) by (apply sqrt_square; lra). apply sqrt_le_1_alt. lra. Qed.

Lemma m3sub_vec A B u : m3vec (m3sub A B) u = vsub (m3vec A u) (m3vec B u).
Proof. unfold m3sub, m3add, m3opp, m3vec, vsub. cbn [vx vy vz m00 m01 m02 m10 m11 m12 m20 m21 m22]. apply mkV3_eq; ring. Qed.

(** one rounded product *)
Lemma close_mul g mul x y A' A B' B P Q : 0 <= g -> rounded_product g mul -> close x A' A P -> close y B' B Q ->
  close (x * y * (1 + 3 * g)) (mul A' B') (m4mul A B) (P + Q).
Proof.
  intros Hg Hm HA HB. pose proof (close_ge1 _ _ _ _ HA) as Hx. pose proof (close_ge1 _ _ _ _ HB) as Hy.
  pose proof (close_P _ _ _ _ HA) as HP. pose proof (close_P _ _ _ _ HB) as HQ.
  pose proof (close_stretch _ _ _ _ HA) as SA. pose proof (close_stretch _ _ _ _ HB) as SB.
  pose proof (close_len _ _ _ _ HA) as LA. pose proof (close_len _ _ _ _ HB) as LB.
  destruct HA as (AA & [AA2 RA] & DA & TA & NA). destruct HB as (AB & [AB2 RB] & DB & TB & NB).
  destruct (Hm A' B' AA AB) as (Haff & Hrot & Htr).
  assert (Hxy : 1 <= x * y) by nra.
  split; [exact Haff|]. split; [apply is_rigid_mul; split; assumption|].
  rewrite rotp_mul by assumption. rewrite rotp_mul in Hrot by assumption.
  rewrite trp_mul by assumption. rewrite trp_mul in Htr by assumption.
  pose proof (fnorm_stretch _ x ltac:(lra) SA) as FA. pose proof (fnorm_stretch _ y ltac:(lra) SB) as FB.
  pose proof sqrt3_le2 as [S0 S2].
  split; [|split].
  - intros u. pose proof (vnorm_nonneg u) as Hu.
    assert (H1 : vnorm (vsub (m3vec (rotp (mul A' B')) u) (m3vec (m3mul (rotp A') (rotp B')) u)) <= 3 * g * (x * y) * vnorm u).
    { rewrite <- m3sub_vec. eapply Rle_trans; [apply fnorm_vec|]. apply Rmult_le_compat_r; [exact Hu|].
      eapply Rle_trans; [apply (m3le_fnorm _ _ Hrot)|]. rewrite fnorm_scale by exact Hg.
      replace (3 * g * (x * y)) with (g * (3 * (x * y))) by ring. apply Rmult_le_compat_l; [exact Hg|].
      eapply Rle_trans; [apply fnorm_mul|]. rewrite !fnorm_abs.
      replace (3 * (x * y)) with ((sqrt 3 * x) * (sqrt 3 * y)).
      - apply Rmult_le_compat; try apply fnorm_nonneg; assumption.
      - replace ((sqrt 3 * x) * (sqrt 3 * y)) with ((sqrt 3 * sqrt 3) * (x * y)) by ring. rewrite sqrt_sqrt by lra. reflexivity. }
    assert (H2 : vnorm (vsub (m3vec (m3mul (rotp A') (rotp B')) u) (m3vec (m3mul (rotp A) (rotp B)) u)) <= (x - 1) * y * vnorm u + (y - 1) * vnorm u).
    { rewrite !m3vec_mul. apply (vnorm_sub_split _ (m3vec (rotp A) (m3vec (rotp B') u))).
      - eapply Rle_trans; [apply DA|]. rewrite Rmult_assoc. apply Rmult_le_compat_l; [lra|apply SB].
      - rewrite <- m3vec_sub. rewrite rot_vnorm by exact RA. apply DB. }
    replace ((x * y * (1 + 3 * g) - 1) * vnorm u) with (3 * g * (x * y) * vnorm u + ((x - 1) * y * vnorm u + (y - 1) * vnorm u)) by ring.
    eapply vnorm_sub_split; [exact H1|exact H2].
  - assert (H1 : vnorm (vsub (trp (mul A' B')) (vadd (m3vec (rotp A') (trp B')) (trp A'))) <= g * (sqrt 3 * x * (y * Q) + x * P)).
    { eapply Rle_trans; [apply (vle_norm _ _ Htr)|]. rewrite vnorm_scale, (Rabs_pos_eq g) by exact Hg. apply Rmult_le_compat_l; [exact Hg|].
      eapply Rle_trans; [apply vnorm_triangle|]. apply Rplus_le_compat; [|rewrite vabs_norm; exact LA].
      eapply Rle_trans; [apply fnorm_vec|]. rewrite fnorm_abs, vabs_norm.
      apply Rmult_le_compat; [apply fnorm_nonneg|apply vnorm_nonneg|exact FA|exact LB]. }
    assert (H2 : vnorm (vsub (vadd (m3vec (rotp A') (trp B')) (trp A')) (vadd (m3vec (rotp A) (trp B)) (trp A))) <= (x * ((y - 1) * Q) + (x - 1) * Q) + (x - 1) * P).
    { replace (vsub (vadd (m3vec (rotp A') (trp B')) (trp A')) (vadd (m3vec (rotp A) (trp B)) (trp A)))
        with (vadd (vsub (m3vec (rotp A') (trp B')) (m3vec (rotp A) (trp B))) (vsub (trp A') (trp A)))
        by (unfold vadd, vsub; cbn [vx vy vz]; apply mkV3_eq; ring).
      eapply Rle_trans; [apply vnorm_triangle|]. apply Rplus_le_compat; [|exact TA].
      apply (vnorm_sub_split _ (m3vec (rotp A') (trp B))).
      - rewrite <- m3vec_sub. eapply Rle_trans; [apply SA|]. apply Rmult_le_compat_l; [lra|exact TB].
      - eapply Rle_trans; [apply DA|]. apply Rmult_le_compat_l; [lra|exact NB]. }
    eapply Rle_trans; [eapply vnorm_sub_split; [exact H1|exact H2]|].
    assert (K1 : g * (sqrt 3 * x * (y * Q)) <= g * (3 * (x * y) * Q)).
    { apply Rmult_le_compat_l; [exact Hg|]. replace (sqrt 3 * x * (y * Q)) with (sqrt 3 * (x * y * Q)) by ring.
      replace (3 * (x * y) * Q) with (3 * (x * y * Q)) by ring. apply Rmult_le_compat_r; [|lra]. apply Rmult_le_pos; [lra|exact HQ]. }
    assert (K2 : g * (x * P) <= g * (3 * (x * y) * P)).
    { apply Rmult_le_compat_l; [exact Hg|]. apply Rmult_le_compat_r; [exact HP|]. nra. }
    assert (K3 : (x - 1) * P <= (x * y - 1) * P) by (apply Rmult_le_compat_r; [exact HP|nra]).
    replace (x * ((y - 1) * Q) + (x - 1) * Q) with ((x * y - 1) * Q) by ring.
    replace ((x * y * (1 + 3 * g) - 1) * (P + Q)) with ((g * (3 * (x * y) * Q) + g * (3 * (x * y) * P)) + ((x * y - 1) * Q + (x * y - 1) * P)) by ring.
    rewrite Rmult_plus_distr_l. lra.
  - eapply Rle_trans; [apply vnorm_triangle|]. rewrite rot_vnorm by exact RA. lra.
Qed.
