(** Rounding errors of axis_angle_to_quaternion, and of points moved by a transform. *)
From Coq Require Import Reals Lra Psatz Bool Arith Lia List Permutation.
From Coquelicot Require Import Rcomplements.
From Verif Require Import Prelude ExtF Lin Trig RotModel RotBasic QuatProofs SlerpProofs AxisAngle MathModel SpecRound RoundNorm RoundModel RoundProofs RoundFloat RoundJacModel RoundJacProofs RoundErrModel SpecRoundErr RoundErrQuat RoundErrAngle RoundQuatModel RoundQuatProofs RoundQuatTwo.
Local Open Scope R_scope.

Section Axis.
Variables (u t e : R) (rnd fcos fsin : R -> R) (sn : stree).
Hypothesis (Hr : rounding u rnd) (Hh : trig_within t fcos fsin) (Hsn : s_full3 sn).
Hypothesis (Hu : u <= e) (Ht : 0 <= t <= e) (He : e <= / 100000).
Let u0 : 0 <= u := u_nonneg u rnd Hr.
Let e0 : 0 <= e. Proof. pose proof u0. lra. Qed.
Let ee : e * e <= / 100000 * e. Proof. apply Rmult_le_compat_r; [exact e0 | exact He]. Qed.
Let ee0 : 0 <= e * e. Proof. apply Rmult_le_pos; exact e0. Qed.

Lemma half_err th a : rel (42 / 10 * e) a th -> Rabs (fmul rnd (/ 2) a - / 2 * th) <= 265 / 100 * e * th.
Proof.
  intros Ra. pose proof (rel_mul 0 _ (/ 2) (/ 2) _ _ (rel_refl (/ 2) ltac:(lra)) Ra ltac:(lra) ltac:(lra)) as R1.
  pose proof (rel_rnd u rnd Hr _ _ _ R1 ltac:(lra)) as R2. pose proof (rel_le _ (53 / 10 * e) _ _ R2 ltac:(lra)) as [_ R3]. unfold fmul. lra.
Qed.
Lemma sho_err th a : 0 <= th -> rel (42 / 10 * e) a th ->
  Rabs (th * fl_divisor rnd fsin (fmul rnd (/ 2) a) a - sin (/ 2 * th)) <= e * (7 + 27 / 10 * th) + / 10 ^ 30.
Proof.
  intros T0 Ra. pose proof (half_err th a Ra) as Hf. set (h := fmul rnd (/ 2) a) in *. pose proof (rel_bounds _ _ _ Ra) as [a1 a2]. assert (a0 : 0 <= a) by (apply (rel_pos _ _ _ Ra); lra).
  assert (R6 : rel e (rnd eps6) eps6) by (apply (rnd_rel u e rnd Hr Hu); unfold eps6; lra). pose proof (rel_bounds _ _ _ R6) as [t1 t2]. unfold eps6 in t1, t2.
  assert (et : 0 <= e * th) by (apply Rmult_le_pos; [exact e0 | exact T0]). assert (et5 : e * th <= / 100000 * th) by (apply Rmult_le_compat_r; [exact T0 | exact He]).
  pose proof e0 as E0. pose proof ee as EE. pose proof ee0 as EE0. pose proof u0 as U0.
  unfold fl_divisor. rewrite (Rabs_pos_eq a a0). destruct (Rltb a (rnd eps6)) eqn:C.
  - apply Rltb_true in C. assert (A6 : a <= 101 / 100 / 1000000) by (unfold eps6 in C; lra). assert (T6 : th <= 102 / 100 / 1000000) by lra.
    assert (ea : e * a <= / 100000 * a) by (apply Rmult_le_compat_r; [exact a0 | exact He]). assert (ea0 : 0 <= e * a) by (apply Rmult_le_pos; [exact e0 | exact a0]).
    assert (aa : 0 <= a * a <= / 1000) by nra. assert (Y : rel (21 / 10 * e) (rnd (fmul rnd a a / 48)) (a * a / 48)).
    { assert (R1 : rel e (fmul rnd a a) (a * a)) by (apply (rnd_rel u e rnd Hr Hu); lra).
      pose proof (rel_mul _ 0 _ _ (/ 48) (/ 48) R1 (rel_refl (/ 48) ltac:(lra)) e0 ltac:(lra)) as R2. pose proof (rel_rnd u rnd Hr _ _ _ R2 ltac:(lra)) as R3. unfold Rdiv. apply (rel_le _ _ _ _ R3). lra. }
    set (y := rnd (fmul rnd a a / 48)) in *. pose proof (rel_bounds _ _ _ Y) as [y1 y2]. assert (y0 : 0 <= y) by (apply (rel_pos _ _ _ Y); lra). destruct Y as [_ Y].
    pose proof (rnd_abs u rnd Hr (/ 2 - y)) as S1. fold (fsub rnd (/ 2) y) in S1. set (s := fsub rnd (/ 2) y) in *.
    assert (eaa : e * (a * a) <= / 1000 * e) by (rewrite (Rmult_comm e); apply Rmult_le_compat_r; lra). assert (eaa0 : 0 <= e * (a * a)) by (apply Rmult_le_pos; lra).
    assert (S2 : Rabs (/ 2 - y) <= / 2) by (apply Rabs_le; lra). assert (S3 : u * Rabs (/ 2 - y) <= e * / 2) by (apply Rmult_le_compat; try apply Rabs_pos; assumption).
    assert (AT : Rabs (a * a - th * th) <= / 100 * e).
    { destruct Ra as [_ Ra]. replace (a * a - th * th) with ((a - th) * (a + th)) by ring. rewrite Rabs_mult. apply Rle_trans with ((42 / 10 * e * th) * (3 / 1000000)).
      - apply Rmult_le_compat; try apply Rabs_pos; [exact Ra | apply Rabs_le; lra].
      - assert (e * th <= e * 1) by (apply Rmult_le_compat_l; lra). lra. }
    assert (S4 : Rabs (s - (/ 2 - th * th / 48)) <= e).
    { replace (s - (/ 2 - th * th / 48)) with ((s - (/ 2 - y)) - (y - a * a / 48) - (a * a - th * th) / 48) by field. 
      apply Rabs_le. apply Rabs_le_between in S1. apply Rabs_le_between in Y. apply Rabs_le_between in AT. lra. }
    pose proof (sin_taylor (/ 2 * th) ltac:(lra)) as [D1 D2].
    assert (X5 : (/ 2 * th) ^ 5 / 120 <= / 10 ^ 30).
    { apply Rle_trans with ((/ 1000000) ^ 5 / 120); [|cbn [pow]; lra]. unfold Rdiv. apply Rmult_le_compat_r; [lra|]. apply pow_incr. lra. }
    assert (X50 : 0 <= (/ 2 * th) ^ 5) by (apply pow_le; lra).
    assert (S5 : Rabs (th * (s - (/ 2 - th * th / 48))) <= e).
    { rewrite Rabs_mult, (Rabs_pos_eq th T0). apply Rle_trans with (1 * e); [|lra]. apply Rmult_le_compat; try apply Rabs_pos; lra. }
    replace (th * s - sin (/ 2 * th)) with (th * (s - (/ 2 - th * th / 48)) + (/ 2 * th - (/ 2 * th) ^ 3 / 6 - sin (/ 2 * th))) by field.
    set (p5 := (/ 2 * th) ^ 5 / 120) in *. set (p3 := (/ 2 * th) ^ 3 / 6) in *. set (si := sin (/ 2 * th)) in *. set (g := th * (s - (/ 2 - th * th / 48))) in *. set (tn := / 10 ^ 30) in *.
    apply Rabs_le_between in S5. apply Rabs_le. assert (0 <= tn) by (unfold p5 in X5; lra). lra.
  - apply Rltb_false in C. assert (ap : 0 < a) by (unfold eps6 in C; lra). assert (Tp : 0 < th) by (destruct (Rle_lt_or_eq_dec 0 th T0) as [L|L]; [exact L|]; rewrite <- L in a2; lra).
    pose proof (rel_inv (42 / 10 * e) a th ltac:(lra) Tp Ra) as Ri. pose proof (rel_mul 0 (42 / 10 * e * (112 / 100)) th th _ _ (rel_refl th T0) Ri ltac:(lra) ltac:(lra)) as Rq. rewrite Rinv_r in Rq by lra.
    destruct Rq as [_ Rq]. assert (Q1 : Rabs (th * / a - 1) <= 471 / 100 * e) by lra. clear Rq. set (r := th * / a) in *.
    destruct (Hh h) as [_ Sh]. pose proof (sin_lip h (/ 2 * th)) as SL. set (f := fsin h) in *. assert (F1 : Rabs (f - sin (/ 2 * th)) <= e + 265 / 100 * e * th).
    { replace (f - sin (/ 2 * th)) with ((f - sin h) + (sin h - sin (/ 2 * th))) by ring. eapply Rle_trans; [apply Rabs_triang|]. lra. }
    assert (F2 : Rabs f <= 1 + e). { replace f with ((f - sin h) + sin h) by ring. eapply Rle_trans; [apply Rabs_triang|]. assert (Rabs (sin h) <= 1) by (apply Rabs_le; pose proof (SIN_bound h); lra). lra. }
    pose proof (rnd_abs u rnd Hr (f / a)) as S1. set (s := rnd (f / a)) in *.
    assert (TS : Rabs (th * s - r * f) <= 102 / 100 * e).
    { replace (th * s - r * f) with (th * (s - f / a)) by (unfold r; field; lra). rewrite Rabs_mult, (Rabs_pos_eq th T0). apply Rle_trans with (th * (u * Rabs (f / a))); [apply Rmult_le_compat_l; lra|].
      replace (th * (u * Rabs (f / a))) with (u * Rabs (r * f)). 2: { unfold r, Rdiv. rewrite !Rabs_mult, (Rabs_pos_eq th T0). ring. }
      assert (rf : Rabs (r * f) <= (1 + 471 / 100 * e) * (1 + e)). { rewrite Rabs_mult. apply Rmult_le_compat; try apply Rabs_pos; [|exact F2]. apply Rabs_le. apply Rabs_le_between in Q1. lra. }
      apply Rle_trans with (e * ((1 + 471 / 100 * e) * (1 + e))); [apply Rmult_le_compat; try apply Rabs_pos; assumption|]. assert (e * (e * e) <= / 100000 * (e * e)) by (apply Rmult_le_compat_r; assumption). lra. }
    assert (RF : Rabs ((r - 1) * f) <= 472 / 100 * e). { rewrite Rabs_mult. apply Rle_trans with (471 / 100 * e * (1 + e)); [apply Rmult_le_compat; try apply Rabs_pos; assumption | lra]. }
    replace (th * s - sin (/ 2 * th)) with ((th * s - r * f) + (r - 1) * f + (f - sin (/ 2 * th))) by ring.
    eapply Rle_trans; [apply Rabs_triang|]. apply Rle_trans with (102 / 100 * e + 472 / 100 * e + (e + 265 / 100 * e * th)).
    + apply Rplus_le_compat; [|exact F1]. eapply Rle_trans; [apply Rabs_triang|]. lra.
    + assert (0 < / 10 ^ 30) by (apply Rinv_0_lt_compat, pow_lt; lra). lra.
Qed.
(** the quaternion of a turn by [th] about the unit axis [k] *)
Definition half_turn (k : V3) (th : R) : Q := mkQ (cos (/ 2 * th)) (sin (/ 2 * th) * vx k) (sin (/ 2 * th) * vy k) (sin (/ 2 * th) * vz k).
Lemma half_turn_unit k th : unit3 k -> qnorm2 (half_turn k th) = 1.
Proof.
  unfold unit3, vnorm2, vdot, half_turn, qnorm2. cbn [qw qx qy qz]. intros H. pose proof (sin2_cos2 (/ 2 * th)) as T. unfold Rsqr in T. set (c := cos _) in *. set (s := sin _) in *.
  replace (c * c + s * vx k * (s * vx k) + s * vy k * (s * vy k) + s * vz k * (s * vz k)) with (c * c + s * s * (vx k * vx k + vy k * vy k + vz k * vz k)) by ring. rewrite H. lra.
Qed.
Lemma half_turn_matrix k th : unit3 k -> quaternion_to_matrix (half_turn k th) = axis_and_angle_to_matrix_33 k th.
Proof.
  intros H. pose proof (sin2_cos2 (/ 2 * th)) as T. unfold Rsqr in T. assert (E : cos (/ 2 * th) * cos (/ 2 * th) + sin (/ 2 * th) * sin (/ 2 * th) = 1) by lra.
  rewrite <- (half_dbl th) at 2. unfold half_turn. apply q2m_axis; [exact H | lra | |]; rewrite E, sqrt_1; field.
Qed.
Lemma a2q_err k th : unit3 k -> 0 <= th -> qlen (qsub (fl_a2q rnd fcos fsin sn (vscale th k)) (half_turn k th)) <= e * (10 + 6 * th) + 2 / 10 ^ 30.
Proof.
  intros Hk T0. pose proof (norm_rel u t e rnd sn Hr Hsn Hu Ht He (vscale th k)) as Ra. rewrite (vnorm_axis k th Hk), (Rabs_pos_eq th T0) in Ra.
  pose proof (half_err th _ Ra) as Hf. pose proof (sho_err th _ T0 Ra) as Hs. unfold fl_a2q. cbv zeta. set (a := fl_norm rnd sn (vscale th k)) in *. set (h := fmul rnd (/ 2) a) in *. set (s := fl_divisor rnd fsin h a) in *.
  assert (et : 0 <= e * th) by (apply Rmult_le_pos; [exact e0 | exact T0]). pose proof e0 as E0. pose proof ee as EE. pose proof u0 as U0.
  assert (tn0 : 0 < / 10 ^ 30 <= / 1000) by (split; [apply Rinv_0_lt_compat, pow_lt; lra|]; apply Rinv_le_contravar; [lra|]; cbn [pow]; lra). set (si := sin (/ 2 * th)) in *.
  assert (S1 : Rabs si <= 1) by (apply Rabs_le; pose proof (SIN_bound (/ 2 * th)); unfold si; lra).
  set (tn := / 10 ^ 30) in *. replace (2 / 10 ^ 30) with (2 * tn) by (unfold tn, Rdiv; reflexivity). set (d := e * (7 + 27 / 10 * th) + tn) in *.
  assert (TS : Rabs (th * s) <= 1 + d). { replace (th * s) with ((th * s - si) + si) by ring. eapply Rle_trans; [apply Rabs_triang|]. lra. }
  assert (ud : u * (1 + d) <= e * (1 + d)) by (apply Rmult_le_compat_r; [unfold d; lra | exact Hu]).
  assert (eeth : e * (e * th) <= / 100000 * (e * th)) by (apply Rmult_le_compat_r; [exact et | exact He]). assert (etn : e * tn <= / 100000 * tn) by (apply Rmult_le_compat_r; lra).
  set (D := d + u * (1 + d)). assert (DB : D <= e * (82 / 10 + 28 / 10 * th) + 2 * tn) by (unfold D, d in *; lra). assert (D0 : 0 <= D) by (unfold D; assert (0 <= d) by (unfold d; lra); assert (0 <= u * (1 + d)) by (apply Rmult_le_pos; lra); lra).
  assert (V : forall c, Rabs (rnd (th * c * s) - si * c) <= D * Rabs c).
  { intros c. replace (rnd (th * c * s) - si * c) with ((rnd (th * c * s) - th * c * s) + (th * s - si) * c) by ring. eapply Rle_trans; [apply Rabs_triang|].
    pose proof (rnd_abs u rnd Hr (th * c * s)) as K. replace (th * c * s) with (th * s * c) in * by ring. rewrite Rabs_mult in K. rewrite (Rabs_mult (th * s - si)).
    pose proof (Rabs_pos c) as C0. assert (u * (Rabs (th * s) * Rabs c) <= u * ((1 + d) * Rabs c)) by (apply Rmult_le_compat_l; [exact U0|]; apply Rmult_le_compat_r; assumption).
    assert (Rabs (th * s - si) * Rabs c <= d * Rabs c) by (apply Rmult_le_compat_r; assumption). unfold D. lra. }
  set (q := mkQ _ _ _ _). set (w := half_turn k th).
  assert (P : qlen (qsub q w) <= vnorm (qvec (qsub q w)) + Rabs (qw (qsub q w))).
  { apply qlen_le; [pose proof (vnorm_nonneg (qvec (qsub q w))); pose proof (Rabs_pos (qw (qsub q w))); lra|]. rewrite <- part_norm. rewrite <- vnorm_sqr. pose proof (vnorm_nonneg (qvec (qsub q w))) as A. pose proof (Rabs_pos (qw (qsub q w))) as B.
    assert (Q : Rabs (qw (qsub q w)) * Rabs (qw (qsub q w)) = qw (qsub q w) * qw (qsub q w)) by (rewrite <- Rabs_mult; apply Rabs_pos_eq, Rle_0_sqr). nra. }
  assert (P1 : vnorm (qvec (qsub q w)) <= D).
  { apply vnorm_le_sqr; [exact D0|]. unfold vnorm2, vdot, qvec, qsub, q, w, half_turn. cbn [qw qx qy qz vx vy vz vscale]. unfold fmul. fold si.
    assert (SQ : forall c, (rnd (th * c * s) - si * c) * (rnd (th * c * s) - si * c) <= D * D * (c * c)).
    { intros c. pose proof (V c) as K. replace (D * D * (c * c)) with ((D * Rabs c) * (D * Rabs c)). 2: { replace (c * c) with (Rabs c * Rabs c) by (rewrite <- Rabs_mult; apply Rabs_pos_eq, Rle_0_sqr). ring. }
      rewrite <- (Rabs_pos_eq ((rnd (th * c * s) - si * c) * (rnd (th * c * s) - si * c))) by apply Rle_0_sqr. rewrite Rabs_mult. apply Rmult_le_compat; try apply Rabs_pos; exact K. }
    pose proof (SQ (vx k)). pose proof (SQ (vy k)). pose proof (SQ (vz k)). assert (U : vx k * vx k + vy k * vy k + vz k * vz k = 1) by exact Hk.
    assert (D * D * (vx k * vx k) + D * D * (vy k * vy k) + D * D * (vz k * vz k) = D * D) by (rewrite <- !Rmult_plus_distr_l, U; ring). lra. }
  assert (P2 : Rabs (qw (qsub q w)) <= e + 265 / 100 * e * th).
  { unfold qsub, q, w, half_turn. cbn [qw]. destruct (Hh h) as [C1 _]. pose proof (cos_lip h (/ 2 * th)) as C2.
    replace (fcos h - cos (/ 2 * th)) with ((fcos h - cos h) + (cos h - cos (/ 2 * th))) by ring. eapply Rle_trans; [apply Rabs_triang|]. lra. }
  lra.
Qed.
End Axis.

Lemma point_err u rnd st T p : rounding u rnd -> (forall i, s_full (st i)) -> affine T ->
  vle (vabs (vsub (fl_point rnd st T p) (vadd (m3vec (rotp T) p) (trp T)))) (vscale ((1 + u) ^ 5 - 1) (vadd (m3vec (m3abs (rotp T)) (vabs p)) (vabs (trp T)))).
Proof.
  intros Hr Hst (A0 & A1 & A2 & A3). unfold fl_point. cbv zeta.
  assert (D : s_eval rnd (fun k => row4 3 T k * hom p k) (st 3%nat) = 1).
  { apply (s_eval_one u rnd Hr _ _ 3%nat (s_full_nodup _ (Hst 3%nat)) (s_full_three _ (Hst 3%nat))).
    - cbn [row4 hom]. rewrite A3. ring.
    - intros k Hk N. destruct (s_full_in _ k (Hst 3%nat) Hk) as [-> | [-> | [-> | ->]]]; cbn [row4 hom]; rewrite ?A0, ?A1, ?A2; try ring. exfalso; apply N; reflexivity. }
  rewrite D. unfold Rdiv. rewrite Rinv_1, !Rmult_1_r.
  assert (E : forall i, Rabs (rnd (s_eval rnd (fun k => row4 i T k * hom p k) (st i)) - (row4 i T 0 * vx p + row4 i T 1 * vy p + row4 i T 2 * vz p + row4 i T 3))
     <= ((1 + u) ^ 5 - 1) * (Rabs (row4 i T 0) * Rabs (vx p) + Rabs (row4 i T 1) * Rabs (vy p) + Rabs (row4 i T 2) * Rabs (vz p) + Rabs (row4 i T 3))).
  { intros i. pose proof (s_full_err u rnd Hr (fun k => row4 i T k * hom p k) (st i) (Hst i)) as H. cbn [hom] in H. rewrite !Rmult_1_r, !Rabs_mult in H.
    apply (rnd_chain u rnd Hr _ _ 4); [exact H|]. eapply Rle_trans; [apply Rabs_triang|]. apply Rplus_le_compat_r. eapply Rle_trans; [apply Rabs_triang|]. rewrite Rabs_mult. apply Rplus_le_compat_r.
    eapply Rle_trans; [apply Rabs_triang|]. rewrite !Rabs_mult. lra. }
  unfold vle, vabs, vsub, vadd, vscale, m3vec, m3abs, rotp, trp. cbn [vx vy vz m00 m01 m02 m10 m11 m12 m20 m21 m22].
  split; [|split]; [exact (E 0%nat) | exact (E 1%nat) | exact (E 2%nat)].
Qed.
