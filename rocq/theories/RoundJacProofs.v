(** Rounding errors of the Jacobian. *)
From Coq Require Import Reals Lra Psatz String Bool Arith Lia List Permutation.
From Verif Require Import Prelude ExtF Tree ChainModel SpecFK ChainProofs ChainTables TreeQueries Input Lin Trig RotModel RotBasic ChainInst
  SerialModel SerialProofs JacModel JacProofs SpecRound RoundNorm RoundModel RoundProofs RoundChain RoundJacModel SpecRoundJac.
Import ListNotations.
Local Open Scope R_scope.

(** ** the rounded operations *)
Section Fl.
Variables (u : R) (rnd : R -> R).
Hypothesis Hr : rounding u rnd.
Lemma s_full3_err p t : s_full3 t ->
  Rabs (s_eval rnd p t - (p 0%nat + p 1%nat + p 2%nat)) <= ((1 + u) ^ 3 - 1) * (Rabs (p 0%nat) + Rabs (p 1%nat) + Rabs (p 2%nat)).
Proof.
  intros Hf. pose proof (s_eval_err u rnd Hr p t) as H. rewrite (exact_sum_perm p _ _ Hf), (exact_sum_perm (fun k => Rabs (p k)) _ _ Hf) in H.
  cbn [exact_sum fold_right] in H. rewrite !Rplus_0_r in H.
  pose proof (s_height_leaves t) as [_ Hh]. rewrite (Permutation_length Hf) in Hh. cbn [length] in Hh.
  rewrite <- !Rplus_assoc in H. eapply Rle_trans; [exact H|]. apply Rmult_le_compat_r.
  - pose proof (Rabs_pos (p 0%nat)). pose proof (Rabs_pos (p 1%nat)). pose proof (Rabs_pos (p 2%nat)). lra.
  - pose proof (pow_mono u rnd Hr _ _ Hh). lra.
Qed.
Lemma s_full2_err p t : s_full2 t ->
  Rabs (s_eval rnd p t - (p 0%nat + p 1%nat)) <= ((1 + u) ^ 2 - 1) * (Rabs (p 0%nat) + Rabs (p 1%nat)).
Proof.
  intros Hf. pose proof (s_eval_err u rnd Hr p t) as H. rewrite (exact_sum_perm p _ _ Hf), (exact_sum_perm (fun k => Rabs (p k)) _ _ Hf) in H.
  cbn [exact_sum fold_right] in H. rewrite !Rplus_0_r in H.
  pose proof (s_height_leaves t) as [_ Hh]. rewrite (Permutation_length Hf) in Hh. cbn [length] in Hh.
  eapply Rle_trans; [exact H|]. apply Rmult_le_compat_r.
  - pose proof (Rabs_pos (p 0%nat)). pose proof (Rabs_pos (p 1%nat)). lra.
  - pose proof (pow_mono u rnd Hr _ _ Hh). lra.
Qed.
Lemma fl_jops_rounded sv sc : (forall i, s_full3 (sv i)) -> (forall i, s_full2 (sc i)) ->
  rounded_jops ((1 + u) ^ 3 - 1) u ((1 + u) ^ 2 - 1) (fl_jops rnd sv sc).
Proof.
  intros Hv Hc. split; [|split; [|split]].
  - intros A v. unfold vle, fl_jops, fl_vec. cbn [jo_vec vabs vsub vscale m3vec vx vy vz m3abs m00 m01 m02 m10 m11 m12 m20 m21 m22].
    rewrite <- !Rabs_mult. split; [|split].
    + apply (s_full3_err (fun k => mrow 0 A k * vcomp v k) _ (Hv 0%nat)).
    + apply (s_full3_err (fun k => mrow 1 A k * vcomp v k) _ (Hv 1%nat)).
    + apply (s_full3_err (fun k => mrow 2 A k * vcomp v k) _ (Hv 2%nat)).
  - intros a b. unfold vle, fl_jops, fl_vsub, fsub. cbn [jo_sub vabs vsub vscale vx vy vz]. split; [|split]; apply Hr.
  - intros a b. unfold vle, fl_jops, fl_cross, abs_cross. cbn [jo_cross vabs vsub vcross vscale vx vy vz].
    assert (K : forall i x y, Rabs (s_eval rnd (fun k => match k with O => x | _ => - y end) (sc i) - (x - y)) <= ((1 + u) ^ 2 - 1) * (Rabs x + Rabs y)).
    { intros i x y. pose proof (s_full2_err (fun k => match k with O => x | _ => - y end) _ (Hc i)) as H. cbv beta iota in H. rewrite Rabs_Ropp in H. exact H. }
    split; [|split]; apply K.
  - intros a b. unfold vle, fl_jops, fl_vadd, fadd. cbn [jo_add vabs vsub vadd vscale vx vy vz]. split; [|split]; apply Hr.
Qed.
End Fl.

(** ** norms of rounded vectors *)
Lemma vscale_norm c v : 0 <= c -> vnorm (vscale c v) = c * vnorm v.
Proof.
  intros Hc. unfold vnorm. rewrite <- (sqrt_square c Hc) at 2. rewrite <- sqrt_mult; [|apply Rmult_le_pos; assumption|apply vnorm2_nonneg].
  f_equal. unfold vnorm2, vdot, vscale. cbn [vx vy vz]. ring.
Qed.
Lemma cross_norm_le a b : vnorm (vcross a b) <= vnorm a * vnorm b.
Proof.
  apply vnorm_le_sqr; [apply Rmult_le_pos; apply vnorm_nonneg|].
  replace (vnorm a * vnorm b * (vnorm a * vnorm b)) with ((vnorm a * vnorm a) * (vnorm b * vnorm b)) by ring. rewrite !vnorm_sqr.
  assert (E : vnorm2 (vcross a b) = vnorm2 a * vnorm2 b - vdot a b * vdot a b) by (unfold vnorm2, vdot, vcross; cbn [vx vy vz]; ring).
  rewrite E. pose proof (Rle_0_sqr (vdot a b)). unfold Rsqr in *. lra.
Qed.
Lemma abs_cross_norm a b : vnorm (abs_cross a b) <= 2 * (vnorm a * vnorm b).
Proof.
  apply vnorm_le_sqr; [pose proof (Rmult_le_pos _ _ (vnorm_nonneg a) (vnorm_nonneg b)); lra|].
  replace (2 * (vnorm a * vnorm b) * (2 * (vnorm a * vnorm b))) with (4 * ((vnorm a * vnorm a) * (vnorm b * vnorm b))) by ring. rewrite !vnorm_sqr.
  unfold vnorm2, vdot, abs_cross. cbn [vx vy vz].
  assert (K : forall x y, (Rabs x + Rabs y) * (Rabs x + Rabs y) <= 2 * (x * x + y * y)).
  { intros x y. pose proof (Rle_0_sqr (Rabs x - Rabs y)) as H. unfold Rsqr in H.
    assert (Ex : Rabs x * Rabs x = x * x) by (rewrite <- Rabs_mult; apply Rabs_pos_eq, Rle_0_sqr).
    assert (Ey : Rabs y * Rabs y = y * y) by (rewrite <- Rabs_mult; apply Rabs_pos_eq, Rle_0_sqr). nra. }
  pose proof (K (vy a * vz b) (vz a * vy b)) as K1. pose proof (K (vz a * vx b) (vx a * vz b)) as K2. pose proof (K (vx a * vy b) (vy a * vx b)) as K3.
  assert (S1 := Rle_0_sqr (vx a * vx b)). assert (S2 := Rle_0_sqr (vy a * vy b)). assert (S3 := Rle_0_sqr (vz a * vz b)). unfold Rsqr in *.
  assert (T1 := Rle_0_sqr (vy a * vz b)). assert (T2 := Rle_0_sqr (vz a * vy b)). assert (T3 := Rle_0_sqr (vz a * vx b)).
  assert (T4 := Rle_0_sqr (vx a * vz b)). assert (T5 := Rle_0_sqr (vx a * vy b)). assert (T6 := Rle_0_sqr (vy a * vx b)). unfold Rsqr in *.
  replace (4 * ((vx a * vx a + vy a * vy a + vz a * vz a) * (vx b * vx b + vy b * vy b + vz b * vz b))) with
    (4 * (vx a * vx b * (vx a * vx b)) + 4 * (vy a * vy b * (vy a * vy b)) + 4 * (vz a * vz b * (vz a * vz b)) + 4 * (vy a * vz b * (vy a * vz b)) + 4 * (vz a * vy b * (vz a * vy b))
     + 4 * (vz a * vx b * (vz a * vx b)) + 4 * (vx a * vz b * (vx a * vz b)) + 4 * (vx a * vy b * (vx a * vy b)) + 4 * (vy a * vx b * (vy a * vx b))) by ring.
  lra.
Qed.
Lemma axis_norm a k' k : unit3 k -> 0 <= a -> Rabs (vx k' - vx k) <= a -> Rabs (vy k' - vy k) <= a -> Rabs (vz k' - vz k) <= a ->
  vnorm (vsub k' k) <= 2 * a.
Proof. intros Hk Ha H1 H2 H3. apply vnorm_entries; [exact Ha|]. split; [|split]; assumption. Qed.

Section Col.
Variables (o : jops) (gv us h a x : R).
Hypotheses (Hgv : 0 <= gv) (Hus : 0 <= us) (Hh : 0 <= h) (Ha : 0 <= a).
Hypothesis Ho : rounded_jops gv us h o.

(** the world axis *)
Lemma z_err W' W P k' k : close x W' W P -> unit3 k -> vnorm (vsub k' k) <= 2 * a ->
  vnorm (vsub (jo_vec o (rotp W') k') (m3vec (rotp W) k)) <= x * (1 + 2 * gv) * (1 + 2 * a) - 1 /\
  vnorm (jo_vec o (rotp W') k') <= x * (1 + 2 * gv) * (1 + 2 * a).
Proof.
  intros HW Hk Hd. pose proof (close_ge1 _ _ _ _ HW) as Hx. pose proof (close_stretch _ _ _ _ HW) as Hs.
  pose proof (unit3_norm k Hk) as Uk.
  assert (Lk : vnorm k' <= 1 + 2 * a) by (replace (1 + 2 * a) with (2 * a + 1) by ring; apply (vnorm_split k' k); [exact Hd|lra]).
  assert (F : fnorm (rotp W') <= 2 * x).
  { eapply Rle_trans; [apply (fnorm_stretch _ x); [lra|exact Hs]|]. apply Rmult_le_compat_r; [lra|apply sqrt3_le2]. }
  (* rounding of the product *)
  assert (E1 : vnorm (vsub (jo_vec o (rotp W') k') (m3vec (rotp W') k')) <= 2 * gv * x * (1 + 2 * a)).
  { eapply Rle_trans; [apply vle_norm, (proj1 Ho)|]. rewrite vscale_norm by exact Hgv.
    eapply Rle_trans; [apply Rmult_le_compat_l; [exact Hgv|]; apply fnorm_vec|]. rewrite fnorm_abs, vabs_norm.
    replace (2 * gv * x * (1 + 2 * a)) with (gv * ((2 * x) * (1 + 2 * a))) by ring. apply Rmult_le_compat_l; [exact Hgv|].
    apply Rmult_le_compat; [apply fnorm_nonneg|apply vnorm_nonneg|exact F|exact Lk]. }
  assert (E2 : vnorm (vsub (m3vec (rotp W') k') (m3vec (rotp W') k)) <= x * (2 * a)).
  { replace (vsub (m3vec (rotp W') k') (m3vec (rotp W') k)) with (m3vec (rotp W') (vsub k' k)).
    - eapply Rle_trans; [apply Hs|]. apply Rmult_le_compat_l; [lra|exact Hd].
    - generalize (rotp W'). intros B. unfold m3vec, vsub. cbn [vx vy vz]. apply mkV3_eq; ring. }
  assert (E3 : vnorm (vsub (m3vec (rotp W') k) (m3vec (rotp W) k)) <= x - 1).
  { destruct HW as (_ & _ & HW & _). eapply Rle_trans; [apply HW|]. rewrite Uk. lra. }
  assert (E : vnorm (vsub (jo_vec o (rotp W') k') (m3vec (rotp W) k)) <= x * (1 + 2 * gv) * (1 + 2 * a) - 1).
  { replace (x * (1 + 2 * gv) * (1 + 2 * a) - 1) with (2 * gv * x * (1 + 2 * a) + (x * (2 * a) + (x - 1))) by ring.
    eapply vnorm_sub_split; [exact E1|]. eapply vnorm_sub_split; [exact E2|exact E3]. }
  split; [exact E|]. replace (x * (1 + 2 * gv) * (1 + 2 * a)) with ((x * (1 + 2 * gv) * (1 + 2 * a) - 1) + 1) by ring.
  eapply vnorm_split; [exact E|]. rewrite rot_vnorm by apply HW. lra.
Qed.

(** the lever *)
Lemma dp_err W' W T' T P : close x W' W P -> close x T' T P ->
  vnorm (vsub (jo_sub o (trp T') (trp W')) (vsub (trp T) (trp W))) <= 2 * P * ((1 + us) * x - 1) /\
  vnorm (jo_sub o (trp T') (trp W')) <= 2 * P * ((1 + us) * x) /\ vnorm (vsub (trp T) (trp W)) <= 2 * P.
Proof.
  intros HW HT. pose proof (close_ge1 _ _ _ _ HW) as Hx. pose proof (close_P _ _ _ _ HW) as HP.
  pose proof (close_len _ _ _ _ HW) as LW. pose proof (close_len _ _ _ _ HT) as LT.
  assert (Sub : forall p q c d, vnorm p <= c -> vnorm q <= d -> vnorm (vsub p q) <= c + d).
  { intros p q c d H1 H2. replace (vsub p q) with (vadd p (vopp q)) by (unfold vadd, vsub, vopp; cbn [vx vy vz]; apply mkV3_eq; ring).
    eapply Rle_trans; [apply vnorm_triangle|]. rewrite vnorm_opp. lra. }
  assert (E1 : vnorm (vsub (jo_sub o (trp T') (trp W')) (vsub (trp T') (trp W'))) <= us * (2 * x * P)).
  { eapply Rle_trans; [apply vle_norm, (proj1 (proj2 Ho))|]. rewrite vscale_norm by exact Hus. rewrite vabs_norm. apply Rmult_le_compat_l; [exact Hus|].
    replace (2 * x * P) with (x * P + x * P) by ring. apply Sub; assumption. }
  assert (E2 : vnorm (vsub (vsub (trp T') (trp W')) (vsub (trp T) (trp W))) <= 2 * ((x - 1) * P)).
  { replace (vsub (vsub (trp T') (trp W')) (vsub (trp T) (trp W))) with (vsub (vsub (trp T') (trp T)) (vsub (trp W') (trp W))).
    - replace (2 * ((x - 1) * P)) with ((x - 1) * P + (x - 1) * P) by ring. apply Sub; [apply HT|apply HW].
    - generalize (trp T') (trp T) (trp W') (trp W). intros. unfold vsub. cbn [vx vy vz]. apply mkV3_eq; ring. }
  assert (E3 : vnorm (vsub (trp T) (trp W)) <= 2 * P).
  { replace (2 * P) with (P + P) by ring. apply Sub; [apply HT|apply HW]. }
  assert (E : vnorm (vsub (jo_sub o (trp T') (trp W')) (vsub (trp T) (trp W))) <= 2 * P * ((1 + us) * x - 1)).
  { replace (2 * P * ((1 + us) * x - 1)) with (us * (2 * x * P) + 2 * ((x - 1) * P)) by ring. eapply vnorm_sub_split; [exact E1|exact E2]. }
  split; [exact E|]. split; [|exact E3]. replace (2 * P * ((1 + us) * x)) with (2 * P * ((1 + us) * x - 1) + 2 * P) by ring.
  eapply vnorm_split; [exact E|exact E3].
Qed.

(** the cross product *)
Lemma cross_err z' z d' d Z D X : 0 <= D -> 1 <= Z -> 1 <= X -> vnorm z = 1 -> vnorm (vsub z' z) <= Z - 1 -> vnorm z' <= Z ->
  vnorm (vsub d' d) <= D * (X - 1) -> vnorm d' <= D * X -> vnorm d <= D ->
  vnorm (vsub (jo_cross o z' d') (vcross z d)) <= D * ((1 + 2 * h) * Z * X - 1).
Proof.
  intros HD HZ HX Uz Ez Lz Ed Ld L0.
  assert (E1 : vnorm (vsub (jo_cross o z' d') (vcross z' d')) <= h * (2 * (Z * (D * X)))).
  { eapply Rle_trans; [apply vle_norm, (proj1 (proj2 (proj2 Ho)))|]. rewrite vscale_norm by exact Hh. apply Rmult_le_compat_l; [exact Hh|].
    eapply Rle_trans; [apply abs_cross_norm|]. apply Rmult_le_compat_l; [lra|]. apply Rmult_le_compat; try apply vnorm_nonneg; assumption. }
  assert (E2 : vnorm (vsub (vcross z' d') (vcross z d')) <= (Z - 1) * (D * X)).
  { replace (vsub (vcross z' d') (vcross z d')) with (vcross (vsub z' z) d') by (unfold vsub, vcross; cbn [vx vy vz]; apply mkV3_eq; ring).
    eapply Rle_trans; [apply cross_norm_le|]. apply Rmult_le_compat; try apply vnorm_nonneg; assumption. }
  assert (E3 : vnorm (vsub (vcross z d') (vcross z d)) <= D * (X - 1)).
  { replace (vsub (vcross z d') (vcross z d)) with (vcross z (vsub d' d)) by (unfold vsub, vcross; cbn [vx vy vz]; apply mkV3_eq; ring).
    eapply Rle_trans; [apply cross_norm_le|]. rewrite Uz, Rmult_1_l. exact Ed. }
  replace (D * ((1 + 2 * h) * Z * X - 1)) with (h * (2 * (Z * (D * X))) + ((Z - 1) * (D * X) + D * (X - 1))) by ring.
  eapply vnorm_sub_split; [exact E1|]. eapply vnorm_sub_split; [exact E2|exact E3].
Qed.

(** the sum of the linear part and its correction *)
Lemma add_err A' A C' C D B : 0 <= D -> vnorm (vsub A' A) <= D * (B - 1) -> vnorm A <= D -> vnorm (vsub C' C) <= D * (B - 1) -> vnorm C <= D ->
  vnorm (vsub (jo_add o A' C') (vadd A C)) <= 2 * D * ((1 + us) * B - 1).
Proof.
  intros HD EA LA EC LC.
  assert (LA' : vnorm A' <= D * B) by (replace (D * B) with (D * (B - 1) + D) by ring; eapply vnorm_split; eassumption).
  assert (LC' : vnorm C' <= D * B) by (replace (D * B) with (D * (B - 1) + D) by ring; eapply vnorm_split; eassumption).
  assert (E1 : vnorm (vsub (jo_add o A' C') (vadd A' C')) <= us * (2 * (D * B))).
  { eapply Rle_trans; [apply vle_norm, (proj2 (proj2 (proj2 Ho)))|]. rewrite vscale_norm by exact Hus. rewrite vabs_norm. apply Rmult_le_compat_l; [exact Hus|].
    eapply Rle_trans; [apply vnorm_triangle|]. lra. }
  assert (E2 : vnorm (vsub (vadd A' C') (vadd A C)) <= 2 * (D * (B - 1))).
  { replace (vsub (vadd A' C') (vadd A C)) with (vadd (vsub A' A) (vsub C' C)) by (unfold vsub, vadd; cbn [vx vy vz]; apply mkV3_eq; ring).
    eapply Rle_trans; [apply vnorm_triangle|]. lra. }
  replace (2 * D * ((1 + us) * B - 1)) with (us * (2 * (D * B)) + 2 * (D * (B - 1))) by ring. eapply vnorm_sub_split; [exact E1|exact E2].
Qed.
Lemma add_zero_err z' z Z : vnorm (vsub z' z) <= Z - 1 -> vnorm z' <= Z -> vnorm (vsub (jo_add o z' vzero) z) <= (1 + us) * Z - 1.
Proof.
  intros E L.
  assert (Ez : vadd z' vzero = z') by (destruct z' as [b1 b2 b3]; unfold vadd, vzero; cbn [vx vy vz]; apply mkV3_eq; ring).
  pose proof (proj2 (proj2 (proj2 Ho)) z' vzero) as H. rewrite Ez in H. apply vle_norm in H. rewrite vscale_norm, vabs_norm in H by exact Hus.
  assert (E1 : vnorm (vsub (jo_add o z' vzero) z') <= us * Z) by (eapply Rle_trans; [exact H|]; apply Rmult_le_compat_l; [exact Hus|exact L]).
  replace ((1 + us) * Z - 1) with (us * Z + (Z - 1)) by ring. eapply vnorm_sub_split; [exact E1|exact E].
Qed.
End Col.
