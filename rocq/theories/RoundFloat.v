(** Single precision as an instance of rounded arithmetic, and the rounded normalisation of joint axes. *)
From Coq Require Import ZArith Reals Lra Psatz Bool List.
From Flocq Require Import Core Relative.
From Verif Require Import Prelude ExtF Tree ChainModel Lin RotModel RotBasic ChainInst SpecRound RoundNorm RoundModel RoundProofs.
Local Open Scope R_scope.

(** float32 with unbounded exponents: 24-bit significands, ties to even (no overflow, no underflow) *)
Definition rnd32 (x : R) : R := round radix2 (FLX_exp 24) ZnearestE x.
Definition u32 : R := / 16777216.

Lemma rnd32_rounding : rounding u32 rnd32.
Proof.
  split.
  - unfold rnd32. apply round_generic; [apply valid_rnd_N|]. change 1 with (bpow radix2 0).
    apply generic_format_bpow. unfold FLX_exp. simpl. lia.
  - intros x. pose proof (relative_error_N_FLX radix2 24 eq_refl (fun z => negb (Z.even z)) x) as H.
    replace (/ 2 * bpow radix2 (- (24) + 1)) with u32 in H; [exact H|]. unfold u32. change (bpow radix2 (- (24) + 1)) with (/ IZR 8388608).
    lra.
Qed.

(** frame.py:66 [axis / axis.norm()], summed from left to right *)
Definition fl_axis (rnd : R -> R) (k : V3) : V3 :=
  let n := rnd (sqrt (fadd rnd (fadd rnd (fmul rnd (vx k) (vx k)) (fmul rnd (vy k) (vy k))) (fmul rnd (vz k) (vz k)))) in
  mkV3 (rnd (vx k / n)) (rnd (vy k / n)) (rnd (vz k / n)).

Lemma sqrt_rel s t e : 0 < t -> 0 <= e -> e <= 1 -> Rabs (s - t) <= e * t -> Rabs (sqrt s - sqrt t) <= e * sqrt t.
Proof.
  intros Ht He He1 H. assert (Hs : 0 <= s). { pose proof (Rle_abs (- (s - t))) as K. rewrite Rabs_Ropp in K. nra. }
  pose proof (sqrt_lt_R0 t Ht) as P. pose proof (sqrt_pos s) as P2.
  assert (E : (sqrt s - sqrt t) * (sqrt s + sqrt t) = s - t).
  { replace ((sqrt s - sqrt t) * (sqrt s + sqrt t)) with (sqrt s * sqrt s - sqrt t * sqrt t) by ring. rewrite !sqrt_sqrt; lra. }
  apply Rmult_le_reg_r with (sqrt t); [exact P|].
  apply Rle_trans with (Rabs (sqrt s - sqrt t) * (sqrt s + sqrt t)).
  - apply Rmult_le_compat_l; [apply Rabs_pos|lra].
  - replace (Rabs (sqrt s - sqrt t) * (sqrt s + sqrt t)) with (Rabs (s - t)).
    + replace (e * sqrt t * sqrt t) with (e * (sqrt t * sqrt t)) by ring. rewrite sqrt_sqrt by lra. exact H.
    + rewrite <- E, Rabs_mult, (Rabs_pos_eq (sqrt s + sqrt t)) by lra. reflexivity.
Qed.

Lemma fl_axis_err u rnd k : rounding u rnd -> u <= / 100 -> k <> vzero ->
  let k0 := vscale (/ vnorm k) k in
  Rabs (vx (fl_axis rnd k) - vx k0) <= 6 * u /\ Rabs (vy (fl_axis rnd k) - vy k0) <= 6 * u /\ Rabs (vz (fl_axis rnd k) - vz k0) <= 6 * u.
Proof.
  intros Hr Hu Hk k0. pose proof (u_nonneg u rnd Hr) as Hu0.
  assert (Hn2 : 0 < vnorm2 k).
  { pose proof (vnorm2_nonneg k). destruct (Req_dec (vnorm2 k) 0) as [E|E]; [|lra]. exfalso. apply Hk. apply vnorm_zero_iff. unfold vnorm. rewrite E. apply sqrt_0. }
  pose (t := Plus (Plus (Prod 0) (Prod 1)) (Prod 2)).
  pose (p := fun i : nat => match i with O => vx k * vx k | S O => vy k * vy k | _ => vz k * vz k end).
  pose (s := s_eval rnd p t). pose (n' := rnd (sqrt s)).
  assert (Hs : Rabs (s - vnorm2 k) <= (304 / 100 * u) * vnorm2 k).
  { pose proof (s_eval_err u rnd Hr p t) as H. cbn [s_leaves app exact_sum fold_right s_height t Nat.max p] in H. rewrite !Rplus_0_r in H.
    rewrite !(Rabs_pos_eq (_ * _)) in H by apply Rle_0_sqr.
    replace (vx k * vx k + (vy k * vy k + vz k * vz k)) with (vnorm2 k) in H by (unfold vnorm2, vdot; ring).
    fold t p s in H. eapply Rle_trans; [exact H|]. apply Rmult_le_compat_r; [lra|]. cbn [pow]. nra. }
  assert (Hsq : Rabs (sqrt s - vnorm k) <= (304 / 100 * u) * vnorm k) by (apply sqrt_rel; lra).
  pose proof (sqrt_lt_R0 _ Hn2) as Hn. fold (vnorm k) in Hn. set (n := vnorm k) in *.
  assert (Hn' : Rabs (n' - n) <= (41 / 10 * u) * n).
  { unfold n'. replace (rnd (sqrt s) - n) with ((rnd (sqrt s) - sqrt s) + (sqrt s - n)) by ring. eapply Rle_trans; [apply Rabs_triang|].
    pose proof (proj2 Hr (sqrt s)) as H1. assert (H2 : Rabs (sqrt s) <= n + (304 / 100 * u) * n).
    { replace (sqrt s) with (n + (sqrt s - n)) by ring. eapply Rle_trans; [apply Rabs_triang|]. rewrite (Rabs_pos_eq n) by lra. lra. }
    assert (H3 : u * Rabs (sqrt s) <= u * (n + (304 / 100 * u) * n)) by (apply Rmult_le_compat_l; assumption).
    assert (H4 : u * (304 / 100 * u * n) <= / 100 * (304 / 100 * u * n)).
    { apply Rmult_le_compat_r; [|exact Hu]. apply Rmult_le_pos; [|lra]. lra. }
    assert (H5 : 0 <= u * n) by (apply Rmult_le_pos; lra). lra. }
  assert (Hlow : 95 / 100 * n <= n').
  { pose proof (Rle_abs (- (n' - n))) as K. rewrite Rabs_Ropp in K. assert (u * n <= / 100 * n) by (apply Rmult_le_compat_r; lra). lra. }
  assert (HE : forall x, Rabs x <= n -> Rabs (rnd (x / n') - / n * x) <= 6 * u).
  { intros x Hx.
    assert (D : Rabs (x / n' - / n * x) <= 44 / 10 * u).
    { replace (x / n' - / n * x) with (x / n * ((n - n') / n')) by (field; lra). rewrite Rabs_mult.
      assert (A1 : Rabs (x / n) <= 1).
      { unfold Rdiv. rewrite Rabs_mult, (Rabs_pos_eq (/ n)) by (left; apply Rinv_0_lt_compat; lra).
        apply Rmult_le_reg_r with n; [exact Hn|]. rewrite Rmult_assoc, Rinv_l by lra. lra. }
      assert (A2 : Rabs ((n - n') / n') <= 44 / 10 * u).
      { unfold Rdiv at 1. rewrite Rabs_mult, (Rabs_pos_eq (/ n')) by (left; apply Rinv_0_lt_compat; lra).
        apply Rmult_le_reg_r with n'; [lra|]. rewrite Rmult_assoc, Rinv_l by lra. rewrite Rmult_1_r, Rabs_minus_sym.
        eapply Rle_trans; [exact Hn'|].
        assert (u * (95 / 100 * n) <= u * n') by (apply Rmult_le_compat_l; assumption). assert (0 <= u * n) by (apply Rmult_le_pos; lra). lra. }
      replace (44 / 10 * u) with (1 * (44 / 10 * u)) by ring. apply Rmult_le_compat; try apply Rabs_pos; assumption. }
    assert (B : Rabs (/ n * x) <= 1).
    { rewrite Rabs_mult, (Rabs_pos_eq (/ n)) by (left; apply Rinv_0_lt_compat; lra).
      apply Rmult_le_reg_l with n; [exact Hn|]. rewrite <- Rmult_assoc, Rinv_r by lra. lra. }
    replace (rnd (x / n') - / n * x) with ((rnd (x / n') - x / n') + (x / n' - / n * x)) by ring. eapply Rle_trans; [apply Rabs_triang|].
    pose proof (proj2 Hr (x / n')) as K. assert (K2 : Rabs (x / n') <= 1 + 44 / 10 * u).
    { replace (x / n') with (/ n * x + (x / n' - / n * x)) by ring. eapply Rle_trans; [apply Rabs_triang|]. lra. }
    assert (K3 : u * Rabs (x / n') <= u * (1 + 44 / 10 * / 100)) by (apply Rmult_le_compat_l; lra). lra. }
  assert (HX : forall x, x * x <= vnorm2 k -> Rabs x <= n).
  { intros x Hx. rewrite <- (Rabs_pos_eq n) by lra. apply Rsqr_le_abs_0. unfold Rsqr, n. rewrite vnorm_sqr. exact Hx. }
  assert (E : vnorm2 k = vx k * vx k + vy k * vy k + vz k * vz k) by reflexivity.
  pose proof (Rle_0_sqr (vx k)) as S1. pose proof (Rle_0_sqr (vy k)) as S2. pose proof (Rle_0_sqr (vz k)) as S3. unfold Rsqr in S1, S2, S3.
  unfold k0, fl_axis. cbv zeta. cbn [vx vy vz vscale]. change (fadd rnd (fadd rnd (fmul rnd (vx k) (vx k)) (fmul rnd (vy k) (vy k))) (fmul rnd (vz k) (vz k))) with s.
  fold n'. repeat split; apply HE, HX; lra.
Qed.
