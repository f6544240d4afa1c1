(** The tapes compute what the models of the conversions compute, and their gradients. *)
From Coq Require Import Reals Lra Bool Arith Lia List.
From Coquelicot Require Import Coquelicot.
From Verif Require Import Prelude ExtF Trig Lin RotModel MathModel AcosProofs AxisAngle So3Proofs GradModel SpecGrad GradProofs GradDeriv GradTapes.
Import ListNotations.
Local Open Scope R_scope.

(** the angle of the logarithm stays away from 0 and from half a turn, even for traces that are only just accepted *)
Lemma ext4_inner t : -1 - eps4 <= t <= 3 + eps4 -> 3 / 1000 <= ext4 ((t - 1) * / 2) <= PI - 3 / 1000.
Proof.
  intros Ht. set (c := (t - 1) * / 2). assert (Hc : -1 - eps4 / 2 <= c <= 1 + eps4 / 2) by (unfold c; lra). clearbody c. pose proof dwin_range. pose proof dwin_bound. pose proof dwin_sin_bound.
  assert (I : / sin dwin <= / (141 / 10000)) by (apply Rinv_le_contravar; lra). assert (I0 : 0 < / sin dwin) by (apply Rinv_0_lt_compat; lra).
  assert (U : forall e, 0 <= e <= 3 * eps4 / 2 -> 0 <= e * / sin dwin <= 107 / 10000).
  { intros e He. split; [apply Rmult_le_pos; lra|]. apply Rle_trans with (3 * eps4 / 2 * / (141 / 10000)); [apply Rmult_le_compat; lra | unfold eps4; lra]. }
  destruct (Rle_lt_dec (1 - eps4) c) as [L|L]; [|destruct (Rle_lt_dec c (- (1 - eps4))) as [L'|L']].
  - assert (E : ext4 c = dwin - (c - (1 - eps4)) * / sin dwin). { unfold ext4. rewrite ext_high; [|unfold eps4; lra | exact L]. unfold acos_linear_approximation. rewrite dacos_dwin. fold dwin. ring. }
    rewrite E. specialize (U (c - (1 - eps4)) ltac:(lra)). pose proof PI2_1. lra.
  - assert (E : ext4 c = PI - dwin + (- (1 - eps4) - c) * / sin dwin). { unfold ext4. rewrite ext_low by exact L'. unfold acos_linear_approximation. rewrite dacos_dwin', acos_opp. fold dwin. ring. }
    rewrite E. specialize (U (- (1 - eps4) - c) ltac:(lra)). pose proof PI2_1. lra.
  - unfold ext4. rewrite ext_mid by (unfold eps4 in *; lra). pose proof (acos_bound c) as [B1 B2]. assert (C : cos (acos c) = c) by (apply cos_acos; unfold eps4 in *; lra).
    assert (D1 : dwin <= acos c). { destruct (Rle_lt_dec dwin (acos c)) as [X|X]; [exact X|]. assert (cos dwin < cos (acos c)) by (apply cos_decr_lt; lra). rewrite dwin_cos, C in *. lra. }
    assert (D2 : acos c <= PI - dwin). { destruct (Rle_lt_dec (acos c) (PI - dwin)) as [X|X]; [exact X|]. assert (cos (acos c) < cos (PI - dwin)) by (apply cos_decr_lt; lra). rewrite Rtrigo_facts.cos_pi_minus, dwin_cos, C in *. lra. }
    lra.
Qed.
Lemma sin_inner p : 3 / 1000 <= p <= PI - 3 / 1000 -> eps4 < sin p.
Proof.
  intros Hp. pose proof PI2_1. assert (S : eps4 < sin (3 / 1000)). { pose proof (sin_taylor (3 / 1000) ltac:(lra)) as [X _]. unfold eps4. lra. }
  destruct (Rle_lt_dec p (PI / 2)) as [L|L]; [apply Rlt_le_trans with (1 := S); apply sin_incr_1; lra|].
  rewrite <- Rtrigo_facts.sin_pi_minus. apply Rlt_le_trans with (1 := S); apply sin_incr_1; lra.
Qed.
Lemma log_one A eps : -1 - eps4 <= trace3 A <= 3 + eps4 ->
  so3_log_map [A] eps = Ok [let h := log_hat eps (ext4 ((trace3 A - 1) * / 2)) A in mkV3 (m21 h) (m02 h) (m10 h)].
Proof.
  intros H. unfold so3_log_map, so3_rotation_angle. cbn [map existsb orb]. rewrite (Rltb_f (trace3 A)) by lra. rewrite (Rltb_f (3 + eps4)) by lra. cbn [orb].
  replace (Rltb 0 eps4) with true by (symmetry; apply Rltb_true; unfold eps4; lra).
  pose proof (extrapolation_spec [(trace3 A - 1) * / 2] (BFloat (1 - eps4))) as [E _]. rewrite E by (unfold eps4; lra). cbn [rbind map zip_with]. rewrite hat_inv_ok.
  - reflexivity.
  - discriminate.
  - intros h [<-|[]]. replace (m3add _ _) with Z3; [rewrite m3maxabs_Z; unfold hat_tol; lra|].
    unfold log_hat. set (a := _ / _). clearbody a. unfold Z3. destruct A; lin_simpl. lin_eq; ring.
Qed.
Lemma log_tape (eps a b c d e f g h i : R) : 0 < eps <= eps4 -> -1 - eps4 <= a + e + i <= 3 + eps4 ->
  let l := [a; b; c; d; e; f; g; h; i] in
  routputs (tape_so3_log_map eps) l = log_listf eps l /\ along tame (p_ops (tape_so3_log_map eps)) l /\ smooth (fun _ => true) (p_ops (tape_so3_log_map eps)) l.
Proof.
  intros He Ht. cbv zeta. pose proof (ext4_inner _ Ht) as P. pose proof (sin_inner _ P) as Q. unfold ext4 in P, Q.
  assert (D : Rmax (Rabs (sin (ext4 ((a + e + i - 1) * / 2)))) eps * Rsgn (sin (ext4 ((a + e + i - 1) * / 2))) + (if Reqb (sin (ext4 ((a + e + i - 1) * / 2))) 0 then 1 else 0) * eps = sin (ext4 ((a + e + i - 1) * / 2))).
  { unfold ext4. rewrite Rabs_pos_eq by lra. rewrite Rmax_left by lra. unfold Rsgn. rewrite Rltb_t by lra. destruct (Reqb _ 0) eqn:X; [apply Reqb_true in X; lra | ring]. }
  unfold ext4 in D.
  open_tape (tape_so3_log_map eps) [a; b; c; d; e; f; g; h; i]. split; [|split].
  - outs (tape_so3_log_map eps). rewrite Env. clear Env T Sm. cbn [map nth]. subst. unfold log_listf, v_list, list_m3. cbn [nth]. rewrite log_one by exact Ht. unfold log_hat, trace3, ext4, m3scale, m3add, m3opp, m3tr. cbn [vx vy vz m00 m01 m02 m10 m11 m12 m20 m21 m22]. rewrite D.
    repeat (apply f_equal2; [ring|]). reflexivity.
  - apply T; clear T Sm Env. show_ops (tape_so3_log_map eps). each; subst; try (unfold eps4; lra). rewrite D. lra.
  - apply Sm; clear T Sm Env. show_ops (tape_so3_log_map eps). each; subst; try (unfold eps4; lra); try lra; try (rewrite D; lra). rewrite Rabs_pos_eq by lra. lra.
Qed.
