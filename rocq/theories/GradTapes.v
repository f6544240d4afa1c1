(** The tapes compute what the models of the conversions compute, and their gradients. *)
From Coq Require Import Reals Lra Bool Arith Lia List.
From Coquelicot Require Import Coquelicot.
From Verif Require Import Prelude ExtF Trig Lin RotModel MathModel AcosProofs AxisAngle So3Proofs GradModel SpecGrad GradProofs GradDeriv.
Import ListNotations.
Local Open Scope R_scope.

(** ** Reading a finished tape *)
Fixpoint holds (k : nat) (ops : list op) (l : list R) : Prop :=
  match ops with [] => True | o :: r => nth k l 0 = rval l o /\ holds (S k) r l end.
Fixpoint alongl (P : list R -> op -> Prop) (ops : list op) (l : list R) : Prop :=
  match ops with [] => True | o :: r => P l o /\ alongl P r l end.
Fixpoint smoothl (live : nat -> bool) (k : nat) (ops : list op) (l : list R) : Prop :=
  match ops with [] => True | o :: r => (live k = true -> regular l o /\ forallb live (needs l o) = true) /\ smoothl live (S k) r l end.
Lemma agrees_sym l e o : agrees l e o -> agrees e l o. Proof. intros A a Ha. symmetry. apply A, Ha. Qed.
Lemma regular_agree l e o : agrees l e o -> regular e o -> regular l o.
Proof.
  intros A. destruct o as [r|a b|a b|a b|a b|a|a|a|a|a|lo hi a|a|a|a|a|a|a b|a b|a b c d|a b c|lo hi a|q0 q1 q2 q3 c0 c1 c2 c3|m a|a|a]; cbn [regular];
    try (rewrite (A a) by (cbn; tauto)); try (rewrite (A b) by (cbn; tauto)); try (rewrite (A c) by (cbn; tauto)); trivial.
  rewrite (A q0), (A q1), (A q2), (A q3) by (cbn; tauto). trivial.
Qed.
Lemma needs_agree l e o : agrees l e o -> needs l o = needs e o.
Proof.
  intros A. destruct o as [r|a b|a b|a b|a b|a|a|a|a|a|lo hi a|a|a|a|a|a|a b|a b|a b c d|a b c|lo hi a|q0 q1 q2 q3 c0 c1 c2 c3|m a|a|a]; cbn [needs]; try reflexivity.
  - rewrite (A a), (A b) by (cbn; tauto). reflexivity.
  - rewrite (A q0), (A q1), (A q2), (A q3) by (cbn; tauto). reflexivity.
Qed.
Lemma tape_read ops env : wf_ops (length env) ops = true ->
  holds (length env) ops (rrun ops env) /\ (alongl tame ops (rrun ops env) -> along tame ops env) /\
  (forall live, smoothl live (length env) ops (rrun ops env) -> smooth live ops env) /\
  exists vs, rrun ops env = env ++ vs /\ length vs = length ops.
Proof.
  revert env. induction ops as [|o r IH]; intros env W; cbn [rrun].
  - repeat split. exists []. rewrite app_nil_r. auto.
  - destruct (wf_in _ _ _ W) as [W1 W2]. assert (E : length (env ++ [rval env o]) = S (length env)) by (rewrite app_length; cbn; lia). specialize (IH (env ++ [rval env o])). rewrite E in IH. destruct (IH W2) as (I1 & I2 & I3 & vs & I4 & I5).
    set (full := rrun r (env ++ [rval env o])) in *.
    assert (Ag : agrees env full o). { intros a Ha. specialize (W1 a Ha). unfold full. rewrite rrun_nth by lia. symmetry. apply app_nth1, W1. }
    split; [|split; [|split]].
    + cbn [holds]. split; [|exact I1]. rewrite <- (rval_agree env full o Ag). unfold full. rewrite rrun_nth by lia. rewrite app_nth2, Nat.sub_diag by lia. reflexivity.
    + intros [T1 T2]. split; [apply (tame_agree env full o Ag T1) | apply I2, T2].
    + intros live [T1 T2]. split; [|apply I3, T2]. intros Lv. destruct (T1 Lv) as [X1 X2]. split; [apply (regular_agree env full o Ag X1) | rewrite (needs_agree env full o Ag); exact X2].
    + exists (rval env o :: vs). rewrite I4, <- app_assoc. cbn [app length]. rewrite I5. auto.
Qed.

Ltac dlist l H := match type of H with length l = 0%nat => destruct l; [clear H | discriminate H] | length l = S _ => let v := fresh "v" in destruct l as [|v l]; [discriminate H | cbn [length] in H; apply Nat.succ_inj in H; dlist l H] end.
Ltac splits H := match type of H with _ /\ _ => let A := fresh "E" in destruct H as [A H]; splits H | True => clear H end.
(** opens the tape [p] on the inputs [env] *)
Ltac ops_of p := let n := eval cbv -[IZR Rplus Rmult Rinv Ropp Rminus Rdiv eps4 eps6] in (p_ops p) in n.
Ltac open_tape p env :=
  let H := fresh "H" in let T := fresh "T" in let S := fresh "Sm" in let vs := fresh "vs" in let E := fresh "Env" in let L := fresh "L" in
  destruct (tape_read (p_ops p) env eq_refl) as (H & T & S & vs & E & L);
  rewrite E in H, T, S; let n := ops_of p in change (p_ops p) with n in H, L;
  cbn [length] in L; dlist vs L; cbn [app] in *; cbn [length holds nth rval sel] in H; splits H.
Ltac show_ops p := let n := ops_of p in change (p_ops p) with n; cbn [length alongl smoothl tame regular needs args nth forallb andb sel].
Ltac outs p := unfold routputs; let o := eval vm_compute in (p_out p) in let Eo := fresh in assert (Eo : p_out p = o) by (vm_compute; reflexivity); rewrite Eo; clear Eo.

Lemma right_tape old p f x live : wf_prog p = true -> length x = p_in p ->
  routputs p x = f x -> (forall d, length d = length x -> locally 0 (fun t => routputs p (moved x d t) = f (moved x d t))) ->
  along tame (p_ops p) x -> smooth live (p_ops p) x -> forallb live (p_out p) = true -> differentiates old p f x.
Proof.
  intros W L E El T Sm Lo. split; [rewrite <- E; apply outputs_fin; assumption|]. intros cot. exists (rgradient p x cot). split; [apply gradient_fin; assumption|].
  destruct (rgradient_is live p x cot W L Sm Lo) as [G1 G2]. split; [exact G1|]. intros d Ld. specialize (G2 d Ld). specialize (El d Ld). revert G2. apply d_loc. revert El. apply filter_imp. intros t Et. rewrite Et. reflexivity.
Qed.
Ltac each := repeat match goal with |- _ /\ _ => split | |- True => exact I | |- true = true -> _ => intros _ end; try reflexivity.
Lemma sq4_ne w x y z : w * w + x * x + y * y + z * z <> 0 -> 0 < w * w + x * x + y * y + z * z.
Proof. intros H. pose proof (Rle_0_sqr w); pose proof (sq3_nonneg x y z). unfold Rsqr in *. lra. Qed.
Lemma len3 (l : list R) : length l = 3%nat -> exists a b c, l = [a; b; c].
Proof. intros H. dlist l H. eauto. Qed.
Lemma len4 (l : list R) : length l = 4%nat -> exists a b c d, l = [a; b; c; d].
Proof. intros H. dlist l H. eauto 6. Qed.

Lemma q2m_tape (w x y z : R) :
  routputs tape_quaternion_to_matrix [w; x; y; z] = q2m_list [w; x; y; z] /\
  (w * w + x * x + y * y + z * z <> 0 -> along tame (p_ops tape_quaternion_to_matrix) [w; x; y; z] /\ smooth (fun _ => true) (p_ops tape_quaternion_to_matrix) [w; x; y; z]).
Proof.
  open_tape tape_quaternion_to_matrix [w; x; y; z].
  split.
  - outs tape_quaternion_to_matrix. rewrite Env. clear Env T Sm. cbn [map nth]. subst. unfold q2m_list, m3_list, list_q, quaternion_to_matrix, qnorm2, qdot. cbn [nth qw qx qy qz m00 m01 m02 m10 m11 m12 m20 m21 m22].
    replace (1 / (w * w + x * x + y * y + z * z) * 2) with (2 / (w * w + x * x + y * y + z * z)) by (unfold Rdiv; ring). reflexivity.
  - intros N. split; [apply T | apply Sm]; clear T Sm Env; show_ops tape_quaternion_to_matrix; each; subst; exact N.
Qed.

Lemma eps6_pos : 0 < eps6. Proof. unfold eps6. apply Rinv_0_lt_compat. lra. Qed.
Lemma sqrt_ne0 s : s <> 0 -> 0 <= s -> 0 < sqrt s. Proof. intros. apply sqrt_lt_R0. lra. Qed.
Lemma a2q_tape (x y z : R) :
  routputs tape_axis_angle_to_quaternion [x; y; z] = a2q_list [x; y; z] /\
  (x * x + y * y + z * z <> 0 -> along tame (p_ops tape_axis_angle_to_quaternion) [x; y; z]) /\
  (x * x + y * y + z * z <> 0 -> sqrt (x * x + y * y + z * z) <> eps6 -> smooth (fun _ => true) (p_ops tape_axis_angle_to_quaternion) [x; y; z]).
Proof.
  open_tape tape_axis_angle_to_quaternion [x; y; z]. split; [|split].
  - outs tape_axis_angle_to_quaternion. rewrite Env. clear Env T Sm. cbn [map nth]. subst. unfold a2q_list, q_list, list_v, axis_angle_to_quaternion, sin_half_over, vnorm, vnorm2, vdot. cbn [nth qw qx qy qz vx vy vz]. reflexivity.
  - intros N. apply T; clear T Sm Env. pose proof (sq3_nonneg x y z) as P. pose proof (sqrt_ne0 _ N P). show_ops tape_axis_angle_to_quaternion. each; subst; lra.
  - intros N M. apply Sm; clear T Sm Env. pose proof (sq3_nonneg x y z) as P. pose proof (sqrt_ne0 _ N P). show_ops tape_axis_angle_to_quaternion. each; try (destruct (Rltb _ _); reflexivity); subst; try lra. rewrite Rabs_pos_eq by lra. exact M.
Qed.

Lemma atan2_open n w : 0 < n -> 0 < atan2 n w < PI.
Proof.
  intros H. pose proof (atan2_range n w). pose proof (atan2_nonneg n w ltac:(lra)). pose proof (atan2_sin n w (or_intror (Rgt_not_eq _ _ H))) as E.
  split; [destruct (Req_dec (atan2 n w) 0) as [Z|Z]; [rewrite Z, sin_0 in E; lra | lra] | destruct (Req_dec (atan2 n w) PI) as [Z|Z]; [rewrite Z, sin_PI in E; lra | lra]].
Qed.
Lemma sho_pos h : 0 < h < PI -> 0 < sin_half_over h (2 * h).
Proof.
  intros [H1 H2]. unfold sin_half_over. destruct (Rltb _ _) eqn:E.
  - apply Rltb_true in E. rewrite Rabs_pos_eq in E by lra. unfold eps6 in E. assert (2 * h * (2 * h) < 1) by nra. lra.
  - apply Rdiv_lt_0_compat; [apply sin_gt_0; assumption | lra].
Qed.
Lemma q2a_tape (w x y z : R) : x * x + y * y + z * z <> 0 ->
  let a := 2 * atan2 (sqrt (x * x + y * y + z * z)) w in
  routputs tape_quaternion_to_axis_angle [w; x; y; z] = q2a_list [w; x; y; z] /\
  along tame (p_ops tape_quaternion_to_axis_angle) [w; x; y; z] /\
  (a <> eps6 -> smooth (fun _ => true) (p_ops tape_quaternion_to_axis_angle) [w; x; y; z]).
Proof.
  intros N. cbv zeta. pose proof (sq3_nonneg x y z) as P. pose proof (sqrt_ne0 _ N P) as P'. pose proof (atan2_open _ w P') as A. pose proof (sho_pos _ A) as B. unfold sin_half_over in B.
  open_tape tape_quaternion_to_axis_angle [w; x; y; z]. split; [|split].
  - outs tape_quaternion_to_axis_angle. rewrite Env. clear Env T Sm. cbn [map nth]. subst. unfold q2a_list, list_q, quaternion_to_axis_angle, sin_half_over, vnorm, vnorm2, vdot, qvec. cbn [nth qw qx qy qz vx vy vz f3x f3y f3z].
    rewrite !fdivr_fin by (apply Rgt_not_eq; exact B). reflexivity.
  - apply T; clear T Sm Env. show_ops tape_quaternion_to_axis_angle. each; subst; try (left; lra); try lra; apply Rgt_not_eq; exact B.
  - intros M. apply Sm; clear T Sm Env. show_ops tape_quaternion_to_axis_angle. each; try (destruct (Rltb _ _); reflexivity); subst; try (left; lra); try lra; try (apply Rgt_not_eq; exact B). rewrite Rabs_pos_eq by lra. exact M.
Qed.

Lemma exp_list_eq eps x y z : exp_list eps [x; y; z] =
  let angle := sqrt (Rmax (x * x + y * y + z * z) eps) in let inv := 1 / angle in let f := inv * sin angle in let g := inv * inv * (1 - cos angle) in
  [f * 0 + g * (0 * 0 + - z * z + y * - y) + 1; f * - z + g * (0 * - z + - z * 0 + y * x) + 0; f * y + g * (0 * y + - z * - x + y * 0) + 0;
   f * z + g * (z * 0 + 0 * z + - x * - y) + 0; f * 0 + g * (z * - z + 0 * 0 + - x * x) + 1; f * - x + g * (z * y + 0 * - x + - x * 0) + 0;
   f * - y + g * (- y * 0 + x * z + 0 * - y) + 0; f * x + g * (- y * - z + x * 0 + 0 * x) + 0; f * 0 + g * (- y * y + x * - x + 0 * 0) + 1].
Proof. reflexivity. Qed.
Lemma exp_alg f s c x y z :
  [f * f * (1 - c) * (- z * z + y * - y) + 1; f * s * - z + f * f * (1 - c) * (y * x); f * s * y + f * f * (1 - c) * (- z * - x);
   f * s * z + f * f * (1 - c) * (- x * - y); f * f * (1 - c) * (z * - z + - x * x) + 1; f * s * - x + f * f * (1 - c) * (z * y);
   f * s * - y + f * f * (1 - c) * (x * z); f * s * x + f * f * (1 - c) * (- y * - z); f * f * (1 - c) * (- y * y + x * - x) + 1] =
  let g := f * f * (1 - c) in let f := f * s in
  [f * 0 + g * (0 * 0 + - z * z + y * - y) + 1; f * - z + g * (0 * - z + - z * 0 + y * x) + 0; f * y + g * (0 * y + - z * - x + y * 0) + 0;
   f * z + g * (z * 0 + 0 * z + - x * - y) + 0; f * 0 + g * (z * - z + 0 * 0 + - x * x) + 1; f * - x + g * (z * y + 0 * - x + - x * 0) + 0;
   f * - y + g * (- y * 0 + x * z + 0 * - y) + 0; f * x + g * (- y * - z + x * 0 + 0 * x) + 0; f * 0 + g * (- y * y + x * - x + 0 * 0) + 1].
Proof. cbv zeta. repeat (apply f_equal2; [ring|]). reflexivity. Qed.
Lemma exp_tape (eps x y z : R) : 0 < eps ->
  routputs (tape_so3_exp_map eps) [x; y; z] = exp_list eps [x; y; z] /\
  along tame (p_ops (tape_so3_exp_map eps)) [x; y; z] /\
  (x * x + y * y + z * z <> eps -> smooth (fun _ => true) (p_ops (tape_so3_exp_map eps)) [x; y; z]).
Proof.
  intros He. pose proof (Rmax_r (x * x + y * y + z * z) eps) as P. assert (P' : 0 < Rmax (x * x + y * y + z * z) eps) by lra. pose proof (sqrt_lt_R0 _ P') as P2.
  open_tape (tape_so3_exp_map eps) [x; y; z]. split; [|split].
  - outs (tape_so3_exp_map eps). rewrite Env. clear Env T Sm. cbn [map nth]. subst. rewrite exp_list_eq. apply exp_alg.
  - apply T; clear T Sm Env. show_ops (tape_so3_exp_map eps). each; subst; [exact P' | exact (Rgt_not_eq _ _ P2)].
  - intros M. apply Sm; clear T Sm Env. show_ops (tape_so3_exp_map eps). each; subst; [exact M | exact P' | exact (Rgt_not_eq _ _ P2)].
Qed.

