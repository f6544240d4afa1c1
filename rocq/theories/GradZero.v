(** Back-propagation at the zero vector, at the identity and for equal quaternions. *)
From Coq Require Import Reals Lra Bool Arith Lia List.
From Verif Require Import Prelude ExtF Trig Lin RotModel MathModel GradModel SpecGrad GradProofs GradDeriv GradTapes.
Import ListNotations.
Local Open Scope R_scope.

Lemma frun_step o r env v : fval env o = v -> frun (o :: r) env = frun r (env ++ [v]). Proof. intros <-. reflexivity. Qed.
Lemma fback_step old k o r env c c1 c2 : fback old (S k) r env c = c1 -> acc c1 (fparts old env o (nth k env NaN) (nth k c1 NaN)) = c2 -> fback old k (o :: r) env c = c2.
Proof. intros <- <-. reflexivity. Qed.
Lemma Reqb_same x : Reqb x x = true. Proof. apply Reqb_true. reflexivity. Qed.
Lemma Rltb_same x : Rltb x x = false. Proof. apply Rltb_false. lra. Qed.
Lemma Rleb_same x : Rleb x x = true. Proof. apply Rleb_true. lra. Qed.
Lemma Reqb_2 : Reqb 2 0 = false. Proof. apply Reqb_false. lra. Qed.
Lemma Reqb_48 : Reqb 48 0 = false. Proof. apply Reqb_false. lra. Qed.
Lemma Reqb_half : Reqb (/ 2) 0 = false. Proof. apply Reqb_false. lra. Qed.
Lemma Reqb_1 : Reqb 1 0 = false. Proof. apply Reqb_false. lra. Qed.
Lemma zero_over x : 0 / x = 0. Proof. unfold Rdiv. ring. Qed.
Lemma Rltb_eps6 : Rltb 0 eps6 = true. Proof. apply Rltb_true, eps6_pos. Qed.
Ltac tidy := repeat (progress (cbn [fval fparts nth app acc acc_at fold_left fst snd fadd fsub fmul fopp gdiv gsqrt gfun gabs gatan2 gsgn geqb flt fle fnorm3 norm_back andb fmax fmin isnan orb]; unfold fdivr, gsqrt, fmax, fmin, norm_back; rewrite ?Rmult_0_l, ?Rmult_0_r, ?Rmult_1_l, ?Rmult_1_r, ?Rplus_0_l, ?Rplus_0_r, ?Ropp_0, ?sin_0, ?cos_0, ?sqrt_0, ?Rabs_R0, ?Reqb_same, ?Rltb_same, ?Rleb_same, ?Reqb_2, ?Reqb_48, ?Reqb_half, ?Reqb_1, ?Rltb_eps6, ?Rminus_0_r, ?zero_over)).

(** one operation of the tape after the other, then back *)
Ltac forward := repeat (erewrite frun_step; [|tidy; reflexivity]; cbn [app]); cbn [frun].
Lemma fback_end old k env c : fback old k [] env c = c. Proof. reflexivity. Qed.
Lemma fback_read old n ops env c c1 r : fback old n ops env c = c1 -> firstn n c1 = r -> firstn n (fback old n ops env c) = r. Proof. intros -> H. exact H. Qed.
Lemma fback_read_all old n ops env c c1 (P : list F -> Prop) : fback old n ops env c = c1 -> P (firstn n c1) -> P (firstn n (fback old n ops env c)). Proof. intros -> H. exact H. Qed.
Ltac back := lazymatch goal with |- fback _ _ [] _ _ = _ => apply fback_end | |- _ => eapply fback_step; [back | tidy; reflexivity] end.
Ltac backward := eapply fback_read; [back | cbn [firstn]].

Definition a2q_ops : list op := Eval cbv -[IZR Rplus Rmult Rinv Ropp Rminus Rdiv eps4 eps6] in p_ops tape_axis_angle_to_quaternion.
Definition a2q_outs : list nat := Eval vm_compute in p_out tape_axis_angle_to_quaternion.
Lemma a2q_env : frun a2q_ops [Fin 0; Fin 0; Fin 0] =
  [Fin 0; Fin 0; Fin 0; Fin 0; Fin (/ 2); Fin 0; Fin (/ 2); Fin 0; Fin 48; Fin 0; Fin (/ 2); Fin 0; NaN; Fin 0; Fin eps6; Fin (/ 2); Fin 1; Fin 0; Fin 0; Fin 0].
Proof. unfold a2q_ops. forward. reflexivity. Qed.
Lemma a2q_zero old w x y z : gradient old tape_axis_angle_to_quaternion [Fin 0; Fin 0; Fin 0] [Fin w; Fin x; Fin y; Fin z] =
  if old then [Fin (x * / 2); Fin (y * / 2); Fin (z * / 2)] else [NaN; NaN; NaN].
Proof.
  assert (E : p_ops tape_axis_angle_to_quaternion = a2q_ops) by reflexivity.
  assert (Eo : p_out tape_axis_angle_to_quaternion = a2q_outs) by (vm_compute; reflexivity).
  unfold gradient. rewrite E, Eo, a2q_env. change (p_in tape_axis_angle_to_quaternion) with 3%nat. clear E Eo.
  cbn [map combine a2q_outs]. tidy.
  unfold a2q_ops. destruct old; backward; reflexivity.
Qed.

Lemma atan2_flat w : 0 < w -> atan2 0 w = 0.
Proof. intros H. unfold atan2. rewrite (proj2 (Rltb_true _ _) H), zero_over. apply atan_0. Qed.
Definition q2a_ops : list op := Eval cbv -[IZR Rplus Rmult Rinv Ropp Rminus Rdiv eps4 eps6] in p_ops tape_quaternion_to_axis_angle.
Definition q2a_outs : list nat := Eval vm_compute in p_out tape_quaternion_to_axis_angle.
Lemma q2a_env w : 0 < w -> frun q2a_ops [Fin w; Fin 0; Fin 0; Fin 0] =
  [Fin w; Fin 0; Fin 0; Fin 0; Fin 0; Fin 0; Fin 2; Fin 0; Fin (/ 2); Fin 0; Fin 48; Fin 0; Fin (/ 2); Fin 0; NaN; Fin 0; Fin eps6; Fin (/ 2); Fin 0; Fin 0; Fin 0].
Proof. intros H. pose proof (atan2_flat w H) as A. unfold q2a_ops. do 17 (erewrite frun_step; [|tidy; rewrite ?A; tidy; reflexivity]; cbn [app]). reflexivity. Qed.
Ltac back_with W := lazymatch goal with |- fback _ _ [] _ _ = _ => apply fback_end | |- _ => eapply fback_step; [back_with W | tidy; rewrite ?W; tidy; reflexivity] end.
Lemma q2a_zero old w x y z : 0 < w -> gradient old tape_quaternion_to_axis_angle [Fin w; Fin 0; Fin 0; Fin 0] [Fin x; Fin y; Fin z] =
  if old then [NaN; Fin (2 * x); Fin (2 * y); Fin (2 * z)] else [NaN; NaN; NaN; NaN].
Proof.
  intros H. assert (E : p_ops tape_quaternion_to_axis_angle = q2a_ops) by reflexivity.
  assert (Eo : p_out tape_quaternion_to_axis_angle = q2a_outs) by (vm_compute; reflexivity).
  unfold gradient. rewrite E, Eo, (q2a_env w H). change (p_in tape_quaternion_to_axis_angle) with 4%nat. clear E Eo.
  cbn [map combine q2a_outs]. tidy. assert (W : Reqb (w * w) 0 = false) by (apply Reqb_false; nra).
  unfold q2a_ops. destruct old; (eapply fback_read; [back_with W|cbn [firstn]]).
  - assert (T : forall u, u / / 2 = 2 * u) by (intros u; field). rewrite !T. reflexivity.
  - reflexivity.
Qed.

Lemma gather o r env v rest : fval env o = v -> frun r (env ++ [v]) = rest -> frun (o :: r) env = rest. Proof. intros <- <-. reflexivity. Qed.
Definition dist_ops (close : bool) : list op := Eval cbv -[IZR Rplus Rmult Rinv Ropp Rminus Rdiv eps4 eps6] in p_ops (tape_quaternion_angular_distance close).
Definition dist_outs : list nat := Eval vm_compute in p_out (tape_quaternion_angular_distance true).
Lemma Rltb_02 : Rltb 0 2 = true. Proof. apply Rltb_true. lra. Qed.
Lemma Rltb_01 : Rltb 0 1 = true. Proof. apply Rltb_true. lra. Qed.
Lemma Rltb_m1 : Rltb 0 (-1) = false. Proof. apply Rltb_false. lra. Qed.
Lemma Rltb_m1' : Rltb (-1) 0 = true. Proof. apply Rltb_true. lra. Qed.
Lemma Rleb_m11 : Rleb (-1) 1 = true. Proof. apply Rleb_true. lra. Qed.
Lemma one_one : 1 / 1 = 1. Proof. field. Qed.
Lemma Rsgn_1 : Rsgn 1 = 1. Proof. unfold Rsgn. rewrite Rltb_01. reflexivity. Qed.
Lemma Rsgn_m1 : Rsgn (-1) = -1. Proof. unfold Rsgn. rewrite Rltb_m1, Rltb_m1'. reflexivity. Qed.
Ltac pattern_first := match goal with |- context [firstn 8 ?f] => pattern (firstn 8 f) end.
Ltac back_rules r := lazymatch goal with |- fback _ _ [] _ _ = _ => apply fback_end | |- _ => eapply fback_step; [back_rules r | repeat (progress (tidy; r)); reflexivity] end.
Ltac read_off :=
  split; [reflexivity|]; intros k v K;
  do 8 (destruct k as [|k]; [cbn [nth_error] in K; injection K as <-; repeat match goal with |- context [Rltb ?x ?y] => destruct (Rltb x y) end;
    (split; [reflexivity | intros [X | X]; [discriminate X | exfalso; lra]])|]); destruct k; discriminate K.
Lemma dist_same old close a b c d e f g h (s : R) cot : s = 1 \/ s = -1 -> a * e + b * f + c * g + d * h = s ->
  let G := gradient old (tape_quaternion_angular_distance close) (map Fin [a; b; c; d; e; f; g; h]) [Fin cot] in
  length G = 8%nat /\ forall k v, nth_error G k = Some v -> isfinite v = false /\ (close = true \/ cot = 0 -> v = NaN).
Proof.
  intros Hs HD. assert (E : p_ops (tape_quaternion_angular_distance close) = dist_ops close) by reflexivity.
  assert (Eo : p_out (tape_quaternion_angular_distance close) = dist_outs) by (vm_compute; reflexivity).
  assert (Env : frun (dist_ops close) (map Fin [a; b; c; d; e; f; g; h]) =
    map Fin [a; b; c; d; e; f; g; h; a * e; b * f; c * g; d * h; a * e + b * f; a * e + b * f + c * g; s; s; 1; 1; 1; 0; 0; 0; 2; 0; 0]).
  { assert (M1 : Rltb s (-1) = false) by (apply Rltb_false; lra). assert (M2 : Rltb 1 s = false) by (apply Rltb_false; lra).
    assert (M3 : Rabs s = 1) by (destruct Hs as [-> | ->]; [apply Rabs_R1 | rewrite Rabs_left by lra; lra]).
    assert (M4 : 1 * 1 = 1) by ring. assert (M5 : 1 + - (1) = 0) by ring. assert (M6 : atan2 0 1 = 0) by (apply atan2_flat; lra).
    unfold dist_ops. cbn [map]. do 17 (eapply gather; [tidy; rewrite ?HD; tidy; rewrite ?M1; tidy; rewrite ?M2; tidy; rewrite ?M3, ?M4, ?M5; tidy; rewrite ?M6; tidy; reflexivity|cbn [app]]).
    destruct close; tidy; reflexivity. }
  cbv zeta. unfold gradient. rewrite E, Eo, Env. change (p_in (tape_quaternion_angular_distance close)) with 8%nat. clear E Eo Env.
  cbn [map combine dist_outs]. tidy.
  assert (M7 : Rleb (-1) s && Rleb s 1 = true) by (apply andb_true_iff; rewrite !Rleb_true; lra).
  unfold dist_ops. destruct close.
  - match goal with |- length (firstn 8 ?f) = _ /\ _ => assert (X : firstn 8 f = [NaN; NaN; NaN; NaN; NaN; NaN; NaN; NaN]) end.
    { eapply fback_read; [back_with M7|cbn [firstn]]. reflexivity. }
    rewrite X. split; [reflexivity|]. intros k v K. do 8 (destruct k as [|k]; [injection K as <-; split; reflexivity|]). destruct k; discriminate K.
  - destruct (Rtotal_order cot 0) as [N | [-> | P]].
    + assert (W1 : Rltb 0 (cot * 2) = false) by (apply Rltb_false; lra). assert (W2 : Rltb (cot * 2) 0 = true) by (apply Rltb_true; lra).
      destruct Hs as [-> | ->]; (pattern_first; eapply fback_read_all; [back_rules ltac:(rewrite ?Rleb_m11, ?one_one, ?W1, ?W2, ?Rltb_02, ?Rltb_01, ?Rltb_m1, ?Rltb_m1', ?Rsgn_1, ?Rsgn_m1) | cbn [firstn]; read_off]).
    + match goal with |- length (firstn 8 ?f) = _ /\ _ => assert (X : firstn 8 f = [NaN; NaN; NaN; NaN; NaN; NaN; NaN; NaN]) end.
      { eapply fback_read; [back_rules ltac:(rewrite ?one_one, ?M7)|cbn [firstn]]. reflexivity. }
      rewrite X. split; [reflexivity|]. intros k v K. do 8 (destruct k as [|k]; [injection K as <-; split; reflexivity|]). destruct k; discriminate K.
    + assert (W1 : Rltb 0 (cot * 2) = true) by (apply Rltb_true; lra).
      destruct Hs as [-> | ->]; (pattern_first; eapply fback_read_all; [back_rules ltac:(rewrite ?Rleb_m11, ?one_one, ?W1, ?Rltb_02, ?Rltb_01, ?Rltb_m1, ?Rltb_m1', ?Rsgn_1, ?Rsgn_m1) | cbn [firstn]; read_off]).
Qed.
