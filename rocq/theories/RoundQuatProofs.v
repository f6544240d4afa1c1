(** Rounding errors of the conversions from and to quaternions. *)
From Coq Require Import Reals Lra Psatz Bool Arith Lia List Permutation.
From Coquelicot Require Import Rcomplements.
From Verif Require Import Prelude ExtF Lin Trig RotModel RotBasic QuatProofs SlerpProofs MathModel SpecRound RoundNorm RoundModel RoundProofs RoundFloat RoundJacModel RoundJacProofs RoundErrModel SpecRoundErr RoundErrQuat RoundErrAngle RoundQuatModel.
Local Open Scope R_scope.


Section Round.
Variables (u : R) (rnd : R -> R).
Hypothesis Hr : rounding u rnd.
Hypothesis Hu : u <= / 10000.
Let u0 : 0 <= u := u_nonneg u rnd Hr.
Let uu : u * u <= / 10000 * u. Proof. apply Rmult_le_compat_r; [exact u0 | exact Hu]. Qed.
Let uu0 : 0 <= u * u. Proof. apply Rmult_le_pos; exact u0. Qed.

Lemma rel_rnd d x y : rel d x y -> 0 <= d <= / 100 -> rel (d + 102 / 100 * u) (rnd x) y.
Proof.
  intros H Hd. pose proof (rel_bounds _ _ _ H) as B. destruct H as [Y H]. split; [exact Y|]. pose proof (rnd_abs u rnd Hr x) as K.
  assert (X : Rabs x <= (1 + d) * y) by (apply Rabs_le; split; [assert (0 <= (1 - d) * y) by (apply Rmult_le_pos; lra); assert (0 <= (1 + d) * y) by (apply Rmult_le_pos; lra); lra | lra]).
  assert (L : u * Rabs x <= u * ((1 + d) * y)) by (apply Rmult_le_compat_l; assumption). replace (rnd x - y) with ((rnd x - x) + (x - y)) by ring.
  eapply Rle_trans; [apply Rabs_triang|]. assert (0 <= u * y) by (apply Rmult_le_pos; assumption). assert (d * (u * y) <= / 100 * (u * y)) by (apply Rmult_le_compat_r; lra). nra.
Qed.

(** ** quaternion to matrix *)
Variables (sq : stree) (se : nat -> stree).
Hypothesis (Hsq : s_full sq) (Hse : forall i, s_full2 (se i)).
Lemma two_s_err q : 0 < qnorm2 q ->
  rel (57 / 10 * u) (rnd (2 / s_eval rnd (fun m => match m with O => qw q * qw q | S O => qx q * qx q | S (S O) => qy q * qy q | _ => qz q * qz q end) sq)) (2 / qnorm2 q).
Proof.
  intros N. pose proof (four_err u rnd Hr Hu (fun _ => sq) (fun _ => Hsq) 0%nat (qw q * qw q) (qx q * qx q) (qy q * qy q) (qz q * qz q) (qnorm2 q)) as H.
  rewrite !(Rabs_pos_eq (_ * _)) in H by apply Rle_0_sqr. specialize (H (Rle_refl _)).
  set (n := s_eval rnd _ sq) in *. change (qw q * qw q + qx q * qx q + qy q * qy q + qz q * qz q) with (qnorm2 q) in H.
  assert (R1 : rel (41 / 10 * u) n (qnorm2 q)) by (split; [lra | exact H]).
  pose proof (rel_inv (41 / 10 * u) n (qnorm2 q) ltac:(lra) N R1) as R2. pose proof (rel_mul 0 _ 2 2 _ _ (rel_refl 2 ltac:(lra)) R2 ltac:(lra) ltac:(lra)) as R3.
  unfold Rdiv. eapply rel_le; [eapply rel_rnd; [exact R3|]|]; lra.
Qed.
(** one entry: the sum of two products, times [two_s] *)
Lemma prod_err N T e x y L : 0 < N -> rel (57 / 10 * u) T (2 / N) -> Rabs x + Rabs y <= L ->
  Rabs (fmul rnd T (s_eval rnd (fun m => match m with O => x | _ => y end) (se e)) - 2 / N * (x + y)) <= 88 / 10 * u * (2 / N * L).
Proof.
  intros HN HT HL. pose proof (s_full2_err u rnd Hr (fun m => match m with O => x | _ => y end) (se e) (Hse e)) as H. cbv beta iota in H.
  set (P := s_eval rnd _ (se e)) in *. assert (H2 : Rabs (P - (x + y)) <= 201 / 100 * u * L).
  { eapply Rle_trans; [exact H|]. apply Rmult_le_compat; [cbn [pow]; lra | pose proof (Rabs_pos x); pose proof (Rabs_pos y); lra | cbn [pow]; lra | exact HL]. }
  assert (S2 : 0 < 2 / N) by (apply Rdiv_lt_0_compat; lra). set (s := 2 / N) in *. assert (L0 : 0 <= L) by (pose proof (Rabs_pos x); pose proof (Rabs_pos y); lra).
  pose proof (rel_bounds _ _ _ HT) as B. destruct HT as [_ HT]. set (K := s * L). assert (K0 : 0 <= K) by (apply Rmult_le_pos; lra).
  assert (XY : Rabs (x + y) <= L) by (eapply Rle_trans; [apply Rabs_triang | exact HL]).
  assert (E1 : Rabs (T * P - s * (x + y)) <= 775 / 100 * u * K).
  { replace (T * P - s * (x + y)) with (T * (P - (x + y)) + (T - s) * (x + y)) by ring. eapply Rle_trans; [apply Rabs_triang|]. rewrite !Rabs_mult.
    assert (TA : Rabs T <= (1 + 57 / 10 * u) * s) by (rewrite Rabs_pos_eq; [lra|]; assert (0 <= (1 - 57 / 10 * u) * s) by (apply Rmult_le_pos; lra); lra).
    assert (Rabs T * Rabs (P - (x + y)) <= ((1 + 57 / 10 * u) * s) * (201 / 100 * u * L)) by (apply Rmult_le_compat; try apply Rabs_pos; assumption).
    assert (Rabs (T - s) * Rabs (x + y) <= (57 / 10 * u * s) * L) by (apply Rmult_le_compat; try apply Rabs_pos; assumption).
    assert (0 <= u * K) by (apply Rmult_le_pos; assumption). assert (u * (u * K) <= / 10000 * (u * K)) by (apply Rmult_le_compat_r; assumption).
    replace ((1 + 57 / 10 * u) * s * (201 / 100 * u * L)) with (201 / 100 * (u * K) + 57 / 10 * (201 / 100) * (u * (u * K))) in * by (unfold K; field).
    replace (57 / 10 * u * s * L) with (57 / 10 * (u * K)) in * by (unfold K; ring). lra. }
  unfold fmul. pose proof (rnd_abs u rnd Hr (T * P)) as E2. assert (E3 : Rabs (T * P) <= K + 775 / 100 * u * K).
  { replace (T * P) with ((T * P - s * (x + y)) + s * (x + y)) by ring. eapply Rle_trans; [apply Rabs_triang|]. rewrite (Rabs_mult s), (Rabs_pos_eq s) by lra.
    assert (s * Rabs (x + y) <= K) by (apply Rmult_le_compat_l; lra). lra. }
  replace (rnd (T * P) - s * (x + y)) with ((rnd (T * P) - T * P) + (T * P - s * (x + y))) by ring. eapply Rle_trans; [apply Rabs_triang|].
  assert (u * Rabs (T * P) <= u * (K + 775 / 100 * u * K)) by (apply Rmult_le_compat_l; assumption).
  assert (0 <= u * K) by (apply Rmult_le_pos; assumption). assert (u * (u * K) <= / 10000 * (u * K)) by (apply Rmult_le_compat_r; assumption). lra.
Qed.
Lemma one_minus N T e x y : 0 < N -> rel (57 / 10 * u) T (2 / N) -> 0 <= x -> 0 <= y -> x + y <= N ->
  Rabs (fsub rnd 1 (fmul rnd T (s_eval rnd (fun m => match m with O => x | _ => y end) (se e))) - (1 - 2 / N * (x + y))) <= 19 * u.
Proof.
  intros HN HT X Y L. pose proof (prod_err N T e x y N HN HT) as H. rewrite !Rabs_pos_eq in H by assumption. specialize (H L).
  set (p := fmul rnd T _) in *. replace (2 / N * N) with 2 in H by (field; lra). assert (Q : 0 <= 2 / N * (x + y) <= 2).
  { assert (0 < 2 / N) by (apply Rdiv_lt_0_compat; lra). split; [apply Rmult_le_pos; lra|]. replace 2 with (2 / N * N) at 2 by (field; lra). apply Rmult_le_compat_l; lra. }
  set (z := 2 / N * (x + y)) in *. assert (H2 : Rabs ((1 - p) - (1 - z)) <= 88 / 5 * u) by (replace ((1 - p) - (1 - z)) with (- (p - z)) by ring; rewrite Rabs_Ropp; lra).
  unfold fsub. pose proof (rd u rnd Hr (88 / 5 * u) (1 + 88 / 5 * u) (1 - p) (1 - z) H2) as H3. assert (Rabs (1 - z) <= 1) by (apply Rabs_le; lra). specialize (H3 ltac:(lra)). lra.
Qed.
Lemma half_prod a b c d : Rabs (a * b) + Rabs (c * d) <= (a * a + b * b + (c * c + d * d)) / 2.
Proof.
  assert (H : forall x y, Rabs (x * y) <= (x * x + y * y) / 2).
  { intros x y. apply Rabs_le. pose proof (Rle_0_sqr (x - y)) as P1. pose proof (Rle_0_sqr (x + y)) as P2. unfold Rsqr in *. lra. }
  pose proof (H a b). pose proof (H c d). lra.
Qed.
Lemma off_entry N T e a b c d s : 0 < N -> rel (57 / 10 * u) T (2 / N) -> a * a + b * b + (c * c + d * d) <= N -> (s = c * d \/ s = - (c * d)) ->
  Rabs (fmul rnd T (s_eval rnd (fun m => match m with O => a * b | _ => s end) (se e)) - 2 / N * (a * b + s)) <= 19 * u.
Proof.
  intros HN HT L Hs. assert (A : Rabs s = Rabs (c * d)) by (destruct Hs as [-> | ->]; [reflexivity | apply Rabs_Ropp]).
  pose proof (half_prod a b c d) as P. pose proof (prod_err N T e (a * b) s (N / 2) HN HT ltac:(lra)) as H. replace (2 / N * (N / 2)) with 1 in H by (field; lra). lra.
Qed.
Lemma q2m_err q : qnorm2 q <> 0 -> entries_within (19 * u) (fl_q2m rnd sq se q) (quaternion_to_matrix q).
Proof.
  intros N0. assert (N : 0 < qnorm2 q) by (pose proof (qnorm2_nonneg q); lra). pose proof (two_s_err q N) as HT.
  destruct q as [w x y z]. cbn [qw qx qy qz] in HT. unfold fl_q2m, quaternion_to_matrix. cbn [qw qx qy qz]. cbv zeta. set (n := qnorm2 _) in *.
  set (T := rnd (2 / _)) in *. assert (E : n = w * w + x * x + y * y + z * z) by reflexivity. clearbody T. clearbody n.
  pose proof (Rle_0_sqr w) as W. pose proof (Rle_0_sqr x) as X. pose proof (Rle_0_sqr y) as Y. pose proof (Rle_0_sqr z) as Z. unfold Rsqr in *.
  unfold entries_within, m3le, m3abs, m3sub, m3add, m3opp. cbn [m00 m01 m02 m10 m11 m12 m20 m21 m22].
  assert (SB : forall a b, Rabs (a + - b) = Rabs (a - b)) by (intros; reflexivity). rewrite !SB.
  assert (OP : forall e a b c d, a * a + b * b + (c * c + d * d) <= n -> Rabs (fmul rnd T (s_eval rnd (fun m => match m with O => a * b | _ => c * d end) (se e)) - 2 / n * (a * b + c * d)) <= 19 * u) by (intros e a b c d H; apply (off_entry n T e a b c d (c * d)); auto).
  assert (OM : forall e a b c d, a * a + b * b + (c * c + d * d) <= n -> Rabs (fmul rnd T (s_eval rnd (fun m => match m with O => a * b | _ => - (c * d) end) (se e)) - 2 / n * (a * b - c * d)) <= 19 * u) by (intros e a b c d H; apply (off_entry n T e a b c d (- (c * d))); auto).
  split; [|split]; (split; [|split]); first [apply one_minus; solve [assumption | lra] | apply OP; lra | apply OM; lra].
Qed.
End Round.
