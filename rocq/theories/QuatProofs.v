(** Quaternions and rotation matrices: C19, C20, C21, C27, C28. *)
From Coq Require Import Reals Lra Psatz Bool Arith Lia List.
From Verif Require Import Prelude ExtF Lin Trig RotModel RotBasic.
Import ListNotations.
Local Open Scope R_scope.

Ltac q_unfold := unfold qnorm2, qscale, qopp, qvec, qdot, qadd, qone, quaternion_raw_multiply, quaternion_invert in *.
Ltac q_simpl := q_unfold; cbn [qw qx qy qz] in *.

Lemma qnorm2_nonneg q : 0 <= qnorm2 q.
Proof. destruct q as [w x y z]; q_simpl. nra. Qed.
Lemma qnorm2_zero q : qnorm2 q = 0 -> q = mkQ 0 0 0 0.
Proof.
  destruct q as [w x y z]; q_simpl; intros H.
  pose proof (Rle_0_sqr w); pose proof (Rle_0_sqr x); pose proof (Rle_0_sqr y); pose proof (Rle_0_sqr z).
  unfold Rsqr in *. apply mkQ_eq; apply Rsqr_eq_0; unfold Rsqr; lra.
Qed.
Lemma qnorm2_scale k q : qnorm2 (qscale k q) = k * k * qnorm2 q.
Proof. destruct q; q_simpl; ring. Qed.
Lemma qnorm2_opp q : qnorm2 (qopp q) = qnorm2 q.
Proof. destruct q; q_simpl; ring. Qed.
Lemma qopp_scale q : qopp q = qscale (-1) q.
Proof. destruct q; q_simpl; apply mkQ_eq; ring. Qed.

(** the matrix of a unit quaternion, without the division *)
Definition qmat (q : Q) : M3 :=
  let r := qw q in let i := qx q in let j := qy q in let k := qz q in
  mkM3 (1 - 2 * (j * j + k * k)) (2 * (i * j - k * r)) (2 * (i * k + j * r))
       (2 * (i * j + k * r)) (1 - 2 * (i * i + k * k)) (2 * (j * k - i * r))
       (2 * (i * k - j * r)) (2 * (j * k + i * r)) (1 - 2 * (i * i + j * j)).
Lemma q2m_unit q : qnorm2 q = 1 -> quaternion_to_matrix q = qmat q.
Proof.
  intros H. unfold quaternion_to_matrix, qmat. rewrite H. replace (2 / 1) with 2 by field. reflexivity.
Qed.

(** ** C19 *)
Lemma q2m_scale k q : k <> 0 -> qnorm2 q <> 0 -> quaternion_to_matrix (qscale k q) = quaternion_to_matrix q.
Proof.
  intros Hk Hq. unfold quaternion_to_matrix. rewrite qnorm2_scale. destruct q as [w x y z]. cbn [qscale qw qx qy qz].
  set (N := qnorm2 _) in *. clearbody N. apply mkM3_eq; field; split; assumption.
Qed.
Lemma q2m_opp q : qnorm2 q <> 0 -> quaternion_to_matrix (qopp q) = quaternion_to_matrix q.
Proof. intros H. rewrite qopp_scale. apply q2m_scale; [lra | exact H]. Qed.

Lemma qmat_rot q : qnorm2 q = 1 -> is_rot (qmat q).
Proof.
  destruct q as [w x y z]; unfold qmat; q_simpl. intros H.
  assert (E : w * w = 1 - x * x - y * y - z * z) by lra.
  lin_simpl. split; [apply mkM3_eq|]; ring [E].
Qed.

Lemma qnormalise q : qnorm2 q <> 0 -> qnorm2 (qscale (/ sqrt (qnorm2 q)) q) = 1.
Proof.
  intros H. rewrite qnorm2_scale. pose proof (qnorm2_nonneg q).
  assert (S : sqrt (qnorm2 q) * sqrt (qnorm2 q) = qnorm2 q) by (apply sqrt_sqrt; assumption).
  assert (sqrt (qnorm2 q) <> 0) by (intros E; rewrite E in S; lra).
  rewrite <- S at 3. field; assumption.
Qed.
Lemma sqrt_norm2_neq q : qnorm2 q <> 0 -> sqrt (qnorm2 q) <> 0.
Proof. intros H E. apply sqrt_eq_0 in E; [contradiction | apply qnorm2_nonneg]. Qed.

Lemma q2m_normalise q : qnorm2 q <> 0 -> quaternion_to_matrix q = qmat (qscale (/ sqrt (qnorm2 q)) q).
Proof.
  intros H. rewrite <- q2m_unit by (apply qnormalise, H). symmetry. apply q2m_scale; [|exact H].
  apply Rinv_neq_0_compat, sqrt_norm2_neq, H.
Qed.
Lemma q2m_rot q : qnorm2 q <> 0 -> is_rot (quaternion_to_matrix q).
Proof. intros H. rewrite q2m_normalise by exact H. apply qmat_rot, qnormalise, H. Qed.

(** ** C21 *)
Lemma raw_norm p q : qnorm2 (quaternion_raw_multiply p q) = qnorm2 p * qnorm2 q.
Proof. destruct p, q; q_simpl; ring. Qed.
Lemma raw_assoc p q r : quaternion_raw_multiply p (quaternion_raw_multiply q r) =
  quaternion_raw_multiply (quaternion_raw_multiply p q) r.
Proof. destruct p, q, r; q_simpl; apply mkQ_eq; ring. Qed.
Lemma raw_1_l q : quaternion_raw_multiply qone q = q.
Proof. destruct q; q_simpl; apply mkQ_eq; ring. Qed.
Lemma raw_1_r q : quaternion_raw_multiply q qone = q.
Proof. destruct q; q_simpl; apply mkQ_eq; ring. Qed.
Lemma raw_opp_l p q : quaternion_raw_multiply (qopp p) q = qopp (quaternion_raw_multiply p q).
Proof. destruct p, q; q_simpl; apply mkQ_eq; ring. Qed.
Lemma raw_opp_r p q : quaternion_raw_multiply p (qopp q) = qopp (quaternion_raw_multiply p q).
Proof. destruct p, q; q_simpl; apply mkQ_eq; ring. Qed.
Lemma raw_scale a b p q : quaternion_raw_multiply (qscale a p) (qscale b q) = qscale (a * b) (quaternion_raw_multiply p q).
Proof. destruct p, q; q_simpl; apply mkQ_eq; ring. Qed.
Lemma qopp_opp q : qopp (qopp q) = q.
Proof. destruct q; q_simpl; apply mkQ_eq; ring. Qed.
Lemma raw_inv q : qnorm2 q = 1 -> quaternion_raw_multiply q (quaternion_invert q) = qone /\
  quaternion_raw_multiply (quaternion_invert q) q = qone.
Proof.
  destruct q as [w x y z]; q_simpl; intros H. assert (E : w * w = 1 - x * x - y * y - z * z) by lra.
  split; apply mkQ_eq; ring [E].
Qed.

Lemma qmat_mul p q : qnorm2 p = 1 -> qnorm2 q = 1 -> qmat (quaternion_raw_multiply p q) = m3mul (qmat p) (qmat q).
Proof.
  destruct p as [w x y z], q as [w' x' y' z']; unfold qmat; q_simpl. intros H H'.
  assert (E : w * w = 1 - x * x - y * y - z * z) by lra.
  assert (E' : w' * w' = 1 - x' * x' - y' * y' - z' * z') by lra. clear H H'.
  lin_simpl. apply mkM3_eq; ring [E E'].
Qed.
Lemma q2m_mul p q : qnorm2 p <> 0 -> qnorm2 q <> 0 ->
  quaternion_to_matrix (quaternion_raw_multiply p q) = m3mul (quaternion_to_matrix p) (quaternion_to_matrix q).
Proof.
  intros Hp Hq. rewrite (q2m_normalise p Hp), (q2m_normalise q Hq).
  rewrite <- qmat_mul by (apply qnormalise; assumption).
  rewrite raw_scale, <- q2m_unit.
  - symmetry. apply q2m_scale.
    + apply Rmult_integral_contrapositive_currified; apply Rinv_neq_0_compat, sqrt_norm2_neq; assumption.
    + rewrite raw_norm. apply Rmult_integral_contrapositive_currified; assumption.
  - rewrite <- raw_scale, raw_norm, !qnormalise by assumption. ring.
Qed.
Lemma standardize_cases q : (standardize_quaternion q = q /\ 0 <= qw q) \/ (standardize_quaternion q = qopp q /\ qw q < 0).
Proof.
  unfold standardize_quaternion. destruct (Rltb (qw q) 0) eqn:E; [apply Rltb_true in E | apply Rltb_false in E]; auto.
Qed.
Lemma standardize_norm q : qnorm2 (standardize_quaternion q) = qnorm2 q.
Proof. destruct (standardize_cases q) as [[-> _]|[-> _]]; [reflexivity | apply qnorm2_opp]. Qed.
Lemma standardize_q2m q : qnorm2 q <> 0 -> quaternion_to_matrix (standardize_quaternion q) = quaternion_to_matrix q.
Proof. intros H. destruct (standardize_cases q) as [[-> _]|[-> _]]; [reflexivity | apply q2m_opp, H]. Qed.
Lemma standardize_nonneg q : 0 <= qw (standardize_quaternion q).
Proof. destruct (standardize_cases q) as [[-> H]|[-> H]]; [exact H|]. destruct q; q_simpl; lra. Qed.
Lemma standardize_id q : 0 <= qw q -> standardize_quaternion q = q.
Proof. intros H. destruct (standardize_cases q) as [[E _]|[_ L]]; [exact E | lra]. Qed.
Lemma standardize_idem q : standardize_quaternion (standardize_quaternion q) = standardize_quaternion q.
Proof. apply standardize_id, standardize_nonneg. Qed.
Lemma multiply_q2m p q : qnorm2 p <> 0 -> qnorm2 q <> 0 ->
  quaternion_to_matrix (quaternion_multiply p q) = m3mul (quaternion_to_matrix p) (quaternion_to_matrix q) /\
  qnorm2 (quaternion_multiply p q) = qnorm2 p * qnorm2 q /\ 0 <= qw (quaternion_multiply p q).
Proof.
  intros Hp Hq. unfold quaternion_multiply. rewrite standardize_norm, raw_norm, standardize_q2m, q2m_mul by
    (try assumption; rewrite raw_norm; apply Rmult_integral_contrapositive_currified; assumption).
  repeat split; auto. apply standardize_nonneg.
Qed.
(** associativity up to sign *)
Definition same_or_opp (p q : Q) : Prop := p = q \/ p = qopp q.
Lemma standardize_pm q : same_or_opp (standardize_quaternion q) q.
Proof. destruct (standardize_cases q) as [[-> _]|[-> _]]; [left | right]; reflexivity. Qed.
Lemma multiply_assoc_pm p q r :
  same_or_opp (quaternion_multiply p (quaternion_multiply q r)) (quaternion_multiply (quaternion_multiply p q) r) /\
  (qw (quaternion_raw_multiply p (quaternion_raw_multiply q r)) <> 0 ->
   quaternion_multiply p (quaternion_multiply q r) = quaternion_multiply (quaternion_multiply p q) r).
Proof.
  assert (HL : same_or_opp (quaternion_raw_multiply p (quaternion_multiply q r))
                 (quaternion_raw_multiply p (quaternion_raw_multiply q r))).
  { unfold quaternion_multiply. destruct (standardize_pm (quaternion_raw_multiply q r)) as [-> | ->];
      [left; reflexivity | right; apply raw_opp_r]. }
  assert (HR : same_or_opp (quaternion_raw_multiply (quaternion_multiply p q) r)
                 (quaternion_raw_multiply p (quaternion_raw_multiply q r))).
  { rewrite raw_assoc. unfold quaternion_multiply. destruct (standardize_pm (quaternion_raw_multiply p q)) as [-> | ->];
      [left; reflexivity | right; apply raw_opp_l]. }
  unfold quaternion_multiply at 1 3. unfold quaternion_multiply at 2. unfold quaternion_multiply at 3.
  set (u := quaternion_raw_multiply p (quaternion_raw_multiply q r)) in *.
  set (a := quaternion_raw_multiply p (quaternion_multiply q r)) in *.
  set (b := quaternion_raw_multiply (quaternion_multiply p q) r) in *.
  assert (HP : forall x y, same_or_opp x u -> same_or_opp y u ->
    same_or_opp (standardize_quaternion x) (standardize_quaternion y) /\
    (qw u <> 0 -> standardize_quaternion x = standardize_quaternion y)).
  { intros x y Hx Hy.
    assert (HS : standardize_quaternion u = standardize_quaternion (qopp u) \/ qw u = 0).
    { destruct (Req_dec (qw u) 0) as [E|E]; [right; exact E | left].
      unfold standardize_quaternion at 1 2. change (qw (qopp u)) with (- qw u).
      destruct (Rltb (qw u) 0) eqn:E1; [apply Rltb_true in E1 | apply Rltb_false in E1].
      - assert (Rltb (- qw u) 0 = false) as -> by (apply Rltb_false; lra). reflexivity.
      - assert (Rltb (- qw u) 0 = true) as -> by (apply Rltb_true; lra). rewrite qopp_opp. reflexivity. }
    assert (HZ : qw u = 0 -> standardize_quaternion u = u /\ standardize_quaternion (qopp u) = qopp u).
    { intros E. split; apply standardize_id; [|change (qw (qopp u)) with (- qw u)]; lra. }
    split.
    - destruct Hx as [-> | ->], Hy as [-> | ->]; [left; reflexivity | | | left; reflexivity];
        (destruct HS as [E|E]; [left; congruence|]); destruct (HZ E) as [-> ->]; right;
        rewrite ?qopp_opp; reflexivity.
    - intros Hn. destruct HS as [E|E]; [|contradiction].
      destruct Hx as [-> | ->], Hy as [-> | ->]; congruence. }
  exact (HP a b HL HR).
Qed.
Lemma multiply_1 q : same_or_opp (quaternion_multiply qone q) q /\ same_or_opp (quaternion_multiply q qone) q /\
  (0 <= qw q -> quaternion_multiply qone q = q /\ quaternion_multiply q qone = q).
Proof.
  unfold quaternion_multiply. rewrite raw_1_l, raw_1_r. split; [apply standardize_pm|]. split; [apply standardize_pm|].
  intros H. rewrite standardize_id by exact H. auto.
Qed.

Lemma q2m_inv q : qnorm2 q <> 0 -> quaternion_to_matrix (quaternion_invert q) = m3tr (quaternion_to_matrix q).
Proof.
  intros H. unfold quaternion_to_matrix.
  assert (E : qnorm2 (quaternion_invert q) = qnorm2 q) by (destruct q; q_simpl; ring).
  rewrite E. destruct q as [w x y z]. unfold quaternion_invert. cbn [qw qx qy qz]. set (N := qnorm2 _) in *. clearbody N.
  lin_simpl. apply mkM3_eq; field; assumption.
Qed.
Lemma apply_spec q p : qnorm2 q <> 0 ->
  quaternion_apply q p = vscale (qnorm2 q) (m3vec (quaternion_to_matrix q) p).
Proof.
  intros H. unfold quaternion_apply, quaternion_to_matrix. destruct q as [w x y z], p as [a b c].
  q_simpl. lin_simpl. apply mkV3_eq; field; assumption.
Qed.
Lemma apply_unit q p : qnorm2 q = 1 -> quaternion_apply q p = m3vec (quaternion_to_matrix q) p.
Proof. intros H. rewrite apply_spec, H by lra. apply vscale_1. Qed.

(** ** C20 *)
(** four times the outer product of the quaternion with itself *)
Definition Kmat (A : M3) (i j : nat) : R :=
  match i, j with
  | 0%nat, 0%nat => 1 + m00 A + m11 A + m22 A
  | 1%nat, 1%nat => 1 + m00 A - m11 A - m22 A
  | 2%nat, 2%nat => 1 - m00 A + m11 A - m22 A
  | 3%nat, 3%nat => 1 - m00 A - m11 A + m22 A
  | 0%nat, 1%nat | 1%nat, 0%nat => m21 A - m12 A
  | 0%nat, 2%nat | 2%nat, 0%nat => m02 A - m20 A
  | 0%nat, 3%nat | 3%nat, 0%nat => m10 A - m01 A
  | 1%nat, 2%nat | 2%nat, 1%nat => m10 A + m01 A
  | 1%nat, 3%nat | 3%nat, 1%nat => m02 A + m20 A
  | 2%nat, 3%nat | 3%nat, 2%nat => m12 A + m21 A
  | _, _ => 0
  end.
Lemma Kmat_rank1 A i j k : is_rot A -> (i < 4)%nat -> (j < 4)%nat -> (k < 4)%nat ->
  Kmat A i i * Kmat A j k = Kmat A i j * Kmat A i k.
Proof.
  intros H Hi Hj Hk. pose proof (is_rot_l A H) as Hl. pose proof (is_rot_adj A H) as Ha. destruct H as [Hr _].
  destruct A as [a b c d e f g h l]. unfold adj3 in Ha. lin_simpl. inj Hr. inj Hl. inj Ha.
  destruct i as [|[|[|[|]]]]; try lia; destruct j as [|[|[|[|]]]]; try lia;
    destruct k as [|[|[|[|]]]]; try lia; cbn [Kmat m00 m01 m02 m10 m11 m12 m20 m21 m22]; lra.
Qed.
Lemma Kmat_trace A : Kmat A 0 0 + Kmat A 1 1 + Kmat A 2 2 + Kmat A 3 3 = 4.
Proof. unfold Kmat. ring. Qed.
Lemma Kmat_sym A i j : Kmat A i j = Kmat A j i.
Proof. destruct i as [|[|[|[|]]]], j as [|[|[|[|]]]]; reflexivity. Qed.
Lemma q_abs_K A i : (i < 4)%nat -> q_abs A i = sqrt (Rmax (Kmat A i i) 0).
Proof. intros H. destruct i as [|[|[|[|]]]]; try lia; reflexivity. Qed.
Lemma q_abs_sqr A i : (i < 4)%nat -> 0 <= Kmat A i i -> q_abs A i * q_abs A i = Kmat A i i.
Proof. intros H Hk. rewrite q_abs_K, Rmax_left by assumption. apply sqrt_sqrt, Hk. Qed.
Lemma by_rijk_K A i j : (i < 4)%nat -> (j < 4)%nat -> 0 <= Kmat A i i -> qget j (quat_by_rijk A i) = Kmat A i j.
Proof.
  intros Hi Hj Hk. pose proof (q_abs_sqr A i Hi Hk) as E.
  destruct i as [|[|[|[|]]]]; try lia; destruct j as [|[|[|[|]]]]; try lia; cbn [quat_by_rijk qget qw qx qy qz];
    first [exact E | cbn [Kmat]; ring].
Qed.

(** the candidate of an index with [K_ii >= 1]: products of components *)
Lemma candidate_products A i j k : is_rot A -> (i < 4)%nat -> (j < 4)%nat -> (k < 4)%nat -> 1 <= Kmat A i i ->
  4 * (qget j (quat_candidate A i) * qget k (quat_candidate A i)) = Kmat A j k.
Proof.
  intros H Hi Hj Hk H1. pose proof (Kmat_rank1 A i j k H Hi Hj Hk) as E.
  pose proof (q_abs_sqr A i Hi ltac:(lra)) as S.
  assert (Ha : 1 <= q_abs A i).
  { rewrite q_abs_K by assumption. rewrite <- sqrt_1. apply sqrt_le_1_alt. rewrite Rmax_left; lra. }
  assert (G : forall m, (m < 4)%nat -> qget m (quat_candidate A i) = Kmat A i m / (2 * q_abs A i)).
  { intros m Hm. unfold quat_candidate. rewrite Rmax_left by lra. rewrite <- (by_rijk_K A i m) by (assumption || lra).
    destruct (quat_by_rijk A i) as [w0 x0 y0 z0]. destruct m as [|[|[|[|]]]]; try lia; cbn [qget qscale qw qx qy qz]; field; lra. }
  rewrite !G by assumption.
  replace (4 * (Kmat A i j / (2 * q_abs A i) * (Kmat A i k / (2 * q_abs A i))))
    with (Kmat A i j * Kmat A i k / (q_abs A i * q_abs A i)) by (field; lra).
  rewrite S, <- E. field; lra.
Qed.
Lemma products_mat A q : (forall j k, (j < 4)%nat -> (k < 4)%nat -> 4 * (qget j q * qget k q) = Kmat A j k) ->
  qnorm2 q = 1 /\ quaternion_to_matrix q = A.
Proof.
  intros H.
  assert (N : qnorm2 q = 1).
  { pose proof (Kmat_trace A) as T. rewrite <- !H in T by lia. cbn [qget] in T. unfold qnorm2. lra. }
  split; [exact N|]. rewrite q2m_unit by exact N.
  pose proof (H 0 1 ltac:(lia) ltac:(lia))%nat as H01. pose proof (H 0 2 ltac:(lia) ltac:(lia))%nat as H02.
  pose proof (H 0 3 ltac:(lia) ltac:(lia))%nat as H03. pose proof (H 1 2 ltac:(lia) ltac:(lia))%nat as H12.
  pose proof (H 1 3 ltac:(lia) ltac:(lia))%nat as H13. pose proof (H 2 3 ltac:(lia) ltac:(lia))%nat as H23.
  pose proof (H 1 1 ltac:(lia) ltac:(lia))%nat as H11. pose proof (H 2 2 ltac:(lia) ltac:(lia))%nat as H22.
  pose proof (H 3 3 ltac:(lia) ltac:(lia))%nat as H33. clear H N.
  destruct q as [w x y z], A as [a b c d e f g h l]. unfold qmat. cbn [qget Kmat qw qx qy qz m00 m01 m02 m10 m11 m12 m20 m21 m22] in *.
  apply mkM3_eq; lra.
Qed.
Lemma argmax4_spec f : (argmax4 f < 4)%nat /\ forall i, (i < 4)%nat -> f i <= f (argmax4 f).
Proof.
  unfold argmax4.
  destruct (Rltb (f 0%nat) (f 1%nat)) eqn:E1; [apply Rltb_true in E1 | apply Rltb_false in E1];
  match goal with |- context [Rltb (f ?a) (f 2%nat)] =>
    destruct (Rltb (f a) (f 2%nat)) eqn:E2; [apply Rltb_true in E2 | apply Rltb_false in E2] end;
  match goal with |- context [Rltb (f ?a) (f 3%nat)] =>
    destruct (Rltb (f a) (f 3%nat)) eqn:E3; [apply Rltb_true in E3 | apply Rltb_false in E3] end;
  (split; [lia|]); intros i Hi; destruct i as [|[|[|[|]]]]; try lia; lra.
Qed.
Lemma argmax_K A : (argmax4 (q_abs A) < 4)%nat /\ 1 <= Kmat A (argmax4 (q_abs A)) (argmax4 (q_abs A)).
Proof.
  destruct (argmax4_spec (q_abs A)) as [Hi Hm]. split; [exact Hi|]. set (i := argmax4 _) in *. clearbody i.
  destruct (Rle_lt_dec 1 (Kmat A i i)) as [L|L]; [exact L | exfalso].
  assert (B : forall j, (j < 4)%nat -> Kmat A j j < 1).
  { intros j Hj. destruct (Rlt_le_dec (Kmat A j j) 1) as [G|G]; [exact G | exfalso].
    specialize (Hm j Hj). rewrite !q_abs_K in Hm by assumption.
    apply sqrt_le_0 in Hm; [|apply Rmax_r | apply Rmax_r]. rewrite (Rmax_left (Kmat A j j)) in Hm by lra.
    unfold Rmax in Hm. destruct (Rle_dec (Kmat A i i) 0); lra. }
  pose proof (Kmat_trace A). pose proof (B 0 ltac:(lia))%nat. pose proof (B 1 ltac:(lia))%nat.
  pose proof (B 2 ltac:(lia))%nat. pose proof (B 3 ltac:(lia))%nat. lra.
Qed.
Lemma m2q_products A : is_rot A -> forall j k, (j < 4)%nat -> (k < 4)%nat ->
  4 * (qget j (matrix_to_quaternion A) * qget k (matrix_to_quaternion A)) = Kmat A j k.
Proof. intros H j k Hj Hk. destruct (argmax_K A) as [Hi H1]. apply candidate_products; assumption. Qed.
Lemma m2q_spec A : is_rot A -> qnorm2 (matrix_to_quaternion A) = 1 /\ quaternion_to_matrix (matrix_to_quaternion A) = A.
Proof. intros H. apply products_mat, m2q_products, H. Qed.

(** any candidate with a magnitude at least one would have done *)
Lemma candidate_spec A i : is_rot A -> (i < 4)%nat -> 1 <= Kmat A i i ->
  qnorm2 (quat_candidate A i) = 1 /\ quaternion_to_matrix (quat_candidate A i) = A.
Proof. intros H Hi H1. apply products_mat. intros j k Hj Hk. apply candidate_products; assumption. Qed.

Lemma Kmat_qmat q j k : qnorm2 q = 1 -> (j < 4)%nat -> (k < 4)%nat -> Kmat (qmat q) j k = 4 * (qget j q * qget k q).
Proof.
  destruct q as [w x y z]; q_simpl; intros H Hj Hk. assert (E : w * w = 1 - x * x - y * y - z * z) by lra.
  destruct j as [|[|[|[|]]]]; try lia; destruct k as [|[|[|[|]]]]; try lia;
    unfold qmat; cbn [Kmat qget qw qx qy qz m00 m01 m02 m10 m11 m12 m20 m21 m22]; ring [E].
Qed.
Lemma products_pm p q : (forall j k, (j < 4)%nat -> (k < 4)%nat -> qget j p * qget k p = qget j q * qget k q) ->
  same_or_opp p q.
Proof.
  intros H.
  destruct (Req_dec (qnorm2 q) 0) as [Z|Z].
  - assert (Zp : qnorm2 p = 0).
    { rewrite <- Z. unfold qnorm2. pose proof (H 0 0 ltac:(lia) ltac:(lia))%nat. pose proof (H 1 1 ltac:(lia) ltac:(lia))%nat.
      pose proof (H 2 2 ltac:(lia) ltac:(lia))%nat. pose proof (H 3 3 ltac:(lia) ltac:(lia))%nat. cbn [qget] in *. lra. }
    left. rewrite (qnorm2_zero _ Z), (qnorm2_zero _ Zp). reflexivity.
  - assert (J : exists j, (j < 4)%nat /\ qget j q <> 0).
    { destruct q as [w x y z]; q_simpl.
      destruct (Req_dec w 0) as [Ew|]; [|exists 0%nat; split; [lia | assumption]].
      destruct (Req_dec x 0) as [Ex|]; [|exists 1%nat; split; [lia | assumption]].
      destruct (Req_dec y 0) as [Ey|]; [|exists 2%nat; split; [lia | assumption]].
      destruct (Req_dec z 0) as [Ez|]; [|exists 3%nat; split; [lia | assumption]].
      subst. exfalso; apply Z; ring. }
    destruct J as (j & Hj & Nj). pose proof (H j j Hj Hj) as E.
    assert (D : qget j p = qget j q \/ qget j p = - qget j q).
    { assert ((qget j p - qget j q) * (qget j p + qget j q) = 0) as M by lra.
      apply Rmult_integral in M as [M|M]; [left | right]; lra. }
    assert (HE : forall a b : Q, (forall k, (k < 4)%nat -> qget k a = qget k b) -> a = b).
    { intros [] [] G. pose proof (G 0 ltac:(lia))%nat. pose proof (G 1 ltac:(lia))%nat. pose proof (G 2 ltac:(lia))%nat.
      pose proof (G 3 ltac:(lia))%nat. cbn in *. subst. reflexivity. }
    destruct D as [D|D]; [left | right]; apply HE; intros k Hk; pose proof (H j k Hj Hk) as G; rewrite D in G.
    + apply Rmult_eq_reg_l with (qget j q); assumption.
    + assert (O : qget k (qopp q) = - qget k q) by (destruct k as [|[|[|[|]]]]; try lia; reflexivity).
      rewrite O. apply Rmult_eq_reg_l with (qget j q); [lra | assumption].
Qed.
Lemma q2m_inj p q : qnorm2 p = 1 -> qnorm2 q = 1 -> quaternion_to_matrix p = quaternion_to_matrix q -> same_or_opp p q.
Proof.
  intros Hp Hq E. rewrite !q2m_unit in E by assumption. apply products_pm. intros j k Hj Hk.
  pose proof (Kmat_qmat p j k Hp Hj Hk) as A. pose proof (Kmat_qmat q j k Hq Hj Hk) as B. rewrite E in A. lra.
Qed.
Lemma m2q_q2m q : qnorm2 q = 1 -> same_or_opp (matrix_to_quaternion (quaternion_to_matrix q)) q.
Proof.
  intros H. assert (is_rot (quaternion_to_matrix q)) as R by (apply q2m_rot; lra).
  destruct (m2q_spec _ R) as [N E]. apply q2m_inj; assumption.
Qed.
(** the real part is at least non-negative in the first branch; in general the chosen component is positive *)
Lemma m2q_positive A : is_rot A -> 1 / 2 <= qget (argmax4 (q_abs A)) (matrix_to_quaternion A).
Proof.
  intros H. destruct (argmax_K A) as [Hi H1]. unfold matrix_to_quaternion. set (i := argmax4 (q_abs A)) in *. clearbody i.
  assert (Ha : 1 <= q_abs A i).
  { rewrite q_abs_K by assumption. rewrite <- sqrt_1. apply sqrt_le_1_alt. rewrite Rmax_left; lra. }
  assert (G : qget i (quat_candidate A i) = Kmat A i i / (2 * q_abs A i)).
  { unfold quat_candidate. rewrite Rmax_left by lra. rewrite <- (by_rijk_K A i i) by (assumption || lra).
    destruct (quat_by_rijk A i) as [w0 x0 y0 z0]. destruct i as [|[|[|[|]]]]; try lia; cbn [qget qscale qw qx qy qz]; field; lra. }
  rewrite G, <- (q_abs_sqr A i) by (assumption || lra).
  replace (q_abs A i * q_abs A i / (2 * q_abs A i)) with (q_abs A i / 2) by (field; lra). lra.
Qed.

(** ** C27 *)
Lemma xyzw_inv : (forall v, wxyz_to_xyzw (xyzw_to_wxyz v) = v) /\ (forall q, xyzw_to_wxyz (wxyz_to_xyzw q) = q).
Proof. split; intros []; reflexivity. Qed.
Lemma pos_rot_round T : is_rigid T ->
  (let '(p, r) := matrix_to_pos_rot T in pos_rot_to_matrix p r) = T.
Proof.
  intros [Ha Hr]. unfold matrix_to_pos_rot, pos_rot_to_matrix. destruct xyzw_inv as [_ E]. rewrite E.
  destruct (m2q_spec _ Hr) as [_ ->]. apply aff_eta, Ha.
Qed.
Definition vnorm4 (v : V4) : R := v0 v * v0 v + v1 v * v1 v + v2 v * v2 v + v3 v * v3 v.
Definition v4opp (v : V4) : V4 := mkV4 (- v0 v) (- v1 v) (- v2 v) (- v3 v).
Lemma pos_rot_round' p r : vnorm4 r = 1 ->
  is_rigid (pos_rot_to_matrix p r) /\
  (matrix_to_pos_rot (pos_rot_to_matrix p r) = (p, r) \/ matrix_to_pos_rot (pos_rot_to_matrix p r) = (p, v4opp r)).
Proof.
  intros H. assert (N : qnorm2 (xyzw_to_wxyz r) = 1) by (rewrite <- H; destruct r; unfold qnorm2, vnorm4; simpl; ring).
  split; [apply is_rigid_aff, q2m_rot; lra|].
  unfold matrix_to_pos_rot, pos_rot_to_matrix. rewrite trp_aff, rotp_aff.
  destruct (m2q_q2m _ N) as [-> | ->]; [left | right]; destruct r; reflexivity.
Qed.

(** ** C28 *)
Lemma random_spec o : qnorm2 o <> 0 -> qnorm2 (random_quaternion o) = 1 /\ 0 <= qw (random_quaternion o) /\
  is_rot (random_rotation o).
Proof.
  intros H. pose proof (qnorm2_nonneg o). set (s := sqrt (qnorm2 o)).
  assert (Hs : s * s = qnorm2 o) by (apply sqrt_sqrt; assumption).
  assert (Ps : 0 < s) by (apply sqrt_lt_R0; lra).
  assert (N : qnorm2 (random_quaternion o) = 1).
  { unfold random_quaternion, copysign. fold s. rewrite qnorm2_scale, <- Hs.
    destruct (xorb _ _); field; lra. }
  split; [exact N|]. split; [|apply q2m_rot; lra].
  unfold random_quaternion, copysign. fold s. assert (Rltb s 0 = false) as -> by (apply Rltb_false; lra).
  destruct (Rltb (qw o) 0) eqn:E; [apply Rltb_true in E | apply Rltb_false in E]; cbn [xorb qscale qw].
  - assert (/ - s < 0) by (apply Rinv_lt_0_compat; lra). nra.
  - assert (0 < / s) by (apply Rinv_0_lt_compat; lra). nra.
Qed.
(** the random quaternion is the draw's direction up to sign *)
Lemma random_direction o : qnorm2 o <> 0 -> quaternion_to_matrix (random_quaternion o) = quaternion_to_matrix o.
Proof.
  intros H. apply q2m_scale; [|exact H]. apply Rinv_neq_0_compat.
  pose proof (sqrt_norm2_neq o H). unfold copysign. destruct (xorb _ _); lra.
Qed.

(** exact associativity fails when the triple product has zero real part *)
Lemma multiply_not_assoc : exists p q r, qnorm2 p = 1 /\ qnorm2 q = 1 /\ qnorm2 r = 1 /\
  quaternion_multiply p (quaternion_multiply q r) <> quaternion_multiply (quaternion_multiply p q) r.
Proof.
  exists (mkQ (3/5) (4/5) 0 0), (mkQ (3/5) (4/5) 0 0), (mkQ (24/25) (-7/25) 0 0).
  repeat (split; [unfold qnorm2; simpl; lra|]).
  unfold quaternion_multiply, standardize_quaternion, quaternion_raw_multiply, qopp. cbn [qw qx qy qz].
  repeat match goal with |- context [Rltb ?a ?b] =>
    lazymatch a with context [Rltb _ _] => fail | _ => idtac end;
    first [ assert (Rltb a b = true) as -> by (apply Rltb_true; lra) | assert (Rltb a b = false) as -> by (apply Rltb_false; lra) ];
    cbn [qw qx qy qz] end.
  intros E. injection E. intros. lra.
Qed.
