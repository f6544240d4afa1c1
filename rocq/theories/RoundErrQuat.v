(** Rounding errors of matrix_to_quaternion and of quaternion products. *)
From Coq Require Import Reals Lra Psatz Bool Arith Lia List Permutation.
From Coquelicot Require Import Rcomplements.
From Verif Require Import Prelude ExtF Lin Trig RotModel RotBasic QuatProofs SlerpProofs MathModel SpecRound RoundNorm RoundModel RoundProofs RoundFloat RoundJacModel RoundErrModel SpecRoundErr.
Local Open Scope R_scope.

(** ** distances of quaternions *)
Definition qlen (q : Q) : R := sqrt (qnorm2 q).
Lemma qlen_nonneg q : 0 <= qlen q. Proof. apply sqrt_pos. Qed.
Lemma qlen_sqr q : qlen q * qlen q = qnorm2 q. Proof. apply sqrt_sqrt, qnorm2_nonneg. Qed.
Lemma qlen_le q c : 0 <= c -> qnorm2 q <= c * c -> qlen q <= c.
Proof. intros Hc H. unfold qlen. rewrite <- (sqrt_square c Hc). apply sqrt_le_1_alt, H. Qed.
Lemma qlen_unit q : qnorm2 q = 1 -> qlen q = 1. Proof. intros H. unfold qlen. rewrite H. apply sqrt_1. Qed.
Lemma qlen_opp q : qlen (qopp q) = qlen q. Proof. unfold qlen. rewrite qnorm2_opp. reflexivity. Qed.
Lemma qlen_mul p q : qlen (quaternion_raw_multiply p q) = qlen p * qlen q.
Proof. unfold qlen. rewrite raw_norm. apply sqrt_mult; apply qnorm2_nonneg. Qed.
Lemma qdot_le p q : qdot p q <= qlen p * qlen q.
Proof.
  destruct (Rle_lt_dec (qdot p q) 0) as [L|L]; [apply Rle_trans with 0; [exact L | apply Rmult_le_pos; apply qlen_nonneg]|].
  apply Rsqr_incr_0_var; [|apply Rmult_le_pos; apply qlen_nonneg]. unfold Rsqr. pose proof (cauchy p q) as C. rewrite <- !qlen_sqr in C. lra.
Qed.
Lemma qadd_norm2 p q : qnorm2 (qadd p q) = qnorm2 p + 2 * qdot p q + qnorm2 q.
Proof. unfold qnorm2, qadd, qdot. cbn [qw qx qy qz]. ring. Qed.
Lemma qlen_triangle p q : qlen (qadd p q) <= qlen p + qlen q.
Proof.
  pose proof (qlen_nonneg p). pose proof (qlen_nonneg q). apply qlen_le; [lra|]. rewrite qadd_norm2, <- !qlen_sqr. pose proof (qdot_le p q). lra.
Qed.
Lemma qsub_split p q r : qsub p r = qadd (qsub p q) (qsub q r).
Proof. unfold qsub, qadd. cbn [qw qx qy qz]. f_equal; ring. Qed.
Lemma qdist_triangle p q r : qlen (qsub p r) <= qlen (qsub p q) + qlen (qsub q r).
Proof. rewrite (qsub_split p q r). apply qlen_triangle. Qed.
Lemma qlen_near p q : qlen p <= qlen (qsub p q) + qlen q.
Proof. replace p with (qadd (qsub p q) q) at 1; [apply qlen_triangle|]. destruct p as [p1 p2 p3 p4], q as [q1 q2 q3 q4]. unfold qadd, qsub. cbn [qw qx qy qz]. f_equal; ring. Qed.
Lemma qsub_opp p q : qlen (qsub (qopp p) (qopp q)) = qlen (qsub p q).
Proof. rewrite <- (qlen_opp (qsub p q)). f_equal. unfold qsub, qopp. cbn [qw qx qy qz]. f_equal; ring. Qed.
Lemma qsub_inv p q : qlen (qsub (quaternion_invert p) (quaternion_invert q)) = qlen (qsub p q).
Proof. unfold qlen. f_equal. unfold qnorm2, qsub, quaternion_invert. cbn [qw qx qy qz]. ring. Qed.
Lemma qget_le k q : (k < 4)%nat -> Rabs (qget k q) <= qlen q.
Proof.
  intros Hk. rewrite <- (Rabs_pos_eq (qlen q)) by apply qlen_nonneg. apply Rsqr_le_abs_0. unfold Rsqr. rewrite qlen_sqr. unfold qnorm2.
  pose proof (Rle_0_sqr (qw q)) as A. pose proof (Rle_0_sqr (qx q)) as B. pose proof (Rle_0_sqr (qy q)) as C. pose proof (Rle_0_sqr (qz q)) as D. unfold Rsqr in *.
  destruct k as [|[|[|[|]]]]; try lia; cbn [qget]; lra.
Qed.

(** ** matrix to quaternion *)
Definition entries_within (b : R) (A B : M3) : Prop := m3le (m3abs (m3sub A B)) (mkM3 b b b b b b b b b).

Section Round.
Variables (u : R) (rnd : R -> R).
Hypothesis Hr : rounding u rnd.
Hypothesis Hu : u <= / 10000.
Let u0 : 0 <= u := u_nonneg u rnd Hr.
Lemma rd d M x x0 : Rabs (x - x0) <= d -> Rabs x0 + d <= M -> Rabs (rnd x - x0) <= d + M * u.
Proof.
  intros H1 H2. pose proof (rnd_abs u rnd Hr x) as H3. replace (rnd x - x0) with ((rnd x - x) + (x - x0)) by ring. eapply Rle_trans; [apply Rabs_triang|].
  assert (H4 : Rabs x <= M). { replace x with (x0 + (x - x0)) by ring. eapply Rle_trans; [apply Rabs_triang|]. lra. }
  assert (u * Rabs x <= u * M) by (apply Rmult_le_compat_l; assumption). lra.
Qed.

Section M2q.
Variables (b : R) (A B : M3).
Hypothesis (Hb : 0 <= b <= / 100) (HB : is_rot B) (HA : entries_within b A B).
Lemma entry_A : (Rabs (m00 A - m00 B) <= b /\ Rabs (m01 A - m01 B) <= b /\ Rabs (m02 A - m02 B) <= b) /\ (Rabs (m10 A - m10 B) <= b /\ Rabs (m11 A - m11 B) <= b /\ Rabs (m12 A - m12 B) <= b) /\
  (Rabs (m20 A - m20 B) <= b /\ Rabs (m21 A - m21 B) <= b /\ Rabs (m22 A - m22 B) <= b).
Proof. destruct HA as ((A1 & A2 & A3) & (A4 & A5 & A6) & A7 & A8 & A9). split; [|split]; (split; [|split]); assumption. Qed.
Lemma entry_B : Rabs (m00 B) <= 1 /\ Rabs (m11 B) <= 1 /\ Rabs (m22 B) <= 1.
Proof.
  destruct (m2q_spec B HB) as [N E]. set (q := matrix_to_quaternion B) in *. rewrite <- E, (q2m_unit q N). clearbody q.
  destruct q as [w x y z]. unfold qnorm2 in N. unfold qmat. cbn [qw qx qy qz m00 m11 m22] in *.
  pose proof (Rle_0_sqr w). pose proof (Rle_0_sqr x). pose proof (Rle_0_sqr y). pose proof (Rle_0_sqr z). unfold Rsqr in *.
  split; [|split]; apply Rabs_le; lra.
Qed.
Lemma st2 d x x0 y y0 c : Rabs (x - x0) <= d -> Rabs (y - y0) <= c -> Rabs (x + y - (x0 + y0)) <= d + c.
Proof. intros H1 H2. replace (x + y - (x0 + y0)) with ((x - x0) + (y - y0)) by ring. eapply Rle_trans; [apply Rabs_triang|]. lra. Qed.
Lemma st3 d x x0 y y0 c : Rabs (x - x0) <= d -> Rabs (y - y0) <= c -> Rabs (x - y - (x0 - y0)) <= d + c.
Proof. intros H1 H2. replace (x - y - (x0 - y0)) with ((x - x0) - (y - y0)) by ring. eapply Rle_trans; [apply Rabs_triang|]. rewrite Rabs_Ropp. lra. Qed.
Lemma diag_err i : (i < 4)%nat -> Rabs (fl_diag rnd A i - Kmat B i i) <= 3 * b + 93 / 10 * u.
Proof.
  intros Hi. destruct entry_A as ((E0 & _) & (_ & E1 & _) & (_ & _ & E2)). destruct entry_B as (B0 & B1 & B2).
  assert (Z : Rabs (1 - 1) <= 0) by (replace (1 - 1) with 0 by ring; rewrite Rabs_R0; lra).
  assert (O : Rabs 1 = 1) by apply Rabs_R1.
  assert (T : forall x y, Rabs (x + y) <= Rabs x + Rabs y) by apply Rabs_triang.
  assert (T' : forall x y, Rabs (x - y) <= Rabs x + Rabs y) by (intros x y; unfold Rminus; eapply Rle_trans; [apply Rabs_triang|]; rewrite Rabs_Ropp; lra).
  assert (P1 : Rabs (fadd rnd 1 (m00 A) - (1 + m00 B)) <= b + 21 / 10 * u).
  { unfold fadd. pose proof (rd (0 + b) (21 / 10) _ _ (st2 _ _ _ _ _ _ Z E0)) as H. pose proof (T 1 (m00 B)). lra. }
  assert (P2 : Rabs (fsub rnd 1 (m00 A) - (1 - m00 B)) <= b + 21 / 10 * u).
  { unfold fsub. pose proof (rd (0 + b) (21 / 10) _ _ (st3 _ _ _ _ _ _ Z E0)) as H. pose proof (T' 1 (m00 B)). lra. }
  assert (A1 : forall x x0, Rabs (x - x0) <= b + 21 / 10 * u -> Rabs x0 <= 2 -> Rabs (fadd rnd x (m11 A) - (x0 + m11 B)) <= 2 * b + 52 / 10 * u).
  { intros x x0 H H'. unfold fadd. pose proof (rd _ (31 / 10) _ _ (st2 _ _ _ _ _ _ H E1)) as K. pose proof (T x0 (m11 B)). lra. }
  assert (A2 : forall x x0, Rabs (x - x0) <= b + 21 / 10 * u -> Rabs x0 <= 2 -> Rabs (fsub rnd x (m11 A) - (x0 - m11 B)) <= 2 * b + 52 / 10 * u).
  { intros x x0 H H'. unfold fsub. pose proof (rd _ (31 / 10) _ _ (st3 _ _ _ _ _ _ H E1)) as K. pose proof (T' x0 (m11 B)). lra. }
  assert (A3 : forall x x0, Rabs (x - x0) <= 2 * b + 52 / 10 * u -> Rabs x0 <= 3 -> Rabs (fadd rnd x (m22 A) - (x0 + m22 B)) <= 3 * b + 93 / 10 * u).
  { intros x x0 H H'. unfold fadd. pose proof (rd _ (41 / 10) _ _ (st2 _ _ _ _ _ _ H E2)) as K. pose proof (T x0 (m22 B)). lra. }
  assert (A4 : forall x x0, Rabs (x - x0) <= 2 * b + 52 / 10 * u -> Rabs x0 <= 3 -> Rabs (fsub rnd x (m22 A) - (x0 - m22 B)) <= 3 * b + 93 / 10 * u).
  { intros x x0 H H'. unfold fsub. pose proof (rd _ (41 / 10) _ _ (st3 _ _ _ _ _ _ H E2)) as K. pose proof (T' x0 (m22 B)). lra. }
  pose proof (T 1 (m00 B)). pose proof (T' 1 (m00 B)).
  destruct i as [|[|[|[|]]]]; try lia; cbn [fl_diag Kmat].
  - apply A3; [apply A1; [exact P1 | lra]|]. pose proof (T (1 + m00 B) (m11 B)). lra.
  - apply A4; [apply A2; [exact P1 | lra]|]. pose proof (T' (1 + m00 B) (m11 B)). lra.
  - apply A4; [apply A1; [exact P2 | lra]|]. pose proof (T (1 - m00 B) (m11 B)). lra.
  - apply A3; [apply A2; [exact P2 | lra]|]. pose proof (T' (1 - m00 B) (m11 B)). lra.
Qed.
Lemma K_prod q : qnorm2 q = 1 -> quaternion_to_matrix q = B -> forall j k, (j < 4)%nat -> (k < 4)%nat -> Kmat B j k = 4 * (qget j q * qget k q).
Proof. intros N E j k Hj Hk. rewrite <- E, (q2m_unit q N). apply Kmat_qmat; assumption. Qed.
Lemma K_le j k : (j < 4)%nat -> (k < 4)%nat -> j <> k -> Rabs (Kmat B j k) <= 2.
Proof.
  intros Hj Hk Hjk. destruct (m2q_spec B HB) as [N E]. set (q := matrix_to_quaternion B) in *. rewrite (K_prod q N E j k Hj Hk). clearbody q.
  assert (H : forall x y, x * x + y * y <= 1 -> Rabs (4 * (x * y)) <= 2).
  { intros x y H. pose proof (Rle_0_sqr (x - y)). pose proof (Rle_0_sqr (x + y)). unfold Rsqr in *. apply Rabs_le. lra. }
  apply H. destruct q as [w x y z]. unfold qnorm2 in N. pose proof (Rle_0_sqr w). pose proof (Rle_0_sqr x). pose proof (Rle_0_sqr y). pose proof (Rle_0_sqr z). unfold Rsqr in *.
  destruct j as [|[|[|[|]]]]; try lia; destruct k as [|[|[|[|]]]]; try lia; cbn [qget qw qx qy qz] in *; lra.
Qed.
Lemma off_err i j : (i < 4)%nat -> (j < 4)%nat -> i <> j -> Rabs (qget j (fl_by_rijk rnd A i) - Kmat B i j) <= 2 * b + 21 / 10 * u.
Proof.
  intros Hi Hj Hij. pose proof (K_le i j Hi Hj Hij) as HK. destruct entry_A as ((E00 & E01 & E02) & (E10 & E11 & E12) & (E20 & E21 & E22)).
  assert (PA : forall x x0 y y0, Rabs (x - x0) <= b -> Rabs (y - y0) <= b -> Rabs (x0 + y0) <= 2 -> Rabs (fadd rnd x y - (x0 + y0)) <= 2 * b + 21 / 10 * u).
  { intros x x0 y y0 H1 H2 H3. unfold fadd. pose proof (rd _ (21 / 10) _ _ (st2 _ _ _ _ _ _ H1 H2)). lra. }
  assert (PS : forall x x0 y y0, Rabs (x - x0) <= b -> Rabs (y - y0) <= b -> Rabs (x0 - y0) <= 2 -> Rabs (fsub rnd x y - (x0 - y0)) <= 2 * b + 21 / 10 * u).
  { intros x x0 y y0 H1 H2 H3. unfold fsub. pose proof (rd _ (21 / 10) _ _ (st3 _ _ _ _ _ _ H1 H2)). lra. }
  destruct i as [|[|[|[|]]]]; try lia; destruct j as [|[|[|[|]]]]; try lia; cbn [fl_by_rijk qget qw qx qy qz Kmat] in *;
    first [apply PA; assumption | apply PS; assumption | rewrite Rplus_comm in HK |- *; apply PA; assumption | idtac].
  all: match goal with |- Rabs (fadd rnd ?x ?y - (?a + ?c)) <= _ => rewrite (Rplus_comm a c) in *; apply PA; assumption end.
Qed.
Lemma diag_get i : (i < 4)%nat -> qget i (fl_by_rijk rnd A i) = fmul rnd (fl_q_abs rnd A i) (fl_q_abs rnd A i).
Proof. intros Hi. destruct i as [|[|[|[|]]]]; try lia; reflexivity. Qed.
(** the chosen index is a good one, and its magnitude is close to the true one *)
Lemma chosen : let i := argmax4 (fl_q_abs rnd A) in (i < 4)%nat /\
  exists q, qnorm2 q = 1 /\ quaternion_to_matrix q = B /\ 96 / 100 <= 2 * qget i q /\ Rabs (fl_q_abs rnd A i - 2 * qget i q) <= 155 / 100 * b + 69 / 10 * u.
Proof.
  intros i. destruct (argmax4_spec (fl_q_abs rnd A)) as [Hi Hm]. fold i in Hi, Hm. split; [exact Hi|].
  destruct (argmax_K B) as [Hj H1]. set (j := argmax4 (q_abs B)) in *. clearbody j. specialize (Hm j Hj). clearbody i.
  pose proof (diag_err j Hj) as Dj. pose proof (diag_err i Hi) as Di. apply Rabs_le_between' in Dj. pose proof Di as Di'. apply Rabs_le_between' in Di'.
  set (aj := fl_diag rnd A j) in *. set (ai := fl_diag rnd A i) in *.
  unfold fl_q_abs in Hm |- *. fold aj in Hm. fold ai in Hm |- *.
  assert (Sj : 984 / 1000 <= sqrt (Rmax aj 0)).
  { rewrite Rmax_left by lra. rewrite <- (sqrt_square (984 / 1000)) by lra. apply sqrt_le_1_alt. lra. }
  pose proof (rnd_abs u rnd Hr (sqrt (Rmax aj 0))) as Rj. apply Rabs_le_between' in Rj. rewrite (Rabs_pos_eq (sqrt (Rmax aj 0))) in Rj by apply sqrt_pos.
  pose proof (rnd_abs u rnd Hr (sqrt (Rmax ai 0))) as Ri. apply Rabs_le_between' in Ri. rewrite (Rabs_pos_eq (sqrt (Rmax ai 0))) in Ri by apply sqrt_pos.
  assert (Si : 9835 / 10000 <= sqrt (Rmax ai 0)).
  { destruct (Rle_lt_dec (9835 / 10000) (sqrt (Rmax ai 0))) as [L|L]; [exact L|]. exfalso.
    assert (u * sqrt (Rmax aj 0) <= / 10000 * sqrt (Rmax aj 0)) by (apply Rmult_le_compat_r; [apply sqrt_pos | exact Hu]).
    assert (u * sqrt (Rmax ai 0) <= / 10000 * sqrt (Rmax ai 0)) by (apply Rmult_le_compat_r; [apply sqrt_pos | exact Hu]). lra. }
  assert (Ai : 967 / 1000 <= ai).
  { assert (H : 9835 / 10000 * (9835 / 10000) <= sqrt (Rmax ai 0) * sqrt (Rmax ai 0)) by (apply Rmult_le_compat; lra). rewrite sqrt_sqrt in H by apply Rmax_r.
    unfold Rmax in H. destruct (Rle_dec ai 0); lra. }
  rewrite (Rmax_left ai 0) in * by lra.
  destruct (m2q_spec B HB) as [N0 E0]. set (p := matrix_to_quaternion B) in *.
  assert (Hq : exists q, qnorm2 q = 1 /\ quaternion_to_matrix q = B /\ 0 <= qget i q).
  { destruct (Rle_lt_dec 0 (qget i p)) as [L|L]; [exists p; auto|]. exists (qopp p). rewrite qnorm2_opp. split; [exact N0|]. split; [rewrite q2m_opp; [exact E0 | lra]|].
    assert (O : qget i (qopp p) = - qget i p) by (destruct i as [|[|[|[|]]]]; try lia; reflexivity). lra. }
  destruct Hq as (q & N & E & Hq). exists q. split; [exact N|]. split; [exact E|].
  pose proof (K_prod q N E i i Hi Hi) as HK. set (g := qget i q) in *.
  assert (G : 96 / 100 <= 2 * g).
  { destruct (Rle_lt_dec (96 / 100) (2 * g)) as [L|L]; [exact L|]. exfalso. assert ((2 * g) * (2 * g) <= 96 / 100 * (96 / 100)) by (apply Rmult_le_compat; lra). lra. }
  split; [exact G|].
  assert (G2 : 2 * g <= 2). { pose proof (qget_le i q Hi) as H. rewrite (qlen_unit q N) in H. fold g in H. rewrite Rabs_pos_eq in H; lra. }
  assert (D : Rabs (sqrt ai - 2 * g) <= 155 / 100 * b + 48 / 10 * u).
  { assert (F : Rabs (sqrt ai - 2 * g) * (sqrt ai + 2 * g) = Rabs (ai - Kmat B i i)).
    { rewrite <- (Rabs_pos_eq (sqrt ai + 2 * g)) at 1 by lra. rewrite <- Rabs_mult. f_equal.
      replace ((sqrt ai - 2 * g) * (sqrt ai + 2 * g)) with (sqrt ai * sqrt ai - 4 * (g * g)) by ring. rewrite sqrt_sqrt by lra. rewrite HK. reflexivity. }
    assert (F2 : Rabs (sqrt ai - 2 * g) * (1943 / 1000) <= 3 * b + 93 / 10 * u).
    { eapply Rle_trans; [|exact Di]. rewrite <- F. apply Rmult_le_compat_l; [apply Rabs_pos | lra]. }
    lra. }
  pose proof (rd _ (21 / 10) _ _ D) as H. rewrite (Rabs_pos_eq (2 * g)) in H by lra. lra.
Qed.

(** C80: the computed quaternion is close to one of the two of the true rotation *)
Lemma m2q_close : exists q, qnorm2 q = 1 /\ quaternion_to_matrix q = B /\ qlen (qsub (fl_m2q rnd A) q) <= 51 / 10 * b + 23 * u.
Proof.
  destruct chosen as (Hi & q & N & E & G & D). unfold fl_m2q. set (i := argmax4 (fl_q_abs rnd A)) in *. exists q. split; [exact N|]. split; [exact E|].
  set (h := fl_q_abs rnd A i) in *. set (g := qget i q) in *.
  assert (G2 : 2 * g <= 2). { pose proof (qget_le i q Hi) as H. rewrite (qlen_unit q N) in H. fold g in H. rewrite Rabs_pos_eq in H; lra. }
  pose proof D as D'. apply Rabs_le_between' in D'.
  assert (F10 : rnd (1 / 10) <= 2 / 10).
  { pose proof (rnd_abs u rnd Hr (1 / 10)) as H. apply Rabs_le_between' in H. rewrite Rabs_pos_eq in H by lra. lra. }
  rewrite (Rmax_left h) by lra. set (d := fmul rnd 2 h).
  assert (Dd : Rabs (d - 2 * h) <= 2 * h * u).
  { unfold d, fmul. pose proof (rnd_abs u rnd Hr (2 * h)) as H. rewrite (Rabs_pos_eq (2 * h)) in H by lra. lra. }
  assert (hu : 0 <= h * u) by (apply Rmult_le_pos; lra). assert (hu2 : h * u <= 205 / 100 * u) by (apply Rmult_le_compat_r; lra).
  assert (D4 : Rabs (d - 4 * g) <= 310 / 100 * b + 18 * u).
  { replace (d - 4 * g) with ((d - 2 * h) + 2 * (h - 2 * g)) by ring. eapply Rle_trans; [apply Rabs_triang|]. rewrite Rabs_mult, (Rabs_pos_eq 2) by lra. lra. }
  pose proof D4 as D4'. apply Rabs_le_between' in D4'. assert (dlow : 187 / 100 <= d) by lra.
  (* off the diagonal *)
  assert (OFF : forall j, (j < 4)%nat -> j <> i -> Rabs (rnd (qget j (fl_by_rijk rnd A i) / d) - qget j q) <= 274 / 100 * b + 12 * u).
  { intros j Hj Hij. pose proof (off_err i j Hi Hj (not_eq_sym Hij)) as H. rewrite (K_prod q N E i j Hi Hj) in H. fold g in H. set (n := qget j (fl_by_rijk rnd A i)) in *. set (x := qget j q) in *.
    assert (X : Rabs x <= 1). { pose proof (qget_le j q Hj) as H'. rewrite (qlen_unit q N) in H'. exact H'. }
    assert (Q : Rabs (n / d - x) <= 273 / 100 * b + 1076 / 100 * u).
    { replace (n / d - x) with ((n - 4 * (g * x) - x * (d - 4 * g)) / d) by (field; lra). unfold Rdiv. rewrite Rabs_mult, (Rabs_pos_eq (/ d)) by (left; apply Rinv_0_lt_compat; lra).
      apply Rmult_le_reg_r with d; [lra|]. rewrite Rmult_assoc, Rinv_l, Rmult_1_r by lra.
      assert (H2 : Rabs (n - 4 * (g * x) - x * (d - 4 * g)) <= 510 / 100 * b + 201 / 10 * u).
      { unfold Rminus at 1. eapply Rle_trans; [apply Rabs_triang|]. rewrite Rabs_Ropp, Rabs_mult.
        assert (Rabs x * Rabs (d - 4 * g) <= 1 * (310 / 100 * b + 18 * u)) by (apply Rmult_le_compat; try apply Rabs_pos; assumption). lra. }
      eapply Rle_trans; [exact H2|]. assert ((273 / 100 * b + 1076 / 100 * u) * (187 / 100) <= (273 / 100 * b + 1076 / 100 * u) * d) by (apply Rmult_le_compat_l; lra). lra. }
    pose proof (rd _ (11 / 10) _ _ Q). lra. }
  (* on the diagonal *)
  assert (ON : Rabs (rnd (qget i (fl_by_rijk rnd A i) / d) - g) <= b + 8 * u).
  { rewrite diag_get by exact Hi. fold h. set (n := fmul rnd h h).
    assert (Hn : Rabs (n - h * h) <= h * h * u).
    { unfold n, fmul. pose proof (rnd_abs u rnd Hr (h * h)) as H. rewrite (Rabs_pos_eq (h * h)) in H by (apply Rmult_le_pos; lra). lra. }
    assert (Q : Rabs (n / d - h / 2) <= 22 / 10 * u).
    { replace (n / d - h / 2) with (((n - h * h) - h / 2 * (d - 2 * h)) / d) by (field; lra). unfold Rdiv at 1. rewrite Rabs_mult, (Rabs_pos_eq (/ d)) by (left; apply Rinv_0_lt_compat; lra).
      apply Rmult_le_reg_r with d; [lra|]. rewrite Rmult_assoc, Rinv_l, Rmult_1_r by lra.
      assert (H2 : Rabs ((n - h * h) - h / 2 * (d - 2 * h)) <= 2 * h * (h * u)).
      { unfold Rminus at 1. eapply Rle_trans; [apply Rabs_triang|]. rewrite Rabs_Ropp, Rabs_mult, (Rabs_pos_eq (h / 2)) by lra.
        assert (h / 2 * Rabs (d - 2 * h) <= h / 2 * (2 * h * u)) by (apply Rmult_le_compat_l; lra). lra. }
      eapply Rle_trans; [exact H2|].
      assert (H3 : h * u * (2 * h) <= h * u * (1001 / 1000 * d)).
      { apply Rmult_le_compat_l; [exact hu|]. apply Rabs_le_between' in Dd. lra. }
      assert (H4 : h * u * d <= 205 / 100 * u * d) by (apply Rmult_le_compat_r; lra).
      assert (0 <= u * d) by (apply Rmult_le_pos; lra). lra. }
    assert (Q2 : Rabs (n / d - g) <= 78 / 100 * b + 57 / 10 * u).
    { replace (n / d - g) with ((n / d - h / 2) + / 2 * (h - 2 * g)) by (generalize (n / d); intros w; lra). eapply Rle_trans; [apply Rabs_triang|]. rewrite (Rabs_mult (/ 2)), (Rabs_pos_eq (/ 2)) by lra. lra. }
    pose proof (rd _ (11 / 10) _ _ Q2) as H. rewrite (Rabs_pos_eq g) in H by lra. lra. }
  set (X := 274 / 100 * b + 12 * u) in *. set (Y := b + 8 * u) in *. assert (X0 : 0 <= X) by (unfold X; lra). assert (Y0 : 0 <= Y) by (unfold Y; lra).
  assert (XY : Y <= 667 / 1000 * X) by (unfold X, Y; lra).
  assert (YY : Y * Y <= 667 / 1000 * X * (667 / 1000 * X)) by (apply Rmult_le_compat; lra).
  assert (SQ : forall x c, Rabs x <= c -> x * x <= c * c).
  { intros x c H. pose proof (Rabs_pos x). replace (x * x) with (Rabs x * Rabs x) by (rewrite <- Rabs_mult; apply Rabs_pos_eq, Rle_0_sqr). apply Rmult_le_compat; lra. }
  apply Rle_trans with (1857 / 1000 * X); [|unfold X; lra]. apply qlen_le; [lra|].
  assert (XX : 0 <= X * X) by (apply Rmult_le_pos; assumption).
  pose proof (OFF 0%nat) as F0. pose proof (OFF 1%nat) as F1. pose proof (OFF 2%nat) as F2. pose proof (OFF 3%nat) as F3.
  unfold qnorm2, qsub. cbn [qw qx qy qz]. unfold g in ON. clearbody h d. clear OFF D G G2 D' Dd hu hu2 D4 D4' dlow F10 g. clearbody i.
  destruct i as [|[|[|[|]]]]; try lia; cbn [qget] in *.
  - pose proof (SQ _ _ ON). pose proof (SQ _ _ (F1 ltac:(lia) ltac:(lia))). pose proof (SQ _ _ (F2 ltac:(lia) ltac:(lia))). pose proof (SQ _ _ (F3 ltac:(lia) ltac:(lia))). lra.
  - pose proof (SQ _ _ ON). pose proof (SQ _ _ (F0 ltac:(lia) ltac:(lia))). pose proof (SQ _ _ (F2 ltac:(lia) ltac:(lia))). pose proof (SQ _ _ (F3 ltac:(lia) ltac:(lia))). lra.
  - pose proof (SQ _ _ ON). pose proof (SQ _ _ (F0 ltac:(lia) ltac:(lia))). pose proof (SQ _ _ (F1 ltac:(lia) ltac:(lia))). pose proof (SQ _ _ (F3 ltac:(lia) ltac:(lia))). lra.
  - pose proof (SQ _ _ ON). pose proof (SQ _ _ (F0 ltac:(lia) ltac:(lia))). pose proof (SQ _ _ (F1 ltac:(lia) ltac:(lia))). pose proof (SQ _ _ (F2 ltac:(lia) ltac:(lia))). lra.
Qed.
End M2q.

(** ** products *)
Lemma pow4 : (1 + u) ^ 4 - 1 <= 41 / 10 * u.
Proof.
  assert (u * u <= / 10000 * u) by (apply Rmult_le_compat_r; assumption). assert (0 <= u * u) by (apply Rmult_le_pos; assumption).
  assert (u * (u * u) <= / 10000 * (u * u)) by (apply Rmult_le_compat_r; assumption). assert (0 <= u * (u * u)) by (apply Rmult_le_pos; assumption).
  assert (u * (u * (u * u)) <= / 10000 * (u * (u * u))) by (apply Rmult_le_compat_r; assumption).
  replace ((1 + u) ^ 4 - 1) with (4 * u + 6 * (u * u) + 4 * (u * (u * u)) + u * (u * (u * u))) by ring. lra.
Qed.
Definition qabs (q : Q) : Q := mkQ (Rabs (qw q)) (Rabs (qx q)) (Rabs (qy q)) (Rabs (qz q)).
Lemma qabs_len q : qlen (qabs q) = qlen q.
Proof. assert (E : forall x, Rabs x * Rabs x = x * x) by (intros x; rewrite <- Rabs_mult; apply Rabs_pos_eq, Rle_0_sqr). unfold qlen, qnorm2, qabs. cbn [qw qx qy qz]. rewrite !E. reflexivity. Qed.
Variable sp : nat -> stree.
Hypothesis Hsp : forall i, s_full (sp i).
Lemma four_err i p0 p1 p2 p3 L : Rabs p0 + Rabs p1 + Rabs p2 + Rabs p3 <= L ->
  Rabs (s_eval rnd (fun k => match k with 0 => p0 | 1 => p1 | 2 => p2 | _ => p3 end%nat) (sp i) - (p0 + p1 + p2 + p3)) <= 41 / 10 * u * L.
Proof.
  intros HL. pose proof (s_full_err u rnd Hr (fun k => match k with 0 => p0 | 1 => p1 | 2 => p2 | _ => p3 end%nat) (sp i) (Hsp i)) as H. cbv beta iota in H.
  eapply Rle_trans; [exact H|]. apply Rmult_le_compat; [|repeat apply Rplus_le_le_0_compat; apply Rabs_pos|exact pow4|exact HL].
  pose proof (pow_ge1 u rnd Hr 4). lra.
Qed.
Lemma raw_err a c : qlen (qsub (fl_raw_multiply rnd sp a c) (quaternion_raw_multiply a c)) <= 82 / 10 * u * (qlen a * qlen c).
Proof.
  set (L := qlen a * qlen c). assert (L0 : 0 <= L) by (apply Rmult_le_pos; apply qlen_nonneg).
  assert (C : forall d, qlen d = qlen c -> Rabs (qw a) * Rabs (qw d) + Rabs (qx a) * Rabs (qx d) + Rabs (qy a) * Rabs (qy d) + Rabs (qz a) * Rabs (qz d) <= L).
  { intros d Hd. pose proof (qdot_le (qabs a) (qabs d)) as H. rewrite !qabs_len, Hd in H. exact H. }
  assert (LE : forall p q, qnorm2 p = qnorm2 q -> qlen p = qlen q) by (intros p q H; unfold qlen; rewrite H; reflexivity).
  set (e := 41 / 10 * u * L). assert (E0 : 0 <= e) by (apply Rmult_le_pos; lra).
  assert (W : Rabs (qw (fl_raw_multiply rnd sp a c) - qw (quaternion_raw_multiply a c)) <= e).
  { pose proof (four_err 0 (qw a * qw c) (- (qx a * qx c)) (- (qy a * qy c)) (- (qz a * qz c)) L) as H. rewrite !Rabs_Ropp, !Rabs_mult in H.
    specialize (H (C c eq_refl)). exact H. }
  assert (X : Rabs (qx (fl_raw_multiply rnd sp a c) - qx (quaternion_raw_multiply a c)) <= e).
  { pose proof (four_err 1 (qw a * qx c) (qx a * qw c) (qy a * qz c) (- (qz a * qy c)) L) as H. rewrite !Rabs_Ropp, !Rabs_mult in H.
    assert (N : qnorm2 (mkQ (qx c) (qw c) (qz c) (qy c)) = qnorm2 c) by (unfold qnorm2; cbn [qw qx qy qz]; ring). specialize (H (C _ (LE _ _ N))). exact H. }
  assert (Y : Rabs (qy (fl_raw_multiply rnd sp a c) - qy (quaternion_raw_multiply a c)) <= e).
  { pose proof (four_err 2 (qw a * qy c) (- (qx a * qz c)) (qy a * qw c) (qz a * qx c) L) as H. rewrite !Rabs_Ropp, !Rabs_mult in H.
    assert (N : qnorm2 (mkQ (qy c) (qz c) (qw c) (qx c)) = qnorm2 c) by (unfold qnorm2; cbn [qw qx qy qz]; ring). specialize (H (C _ (LE _ _ N))). exact H. }
  assert (Z : Rabs (qz (fl_raw_multiply rnd sp a c) - qz (quaternion_raw_multiply a c)) <= e).
  { pose proof (four_err 3 (qw a * qz c) (qx a * qy c) (- (qy a * qx c)) (qz a * qw c) L) as H. rewrite !Rabs_Ropp, !Rabs_mult in H.
    assert (N : qnorm2 (mkQ (qz c) (qy c) (qx c) (qw c)) = qnorm2 c) by (unfold qnorm2; cbn [qw qx qy qz]; ring). specialize (H (C _ (LE _ _ N))). exact H. }
  replace (82 / 10 * u * L) with (2 * e) by (unfold e; lra). apply qlen_le; [lra|].
  assert (SQ : forall x c, Rabs x <= c -> x * x <= c * c).
  { intros x d H. pose proof (Rabs_pos x). replace (x * x) with (Rabs x * Rabs x) by (rewrite <- Rabs_mult; apply Rabs_pos_eq, Rle_0_sqr). apply Rmult_le_compat; lra. }
  pose proof (SQ _ _ W). pose proof (SQ _ _ X). pose proof (SQ _ _ Y). pose proof (SQ _ _ Z). unfold qnorm2, qsub. cbn [qw qx qy qz]. lra.
Qed.
Lemma raw_sub_l a a' c : qsub (quaternion_raw_multiply a' c) (quaternion_raw_multiply a c) = quaternion_raw_multiply (qsub a' a) c.
Proof. unfold qsub, quaternion_raw_multiply. cbn [qw qx qy qz]. apply mkQ_eq; ring. Qed.
Lemma raw_sub_r a c c' : qsub (quaternion_raw_multiply a c') (quaternion_raw_multiply a c) = quaternion_raw_multiply a (qsub c' c).
Proof. unfold qsub, quaternion_raw_multiply. cbn [qw qx qy qz]. apply mkQ_eq; ring. Qed.
(** the product of computed quaternions *)
Lemma product_close a' a c' c x y : qnorm2 a = 1 -> qnorm2 c = 1 -> qlen (qsub a' a) <= x -> qlen (qsub c' c) <= y -> x <= / 10 -> y <= / 10 ->
  qlen (qsub (fl_raw_multiply rnd sp a' c') (quaternion_raw_multiply a c)) <= 11 / 10 * x + y + 10 * u.
Proof.
  intros Na Nc Hx Hy X1 Y1. pose proof (qlen_nonneg (qsub a' a)). pose proof (qlen_nonneg (qsub c' c)).
  assert (La : qlen a' <= 11 / 10). { pose proof (qlen_near a' a) as H'. rewrite (qlen_unit a Na) in H'. lra. }
  assert (Lc : qlen c' <= 11 / 10). { pose proof (qlen_near c' c) as H'. rewrite (qlen_unit c Nc) in H'. lra. }
  pose proof (qlen_nonneg a'). pose proof (qlen_nonneg c').
  eapply Rle_trans; [apply (qdist_triangle _ (quaternion_raw_multiply a' c'))|].
  pose proof (raw_err a' c') as K1.
  assert (K2 : qlen (qsub (quaternion_raw_multiply a' c') (quaternion_raw_multiply a c)) <= 11 / 10 * x + y).
  { eapply Rle_trans; [apply (qdist_triangle _ (quaternion_raw_multiply a c'))|]. rewrite raw_sub_l, raw_sub_r, !qlen_mul, (qlen_unit a Na).
    assert (qlen (qsub a' a) * qlen c' <= x * (11 / 10)) by (apply Rmult_le_compat; assumption). lra. }
  assert (K3 : qlen a' * qlen c' <= 11 / 10 * (11 / 10)) by (apply Rmult_le_compat; assumption).
  assert (K4 : 82 / 10 * u * (qlen a' * qlen c') <= 82 / 10 * u * (11 / 10 * (11 / 10))) by (apply Rmult_le_compat_l; lra). lra.
Qed.
End Round.
