(** Euclidean norms of finite vectors and the damped step of a wide matrix. *)
From Coq Require Import Reals Lra Bool Arith Lia List.
From Verif Require Import Prelude ExtF Lin JacModel IKKernel KernelProofs.
Local Open Scope R_scope.

Definition nrm (m : nat) (x : nat -> R) : R := sqrt (rsum m (fun i => x i * x i)).
Lemma sq_sum_nonneg m x : 0 <= rsum m (fun i => x i * x i).
Proof. apply rsum_nonneg. intros. apply Rle_0_sqr. Qed.
Lemma nrm_nonneg m x : 0 <= nrm m x. Proof. apply sqrt_pos. Qed.
Lemma nrm_sq m x : nrm m x * nrm m x = rsum m (fun i => x i * x i).
Proof. apply sqrt_sqrt. apply sq_sum_nonneg. Qed.
Lemma nrm_ext m x y : (forall i, (i < m)%nat -> x i = y i) -> nrm m x = nrm m y.
Proof. intros H. unfold nrm. f_equal. apply rsum_ext. intros i Hi. rewrite (H i Hi). reflexivity. Qed.
Lemma rsum_le m f g : (forall i, (i < m)%nat -> f i <= g i) -> rsum m f <= rsum m g.
Proof. revert f g. induction m as [|m IH]; intros f g H; cbn [rsum]; [lra|]. pose proof (H 0%nat ltac:(lia)). pose proof (IH (fun i => f (S i)) (fun i => g (S i)) (fun i Hi => H (S i) ltac:(lia))). lra. Qed.
Lemma rsum_const m c : rsum m (fun _ => c) = INR m * c.
Proof. induction m as [|m IH]; [cbn; ring|]. cbn [rsum]. rewrite IH, S_INR. ring. Qed.
Lemma rsum_abs m f : Rabs (rsum m f) <= rsum m (fun i => Rabs (f i)).
Proof. revert f. induction m as [|m IH]; intros f; cbn [rsum]; [rewrite Rabs_R0; lra|]. eapply Rle_trans; [apply Rabs_triang|]. pose proof (IH (fun i => f (S i))). lra. Qed.
Lemma nrm_entry m x i : (i < m)%nat -> Rabs (x i) <= nrm m x.
Proof.
  intros Hi. rewrite <- (Rabs_pos_eq (nrm m x)) by apply nrm_nonneg. apply Rsqr_le_abs_0. unfold Rsqr. rewrite nrm_sq.
  assert (E : x i * x i = rsum m (fun j => if Nat.eqb j i then x j * x j else 0)) by (rewrite (rsum_delta m i (fun j => x j * x j)) by exact Hi; reflexivity).
  rewrite E. apply rsum_le. intros j _. destruct (Nat.eqb j i); [lra | apply Rle_0_sqr].
Qed.
Lemma nrm_entries m x b : 0 <= b -> (forall i, (i < m)%nat -> Rabs (x i) <= b) -> nrm m x <= INR m * b.
Proof.
  intros Hb H. assert (B : rsum m (fun i => x i * x i) <= INR m * (b * b)).
  { rewrite <- rsum_const. apply rsum_le. intros i Hi. specialize (H i Hi). rewrite <- (Rabs_pos_eq b) in H by exact Hb. apply Rsqr_le_abs_1 in H. exact H. }
  destruct m as [|m]; [unfold nrm; cbn [rsum INR]; rewrite sqrt_0; lra|].
  assert (P : 1 <= INR (S m)) by (rewrite S_INR; pose proof (pos_INR m); lra). unfold nrm. rewrite <- (sqrt_square (INR (S m) * b)) by (apply Rmult_le_pos; lra). apply sqrt_le_1_alt.
  eapply Rle_trans; [exact B|]. assert (Q : 0 <= b * b) by (apply Rle_0_sqr). replace (INR (S m) * b * (INR (S m) * b)) with (INR (S m) * (INR (S m) * (b * b))) by ring.
  assert (1 * (b * b) <= INR (S m) * (b * b)) by (apply Rmult_le_compat_r; lra). apply Rmult_le_compat_l; lra.
Qed.
Lemma cauchy m x y : Rabs (dot m x y) <= nrm m x * nrm m y.
Proof.
  set (a := rsum m (fun i => x i * x i)). set (b := dot m x y). set (c := rsum m (fun i => y i * y i)).
  assert (Q : forall s t, 0 <= s * s * a - 2 * (s * t) * b + t * t * c).
  { intros s t. unfold a, b, c, dot. rewrite <- !rsum_scal, <- rsum_minus, <- rsum_plus. apply rsum_nonneg. intros i _.
    replace (s * s * (x i * x i) - 2 * (s * t) * (x i * y i) + t * t * (y i * y i)) with ((s * x i - t * y i) * (s * x i - t * y i)) by ring. apply Rle_0_sqr. }
  assert (A : 0 <= a) by apply sq_sum_nonneg. assert (C : 0 <= c) by apply sq_sum_nonneg.
  assert (B : b * b <= a * c).
  { destruct (Req_dec c 0) as [Z|Z].
    - assert (B0 : b = 0).
      { destruct (Req_dec b 0) as [E|NB]; [exact E|]. exfalso. specialize (Q 1 ((a + 1) / b)). rewrite Z in Q.
        replace (2 * (1 * ((a + 1) / b)) * b) with (2 * (a + 1)) in Q by (field; exact NB). lra. }
      rewrite B0, Z. lra.
    - assert (P : 0 < c) by lra. specialize (Q c b). assert (0 <= c * (a * c - b * b)) by (replace (c * (a * c - b * b)) with (c * c * a - 2 * (c * b) * b + b * b * c) by ring; exact Q).
      destruct (Rle_lt_dec (b * b) (a * c)) as [L|L]; [exact L|]. exfalso. assert (c * (b * b - a * c) > 0) by (apply Rmult_lt_0_compat; lra). lra. }
  rewrite <- (Rabs_pos_eq (nrm m x * nrm m y)) by (apply Rmult_le_pos; apply nrm_nonneg). apply Rsqr_le_abs_0. unfold Rsqr.
  replace (nrm m x * nrm m y * (nrm m x * nrm m y)) with ((nrm m x * nrm m x) * (nrm m y * nrm m y)) by ring. rewrite !nrm_sq. exact B.
Qed.
Lemma nrm_triangle m x y : nrm m (fun i => x i + y i) <= nrm m x + nrm m y.
Proof.
  rewrite <- (Rabs_pos_eq (nrm m (fun i => x i + y i))) by apply nrm_nonneg. rewrite <- (Rabs_pos_eq (nrm m x + nrm m y)) by (pose proof (nrm_nonneg m x); pose proof (nrm_nonneg m y); lra).
  apply Rsqr_le_abs_0. unfold Rsqr. rewrite nrm_sq. rewrite (rsum_ext m _ (fun i => x i * x i + 2 * (x i * y i) + y i * y i)) by (intros; ring). rewrite !rsum_plus, rsum_scal. fold (dot m x y).
  pose proof (cauchy m x y) as C. pose proof (Rle_abs (dot m x y)). rewrite <- !nrm_sq. lra.
Qed.
Lemma nrm_scale m c x : 0 <= c -> nrm m (fun i => c * x i) = c * nrm m x.
Proof.
  intros Hc. unfold nrm. rewrite (rsum_ext m _ (fun i => (c * c) * (x i * x i))) by (intros; ring). rewrite rsum_scal, sqrt_mult; [rewrite (sqrt_square c Hc); reflexivity | apply Rle_0_sqr | apply sq_sum_nonneg].
Qed.
Lemma nrm_le m x y : (forall i, (i < m)%nat -> Rabs (x i) <= Rabs (y i)) -> nrm m x <= nrm m y.
Proof. intros H. apply sqrt_le_1_alt. apply rsum_le. intros i Hi. apply Rsqr_le_abs_1. apply H. exact Hi. Qed.

(** ** right inverses bound the transpose from below *)
Definition frob (n m : nat) (B : nat -> nat -> R) : R := rsum n (fun j => rsum m (fun i => B j i * B j i)).
Lemma frob_nonneg n m B : 0 <= frob n m B.
Proof. apply rsum_nonneg. intros. apply sq_sum_nonneg. Qed.
Lemma mat_bound n m B y : nrm n (fun j => rsum m (fun i => B j i * y i)) <= sqrt (frob n m B) * nrm m y.
Proof.
  unfold nrm at 1. unfold nrm. rewrite <- sqrt_mult; [|apply frob_nonneg | apply sq_sum_nonneg]. apply sqrt_le_1_alt. unfold frob. rewrite <- rsum_scal_r. apply rsum_le. intros j _.
  pose proof (cauchy m (B j) y) as C. fold (dot m (B j) y). rewrite <- (Rabs_pos_eq (nrm m (B j) * nrm m y)) in C by (apply Rmult_le_pos; apply nrm_nonneg). apply Rsqr_le_abs_1 in C. unfold Rsqr in C.
  rewrite <- !nrm_sq. eapply Rle_trans; [exact C|]. right. ring.
Qed.
Section Lower.
Variables (m n : nat) (C B : nat -> nat -> R).
Hypothesis HB : forall i k, (i < m)%nat -> (k < m)%nat -> rsum n (fun j => C k j * B j i) = if Nat.eqb k i then 1 else 0.
Definition mu_of : R := / (frob n m B + 1).
Lemma mu_pos : 0 < mu_of. Proof. apply Rinv_0_lt_compat. pose proof (frob_nonneg n m B). lra. Qed.
Lemma lower_at y : mu_of * rsum m (fun i => y i * y i) <= rsum n (fun j => jt m C y j * jt m C y j).
Proof.
  set (z := fun j => rsum m (fun i => B j i * y i)).
  assert (E : rsum m (fun i => y i * y i) = dot n (jt m C y) z).
  { rewrite <- adjoint. unfold dot. apply rsum_ext. intros k Hk. f_equal. unfold jv, z.
    rewrite (rsum_ext n _ (fun j => rsum m (fun i => C k j * B j i * y i))) by (intros j _; rewrite <- rsum_scal; apply rsum_ext; intros; ring).
    rewrite rsum_swap. rewrite (rsum_ext m _ (fun i => if Nat.eqb k i then y i else 0)); [symmetry; apply rsum_delta'; exact Hk|]. intros i Hi. rewrite rsum_scal_r, HB by assumption. destruct (Nat.eqb k i); ring. }
  pose proof (cauchy n (jt m C y) z) as CS. pose proof (Rle_abs (dot n (jt m C y) z)). pose proof (mat_bound n m B y) as MB. fold z in MB.
  pose proof (nrm_nonneg m y) as N1. pose proof (nrm_nonneg n (jt m C y)) as N2. pose proof (nrm_nonneg n z) as N3. pose proof (frob_nonneg n m B) as F0. pose proof (sqrt_pos (frob n m B)) as S0.
  set (a := nrm m y) in *. set (b := nrm n (jt m C y)) in *. set (f := sqrt (frob n m B)) in *. assert (Ef : f * f = frob n m B) by (apply sqrt_sqrt; exact F0).
  assert (Ea : a * a = rsum m (fun i => y i * y i)) by apply nrm_sq. assert (Eb : b * b = rsum n (fun j => jt m C y j * jt m C y j)) by apply nrm_sq. rewrite <- Ea, <- Eb in *.
  assert (H1 : a * a <= b * (f * a)) by (eapply Rle_trans; [|apply Rmult_le_compat_l; [exact N2 | exact MB]]; lra).
  assert (H2 : a <= b * f).
  { destruct (Req_dec a 0) as [Z|Z]; [rewrite Z; apply Rmult_le_pos; assumption|]. apply Rmult_le_reg_r with a; [lra|]. eapply Rle_trans; [exact H1|]. right. ring. }
  assert (H3 : a * a <= (b * f) * (b * f)) by (apply Rmult_le_compat; assumption).
  unfold mu_of. apply Rmult_le_reg_l with (frob n m B + 1); [lra|]. rewrite <- Rmult_assoc, Rinv_r, Rmult_1_l by lra. rewrite <- Ef. assert (0 <= b * b) by apply Rle_0_sqr. lra.
Qed.
(** a nearby matrix *)
Lemma lower_near C' eta y : 0 <= eta -> (forall i j, (i < m)%nat -> (j < n)%nat -> Rabs (C' i j - C i j) <= eta) -> INR n * (INR m * (eta * eta)) <= mu_of / 4 ->
  mu_of / 4 * rsum m (fun i => y i * y i) <= rsum n (fun j => jt m C' y j * jt m C' y j).
Proof.
  intros He HC Hs. pose proof (lower_at y) as L. set (D := fun j i => C' i j - C i j). set (z := fun j => rsum m (fun i => D j i * y i)).
  assert (FB : frob n m D <= mu_of / 4).
  { eapply Rle_trans; [|exact Hs]. unfold frob. rewrite <- rsum_const. apply rsum_le. intros j Hj. rewrite <- rsum_const. apply rsum_le. intros i Hi. unfold D. specialize (HC i j Hi Hj). rewrite <- (Rabs_pos_eq eta) in HC by exact He. apply Rsqr_le_abs_1 in HC. exact HC. }
  assert (EZ : rsum n (fun j => z j * z j) <= mu_of / 4 * rsum m (fun i => y i * y i)).
  { pose proof (mat_bound n m D y) as MB. fold z in MB. pose proof (nrm_nonneg n z). pose proof (nrm_nonneg m y). pose proof (sqrt_pos (frob n m D)).
    assert (M2 : nrm n z * nrm n z <= (sqrt (frob n m D) * nrm m y) * (sqrt (frob n m D) * nrm m y)) by (apply Rmult_le_compat; assumption).
    rewrite nrm_sq in M2. eapply Rle_trans; [exact M2|]. replace (sqrt (frob n m D) * nrm m y * (sqrt (frob n m D) * nrm m y)) with ((sqrt (frob n m D) * sqrt (frob n m D)) * (nrm m y * nrm m y)) by ring.
    rewrite nrm_sq, sqrt_sqrt by apply frob_nonneg. apply Rmult_le_compat_r; [apply sq_sum_nonneg | exact FB]. }
  assert (S2 : rsum n (fun j => jt m C y j * jt m C y j) / 2 - rsum n (fun j => z j * z j) <= rsum n (fun j => jt m C' y j * jt m C' y j)).
  { unfold Rdiv. rewrite <- rsum_scal_r, <- rsum_minus. apply rsum_le. intros j _. assert (E : jt m C' y j = jt m C y j + z j).
    { unfold jt, z, D. rewrite <- rsum_plus. apply rsum_ext. intros. ring. }
    rewrite E. pose proof (Rle_0_sqr (jt m C y j + 2 * z j)). unfold Rsqr in *. lra. }
  lra.
Qed.
End Lower.

(** ** the damped step *)
Section Damped.
Variables (m n : nat) (A : nat -> nat -> R) (d x : nat -> R) (K lo lr : R).
Hypothesis (HK : 0 < K) (Hlo : 0 < lo) (Hlr : 0 < lr <= 1) (Hx : solves m (gram n A K) d x).
Hypothesis Hlow : forall y, lo * rsum m (fun i => y i * y i) <= rsum n (fun j => jt m A y j * jt m A y j).
Lemma multiplier : (lo + K) * nrm m x <= nrm m d.
Proof.
  assert (E : dot m x d = dot n (jt m A x) (jt m A x) + K * rsum m (fun i => x i * x i)).
  { rewrite <- adjoint. unfold dot. rewrite <- rsum_scal, <- rsum_plus. apply rsum_ext. intros i Hi. pose proof (residual m n A d K x Hx i Hi) as R0. replace (d i) with (jv n A (jt m A x) i + K * x i) by lra. ring. }
  pose proof (Hlow x) as L. fold (dot n (jt m A x) (jt m A x)) in L. pose proof (cauchy m x d) as C. pose proof (Rle_abs (dot m x d)). pose proof (nrm_sq m x) as N. pose proof (nrm_nonneg m x) as P. pose proof (nrm_nonneg m d) as Q.
  assert (H1 : (lo + K) * (nrm m x * nrm m x) <= nrm m x * nrm m d) by (rewrite N; lra).
  destruct (Req_dec (nrm m x) 0) as [Z|Z]; [rewrite Z, Rmult_0_r; exact Q|]. apply Rmult_le_reg_r with (nrm m x); lra.
Qed.
Lemma shrinks : nrm m (fun i => d i - lr * jv n A (jt m A x) i) <= (1 - lr * lo / (lo + K)) * nrm m d.
Proof.
  rewrite (nrm_ext m _ (fun i => (1 - lr) * d i + (lr * K) * x i)).
  - eapply Rle_trans; [apply nrm_triangle|]. rewrite !nrm_scale by (try apply Rmult_le_pos; lra). pose proof multiplier as M. pose proof (nrm_nonneg m d).
    assert (M2 : nrm m x <= nrm m d / (lo + K)) by (apply Rmult_le_reg_l with (lo + K); [lra|]; unfold Rdiv; rewrite (Rmult_comm (nrm m d)), <- Rmult_assoc, Rinv_r by lra; lra).
    apply Rle_trans with ((1 - lr) * nrm m d + lr * K * (nrm m d / (lo + K))); [apply Rplus_le_compat_l; apply Rmult_le_compat_l; [apply Rmult_le_pos; lra | exact M2]|]. right. field. lra.
  - intros i Hi. pose proof (residual m n A d K x Hx i Hi) as R0. replace (lr * K * x i) with (lr * (K * x i)) by ring. replace (K * x i) with (d i - jv n A (jt m A x) i) by lra. ring.
Qed.
Lemma step_size r : 0 < r -> r <= K -> nrm n (jt m A x) <= nrm m d / sqrt r.
Proof.
  intros Hr HrK. pose proof (step_descends m n A d K x Hx) as D. pose proof (cauchy m d (jv n A (jt m A x))) as C. pose proof (Rle_abs (dot m d (jv n A (jt m A x)))).
  set (a := nrm m d) in *. set (b := nrm m (jv n A (jt m A x))) in *. set (q := nrm n (jt m A x)) in *.
  assert (Eb : b * b = dot m (jv n A (jt m A x)) (jv n A (jt m A x))) by apply nrm_sq. assert (Eq : q * q = dot n (jt m A x) (jt m A x)) by apply nrm_sq. rewrite <- Eb, <- Eq in D.
  assert (0 <= a) by apply nrm_nonneg. assert (0 <= q) by apply nrm_nonneg. assert (Hs : 0 < sqrt r) by (apply sqrt_lt_R0; exact Hr).
  assert (H2 : r * (q * q) <= a * a).
  { assert (r * (q * q) <= K * (q * q)) by (apply Rmult_le_compat_r; [apply Rle_0_sqr | exact HrK]). pose proof (Rle_0_sqr (a - 2 * b)). unfold Rsqr in *. pose proof (Rle_0_sqr a). unfold Rsqr in *. lra. }
  apply Rmult_le_reg_r with (sqrt r); [exact Hs|]. unfold Rdiv. rewrite Rmult_assoc, Rinv_l, Rmult_1_r by lra.
  rewrite <- (Rabs_pos_eq (q * sqrt r)), <- (Rabs_pos_eq a) by (try apply Rmult_le_pos; lra). apply Rsqr_le_abs_0. unfold Rsqr. replace (q * sqrt r * (q * sqrt r)) with ((sqrt r * sqrt r) * (q * q)) by ring. rewrite sqrt_sqrt by lra. exact H2.
Qed.
End Damped.
