(** Proofs about the step kernels. *)
From Coq Require Import Reals Lra Bool Arith Lia List.
From Verif Require Import Prelude ExtF Lin Trig RotModel JacModel IKKernel.
Import ListNotations.
Local Open Scope R_scope.

Lemma rsum_ext n f g : (forall i, (i < n)%nat -> f i = g i) -> rsum n f = rsum n g.
Proof.
  revert f g. induction n as [|n IH]; intros f g H; [reflexivity|]. cbn [rsum]. rewrite (H 0%nat) by lia. f_equal. apply IH. intros i Hi. apply H. lia.
Qed.
Lemma rsum_0 n : rsum n (fun _ => 0) = 0.
Proof. induction n as [|n IH]; [reflexivity|]. cbn [rsum]. rewrite IH. ring. Qed.
Lemma rsum_plus n f g : rsum n (fun i => f i + g i) = rsum n f + rsum n g.
Proof. revert f g. induction n as [|n IH]; intros; cbn [rsum]; [ring|]. rewrite IH. ring. Qed.
Lemma rsum_scal n c f : rsum n (fun i => c * f i) = c * rsum n f.
Proof. revert f. induction n as [|n IH]; intros; cbn [rsum]; [ring|]. rewrite IH. ring. Qed.
Lemma rsum_scal_r n c f : rsum n (fun i => f i * c) = rsum n f * c.
Proof. revert f. induction n as [|n IH]; intros; cbn [rsum]; [ring|]. rewrite IH. ring. Qed.
Lemma rsum_minus n f g : rsum n (fun i => f i - g i) = rsum n f - rsum n g.
Proof. revert f g. induction n as [|n IH]; intros; cbn [rsum]; [ring|]. rewrite IH. ring. Qed.
Lemma rsum_swap n m f : rsum n (fun i => rsum m (fun j => f i j)) = rsum m (fun j => rsum n (fun i => f i j)).
Proof.
  revert f. induction n as [|n IH]; intros; cbn [rsum]; [symmetry; apply rsum_0|]. rewrite IH, rsum_plus. reflexivity.
Qed.
Lemma rsum_delta n k f : (k < n)%nat -> rsum n (fun i => if Nat.eqb i k then f i else 0) = f k.
Proof.
  revert k f. induction n as [|n IH]; intros k f H; [lia|]. cbn [rsum]. destruct k as [|k].
  - cbn [Nat.eqb]. rewrite rsum_0. ring.
  - cbn [Nat.eqb]. rewrite (IH k (fun i => f (S i))) by lia. ring.
Qed.
Lemma rsum_delta' n k f : (k < n)%nat -> rsum n (fun i => if Nat.eqb k i then f i else 0) = f k.
Proof. intros H. rewrite <- (rsum_delta n k f H). apply rsum_ext. intros i _. rewrite Nat.eqb_sym. reflexivity. Qed.
Lemma rsum_nonneg n f : (forall i, (i < n)%nat -> 0 <= f i) -> 0 <= rsum n f.
Proof.
  revert f. induction n as [|n IH]; intros f H; cbn [rsum]; [lra|]. assert (0 <= f 0%nat) by (apply H; lia).
  assert (0 <= rsum n (fun i => f (S i))) by (apply IH; intros; apply H; lia). lra.
Qed.
Lemma rsum_zero n f : (forall i, (i < n)%nat -> 0 <= f i) -> rsum n f = 0 -> forall i, (i < n)%nat -> f i = 0.
Proof.
  revert f. induction n as [|n IH]; intros f H E i Hi; [lia|]. cbn [rsum] in E. assert (0 <= f 0%nat) by (apply H; lia).
  assert (0 <= rsum n (fun i => f (S i))) by (apply rsum_nonneg; intros; apply H; lia).
  destruct i as [|i]; [lra|]. apply (IH (fun i => f (S i))); [intros; apply H; lia | lra | lia].
Qed.
Lemma rsum_pos n f i : (forall i, (i < n)%nat -> 0 <= f i) -> (i < n)%nat -> 0 < f i -> 0 < rsum n f.
Proof.
  intros H Hi P. destruct (Req_dec (rsum n f) 0) as [E|E]; [exfalso; pose proof (rsum_zero n f H E i Hi); lra|].
  pose proof (rsum_nonneg n f H). lra.
Qed.

(** ** the linear solver *)
Definition solves n (A : nat -> nat -> R) (b x : nat -> R) : Prop := forall i, (i < n)%nat -> rsum n (fun j => A i j * x j) = b i.
Lemma lin_solve_sound n : forall A b x, lin_solve n A b = Ok x -> solves n A b x.
Proof.
  induction n as [|n IH]; intros A b x H i Hi; [lia|]. cbn [lin_solve] in H.
  destruct (Reqb (A 0%nat 0%nat) 0) eqn:E; [discriminate H|]. apply Reqb_false in E.
  match type of H with (do y <- lin_solve n ?A' ?b'; _) = _ => destruct (lin_solve n A' b') as [y|e] eqn:Ey; [|discriminate H]; pose proof (IH _ _ _ Ey) as Sy end.
  cbn [rbind] in H. assert (HX : forall X (a b : X), Ok a = Ok b -> a = b) by (intros; congruence). apply HX in H. subst x. cbn [rsum].
  destruct i as [|i].
  - field. exact E.
  - specialize (Sy i ltac:(lia)). cbn beta in Sy.
    assert (Q : rsum n (fun j => (A (S i) (S j) - A (S i) 0%nat * A 0%nat (S j) / A 0%nat 0%nat) * y j) = rsum n (fun j => A (S i) (S j) * y j) - A (S i) 0%nat / A 0%nat 0%nat * rsum n (fun j => A 0%nat (S j) * y j)).
    { rewrite <- rsum_scal, <- rsum_minus. apply rsum_ext. intros. field. exact E. }
    rewrite Q in Sy. apply Rplus_eq_reg_r with (- (A (S i) 0%nat * b 0%nat / A 0%nat 0%nat)).
    replace (b (S i) + - (A (S i) 0%nat * b 0%nat / A 0%nat 0%nat)) with (b (S i) - A (S i) 0%nat * b 0%nat / A 0%nat 0%nat) by ring. rewrite <- Sy. field. exact E.
Qed.
Definition quad n (A : nat -> nat -> R) (x : nat -> R) : R := rsum n (fun i => x i * rsum n (fun j => A i j * x j)).
Definition pos_def n A : Prop := forall x, (exists i, (i < n)%nat /\ x i <> 0) -> 0 < quad n A x.
Lemma pd_pivot n A : pos_def (S n) A -> 0 < A 0%nat 0%nat.
Proof.
  intros H. specialize (H (fun i => if Nat.eqb i 0 then 1 else 0)). unfold quad in H. cbn [rsum Nat.eqb] in H.
  rewrite (rsum_ext n (fun j => _ * 0) (fun _ => 0)) in H by (intros; ring). rewrite (rsum_ext n (fun i => 0 * _) (fun _ => 0)) in H by (intros; ring). rewrite !rsum_0 in H.
  assert (0 < 1 * (A 0%nat 0%nat * 1 + 0) + 0) by (apply H; exists 0%nat; split; [lia | simpl; lra]). lra.
Qed.
Lemma pd_schur n A : pos_def (S n) A -> pos_def n (fun i j => A (S i) (S j) - A (S i) 0%nat * A 0%nat (S j) / A 0%nat 0%nat).
Proof.
  intros H y (i & Hi & Hy). pose proof (pd_pivot n A H) as P. set (a := A 0%nat 0%nat) in *. set (r := rsum n (fun j => A 0%nat (S j) * y j)).
  set (x := fun i => match i with 0%nat => - (r / a) | S i => y i end).
  assert (Q : 0 < quad (S n) A x) by (apply H; exists (S i); split; [lia | exact Hy]).
  replace (quad n _ y) with (quad (S n) A x); [exact Q|]. unfold quad. cbn [rsum x]. fold a. fold r.
  replace (a * - (r / a) + r) with 0 by (field; lra). rewrite Rmult_0_r, Rplus_0_l. apply rsum_ext. intros k Hk. f_equal.
  rewrite (rsum_ext n (fun j => (A (S k) (S j) - A (S k) 0%nat * A 0%nat (S j) / a) * y j) (fun j => A (S k) (S j) * y j - (A (S k) 0%nat / a) * (A 0%nat (S j) * y j))) by (intros; field; lra).
  rewrite rsum_minus, rsum_scal. fold r. field. lra.
Qed.
Lemma lin_solve_complete n : forall A b, pos_def n A -> exists x, lin_solve n A b = Ok x.
Proof.
  induction n as [|n IH]; intros A b H; [eexists; reflexivity|]. cbn [lin_solve]. pose proof (pd_pivot n A H) as P.
  rewrite (proj2 (Reqb_false (A 0%nat 0%nat) 0)) by lra. destruct (IH _ (fun i => b (S i) - A (S i) 0%nat * b 0%nat / A 0%nat 0%nat) (pd_schur n A H)) as (y & ->). eexists. reflexivity.
Qed.
Lemma pd_unique n A b x y : pos_def n A -> solves n A b x -> solves n A b y -> forall i, (i < n)%nat -> x i = y i.
Proof.
  intros H Hx Hy. set (z := fun i => x i - y i).
  assert (Z : quad n A z = 0).
  { unfold quad. rewrite (rsum_ext n _ (fun _ => 0)); [apply rsum_0|]. intros i Hi. unfold z.
    rewrite (rsum_ext n _ (fun j => A i j * x j - A i j * y j)) by (intros; ring). rewrite rsum_minus, Hx, Hy by exact Hi. ring. }
  intros i Hi. destruct (Req_dec (x i) (y i)) as [|N]; [assumption|]. exfalso.
  assert (0 < quad n A z) by (apply H; exists i; split; [exact Hi | unfold z; lra]). lra.
Qed.

(** ** the damped least-squares system *)
Section DLS.
Variable m n : nat.
Variable J : nat -> nat -> R.
Variable d : nat -> R.
Variable K : R.
Hypothesis HK : 0 < K.
Definition gram i k := rsum n (fun j => J i j * J k j) + (if Nat.eqb i k then K else 0).
Definition jv (q : nat -> R) i := rsum n (fun j => J i j * q j).
Definition jt (x : nat -> R) j := rsum m (fun i => J i j * x i).
Definition dot k (x y : nat -> R) := rsum k (fun i => x i * y i).
Lemma gram_vec x i : (i < m)%nat -> rsum m (fun k => gram i k * x k) = jv (jt x) i + K * x i.
Proof.
  intros Hi. unfold gram, jv, jt.
  rewrite (rsum_ext m _ (fun k => rsum n (fun j => J i j * J k j * x k) + (if Nat.eqb i k then K * x k else 0))).
  2: { intros k _. rewrite Rmult_plus_distr_r, <- rsum_scal_r. f_equal. destruct (Nat.eqb i k); ring. }
  rewrite rsum_plus, rsum_delta', rsum_swap by exact Hi. f_equal. apply rsum_ext. intros j _.
  rewrite <- rsum_scal. apply rsum_ext. intros. ring.
Qed.
Lemma adjoint x q : dot m x (jv q) = dot n (jt x) q.
Proof.
  unfold dot, jv, jt. rewrite (rsum_ext m _ (fun i => rsum n (fun j => x i * (J i j * q j)))) by (intros; rewrite rsum_scal; reflexivity).
  rewrite rsum_swap. apply rsum_ext. intros j _. rewrite <- rsum_scal_r. apply rsum_ext. intros. ring.
Qed.
Lemma dot_self_nonneg k x : 0 <= dot k x x.
Proof. apply rsum_nonneg. intros. apply Rle_0_sqr. Qed.
Lemma dot_self_zero k x : dot k x x = 0 -> forall i, (i < k)%nat -> x i = 0.
Proof.
  intros H i Hi. assert (E : x i * x i = 0) by (apply (rsum_zero k (fun i => x i * x i)); [intros; apply Rle_0_sqr | exact H | exact Hi]).
  apply Rmult_integral in E. tauto.
Qed.
Lemma dot_comm k x y : dot k x y = dot k y x.
Proof. apply rsum_ext. intros. ring. Qed.
Lemma gram_pd : pos_def m gram.
Proof.
  intros x (i & Hi & Hx). unfold quad. rewrite (rsum_ext m _ (fun i => x i * jv (jt x) i + K * (x i * x i))) by (intros k Hk; rewrite gram_vec by exact Hk; ring).
  rewrite rsum_plus, rsum_scal. fold (dot m x (jv (jt x))). rewrite adjoint. pose proof (dot_self_nonneg n (jt x)).
  assert (0 < rsum m (fun i => x i * x i)) by (apply (rsum_pos m (fun i => x i * x i) i); [intros; apply Rle_0_sqr | exact Hi | apply Rlt_0_sqr in Hx; exact Hx]).
  assert (0 < K * rsum m (fun i => x i * x i)) by (apply Rmult_lt_0_compat; assumption). lra.
Qed.

Definition obj (q : nat -> R) : R := rsum m (fun i => (jv q i - d i) ^ 2) + K * rsum n (fun j => q j ^ 2).
Variable x : nat -> R.
Hypothesis Hx : solves m gram d x.
Lemma residual i : (i < m)%nat -> jv (jt x) i - d i = - (K * x i).
Proof. intros Hi. rewrite <- (Hx i Hi), gram_vec by exact Hi. ring. Qed.
Lemma obj_expand z : obj z = obj (jt x) + dot m (jv (fun j => z j - jt x j)) (jv (fun j => z j - jt x j)) + K * dot n (fun j => z j - jt x j) (fun j => z j - jt x j).
Proof.
  set (h := fun j => z j - jt x j).
  assert (E : forall i, (i < m)%nat -> jv z i - d i = jv h i - K * x i).
  { intros i Hi. assert (jv z i = jv h i + jv (jt x) i).
    { unfold jv at 1 2 3. rewrite <- rsum_plus. apply rsum_ext. intros. unfold h. ring. }
    pose proof (residual i Hi). lra. }
  assert (A : dot m x (jv h) = dot n (jt x) h) by apply adjoint.
  assert (B : rsum m (fun i => (jv z i - d i) ^ 2) = dot m (jv h) (jv h) - 2 * K * dot m x (jv h) + K * K * dot m x x).
  { rewrite (rsum_ext m _ (fun i => jv h i * jv h i - (2 * K) * (x i * jv h i) + (K * K) * (x i * x i))) by (intros i Hi; rewrite E by exact Hi; ring).
    rewrite rsum_plus, rsum_minus, !rsum_scal. reflexivity. }
  assert (B0 : rsum m (fun i => (jv (jt x) i - d i) ^ 2) = K * K * dot m x x).
  { rewrite (rsum_ext m _ (fun i => (K * K) * (x i * x i))) by (intros i Hi; rewrite residual by exact Hi; ring). rewrite rsum_scal. reflexivity. }
  assert (C : rsum n (fun j => z j ^ 2) = dot n h h + 2 * dot n (jt x) h + dot n (jt x) (jt x)).
  { rewrite (rsum_ext n _ (fun j => h j * h j + 2 * (jt x j * h j) + jt x j * jt x j)) by (intros; unfold h; ring). rewrite !rsum_plus, rsum_scal. reflexivity. }
  assert (C0 : rsum n (fun j => jt x j ^ 2) = dot n (jt x) (jt x)) by (apply rsum_ext; intros; ring).
  unfold obj. rewrite B, B0, C, C0, A. ring.
Qed.
Lemma obj_min z : obj (jt x) <= obj z.
Proof.
  rewrite (obj_expand z). pose proof (dot_self_nonneg m (jv (fun j => z j - jt x j))). pose proof (dot_self_nonneg n (fun j => z j - jt x j)).
  assert (0 <= K * dot n (fun j => z j - jt x j) (fun j => z j - jt x j)) by (apply Rmult_le_pos; lra). lra.
Qed.
Lemma obj_unique z : obj z <= obj (jt x) -> forall j, (j < n)%nat -> z j = jt x j.
Proof.
  intros H j Hj. rewrite (obj_expand z) in H. pose proof (dot_self_nonneg m (jv (fun j => z j - jt x j))). pose proof (dot_self_nonneg n (fun j => z j - jt x j)).
  assert (0 <= K * dot n (fun j => z j - jt x j) (fun j => z j - jt x j)) by (apply Rmult_le_pos; lra).
  assert (E : K * dot n (fun j => z j - jt x j) (fun j => z j - jt x j) = 0) by lra. apply Rmult_integral in E. destruct E as [E|E]; [lra|].
  pose proof (dot_self_zero _ _ E j Hj) as Z. cbn beta in Z. lra.
Qed.
Lemma step_descends : dot m d (jv (jt x)) = dot m (jv (jt x)) (jv (jt x)) + K * dot n (jt x) (jt x).
Proof.
  rewrite <- (adjoint x (jt x)). unfold dot. rewrite <- rsum_scal, <- rsum_plus. apply rsum_ext. intros i Hi. pose proof (residual i Hi). nra.
Qed.
Lemma step_zero_iff : (forall j, (j < n)%nat -> jt x j = 0) <-> (forall j, (j < n)%nat -> jt d j = 0).
Proof.
  split; intros H.
  - intros j Hj. unfold jt. rewrite (rsum_ext m _ (fun i => K * (J i j * x i))).
    + rewrite rsum_scal. fold (jt x j). rewrite H by exact Hj. ring.
    + intros i Hi. assert (Z : jv (jt x) i = 0) by (unfold jv; rewrite (rsum_ext n _ (fun _ => 0)); [apply rsum_0 | intros k Hk; rewrite H by exact Hk; ring]).
      pose proof (residual i Hi). replace (d i) with (K * x i) by lra. ring.
  - assert (Q : dot n (jt x) (jt x) = 0).
    { assert (E : dot m d (jv (jt x)) = 0) by (rewrite adjoint; unfold dot; rewrite (rsum_ext n _ (fun _ => 0)); [apply rsum_0 | intros k Hk; rewrite H by exact Hk; ring]).
      rewrite step_descends in E. pose proof (dot_self_nonneg m (jv (jt x))). pose proof (dot_self_nonneg n (jt x)).
      assert (0 <= K * dot n (jt x) (jt x)) by (apply Rmult_le_pos; lra). assert (E2 : K * dot n (jt x) (jt x) = 0) by lra. apply Rmult_integral in E2. lra. }
    exact (dot_self_zero _ _ Q).
Qed.
End DLS.

(** ** the singular value form *)
Definition is_svd (m n : nat) (A : nat -> nat -> R) (U : nat -> nat -> R) (D : nat -> R) (Vh : nat -> nat -> R) : Prop :=
  (forall k l, (k < m)%nat -> (l < m)%nat -> rsum m (fun i => U i k * U i l) = if Nat.eqb k l then 1 else 0) /\
  (forall i l, (i < m)%nat -> (l < m)%nat -> rsum m (fun k => U i k * U l k) = if Nat.eqb i l then 1 else 0) /\
  (forall k l, (k < n)%nat -> (l < n)%nat -> rsum n (fun j => Vh k j * Vh l j) = if Nat.eqb k l then 1 else 0) /\
  (forall i j, (i < m)%nat -> (j < n)%nat -> A i j = rsum (Nat.min m n) (fun k => U i k * D k * Vh k j)).
Section SVD.
Variable m n : nat.
Variable J U Vh : nat -> nat -> R.
Variable D d : nat -> R.
Variable K : R.
Hypothesis HK : 0 < K.
Hypothesis Hmn : (m <= n)%nat.
Hypothesis HS : is_svd m n J U D Vh.
Let y k := rsum m (fun i => U i k * d i) / (D k ^ 2 + K).
Let x i := rsum m (fun k => U i k * y k).
Lemma den_pos k : 0 < D k ^ 2 + K.
Proof. pose proof (pow2_ge_0 (D k)). lra. Qed.
Lemma svd_jt j : (j < n)%nat -> jt m J x j = rsum m (fun k => Vh k j * D k * y k).
Proof.
  intros Hj. destruct HS as (H1 & _ & _ & H4). rewrite Nat.min_l in H4 by exact Hmn. unfold jt.
  rewrite (rsum_ext m _ (fun i => rsum m (fun k => U i k * x i * (D k * Vh k j)))).
  2: { intros i Hi. rewrite H4, <- rsum_scal_r by assumption. apply rsum_ext. intros. ring. }
  rewrite rsum_swap. apply rsum_ext. intros k Hk. rewrite rsum_scal_r.
  assert (E : rsum m (fun i => U i k * x i) = y k).
  { unfold x. rewrite (rsum_ext m _ (fun i => rsum m (fun l => U i k * U i l * y l))) by (intros; rewrite <- rsum_scal; apply rsum_ext; intros; ring).
    rewrite rsum_swap. rewrite (rsum_ext m _ (fun l => if Nat.eqb k l then y l else 0)).
    - apply rsum_delta'. exact Hk.
    - intros l Hl. rewrite rsum_scal_r, H1 by assumption. destruct (Nat.eqb k l); ring. }
  rewrite E. ring.
Qed.
Lemma svd_solves : solves m (gram n J K) d x.
Proof.
  intros i Hi. rewrite gram_vec by exact Hi. destruct HS as (_ & H2 & H3 & H4). rewrite Nat.min_l in H4 by exact Hmn.
  assert (E : jv n J (jt m J x) i = rsum m (fun k => U i k * (D k ^ 2 * y k))).
  { unfold jv. rewrite (rsum_ext n _ (fun j => rsum m (fun k => U i k * D k * rsum m (fun l => Vh k j * Vh l j * (D l * y l))))).
    - rewrite rsum_swap. apply rsum_ext. intros k Hk. rewrite rsum_scal, rsum_swap.
      rewrite (rsum_ext m _ (fun l => if Nat.eqb k l then D l * y l else 0)).
      + rewrite rsum_delta' by exact Hk. ring.
      + intros l Hl. rewrite rsum_scal_r, H3 by lia. destruct (Nat.eqb k l); ring.
    - intros j Hj. rewrite svd_jt, H4, <- rsum_scal_r by assumption. apply rsum_ext. intros k Hk. rewrite <- !rsum_scal. apply rsum_ext. intros. ring. }
  rewrite E. unfold x. rewrite <- rsum_scal, <- rsum_plus.
  rewrite (rsum_ext m _ (fun k => rsum m (fun l => U i k * U l k * d l))).
  - rewrite rsum_swap. rewrite (rsum_ext m _ (fun l => if Nat.eqb i l then d l else 0)).
    + apply rsum_delta'. exact Hi.
    + intros l Hl. rewrite rsum_scal_r, H2 by assumption. destruct (Nat.eqb i l); ring.
  - intros k Hk. rewrite (rsum_ext m (fun l => U i k * U l k * d l) (fun l => U i k * (U l k * d l))) by (intros; ring). rewrite rsum_scal. unfold y. pose proof (den_pos k).
    field. lra.
Qed.
Lemma svd_step j : (j < n)%nat ->
  rsum m (fun i => rsum m (fun l => rsum m (fun k => Vh k j * (if Nat.eqb k l then D k / (D k ^ 2 + K) else 0)) * U i l) * d i) = jt m J x j.
Proof.
  intros Hj. rewrite svd_jt by exact Hj.
  rewrite (rsum_ext m _ (fun i => rsum m (fun l => Vh l j * (D l / (D l ^ 2 + K)) * U i l * d i))).
  - rewrite rsum_swap. apply rsum_ext. intros l Hl. rewrite (rsum_ext m _ (fun i => (Vh l j * (D l / (D l ^ 2 + K))) * (U i l * d i))) by (intros; ring).
    rewrite rsum_scal. unfold y. pose proof (den_pos l). field. lra.
  - intros i Hi. rewrite <- rsum_scal_r. apply rsum_ext. intros l Hl.
    rewrite (rsum_ext m _ (fun k => if Nat.eqb k l then Vh k j * (D k / (D k ^ 2 + K)) else 0)) by (intros k _; destruct (Nat.eqb k l); ring).
    rewrite rsum_delta by exact Hl. ring.
Qed.
End SVD.

(** ** the kernels *)
Lemma damping_pos reg lm dxw : 0 < reg -> 0 <= lm -> 0 < damping reg lm dxw.
Proof.
  intros H1 H2. unfold damping. destruct (Rltb 0 lm); [|lra]. assert (0 <= rsum 6 (fun i => dxw i * dxw i)) by (apply rsum_nonneg; intros; apply Rle_0_sqr).
  assert (0 <= lm * rsum 6 (fun i => dxw i * dxw i)) by (apply Rmult_le_pos; assumption). lra.
Qed.
Lemma ik_step_eq J dx reg lm w : 0 < reg -> 0 <= lm ->
  exists x, solves 6 (gram (length J) (jac_w w J) (damping reg lm (weigh w dx))) (weigh w dx) x /\
    ik_step J dx reg lm w = Ok (map (jt 6 (jac_w w J) x) (seq 0 (length J))).
Proof.
  intros H1 H2. pose proof (damping_pos reg lm (weigh w dx) H1 H2) as HK.
  destruct (lin_solve_complete 6 (gram (length J) (jac_w w J) (damping reg lm (weigh w dx))) (weigh w dx) (gram_pd 6 _ _ _ HK)) as (x & Hx).
  exists x. split; [apply lin_solve_sound; exact Hx|]. unfold ik_step.
  change (lin_solve 6 _ (weigh w dx)) with (lin_solve 6 (gram (length J) (jac_w w J) (damping reg lm (weigh w dx))) (weigh w dx)). rewrite Hx. reflexivity.
Qed.
Lemma ik_step_svd_eq svd J dx reg lm w U D Vh : 0 < reg -> 0 <= lm -> (6 <= length J)%nat ->
  svd (jac_w w J) (length J) = (U, D, Vh) -> is_svd 6 (length J) (jac_w w J) U D Vh ->
  ik_step_svd svd J dx reg lm w = ik_step J dx reg lm w.
Proof.
  intros H1 H2 Hn E HS. destruct (ik_step_eq J dx reg lm w H1 H2) as (x & Hx & ->). unfold ik_step_svd. rewrite E, Nat.min_l by exact Hn. cbn [Nat.eqb]. f_equal.
  apply map_ext_in. intros j Hj. apply in_seq in Hj. pose proof (damping_pos reg lm (weigh w dx) H1 H2) as HK. rewrite (svd_step 6 _ _ _ _ _ (weigh w dx) _ HK Hn HS) by lia.
  pose proof (svd_solves 6 _ _ _ _ _ (weigh w dx) _ HK Hn HS) as Hx'. cbv beta in Hx'.
  match type of Hx' with solves _ _ _ ?x' => pose proof (pd_unique 6 _ (weigh w dx) x' x (gram_pd 6 (length J) (jac_w w J) _ HK) Hx' Hx) as Q end. cbv beta in Q.
  unfold jt. apply rsum_ext. intros i Hi. f_equal. exact (Q i Hi).
Qed.
