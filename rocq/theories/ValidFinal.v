(** Last steps of the proofs quoted in Properties_Valid.v. *)
From Coq Require Import Reals Lra Lia Bool Arith List Psatz.
From Verif Require Import Prelude ExtF Lin ValidModel SpecValid ValidProofs.
Import ListNotations.
Local Open Scope R_scope.

Lemma fadd_fin_inv a b r : fadd a b = Fin r -> exists x y, a = Fin x /\ b = Fin y /\ r = x + y.
Proof. destruct a as [x| | |], b as [y| | |]; cbn; intros H; try discriminate H. exists x, y. repeat split. congruence. Qed.
Lemma sq_fin_inv a r : fmul a a = Fin r -> exists x, a = Fin x.
Proof. destruct a as [x| | |]; cbn; intros H; try discriminate H. eauto. Qed.
Lemma gram_row M i r : gram M i i = Fin r -> exists x y z, M i 0%nat = Fin x /\ M i 1%nat = Fin y /\ M i 2%nat = Fin z.
Proof.
  unfold gram. intros H. apply fadd_fin_inv in H as (a & b & H & Hz & _). apply fadd_fin_inv in H as (a' & b' & Hx & Hy & _).
  apply sq_fin_inv in Hx as (x & Hx). apply sq_fin_inv in Hy as (y & Hy). apply sq_fin_inv in Hz as (z & Hz). eauto 7.
Qed.
Lemma gram_fin M A i j : holds M A -> (i < 3)%nat -> (j < 3)%nat -> gram M i j = Fin (ent A i 0 * ent A j 0 + ent A i 1 * ent A j 1 + ent A i 2 * ent A j 2).
Proof. intros H Hi Hj. unfold gram. rewrite !H by lia. reflexivity. Qed.
Lemma fdet_fin M A : holds M A -> fdet M = Fin (det3 A).
Proof. intros H. unfold fdet. cbv zeta. rewrite !H by lia. cbn [fsub fmul fadd fopp ent]. reflexivity. Qed.
Definition row (A : M3) (i : nat) : V3 := mkV3 (ent A i 0) (ent A i 1) (ent A i 2).
Lemma orthogonal_iff tol M A : holds M A -> orthogonal tol M = true <->
  forall i j, (i < 3)%nat -> (j < 3)%nat -> Rabs (vdot (row A i) (row A j) - (if Nat.eqb i j then 1 else 0)) <= tol + rtol5 * (if Nat.eqb i j then 1 else 0).
Proof.
  intros HM. unfold orthogonal. rewrite forallb_forall.
  assert (In3 : forall i, In i three <-> (i < 3)%nat) by (intros i; unfold three; cbn; lia).
  assert (AB : forall i j, Rabs (if Nat.eqb i j then 1 else 0) = if Nat.eqb i j then 1 else 0) by (intros i j; destruct (Nat.eqb i j); [apply Rabs_R1 | apply Rabs_R0]).
  split.
  - intros H i j Hi Hj. specialize (H i (proj2 (In3 i) Hi)). rewrite forallb_forall in H. specialize (H j (proj2 (In3 j) Hj)). rewrite (gram_fin M A i j HM Hi Hj) in H.
    apply isclose_iff in H as (x & E & B). rewrite AB in B. apply abs_le. unfold vdot, row. cbn [vx vy vz]. replace x with (ent A i 0 * ent A j 0 + ent A i 1 * ent A j 1 + ent A i 2 * ent A j 2) in B by congruence. exact B.
  - intros H i Hi. apply forallb_forall. intros j Hj. apply In3 in Hi. apply In3 in Hj. rewrite (gram_fin M A i j HM Hi Hj). apply isclose_iff. eexists. split; [reflexivity|]. rewrite AB. apply abs_le. apply (H i j Hi Hj).
Qed.
Lemma distortion_iff M A : holds M A -> no_distortion M = true <-> Rabs (det3 A - 1) <= atol8 + rtol5.
Proof.
  intros H. unfold no_distortion. rewrite (fdet_fin M A H), isclose_iff, abs_le, Rabs_R1, Rmult_1_r. split; [intros (x & E & B); replace (det3 A) with x by congruence; exact B | intros B; eexists; split; [reflexivity | exact B]].
Qed.
Lemma orthogonal_holds tol M : orthogonal tol M = true -> exists A, holds M A.
Proof.
  intros H. unfold orthogonal in H. rewrite forallb_forall in H. assert (G : forall i, In i three -> exists r, gram M i i = Fin r).
  { intros i Hi. specialize (H i Hi). rewrite forallb_forall in H. specialize (H i Hi). apply isclose_iff in H as (x & E & _). exists x. exact E. }
  destruct (G 0%nat) as (? & G0); [cbn; auto|]. destruct (G 1%nat) as (? & G1); [cbn; auto|]. destruct (G 2%nat) as (? & G2); [cbn; auto|].
  apply gram_row in G0 as (a & b & c & E1 & E2 & E3). apply gram_row in G1 as (d & e & f & E4 & E5 & E6). apply gram_row in G2 as (g & h & k & E7 & E8 & E9).
  exists (mkM3 a b c d e f g h k). intros i j Hi Hj. destruct (lt3 i Hi) as [-> | [-> | ->]]; destruct (lt3 j Hj) as [-> | [-> | ->]]; cbn [ent m00 m01 m02 m10 m11 m12 m20 m21 m22]; assumption.
Qed.
Lemma mrows_row A : mrows (row A 0) (row A 1) (row A 2) = A. Proof. destruct A; reflexivity. Qed.
Lemma rot_rows Q i j : is_rot Q -> (i < 3)%nat -> (j < 3)%nat -> vdot (row Q i) (row Q j) = if Nat.eqb i j then 1 else 0.
Proof.
  intros [H _] Hi Hj. assert (K : ent (m3mul Q (m3tr Q)) i j = ent I3 i j) by (rewrite H; reflexivity). clear H.
  destruct (lt3 i Hi) as [-> | [-> | ->]]; destruct (lt3 j Hj) as [-> | [-> | ->]]; exact K.
Qed.
Lemma rot_entry Q i j : is_rot Q -> (i < 3)%nat -> (j < 3)%nat -> Rabs (ent Q i j) <= 1.
Proof.
  intros H Hi Hj. assert (U : unit3 (row Q i)) by (unfold unit3, vnorm2; rewrite (rot_rows Q i i H Hi Hi), Nat.eqb_refl; reflexivity).
  destruct (unit_entries _ U) as (X & Y & Z). unfold row in *. cbn [vx vy vz] in *. destruct (lt3 j Hj) as [-> | [-> | ->]]; assumption.
Qed.
Definition m3sub (A B : M3) : M3 := m3add A (m3opp B).
Lemma ent_sub A B i j : (i < 3)%nat -> (j < 3)%nat -> ent (m3sub A B) i j = ent A i j - ent B i j.
Proof. intros Hi Hj. destruct (lt3 i Hi) as [-> | [-> | ->]]; destruct (lt3 j Hj) as [-> | [-> | ->]]; cbn; ring. Qed.
Lemma add_sub A Q : A = m3add Q (m3sub A Q).
Proof. unfold m3sub, m3add, m3opp. destruct A as [a b c d e f g h k]. cbn [m00 m01 m02 m10 m11 m12 m20 m21 m22]. apply mkM3_eq; ring. Qed.
(** first, second and third order of a determinant *)
Definition s33 (f : nat -> nat -> R) : R := f 0%nat 0%nat + f 0%nat 1%nat + f 0%nat 2%nat + (f 1%nat 0%nat + f 1%nat 1%nat + f 1%nat 2%nat) + (f 2%nat 0%nat + f 2%nat 1%nat + f 2%nat 2%nat).
Lemma det_expand Q D : det3 (m3add Q D) = det3 Q + s33 (fun i j => ent (adj3 Q) j i * ent D i j) + s33 (fun i j => ent Q i j * ent (adj3 D) j i) + det3 D.
Proof. unfold s33, det3, adj3, m3add. cbn [ent m00 m01 m02 m10 m11 m12 m20 m21 m22]. ring. Qed.
Lemma s33_abs f K : (forall i j, (i < 3)%nat -> (j < 3)%nat -> Rabs (f i j) <= K) -> Rabs (s33 f) <= 9 * K.
Proof.
  intros H. unfold s33. pose proof (H 0 0 ltac:(lia) ltac:(lia))%nat as A1. pose proof (H 0 1 ltac:(lia) ltac:(lia))%nat as A2. pose proof (H 0 2 ltac:(lia) ltac:(lia))%nat as A3.
  pose proof (H 1 0 ltac:(lia) ltac:(lia))%nat as A4. pose proof (H 1 1 ltac:(lia) ltac:(lia))%nat as A5. pose proof (H 1 2 ltac:(lia) ltac:(lia))%nat as A6.
  pose proof (H 2 0 ltac:(lia) ltac:(lia))%nat as A7. pose proof (H 2 1 ltac:(lia) ltac:(lia))%nat as A8. pose proof (H 2 2 ltac:(lia) ltac:(lia))%nat as A9.
  rewrite abs_le in *. lra.
Qed.
Lemma prod2 a b c d k : Rabs a <= k -> Rabs b <= k -> Rabs c <= k -> Rabs d <= k -> Rabs (a * b - c * d) <= 2 * (k * k).
Proof. intros A B C D. pose proof (prod_abs a b k k A B) as H1. pose proof (prod_abs c d k k C D) as H2. apply abs_le in H1. apply abs_le in H2. apply abs_le. lra. Qed.
Lemma adj_abs D k : (forall i j, (i < 3)%nat -> (j < 3)%nat -> Rabs (ent D i j) <= k) -> forall i j, (i < 3)%nat -> (j < 3)%nat -> Rabs (ent (adj3 D) i j) <= 2 * (k * k).
Proof.
  intros H i j Hi Hj. assert (E : forall i j, (i < 3)%nat -> (j < 3)%nat -> Rabs (ent D i j) <= k) by exact H.
  pose proof (H 0 0 ltac:(lia) ltac:(lia))%nat as A1. pose proof (H 0 1 ltac:(lia) ltac:(lia))%nat as A2. pose proof (H 0 2 ltac:(lia) ltac:(lia))%nat as A3.
  pose proof (H 1 0 ltac:(lia) ltac:(lia))%nat as A4. pose proof (H 1 1 ltac:(lia) ltac:(lia))%nat as A5. pose proof (H 1 2 ltac:(lia) ltac:(lia))%nat as A6.
  pose proof (H 2 0 ltac:(lia) ltac:(lia))%nat as A7. pose proof (H 2 1 ltac:(lia) ltac:(lia))%nat as A8. pose proof (H 2 2 ltac:(lia) ltac:(lia))%nat as A9.
  cbn [ent] in *. destruct (lt3 i Hi) as [-> | [-> | ->]]; destruct (lt3 j Hj) as [-> | [-> | ->]]; unfold adj3; cbn [ent m00 m01 m02 m10 m11 m12 m20 m21 m22]; apply prod2; assumption.
Qed.
Lemma det_abs D k : (forall i j, (i < 3)%nat -> (j < 3)%nat -> Rabs (ent D i j) <= k) -> Rabs (det3 D) <= 6 * (k * k * k).
Proof.
  intros H. pose proof (adj_abs D k H) as A. unfold det3.
  pose proof (prod_abs _ _ _ _ (H 0 0 ltac:(lia) ltac:(lia))%nat (A 0 0 ltac:(lia) ltac:(lia))%nat) as P1.
  pose proof (prod_abs _ _ _ _ (H 0 1 ltac:(lia) ltac:(lia))%nat (A 1 0 ltac:(lia) ltac:(lia))%nat) as P2.
  pose proof (prod_abs _ _ _ _ (H 0 2 ltac:(lia) ltac:(lia))%nat (A 2 0 ltac:(lia) ltac:(lia))%nat) as P3.
  unfold adj3 in P1, P2, P3. cbn [ent m00 m01 m02 m10 m11 m12 m20 m21 m22] in P1, P2, P3. apply abs_le in P1. apply abs_le in P2. apply abs_le in P3. apply abs_le. nra.
Qed.
Lemma row_abs Q i : is_rot Q -> (i < 3)%nat -> Rabs (ent Q i 0) + Rabs (ent Q i 1) + Rabs (ent Q i 2) <= 7 / 4.
Proof.
  intros H Hi. pose proof (rot_rows Q i i H Hi Hi) as U. rewrite Nat.eqb_refl in U. unfold vdot, row in U. cbn [vx vy vz] in U.
  assert (E : forall x, x * x = Rabs x * Rabs x) by (intros x; rewrite <- Rabs_mult; symmetry; apply Rabs_pos_eq, Rle_0_sqr).
  rewrite (E (ent Q i 0)), (E (ent Q i 1)), (E (ent Q i 2)) in U. pose proof (Rabs_pos (ent Q i 0)) as A. pose proof (Rabs_pos (ent Q i 1)) as B. pose proof (Rabs_pos (ent Q i 2)) as C.
  set (x := Rabs (ent Q i 0)) in *. set (y := Rabs (ent Q i 1)) in *. set (z := Rabs (ent Q i 2)) in *. clearbody x y z.
  pose proof (Rle_0_sqr (x - y)) as P1. pose proof (Rle_0_sqr (y - z)) as P2. pose proof (Rle_0_sqr (x - z)) as P3. unfold Rsqr in *. apply Rsqr_incr_0_var; [unfold Rsqr; lra | lra].
Qed.
Lemma row_sum Q i (v : nat -> R) K : is_rot Q -> (i < 3)%nat -> 0 <= K -> (forall k, (k < 3)%nat -> Rabs (v k) <= K) ->
  Rabs (ent Q i 0 * v 0%nat + ent Q i 1 * v 1%nat + ent Q i 2 * v 2%nat) <= 7 / 4 * K.
Proof.
  intros H Hi HK Hv. pose proof (row_abs Q i H Hi) as S. apply Rle_trans with ((Rabs (ent Q i 0) + Rabs (ent Q i 1) + Rabs (ent Q i 2)) * K).
  - eapply Rle_trans; [apply Rabs_triang|]. eapply Rle_trans; [apply Rplus_le_compat_r, Rabs_triang|]. rewrite !Rabs_mult, !Rmult_plus_distr_r.
    repeat apply Rplus_le_compat; (apply Rmult_le_compat_l; [apply Rabs_pos | apply Hv; lia]).
  - apply Rmult_le_compat_r; assumption.
Qed.
Lemma s33_rows Q (f : nat -> nat -> R) K : is_rot Q -> 0 <= K -> (forall i j, (i < 3)%nat -> (j < 3)%nat -> Rabs (f i j) <= K) -> Rabs (s33 (fun i j => ent Q i j * f i j)) <= 21 / 4 * K.
Proof.
  intros H HK Hf. unfold s33. pose proof (row_sum Q 0 (f 0%nat) K H ltac:(lia) HK (fun k => Hf 0%nat k ltac:(lia))) as A. pose proof (row_sum Q 1 (f 1%nat) K H ltac:(lia) HK (fun k => Hf 1%nat k ltac:(lia))) as B.
  pose proof (row_sum Q 2 (f 2%nat) K H ltac:(lia) HK (fun k => Hf 2%nat k ltac:(lia))) as C. apply abs_le in A. apply abs_le in B. apply abs_le in C. apply abs_le. lra.
Qed.
Lemma near_passes tol d M A Q : 0 <= d <= 19 / 10000000 -> 4 * d <= tol -> holds M A -> is_rot Q -> within d A Q -> orthogonal tol M = true /\ no_distortion M = true.
Proof.
  intros Hd Ht HM HQ W. set (D := m3sub A Q). assert (DE : forall i j, (i < 3)%nat -> (j < 3)%nat -> Rabs (ent D i j) <= d) by (intros i j Hi Hj; unfold D; rewrite ent_sub by assumption; apply W; assumption).
  assert (R5 : 0 < rtol5) by (unfold rtol5; lra). split.
  - apply (orthogonal_iff tol M A HM). intros i j Hi Hj. rewrite <- (rot_rows Q i j HQ Hi Hj).
    assert (E : vdot (row A i) (row A j) - vdot (row Q i) (row Q j) =
      (ent Q i 0 * ent D j 0 + ent Q i 1 * ent D j 1 + ent Q i 2 * ent D j 2) + (ent D i 0 * ent Q j 0 + ent D i 1 * ent Q j 1 + ent D i 2 * ent Q j 2) + (ent D i 0 * ent D j 0 + ent D i 1 * ent D j 1 + ent D i 2 * ent D j 2)).
    { unfold D. rewrite !ent_sub by lia. unfold vdot, row. cbn [vx vy vz]. ring. }
    rewrite E. apply Rle_trans with tol; [|rewrite (rot_rows Q i j HQ Hi Hj); destruct (Nat.eqb i j); lra].
    pose proof (row_sum Q i (ent D j) d HQ Hi (proj1 Hd) (fun k Hk => DE j k Hj Hk)) as B1. pose proof (row_sum Q j (ent D i) d HQ Hj (proj1 Hd) (fun k Hk => DE i k Hi Hk)) as B2.
    assert (B3 : Rabs (ent D i 0 * ent D j 0 + ent D i 1 * ent D j 1 + ent D i 2 * ent D j 2) <= 3 * (d * d)).
    { assert (P : forall k, (k < 3)%nat -> Rabs (ent D i k * ent D j k) <= d * d) by (intros k Hk; apply prod_abs; apply DE; assumption).
      pose proof (P 0%nat ltac:(lia)) as A1. pose proof (P 1%nat ltac:(lia)) as A2. pose proof (P 2%nat ltac:(lia)) as A3. rewrite abs_le in *. lra. }
    assert (dd : d * d <= / 1000 * d) by nra. apply abs_le in B1. apply abs_le in B2. apply abs_le in B3. apply abs_le. lra.
  - apply (distortion_iff M A HM). assert (E : A = m3add Q D) by (apply add_sub).
    rewrite E, det_expand, (proj2 HQ). rewrite <- (is_rot_adj Q HQ).
    assert (B1 : Rabs (s33 (fun i j => ent (m3tr Q) j i * ent D i j)) <= 21 / 4 * d).
    { assert (X : s33 (fun i j => ent (m3tr Q) j i * ent D i j) = s33 (fun i j => ent Q i j * ent D i j)) by reflexivity. rewrite X. apply s33_rows; [exact HQ | lra | exact DE]. }
    assert (B2 : Rabs (s33 (fun i j => ent Q i j * ent (adj3 D) j i)) <= 21 / 4 * (2 * (d * d))).
    { apply s33_rows; [exact HQ | nra |]. intros i j Hi Hj. apply adj_abs; assumption. }
    pose proof (det_abs D d DE) as B3. assert (dd : d * d <= 19 / 10000000 * d) by nra. assert (d3 : d * d * d <= 19 / 10000000 * (d * d)) by (assert (0 <= d * d) by nra; nra).
    apply abs_le in B1. apply abs_le in B2. apply abs_le in B3. apply abs_le. unfold atol8, rtol5. lra.
Qed.
Definition fm (A : M3) : FM := fun i j => Fin (ent A i j).
Lemma fm_holds A : holds (fm A) A. Proof. intros i j _ _. reflexivity. Qed.

Lemma l85_accepted_near : forall tol Rs, 0 <= tol <= / 1000 -> check_warns false tol Rs = false ->
  forall M, In M Rs -> exists A Q, holds M A /\ is_rot Q /\ within (3 * tol + / 100000) A Q.
Proof.
  intros tol Rs T H M HM. unfold check_warns in H. apply negb_false_iff, andb_true_iff in H as [H1 H2]. rewrite forallb_forall in H1, H2. specialize (H1 M HM). specialize (H2 M HM).
  destruct (orthogonal_holds tol M H1) as (A & HA). pose proof (proj1 (orthogonal_iff tol M A HA) H1) as O. pose proof (proj1 (distortion_iff M A HA) H2) as Dt.
  assert (Dg : forall i, (i < 3)%nat -> Rabs (vnorm2 (row A i) - 1) <= tol + / 100000) by (intros i Hi; specialize (O i i Hi Hi); rewrite Nat.eqb_refl in O; unfold rtol5 in O; unfold vnorm2; lra).
  assert (Od : forall i j, (i < 3)%nat -> (j < 3)%nat -> i <> j -> Rabs (vdot (row A i) (row A j)) <= tol).
  { intros i j Hi Hj N. specialize (O i j Hi Hj). rewrite (proj2 (Nat.eqb_neq i j) N), Rminus_0_r, Rmult_0_r, Rplus_0_r in O. exact O. }
  destruct (gram_schmidt (row A 0) (row A 1) (row A 2) tol T) as (Q & RQ & W); try (apply Dg; lia); try (apply Od; lia).
  - rewrite mrows_row. apply abs_le in Dt. unfold atol8, rtol5 in Dt. lra.
  - exists A, Q. rewrite mrows_row in W. repeat split; try assumption; apply RQ.
Qed.

Lemma l85_near_accepted : forall compiling tol d Rs, 0 <= d <= 19 / 10000000 -> 4 * d <= tol ->
  (forall M, In M Rs -> exists A Q, holds M A /\ is_rot Q /\ within d A Q) -> check_warns compiling tol Rs = false.
Proof.
  intros compiling tol d Rs Hd Ht H. unfold check_warns. destruct compiling; [reflexivity|]. apply negb_false_iff, andb_true_iff.
  split; apply forallb_forall; intros M HM; destruct (H M HM) as (A & Q & HA & HQ & W); apply (near_passes tol d M A Q Hd Ht HA HQ W).
Qed.

Lemma l85_rotations_accepted : forall compiling tol Qs, 0 <= tol -> Forall is_rot Qs -> check_warns compiling tol (map fm Qs) = false.
Proof.
  intros compiling tol Qs Ht H. apply (l85_near_accepted compiling tol 0); [lra | lra|]. intros M HM. apply in_map_iff in HM as (Q & <- & HQ). rewrite Forall_forall in H.
  exists Q, Q. split; [apply fm_holds|]. split; [apply H, HQ|]. intros i j _ _. unfold Rminus. rewrite Rplus_opp_r, Rabs_R0. lra.
Qed.

Lemma l85_tolerance_zero_refuted : exists A, ~ is_rot A /\ check_warns false 0 [fm A] = false.
Proof.
  exists (mkM3 (1 + / 1000000) 0 0 0 1 0 0 0 1). split.
  - intros [H _]. assert (E : m00 (m3mul (mkM3 (1 + / 1000000) 0 0 0 1 0 0 0 1) (m3tr (mkM3 (1 + / 1000000) 0 0 0 1 0 0 0 1))) = 1) by (rewrite H; reflexivity).
    cbn [m3mul m3tr m00 m01 m02 m10 m11 m12 m20 m21 m22] in E. lra.
  - unfold check_warns. apply negb_false_iff, andb_true_iff. cbn [forallb]. rewrite !andb_true_r. split.
    + apply (orthogonal_iff 0 _ _ (fm_holds _)). intros i j Hi Hj. unfold rtol5. apply abs_le. destruct (lt3 i Hi) as [-> | [-> | ->]]; destruct (lt3 j Hj) as [-> | [-> | ->]]; cbn [Nat.eqb]; unfold vdot, row; cbn [ent vx vy vz m00 m01 m02 m10 m11 m12 m20 m21 m22]; lra.
    + apply (distortion_iff _ _ (fm_holds _)). apply abs_le. unfold det3, atol8, rtol5. cbn [m00 m01 m02 m10 m11 m12 m20 m21 m22]. lra.
Qed.

Lemma l85_one_bad : forall tol Rs M, 0 <= tol <= / 1000 -> In M Rs -> (forall A Q, holds M A -> is_rot Q -> ~ within (3 * tol + / 100000) A Q) ->
  check_warns false tol Rs = true /\ check_warns true tol Rs = false.
Proof.
  intros tol Rs M T HM N. split; [|reflexivity]. destruct (check_warns false tol Rs) eqn:E; [reflexivity|]. exfalso.
  destruct (l85_accepted_near tol Rs T E M HM) as (A & Q & H1 & H2 & H3). exact (N A Q H1 H2 H3).
Qed.
