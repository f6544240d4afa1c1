(** The solver loop on problems whose errors go down. *)
From Coq Require Import Reals Lra String Bool Arith Lia List ZArith.
From Verif Require Import Prelude ExtF IKModel IKProofs IKMore.
Import ListNotations.
Local Open Scope nat_scope.
Local Open Scope list_scope.

Section Run.
Variable kern : nat -> list F -> list F * list F.
Variable k : ik.
Variable np : nat.
Variable Q0 : nat -> list F.
Variables pt rt : R.
Notation nr := (ik_nr k).
Hypothesis (Hnr : 0 < nr) (Hpt : ik_ptol k = Fin pt) (Hrt : ik_rtol k = Fin rt) (Hrt0 : (0 < rt)%R) (Hpt0 : (0 < pt)%R).
Hypothesis Hratio : forall x, ik_noimp k = StopRatio x -> (x < 1)%R.
Variable p : nat.
Hypothesis Hp : p < np.
Variable E : nat -> nat -> R.
Hypothesis HE : forall r j, r < nr -> pos_err (Dj kern k np Q0 p r j) = Fin (E r j) /\ rot_err (Dj kern k np Q0 p r j) = Fin 0 /\ ej kern k np Q0 p r j = Fin (E r j) /\ (0 <= E r j)%R /\
  ((0 < E r j)%R -> (E r (S j) < E r j)%R) /\ (E r j = 0%R -> E r (S j) = 0%R).

Lemma ok_small r j : r < nr -> ok (ik_ptol k) (ik_rtol k) (Dj kern k np Q0 p r j) = true <-> (E r j < pt)%R.
Proof.
  intros Hr. destruct (HE r j Hr) as (H1 & H2 & _). unfold ok, pok, rok. rewrite H1, H2, Hpt, Hrt. cbn [flt]. rewrite andb_true_iff, !Rltb_true. split; [tauto | auto].
Qed.
Lemma E_down r i j : r < nr -> i <= j -> (E r j <= E r i)%R.
Proof.
  intros Hr H. induction H as [|j H IH]; [lra|]. destruct (HE r j Hr) as (_ & _ & _ & P & D & Z). destruct (Rle_lt_or_eq_dec 0 (E r j) P) as [L|L]; [specialize (D L); lra|].
  rewrite (Z (eq_sym L)). rewrite <- L in IH. exact IH.
Qed.
Lemma falls_record r j : r < nr -> (0 < E r j)%R -> record (ej kern k np Q0 p r) (S j).
Proof.
  intros Hr L. split; [destruct (HE r 0 Hr) as (_ & _ & -> & _); reflexivity|]. intros l Hl _.
  destruct (HE r (S j) Hr) as (_ & _ & -> & _). destruct (HE r l Hr) as (_ & _ & -> & _). cbn [flt]. apply Rltb_true. destruct (HE r j Hr) as (_ & _ & _ & _ & D & _). specialize (D L).
  pose proof (E_down r l j Hr ltac:(lia)). lra.
Qed.
Lemma keep_false c : 0 < length c -> length c = nr -> keep_problem k c = false -> exists r, r < nr /\ nth r c true = false.
Proof.
  intros L0 L H. assert (K : (exists b, In b c /\ b = false) -> exists r, r < nr /\ nth r c true = false).
  { intros (b & Hb & ->). destruct (In_nth c false true Hb) as (r & Hr & Hn). exists r. split; [lia | exact Hn]. }
  assert (A : existsb negb c = false -> forall b, In b c -> b = true).
  { intros Hx b Hb. destruct b; [reflexivity|]. assert (existsb negb c = true) by (apply existsb_exists; exists false; auto). congruence. }
  apply K. destruct (existsb negb c) eqn:Ec; [apply existsb_exists in Ec; destruct Ec as (b & Hb & Hn); exists b; split; [exact Hb | destruct b; [discriminate | reflexivity]]|].
  exfalso. specialize (A eq_refl). unfold keep_problem in H. destruct (ik_noimp k) as [| | |x] eqn:En; [discriminate H| | |].
  - assert (forallb (fun b => b) c = true) by (apply forallb_forall; exact A). congruence.
  - destruct c as [|b c]; [simpl in L0; lia|]. assert (existsb (fun b => b) (b :: c) = true) by (apply existsb_exists; exists b; split; [left; reflexivity | apply A; left; reflexivity]). congruence.
  - assert (F : filter (fun b : bool => b) c = c) by (clear - A; induction c as [|b c IH]; [reflexivity|]; cbn [filter]; rewrite (A b (or_introl eq_refl)), IH; [reflexivity | intros; apply A; right; assumption]).
    rewrite F, L in H. replace (INR nr / INR nr)%R with 1%R in H by (field; apply not_0_INR; lia). specialize (Hratio x eq_refl). apply Rltb_true in Hratio. congruence.
Qed.

(** a problem is only given up once one of its retries has converged *)
Lemma dropped_converged m : f_R (iter kern k np m (finit k Q0)) p = false -> exists j r, j < m /\ r < nr /\ (E r j < pt)%R.
Proof.
  induction m as [|m IH]; intros H; [discriminate H|].
  destruct (f_R (iter kern k np m (finit k Q0)) p) eqn:Em; [|destruct (IH eq_refl) as (j & r & Hj & Hr & He); exists j, r; auto].
  destruct (existsb (fun r => ok (ik_ptol k) (ik_rtol k) (Dj kern k np Q0 p r m)) (seq 0 nr)) eqn:Ex.
  - apply existsb_exists in Ex. destruct Ex as (r & Hr & Ho). apply in_seq in Hr. exists m, r. split; [lia|]. split; [lia|]. apply ok_small; [lia | exact Ho].
  - assert (Hno : forall r, r < nr -> ok (ik_ptol k) (ik_rtol k) (Dj kern k np Q0 p r m) = false).
    { intros r Hr. apply not_true_iff_false. intros Ho. assert (existsb (fun r => ok (ik_ptol k) (ik_rtol k) (Dj kern k np Q0 p r m)) (seq 0 nr) = true); [|congruence].
      apply existsb_exists. exists r. split; [apply in_seq; lia | exact Ho]. }
    destruct (keep_problem k (vec nr (fun r => cntj kern k np Q0 p r m <=? ik_patience k))) eqn:Ek.
    + exfalso. apply not_true_iff_false in H. apply H. apply iter_R. split; [exact Em|]. split; [intros _; exact Hno | intros _ _; exact Ek].
    + destruct m as [|m].
      { exfalso. apply not_true_iff_false in H. apply H. apply iter_R. split; [exact Em|]. split; [intros _; exact Hno | intros _ Q; lia]. }
      destruct (keep_false _ ltac:(rewrite vec_len; exact Hnr) ltac:(apply vec_len) Ek) as (r & Hr & Hc).
      erewrite nth_error_nth in Hc by (apply vec_nth; exact Hr). apply Nat.leb_gt in Hc.
      assert (C0 : 0 < cntj kern k np Q0 p r (S m)) by lia. apply cntj_spec in C0. destruct C0 as [_ C0].
      assert (Z : E r m = 0%R).
      { destruct (HE r m Hr) as (_ & _ & _ & P & _). destruct (Rle_lt_or_eq_dec 0 (E r m) P) as [L|L]; [|auto]. exfalso. apply (C0 (S m)); [lia|]. apply falls_record; assumption. }
      exists m, r. split; [lia|]. split; [exact Hr|]. rewrite Z. exact Hpt0.
Qed.
Lemma R_kept m : ik_stop_any k = false -> ik_noimp k = NoStop -> f_R (iter kern k np m (finit k Q0)) p = true.
Proof. intros H1 H2. induction m as [|m IH]; [reflexivity|]. apply iter_R. split; [exact IH|]. split; [rewrite H1; discriminate | intros H; contradiction]. Qed.

Lemma run_converges t N : t < nr -> (E t N < pt)%R -> N <= ik_max k -> ik_enforce k && has_finite_limits k = false ->
  (forall f, ik_ls k = Some f -> forall q dq dx rem, length dq = length q -> length dx = length q -> length (f q dq dx rem) = length q) ->
  exists sol, solve_from kern k np (vec (np * nr) Q0) = Ok sol /\ nth_error (s_any sol) p = Some true /\
    (ik_stop_any k = false -> ik_noimp k = NoStop -> exists e, entry_at sol p t = Some e /\ e_conv e = true).
Proof.
  intros Ht HN Hmax Hen Hls. destruct (solve_eq kern k np Hnr Hls Q0) as (m & Hm & H1 & H2 & Es). rewrite Hen in Es. eexists. split; [exact Es|].
  assert (C : forall j r, r < nr -> j <= m -> (E r j < pt)%R -> exists e, entry_at (final kern k np (iter kern k np m (finit k Q0))) p r = Some e /\ e_conv e = true).
  { intros j r Hr Hj He. eexists. split; [apply final_entry; assumption|]. rewrite (proj2 (proj2 (hist_flags _ _ _ _))). apply orb_true_iff. right.
    apply existsb_exists. exists (pairj kern k np Q0 p r j). split; [apply in_map; apply in_seq; lia|]. apply ok_small; assumption. }
  assert (ON : N <= m -> exists e, entry_at (final kern k np (iter kern k np m (finit k Q0))) p t = Some e /\ e_conv e = true) by (intros L; apply (C N t Ht L HN)).
  assert (DR : m < N -> f_R (iter kern k np m (finit k Q0)) p = false).
  { intros L. specialize (H2 ltac:(lia)). apply not_true_iff_false. intros Hx. apply not_true_iff_false in H2. apply H2. apply existsb_exists. exists p. split; [apply in_seq; lia | exact Hx]. }
  split.
  - destruct (final_any kern k np Q0 m p Hp) as (b & Hb & Hiff). rewrite Hb. f_equal. apply Hiff. destruct (le_lt_dec N m) as [L|L].
    + destruct (ON L) as (e & He). exists t, e. exact He.
    + destruct (dropped_converged m (DR L)) as (j & r & Hj & Hr & He). destruct (C j r Hr ltac:(lia) He) as (e & H). exists r, e. exact H.
  - intros S1 S2. apply ON. destruct (le_lt_dec N m) as [L|L]; [exact L|]. specialize (DR L). rewrite R_kept in DR by assumption. discriminate DR.
Qed.
End Run.
