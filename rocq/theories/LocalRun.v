(** The solver loop when one row of a problem is on its way to the target. *)
From Coq Require Import Reals Lra String Bool Arith Lia List ZArith.
From Verif Require Import Prelude ExtF IKModel IKProofs IKMore.
Import ListNotations.
Local Open Scope nat_scope.
Local Open Scope list_scope.

Section Run.
Variable kern : nat -> list F -> list F * list F.
Variable k : ik.
Variable np : nat.
Variable Q0 : nat -> list F.
Notation nr := (ik_nr k).
Notation good p r j := (ok (ik_ptol k) (ik_rtol k) (Dj kern k np Q0 p r j) = true).
Hypothesis Hnr : 0 < nr.
Variables p t N : nat.
Hypothesis (Hp : p < np) (Ht : t < nr) (HN : good p t N) (Hmax : N <= ik_max k).
(** the early stopping rule does not give up on the row before it has converged *)
Hypothesis Hstop : ik_noimp k = NoStop \/
  ((forall m, ik_patience k < cntj kern k np Q0 p t m -> exists j, j <= m /\ good p t j) /\ (ik_noimp k = StopAny \/ (nr = 1 /\ forall x, ik_noimp k = StopRatio x -> (x < 1)%R))).

Lemma keep_row (c : nat -> bool) : ik_noimp k = StopAny \/ (nr = 1 /\ forall x, ik_noimp k = StopRatio x -> (x < 1)%R) -> c t = true -> keep_problem k (vec nr c) = true.
Proof.
  intros H C. assert (I : In true (vec nr c)) by (rewrite <- C; apply in_map; apply in_seq; lia). unfold keep_problem. destruct H as [->|[H1 H2]].
  - apply existsb_exists. exists true. auto.
  - assert (E : vec nr c = [true]) by (rewrite H1 in *; assert (t = 0) by lia; subst t; unfold vec; cbn [seq map]; rewrite C; reflexivity). rewrite E. destruct (ik_noimp k) as [| | |x]; try reflexivity.
    cbn [filter length]. rewrite H1. apply Rltb_true. specialize (H2 x eq_refl). simpl INR. lra.
Qed.
Lemma dropped m : f_R (iter kern k np m (finit k Q0)) p = false -> (ik_stop_any k = true /\ exists j r, j < m /\ r < nr /\ good p r j) \/ exists j, j < m /\ good p t j.
Proof.
  induction m as [|m IH]; intros H; [discriminate H|].
  destruct (f_R (iter kern k np m (finit k Q0)) p) eqn:Em.
  2:{ destruct (IH eq_refl) as [(H1 & j & r & Hj & H2)|(j & Hj & H2)]; [left; split; [exact H1|]; exists j, r; split; [lia | exact H2] | right; exists j; split; [lia | exact H2]]. }
  destruct (ik_stop_any k && existsb (fun r => ok (ik_ptol k) (ik_rtol k) (Dj kern k np Q0 p r m)) (seq 0 nr)) eqn:Ex.
  - apply andb_prop in Ex. destruct Ex as [Ea Ex]. apply existsb_exists in Ex. destruct Ex as (r & Hr & Ho). apply in_seq in Hr. left. split; [exact Ea|]. exists m, r. split; [lia|]. split; [lia | exact Ho].
  - assert (Hno : ik_stop_any k = true -> forall r, r < nr -> ok (ik_ptol k) (ik_rtol k) (Dj kern k np Q0 p r m) = false).
    { intros Ea r Hr. rewrite Ea in Ex. cbn [andb] in Ex. apply not_true_iff_false. intros Ho. apply not_true_iff_false in Ex. apply Ex. apply existsb_exists. exists r. split; [apply in_seq; lia | exact Ho]. }
    destruct Hstop as [Hn|[Hc Hk]].
    + exfalso. apply not_true_iff_false in H. apply H. apply iter_R. split; [exact Em|]. split; [exact Hno | intros Q; contradiction].
    + destruct (cntj kern k np Q0 p t m <=? ik_patience k) eqn:Ec.
      * exfalso. apply not_true_iff_false in H. apply H. apply iter_R. split; [exact Em|]. split; [exact Hno|]. intros _ _. apply keep_row; [exact Hk | exact Ec].
      * apply Nat.leb_gt in Ec. destruct (Hc m Ec) as (j & Hj & Ho). right. exists j. split; [lia | exact Ho].
Qed.
Lemma run_row : (forall f, ik_ls k = Some f -> forall q dq dx rem, length dq = length q -> length dx = length q -> length (f q dq dx rem) = length q) ->
  exists m, solve_from kern k np (vec (np * nr) Q0) =
    (if ik_enforce k && has_finite_limits k then enforce_limits kern k (final kern k np (iter kern k np m (finit k Q0))) else Ok (final kern k np (iter kern k np m (finit k Q0)))) /\
  (exists j r, j <= m /\ r < nr /\ good p r j) /\ (ik_stop_any k = false \/ nr = 1 -> exists j, j <= m /\ good p t j).
Proof.
  intros Hls. destruct (solve_eq kern k np Hnr Hls Q0) as (m & Hm & _ & H2 & Es). exists m. split; [exact Es|]. destruct (le_lt_dec N m) as [L|L].
  - split; [exists N, t; auto | intros _; exists N; auto].
  - specialize (H2 ltac:(lia)).
    assert (DR : f_R (iter kern k np m (finit k Q0)) p = false).
    { apply not_true_iff_false. intros Hx. apply not_true_iff_false in H2. apply H2. apply existsb_exists. exists p. split; [apply in_seq; lia | exact Hx]. }
    destruct (dropped m DR) as [(H1 & j & r & Hj & Hr & Ho)|(j & Hj & Ho)].
    + split; [exists j, r; split; [lia | auto]|]. intros [Q|Q]; [congruence|]. assert (r = t) by lia. subst r. exists j. split; [lia | exact Ho].
    + split; [exists j, t; split; [lia | auto] | intros _; exists j; split; [lia | exact Ho]].
Qed.
Lemma entry_conv m r j : r < nr -> j <= m -> good p r j -> exists e, entry_at (final kern k np (iter kern k np m (finit k Q0))) p r = Some e /\ e_conv e = true /\ exists l, e_q e = Qj kern k np Q0 l (p * nr + r).
Proof.
  intros Hr Hj He. eexists. split; [apply final_entry; assumption|]. split.
  - rewrite (proj2 (proj2 (hist_flags _ _ _ _))). apply orb_true_iff. right.
    apply existsb_exists. exists (pairj kern k np Q0 p r j). split; [apply in_map; apply in_seq; lia | exact He].
  - destruct (stored_consistent kern k np Q0 m p r) as (l & _ & Eq & _). exists l. exact Eq.
Qed.
(** without limits to enforce *)
Lemma run_plain : ik_enforce k && has_finite_limits k = false ->
  (forall f, ik_ls k = Some f -> forall q dq dx rem, length dq = length q -> length dx = length q -> length (f q dq dx rem) = length q) ->
  exists sol, solve_from kern k np (vec (np * nr) Q0) = Ok sol /\ nth_error (s_any sol) p = Some true /\
    (ik_stop_any k = false \/ nr = 1 -> exists e, entry_at sol p t = Some e /\ e_conv e = true /\ exists l, e_q e = Qj kern k np Q0 l (p * nr + t)).
Proof.
  intros He Hls. destruct (run_row Hls) as (m & Es & (j & r & Hj & Hr & Ho) & H2). rewrite He in Es. eexists. split; [exact Es|]. split.
  - destruct (final_any kern k np Q0 m p Hp) as (b & Hb & Hiff). rewrite Hb. f_equal. apply Hiff. destruct (entry_conv m r j Hr Hj Ho) as (e & E1 & E2 & _). exists r, e. auto.
  - intros H. destruct (H2 H) as (l & Hl & Hg). apply (entry_conv m t l Ht Hl Hg).
Qed.
(** with limits to enforce: the row goes on from where it first converged *)
Lemma run_enforced : ik_enforce k && has_finite_limits k = true ->
  (forall f, ik_ls k = Some f -> forall q dq dx rem, length dq = length q -> length dx = length q -> length (f q dq dx rem) = length q) ->
  ik_stop_any k = false \/ nr = 1 ->
  (forall j Q, good p t j -> Q (p * nr + t) = clamp_row (ik_low k) (ik_high k) (wrap_row k (Qj kern k np Q0 j (p * nr + t))) -> ok (ik_ptol k) (ik_rtol k) (snd (kern p (refs kern k (ik_refine k) Q (p * nr + t)))) = true) ->
  exists sol, solve_from kern k np (vec (np * nr) Q0) = Ok sol /\ nth_error (s_any sol) p = Some true /\ exists e, entry_at sol p t = Some e /\ e_conv e = true /\
    exists j Q, good p t j /\ Q (p * nr + t) = clamp_row (ik_low k) (ik_high k) (wrap_row k (Qj kern k np Q0 j (p * nr + t))) /\ e_q e = refs kern k (ik_refine k) Q (p * nr + t).
Proof.
  intros He Hls Hs Hen. destruct (run_row Hls) as (m & Es & _ & H2). rewrite He in Es. destruct (H2 Hs) as (l & Hl & Hg).
  unfold final in Es. rewrite enforce_eq in Es by exact Hnr. eexists. split; [exact Es|]. match type of Es with context [enf_q kern k ?X] => set (E := X) in * end.
  assert (EE : E p t = hist (ik_ptol k) (ik_rtol k) (blank_entry (ik_dof k)) (map (pairj kern k np Q0 p t) (seq 0 (S m)))).
  { unfold E. rewrite iter_E, seq_S, map_app, hist_app. reflexivity. }
  destruct (stored_consistent kern k np Q0 m p t) as (j & Hj & Eq & _ & _ & _ & Hfirst & Hor). rewrite <- EE in Eq.
  assert (Gj : good p t j).
  { destruct Hor as [Hor|Hor]; [exact Hor|]. subst j. destruct (Nat.eq_dec l m) as [->|Hlm]; [exact Hg|]. rewrite (Hfirst l) in Hg by lia. discriminate. }
  assert (D1 : (p * nr + t) / nr = p) by (rewrite Nat.div_add_l, (Nat.div_small t nr Ht) by lia; lia).
  assert (D2 : (p * nr + t) mod nr = t) by (rewrite Nat.add_comm, Nat.mod_add by lia; apply Nat.mod_small; exact Ht).
  assert (O : ok (ik_ptol k) (ik_rtol k) (snd (kern p (enf_q kern k E (p * nr + t)))) = true).
  { apply (Hen j _ Gj). cbn beta. rewrite D1, D2, Eq. reflexivity. }
  split.
  - cbn [mk_sol s_any]. rewrite vec_nth by exact Hp. f_equal. apply conv_p_true. exists t. split; [exact Ht|]. exact O.
  - eexists. split; [apply entry_mk; assumption|]. cbn [e_conv e_q]. split; [exact O|]. exists j. eexists. split; [exact Gj|]. split; [|reflexivity]. cbn beta. rewrite D1, D2, Eq. reflexivity.
Qed.
End Run.
