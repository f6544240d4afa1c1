(** Invariants of the inverse kinematics loop. *)
From Coq Require Import Reals Lra Bool Arith Lia List ZArith.
From Verif Require Import Prelude ExtF IKModel IKProofs.
Import ListNotations.
Local Open Scope nat_scope.
Local Open Scope list_scope.

(** ** One entry under a history of (configuration, error) pairs *)
Section Hist.
Variables pt rt : F.
Definition hist (o : entry) (l : list (list F * list F)) : entry := fold_left (fun o qe => upd_entry pt rt o (fst qe) (snd qe)) l o.
Lemma hist_app o a b : hist o (a ++ b) = hist (hist o a) b.
Proof. apply fold_left_app. Qed.

Lemma hist_flags l : forall o, e_cpos (hist o l) = e_cpos o || existsb (fun qe => pok pt (snd qe)) l /\
  e_crot (hist o l) = e_crot o || existsb (fun qe => rok rt (snd qe)) l /\
  e_conv (hist o l) = e_conv o || existsb (fun qe => ok pt rt (snd qe)) l.
Proof.
  induction l as [|x l IH]; intros o; cbn [hist fold_left existsb]; [rewrite !orb_false_r; auto|].
  destruct (IH (upd_entry pt rt o (fst x) (snd x))) as (A & B & C). unfold hist in *. rewrite A, B, C. unfold upd_entry.
  cbn [e_cpos e_crot e_conv]. rewrite !orb_assoc. auto.
Qed.
Lemma hist_frozen l : forall o, e_conv o = true -> e_q (hist o l) = e_q o /\ e_pos (hist o l) = e_pos o /\ e_rot (hist o l) = e_rot o /\ e_conv (hist o l) = true.
Proof.
  induction l as [|x l IH]; intros o H; [auto|]. cbn [hist fold_left].
  destruct (IH (upd_entry pt rt o (fst x) (snd x))) as (A & B & C & D); [unfold upd_entry; cbn [e_conv]; rewrite H; reflexivity|].
  unfold hist in *. rewrite A, B, C, D. unfold upd_entry. cbn [e_q e_pos e_rot]. rewrite H. auto.
Qed.
(** the first pair within both tolerances, or else the last pair *)
Lemma hist_values l : forall o, e_conv o = false -> l <> [] ->
  exists a qe b, l = a ++ qe :: b /\ (forall x, In x a -> ok pt rt (snd x) = false) /\ (ok pt rt (snd qe) = true \/ b = []) /\
    e_q (hist o l) = fst qe /\ e_pos (hist o l) = pos_err (snd qe) /\ e_rot (hist o l) = rot_err (snd qe) /\ e_conv (hist o l) = ok pt rt (snd qe).
Proof.
  induction l as [|x l IH]; intros o H N; [contradiction|]. cbn [hist fold_left].
  set (o' := upd_entry pt rt o (fst x) (snd x)). assert (Ho : e_conv o' = ok pt rt (snd x)) by (unfold o', upd_entry; cbn [e_conv]; rewrite H; reflexivity).
  assert (Q : e_q o' = fst x /\ e_pos o' = pos_err (snd x) /\ e_rot o' = rot_err (snd x)) by (unfold o', upd_entry; cbn [e_q e_pos e_rot]; rewrite H; auto).
  destruct (ok pt rt (snd x)) eqn:E.
  - exists [], x, l. destruct (hist_frozen l o' Ho) as (A & B & C & D). destruct Q as (Q1 & Q2 & Q3). unfold hist in *. rewrite A, B, C, D, E, Q1, Q2, Q3.
    repeat split; auto. intros y [].
  - destruct l as [|y l].
    + exists [], x, []. destruct Q as (Q1 & Q2 & Q3). cbn [fold_left]. rewrite Ho, E, Q1, Q2, Q3. repeat split; auto. intros y [].
    + destruct (IH o' Ho ltac:(discriminate)) as (a & qe & b & E1 & E2 & E3 & V). exists (x :: a), qe, b. rewrite E1. split; [reflexivity|].
      split; [intros z [<-|Hz]; auto|]. split; [exact E3|]. rewrite <- E1. exact V.
Qed.
End Hist.

(** ** Any sequence of updates *)

(** [sol.update(q, err, use_keep_mask=b)] once for each element of the history *)
Fixpoint run_updates (s : iksol) (h : list (list (list F) * list (list F) * bool)) : res iksol :=
  match h with [] => Ok s | (q, e, b) :: h => do s <- sol_update s q e b; run_updates s h end.
(** the entry of problem [p] and retry [r] *)
Definition entry_at (s : iksol) (p r : nat) : option entry := match nth_error (s_entries s) p with Some row => nth_error row r | None => None end.

Lemma entry_mk it dof np nr pt rt E Rm A p r : p < np -> r < nr -> entry_at (mk_sol it dof np nr pt rt E Rm A) p r = Some (E p r).
Proof. intros Hp Hr. unfold entry_at. cbn [mk_sol s_entries]. destruct (tab_nth np nr E p r Hp Hr) as (row & -> & H). exact H. Qed.

Definition rowp (nr p r : nat) (x : list (list F) * list (list F) * bool) : list F * list F :=
  (nth (p * nr + r) (fst (fst x)) [], nth (p * nr + r) (snd (fst x)) []).
Definition any_ok (pt rt : F) (nr p : nat) (x : list (list F) * list (list F) * bool) : bool := existsb (ok pt rt) (vec nr (fun r => snd (rowp nr p r x))).

Lemma run_updates_eq dof np nr pt rt (Hnr : 0 < nr) h : forall it E Rm A,
  (forall q e b, In (q, e, b) h -> length q = np * nr /\ length e = np * nr) ->
  run_updates (mk_sol it dof np nr pt rt E Rm A) h = Ok (mk_sol it dof np nr pt rt (fun p r => hist pt rt (E p r) (map (rowp nr p r) h))
    (fun p => Rm p && forallb (fun x => negb (snd x && any_ok pt rt nr p x)) h) (fun p => A p || existsb (any_ok pt rt nr p) h)).
Proof.
  induction h as [|[[q e] b] h IH]; intros it E Rm A H.
  - cbn. unfold mk_sol. do 2 f_equal; apply vec_ext; intros; [rewrite andb_true_r | rewrite orb_false_r]; reflexivity.
  - destruct (H q e b (or_introl eq_refl)) as [Lq Le]. cbn [run_updates].
    assert (Vq : vec (np * nr) (fun i => nth i q []) = q) by (rewrite <- Lq; symmetry; apply vec_of).
    assert (Ve : vec (np * nr) (fun i => nth i e []) = e) by (rewrite <- Le; symmetry; apply vec_of).
    pose proof (sol_update_eq it dof np nr pt rt E Rm A (fun i => nth i q []) (fun i => nth i e []) b Hnr) as S. rewrite Vq, Ve in S. rewrite S. cbn [rbind].
    rewrite IH by (intros; apply H with (b := b0); right; assumption). unfold mk_sol. do 2 f_equal.
    + apply vec_ext. intros p _. cbn [forallb snd]. destruct b; cbn [andb negb]; [rewrite <- andb_assoc|]; reflexivity.
    + apply vec_ext. intros p _. cbn [existsb]. rewrite orb_assoc. reflexivity.
Qed.

(** ** Solve *)
Section Run.
Variable kern : nat -> list F -> list F * list F.
Variable k : ik.
Variable np : nat.
Notation nr := (ik_nr k).
Notation dof := (ik_dof k).
Notation pt := (ik_ptol k).
Notation rt := (ik_rtol k).
Notation iter := (iter kern k np).
Variable Q0 : nat -> list F.
(** row [i] at the start of iteration [j] *)
Definition Qj (j i : nat) : list F := f_q (iter j (finit k Q0)) i.
(** error of problem [p], retry [r] in iteration [j] *)
Definition Dj (p r j : nat) : list F := snd (kern p (Qj j (p * nr + r))).
Definition pairj (p r j : nat) : list F * list F := (Qj j (p * nr + r), Dj p r j).

Lemma iter_it m : f_it (iter m (finit k Q0)) = m.
Proof. induction m as [|m IH]; [reflexivity|]. cbn [IKProofs.iter fbody f_it]. rewrite IH. reflexivity. Qed.
Lemma iter_E m p r : f_E (iter m (finit k Q0)) p r = hist pt rt (blank_entry dof) (map (pairj p r) (seq 0 m)).
Proof.
  induction m as [|m IH]; [reflexivity|]. rewrite seq_S, map_app, hist_app, <- IH. reflexivity.
Qed.
Lemma conv_p_true Q p : conv_p kern k Q p = true <-> exists r, r < nr /\ ok pt rt (dxr kern k Q p r) = true.
Proof. apply existsb_vec. Qed.
Lemma iter_A m p : f_A (iter m (finit k Q0)) p = true <-> exists r, r < nr /\ e_conv (f_E (iter m (finit k Q0)) p r) = true.
Proof.
  induction m as [|m IH].
  - cbn. split; [discriminate | intros (r & _ & H); discriminate].
  - cbn [IKProofs.iter fbody f_A f_E]. rewrite orb_true_iff, conv_p_true, IH. unfold upd_entry. cbn [e_conv]. split.
    + intros [(r & H1 & H2)|(r & H1 & H2)]; exists r; split; auto; apply orb_true_iff; auto.
    + intros (r & H1 & H2). apply orb_true_iff in H2. destruct H2; [left | right]; eauto.
Qed.

(** the entries and flags of the solution after the final check, before limit enforcement *)
Lemma final_entry m p r : p < np -> r < nr -> entry_at (final kern k np (iter m (finit k Q0))) p r = Some (hist pt rt (blank_entry dof) (map (pairj p r) (seq 0 (S m)))).
Proof.
  intros Hp Hr. unfold final. rewrite entry_mk by assumption. f_equal. rewrite iter_E, seq_S, map_app, hist_app. reflexivity.
Qed.
Lemma final_any m p : p < np -> exists b, nth_error (s_any (final kern k np (iter m (finit k Q0)))) p = Some b /\
  (b = true <-> exists r e, entry_at (final kern k np (iter m (finit k Q0))) p r = Some e /\ e_conv e = true).
Proof.
  intros Hp. unfold final. eexists. split; [cbn [mk_sol s_any]; apply vec_nth; exact Hp|].
  pose proof (iter_A (S m) p) as H. cbn [IKProofs.iter fbody f_A f_E] in H. rewrite H. split.
  - intros (r & H1 & H2). exists r. eexists. split; [apply entry_mk; assumption | exact H2].
  - intros (r & e & H1 & H2). unfold entry_at in H1. cbn [mk_sol s_entries] in H1. unfold tab in H1. rewrite vec_nth in H1 by exact Hp.
    destruct (lt_dec r nr) as [L|L]; [|rewrite vec_none in H1 by lia; discriminate]. rewrite vec_nth in H1 by exact L.
    assert (HX : forall X (a b : X), Some a = Some b -> a = b) by (intros; congruence). apply HX in H1. subst e. exists r. auto.
Qed.

(** *** What the stored values are *)
Lemma stored_consistent m p r : let e := hist pt rt (blank_entry dof) (map (pairj p r) (seq 0 (S m))) in
  exists j, j <= m /\ e_q e = Qj j (p * nr + r) /\ e_pos e = pos_err (Dj p r j) /\ e_rot e = rot_err (Dj p r j) /\ e_conv e = ok pt rt (Dj p r j) /\
    (forall i, i < j -> ok pt rt (Dj p r i) = false) /\ (ok pt rt (Dj p r j) = true \/ j = m).
Proof.
  intros e. destruct (hist_values pt rt (map (pairj p r) (seq 0 (S m))) (blank_entry dof) eq_refl) as (a & qe & b & E & H1 & H2 & V1 & V2 & V3 & V4).
  { rewrite seq_S_map. discriminate. }
  fold e in V1, V2, V3, V4.
  assert (Ej : qe = pairj p r (length a) /\ length a <= m).
  { assert (nth_error (map (pairj p r) (seq 0 (S m))) (length a) = Some qe) by (rewrite E; rewrite nth_error_app2, Nat.sub_diag by lia; reflexivity).
    assert (Hl : length a < S m).
    { apply (f_equal (@length _)) in E. rewrite map_length, seq_length, app_length in E. cbn [length] in E. lia. }
    change (map (pairj p r) (seq 0 (S m))) with (vec (S m) (pairj p r)) in H. rewrite vec_nth in H by exact Hl. split; [congruence | lia]. }
  destruct Ej as [Eq Hl]. exists (length a). rewrite V1, V2, V3, V4, Eq. cbn [pairj fst snd]. repeat split; auto.
  - intros i Hi. assert (nth_error (map (pairj p r) (seq 0 (S m))) i = Some (pairj p r i)) by (change (map (pairj p r) (seq 0 (S m))) with (vec (S m) (pairj p r)); apply vec_nth; lia).
    rewrite E, nth_error_app1 in H by lia. apply (H1 _ (nth_error_In _ _ H)).
  - destruct H2 as [H2|H2]; [left; rewrite Eq in H2; exact H2|]. right. subst b. apply (f_equal (@length _)) in E.
    rewrite map_length, seq_length, app_length in E. cbn [length] in E. lia.
Qed.

(** *** Remaining problems *)
Lemma iter_R_mono m p : f_R (iter (S m) (finit k Q0)) p = true -> f_R (iter m (finit k Q0)) p = true.
Proof.
  cbn [IKProofs.iter fbody f_R]. intros H. apply andb_prop in H. destruct H as [H _]. destruct (ik_stop_any k); [apply andb_prop in H; tauto | exact H].
Qed.

(** error and running minimum of the improvement test *)
Definition ej (p r j : nat) : F := fnorm (Dj p r j).
Fixpoint minj (p r j : nat) : F := match j with 0 => ej p r 0 | S j => if flt (ej p r (S j)) (minj p r j) then ej p r (S j) else minj p r j end.
Fixpoint cntj (p r j : nat) : nat := match j with 0 => 0 | S j => if flt (ej p r (S j)) (minj p r j) then 0 else S (cntj p r j) end.
Lemma iter_i m : ik_noimp k <> NoStop -> exists mn ct, f_i (iter (S m) (finit k Q0)) = Some (mn, ct) /\ forall p r, mn p r = minj p r m /\ ct p r = cntj p r m.
Proof.
  intros N. induction m as [|m (mn & ct & E & H)].
  - cbn [IKProofs.iter fbody f_i finit]. unfold imp1. cbn [f_i].
    destruct (ik_noimp k); [contradiction | | |]; (eexists; eexists; split; [reflexivity|]; intros; split; reflexivity).
  - cbn [IKProofs.iter]. unfold fbody at 1. cbn [f_i]. unfold imp1.
    change (f_i (fbody kern k np (iter m (finit k Q0)))) with (f_i (iter (S m) (finit k Q0))). rewrite E.
    destruct (ik_noimp k); [contradiction | | |]; (eexists; eexists; split; [reflexivity|]; intros p ri; destruct (H p ri) as [H1 H2];
      cbn [minj cntj]; unfold ej at 1 2 3, Dj, Qj; cbn [IKProofs.iter]; rewrite H1, H2; split; reflexivity).
Qed.
Lemma iter_R m p : f_R (iter (S m) (finit k Q0)) p = true <->
  f_R (iter m (finit k Q0)) p = true /\ (ik_stop_any k = true -> forall r, r < nr -> ok pt rt (Dj p r m) = false) /\
  (ik_noimp k <> NoStop -> 0 < m -> keep_problem k (vec nr (fun r => cntj p r m <=? ik_patience k)) = true).
Proof.
  assert (C : conv_p kern k (f_q (iter m (finit k Q0))) p = false <-> forall r, r < nr -> ok pt rt (Dj p r m) = false).
  { rewrite <- not_true_iff_false, conv_p_true. split.
    - intros H r Hr. apply not_true_iff_false. intros Q. apply H. exists r. auto.
    - intros H (r & Hr & Q). change (dxr kern k (f_q (iter m (finit k Q0))) p r) with (Dj p r m) in Q. rewrite H in Q by exact Hr. discriminate. }
  assert (K : keep1 k (f_i (iter m (finit k Q0))) (f_i (iter (S m) (finit k Q0))) p = true <->
    (ik_noimp k <> NoStop -> 0 < m -> keep_problem k (vec nr (fun r => cntj p r m <=? ik_patience k)) = true)).
  { unfold keep1. destruct (ik_noimp k) eqn:En; [split; [intros _ Q; contradiction | reflexivity]| | |];
      (assert (N : ik_noimp k <> NoStop) by (rewrite En; discriminate); destruct m as [|m]; [split; [intros _ _ Q; lia | reflexivity]|];
       destruct (iter_i m N) as (mn & ct & -> & _); destruct (iter_i (S m) N) as (mn' & ct' & -> & H');
       assert (EE : vec nr (fun r => ct' p r <=? ik_patience k) = vec nr (fun r => cntj p r (S m) <=? ik_patience k))
         by (apply vec_ext; intros ri _; rewrite (proj2 (H' p ri)); reflexivity);
       rewrite EE; split; [auto | intros Q; apply Q; [discriminate | lia]]). }
  rewrite <- K, <- C. cbn [IKProofs.iter fbody f_R f_i]. rewrite andb_true_iff.
  destruct (ik_stop_any k).
  - rewrite andb_true_iff, negb_true_iff. intuition.
  - intuition discriminate.
Qed.

(** *** Counter and records: the counter exceeds the patience exactly after patience + 1 iterations without a new strict minimum *)
Definition record (e : nat -> F) (i : nat) : Prop := isnan (e 0) = false /\ forall l, l < i -> isnan (e l) = false -> flt (e i) (e l) = true.
Lemma nan_flt_r a b : flt a b = true -> isnan a = false /\ isnan b = false.
Proof. destruct a, b; simpl; auto; discriminate. Qed.
Lemma flt_fle_trans a b c : flt a b = true -> fle b c = true -> flt a c = true.
Proof. destruct a, b, c; simpl; auto; try discriminate. rewrite Rltb_true, Rleb_true, Rltb_true. lra. Qed.
Lemma minj_spec p r j : (isnan (ej p r 0) = true -> isnan (minj p r j) = true) /\
  (isnan (ej p r 0) = false -> isnan (minj p r j) = false /\ (exists l, l <= j /\ minj p r j = ej p r l) /\ forall l, l <= j -> isnan (ej p r l) = false -> fle (minj p r j) (ej p r l) = true).
Proof.
  induction j as [|j [IH1 IH2]].
  - split; [auto|]. cbn [minj]. intros H. split; [exact H|]. split; [exists 0; auto|]. intros l Hl N. replace l with 0 by lia. apply fle_refl. destruct (ej p r 0); simpl in H; congruence.
  - cbn [minj]. split; intros H.
    + specialize (IH1 H). destruct (flt (ej p r (S j)) (minj p r j)) eqn:E; [|exact IH1]. apply nan_flt_r in E. destruct E; congruence.
    + destruct (IH2 H) as (N & (l0 & Hl0 & El0) & M). destruct (flt (ej p r (S j)) (minj p r j)) eqn:E.
      * destruct (nan_flt_r _ _ E) as [Na _]. split; [exact Na|]. split; [exists (S j); auto|]. intros l Hl Nl.
        destruct (Nat.eq_dec l (S j)) as [->|Hn]; [apply fle_refl; destruct (ej p r (S j)); simpl in Na; congruence|].
        apply flt_fle. apply flt_fle_trans with (minj p r j); [exact E|]. apply M; [lia | exact Nl].
      * split; [exact N|]. split; [exists l0; auto|]. intros l Hl Nl. destruct (Nat.eq_dec l (S j)) as [->|Hn]; [|apply M; [lia | exact Nl]].
        apply flt_not_fle; [| |exact E]; intros Q; rewrite Q in *; discriminate.
Qed.
Lemma record_step p r j : flt (ej p r (S j)) (minj p r j) = true <-> record (ej p r) (S j).
Proof.
  destruct (minj_spec p r j) as [S1 S2]. split.
  - intros H. destruct (nan_flt_r _ _ H) as [_ N]. assert (N0 : isnan (ej p r 0) = false) by (destruct (isnan (ej p r 0)) eqn:E; [rewrite S1 in N by reflexivity; discriminate | reflexivity]).
    split; [exact N0|]. intros l Hl Nl. destruct (S2 N0) as (_ & _ & M). apply flt_fle_trans with (minj p r j); [exact H|]. apply M; [lia | exact Nl].
  - intros [N0 H]. destruct (S2 N0) as (N & (l & Hl & El) & _). rewrite El in *. apply H; [lia | exact N].
Qed.
Lemma cntj_spec p r n : forall j, n < cntj p r j <-> n < j /\ forall i, j - n <= i <= j -> ~ record (ej p r) i.
Proof.
  induction n as [|n IHn]; intros j.
  - destruct j as [|j]; cbn [cntj]; [split; [lia | intros [H _]; lia]|]. rewrite Nat.sub_0_r. split.
    + intros H. split; [lia|]. intros i Hi Q. replace i with (S j) in Q by lia. apply record_step in Q. rewrite Q in H. lia.
    + intros [_ H]. destruct (flt (ej p r (S j)) (minj p r j)) eqn:E; [|lia]. apply record_step in E. exfalso. apply (H (S j)); [lia | exact E].
  - destruct j as [|j]; cbn [cntj]; [split; [lia | intros [H _]; lia]|].
    destruct (flt (ej p r (S j)) (minj p r j)) eqn:E.
    + split; [lia|]. intros [_ H]. apply record_step in E. exfalso. apply (H (S j)); [lia | exact E].
    + rewrite <- Nat.succ_lt_mono, IHn. replace (S j - S n) with (j - n) by lia. split.
      * intros [H1 H2]. split; [lia|]. intros i Hi. destruct (Nat.eq_dec i (S j)) as [->|Hne]; [|apply H2; lia].
        intros Q. apply record_step in Q. congruence.
      * intros [H1 H2]. split; [lia|]. intros i Hi. apply H2. lia.
Qed.
End Run.
