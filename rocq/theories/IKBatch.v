(** Runs of the inverse kinematics loop on a batch and on part of it. *)
From Coq Require Import Reals Lra Bool Arith Lia List ZArith.
From Verif Require Import Prelude ExtF IKModel IKProofs IKMore SpecBatch.
Import ListNotations.
Local Open Scope nat_scope.
Local Open Scope list_scope.

(** ** Without a line search every row moves by itself *)
Fixpoint turns {A} (n : nat) (f : A -> A) (x : A) : A := match n with 0 => x | S n => f (turns n f x) end.
Definition row_step (k : ik) (kp : list F -> list F * list F) (q : list F) : list F := clampq k (step_row (ik_lr k) q (fst (kp q))).
Lemma row_path kern k np Q0 : ik_ls k = None -> forall j i, Qj kern k np Q0 j i = turns j (row_step k (kern (i / ik_nr k))) (Q0 i).
Proof.
  intros L j. induction j as [|j IH]; intros i; [reflexivity|]. cbn [turns]. rewrite <- IH. unfold Qj. cbn [iter]. unfold fbody at 1. cbn [f_q]. unfold lrs. rewrite L. reflexivity.
Qed.
Lemma row_path_at kern k np Q0 : ik_ls k = None -> 0 < ik_nr k -> forall j p r, r < ik_nr k -> Qj kern k np Q0 j (p * ik_nr k + r) = turns j (row_step k (kern p)) (Q0 (p * ik_nr k + r)).
Proof. intros L N j p r Hr. rewrite (row_path kern k np Q0 L), (row_div k N) by exact Hr. reflexivity. Qed.

Section Two.
Variables (k : ik) (kern kern' : nat -> list F -> list F * list F) (np np' : nat) (Q Q' : nat -> list F) (p i : nat).
Hypothesis Hnr : 0 < ik_nr k.
Hypothesis L : ik_ls k = None.
Hypothesis HK : kern' i = kern p.
Hypothesis HQ : forall r, r < ik_nr k -> Q' (i * ik_nr k + r) = Q (p * ik_nr k + r).
Notation nr := (ik_nr k).
Lemma same_Q j r : r < nr -> Qj kern' k np' Q' j (i * nr + r) = Qj kern k np Q j (p * nr + r).
Proof. intros H. rewrite !row_path_at, HK, HQ by assumption. reflexivity. Qed.
Lemma same_D j r : r < nr -> Dj kern' k np' Q' i r j = Dj kern k np Q p r j.
Proof. intros H. unfold Dj. rewrite same_Q, HK by exact H. reflexivity. Qed.
Lemma same_min r j : r < nr -> minj kern' k np' Q' i r j = minj kern k np Q p r j.
Proof. intros H. induction j as [|j IH]; cbn [minj]; unfold ej; rewrite ?IH, !same_D by exact H; reflexivity. Qed.
Lemma same_cnt r j : r < nr -> cntj kern' k np' Q' i r j = cntj kern k np Q p r j.
Proof. intros H. induction j as [|j IH]; cbn [cntj]; [reflexivity|]. unfold ej. rewrite IH, !same_D, same_min by exact H. reflexivity. Qed.
Lemma same_R m : f_R (iter kern' k np' m (finit k Q')) i = f_R (iter kern k np m (finit k Q)) p.
Proof.
  induction m as [|m IH]; [reflexivity|]. apply eq_true_iff_eq. rewrite !iter_R, IH.
  assert (V : vec nr (fun r => cntj kern' k np' Q' i r m <=? ik_patience k) = vec nr (fun r => cntj kern k np Q p r m <=? ik_patience k)) by (apply vec_ext; intros r Hr; rewrite same_cnt by exact Hr; reflexivity).
  rewrite V. split; intros (A & B & C); (split; [exact A|]; split; [|exact C]); intros Sa r Hr; specialize (B Sa r Hr); rewrite same_D in * by exact Hr; exact B.
Qed.
Lemma same_hist m r : r < nr -> map (pairj kern' k np' Q' i r) (seq 0 m) = map (pairj kern k np Q p r) (seq 0 m).
Proof. intros H. apply map_ext. intros j. unfold pairj. rewrite same_Q, same_D by exact H. reflexivity. Qed.
Lemma same_E m r : r < nr -> f_E (iter kern' k np' m (finit k Q')) i r = f_E (iter kern k np m (finit k Q)) p r.
Proof. intros H. rewrite !iter_E, same_hist by exact H. reflexivity. Qed.
End Two.

(** the entry after a run of [m] iterations *)
Definition entry_after (k : ik) (kern : nat -> list F -> list F * list F) (np : nat) (Q : nat -> list F) (m p r : nat) : entry :=
  hist (ik_ptol k) (ik_rtol k) (blank_entry (ik_dof k)) (map (pairj kern k np Q p r) (seq 0 (S m))).
Lemma longer_kept k kern np Q m m' p r : m <= m' -> e_conv (entry_after k kern np Q m p r) = true ->
  let e := entry_after k kern np Q m p r in let e' := entry_after k kern np Q m' p r in e_q e' = e_q e /\ e_pos e' = e_pos e /\ e_rot e' = e_rot e /\ e_conv e' = true.
Proof.
  intros Hm C e e'. unfold e', entry_after. replace (S m') with (S m + (m' - m)) by lia. rewrite seq_app, map_app, hist_app. apply hist_frozen. exact C.
Qed.

(** refinement works row by row *)
Definition ref_row (k : ik) (kp : list F -> list F * list F) (q : list F) : list F := clamp_row (ik_low k) (ik_high k) (step_row (ik_lr k) q (fst (kp q))).
Lemma turns_S {A} n (f : A -> A) x : turns n f (f x) = f (turns n f x).
Proof. induction n as [|n IH]; [reflexivity|]. cbn [turns]. rewrite IH. reflexivity. Qed.
Lemma refs_row kern k n : forall Q i, refs kern k n Q i = turns n (ref_row k (kern (i / ik_nr k))) (Q i).
Proof. induction n as [|n IH]; intros Q i; [reflexivity|]. cbn [refs turns]. rewrite IH. unfold ref1. fold (ref_row k (kern (i / ik_nr k)) (Q i)). apply turns_S. Qed.
(** the entry that enforcement makes of an entry *)
Definition enforced (k : ik) (kp : list F -> list F * list F) (e : entry) : entry :=
  let q := turns (ik_refine k) (ref_row k kp) (clamp_row (ik_low k) (ik_high k) (wrap_row k (e_q e))) in
  let d := snd (kp q) in mkEntry q (pos_err d) (rot_err d) (pok (ik_ptol k) d) (rok (ik_rtol k) d) (ok (ik_ptol k) (ik_rtol k) d).
Definition result (k : ik) (kp : list F -> list F * list F) (e : entry) : entry := if ik_enforce k && has_finite_limits k then enforced k kp e else e.

Lemma solve_entries kern k np Q0 : 0 < ik_nr k -> ik_ls k = None -> exists m s, m <= ik_max k /\
  (forall j, j < m -> exists p, p < np /\ f_R (iter kern k np j (finit k Q0)) p = true) /\
  (m < ik_max k -> forall p, p < np -> f_R (iter kern k np m (finit k Q0)) p = false) /\
  solve_from kern k np (vec (np * ik_nr k) Q0) = Ok s /\ s_iter s = m /\
  (forall p r, p < np -> r < ik_nr k -> entry_at s p r = Some (result k (kern p) (entry_after k kern np Q0 m p r))) .
Proof.
  intros Hnr L. assert (Hls : forall f, ik_ls k = Some f -> forall q dq dx rem, length dq = length q -> length dx = length q -> length (f q dq dx rem) = length q) by (intros f Hf; rewrite L in Hf; discriminate Hf).
  destruct (solve_eq kern k np Hnr Hls Q0) as (m & Hm & H1 & H2 & E). exists m.
  assert (A1 : forall j, j < m -> exists p, p < np /\ f_R (iter kern k np j (finit k Q0)) p = true).
  { intros j Hj. specialize (H1 j Hj). apply existsb_exists in H1 as (p & Hp & Hr). apply in_seq in Hp. exists p. split; [lia | exact Hr]. }
  assert (A2 : m < ik_max k -> forall p, p < np -> f_R (iter kern k np m (finit k Q0)) p = false).
  { intros Hlt p Hp. specialize (H2 Hlt). apply not_true_iff_false. intros Q. apply not_true_iff_false in H2. apply H2, existsb_exists. exists p. split; [apply in_seq; lia | exact Q]. }
  rewrite E. unfold result. destruct (ik_enforce k && has_finite_limits k).
  - unfold final. rewrite (enforce_eq kern k np Hnr). eexists. split; [exact Hm|]. split; [exact A1|]. split; [exact A2|]. split; [reflexivity|]. split; [apply (iter_it kern k np Q0)|].
    intros p r Hp Hr. rewrite entry_mk by assumption. unfold enf_q. rewrite refs_row, (row_div k Hnr) by exact Hr.
    assert (Hmod : (p * ik_nr k + r) mod ik_nr k = r) by (rewrite Nat.add_comm, Nat.mod_add, Nat.mod_small by lia; reflexivity). rewrite Hmod. unfold enforced, entry_after.
    pose proof (iter_E kern k np Q0 (S m) p r) as X. cbn [iter fbody f_E] in X. rewrite X. reflexivity.
  - eexists. split; [exact Hm|]. split; [exact A1|]. split; [exact A2|]. split; [reflexivity|]. split; [apply (iter_it kern k np Q0)|].
    intros p r Hp Hr. apply (final_entry kern k np Q0 m p r Hp Hr).
Qed.

(** the rows of part of a batch *)
Lemma rows_vec nr np q0 p : length q0 = np * nr -> p < np -> rows_of nr q0 p = vec nr (fun r => nth (p * nr + r) q0 []).
Proof.
  intros Hl Hp. rewrite (vec_of q0 []) at 1. rewrite Hl. unfold rows_of. replace (np * nr) with (p * nr + (nr + (np - p - 1) * nr)) by nia. rewrite skipn_vec, firstn_vec. reflexivity.
Qed.
Lemma sub_rows_vec nr np q0 pick : 0 < nr -> length q0 = np * nr -> (forall p, In p pick -> p < np) ->
  sub_rows nr q0 pick = vec (length pick * nr) (fun j => nth (nth (j / nr) pick 0 * nr + j mod nr) q0 []).
Proof.
  intros Hn Hl Hp. rewrite <- (concat_tab (length pick) nr (fun i r => nth (nth i pick 0 * nr + r) q0 []) Hn). unfold sub_rows. rewrite flat_map_concat_map. f_equal.
  unfold tab. rewrite (vec_of pick 0) at 1. rewrite map_vec. apply vec_ext. intros i Hi. apply (rows_vec nr np); [exact Hl|]. apply Hp, nth_In, Hi.
Qed.
