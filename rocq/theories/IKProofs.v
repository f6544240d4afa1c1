(** Tables: (N, M) tensors as functions of problem and retry. *)
From Coq Require Import Reals Lra Bool Arith Lia List ZArith.
From Verif Require Import Prelude ExtF IKModel.
Import ListNotations.
Local Open Scope nat_scope.
Local Open Scope list_scope.

Definition vec {A} (n : nat) (f : nat -> A) : list A := map f (seq 0 n).
Definition tab {A} (np nr : nat) (f : nat -> nat -> A) : list (list A) := vec np (fun p => vec nr (f p)).

Lemma seq_S_map n : seq 0 (S n) = 0 :: map S (seq 0 n).
Proof. simpl. rewrite seq_shift. reflexivity. Qed.
Lemma vec_0 {A} (f : nat -> A) : vec 0 f = [].
Proof. reflexivity. Qed.
Lemma vec_S {A} n (f : nat -> A) : vec (S n) f = f 0 :: vec n (fun i => f (S i)).
Proof. unfold vec. rewrite seq_S_map. simpl. rewrite map_map. reflexivity. Qed.
Lemma vec_len {A} n (f : nat -> A) : length (vec n f) = n.
Proof. unfold vec. rewrite map_length, seq_length. reflexivity. Qed.
Lemma vec_nth {A} n (f : nat -> A) i : i < n -> nth_error (vec n f) i = Some (f i).
Proof.
  revert f i. induction n as [|n IH]; intros f i H; [lia|]. rewrite vec_S. destruct i; simpl; [reflexivity|]. apply (IH (fun i => f (S i))). lia.
Qed.
Lemma vec_none {A} n (f : nat -> A) i : n <= i -> nth_error (vec n f) i = None.
Proof. intros H. apply nth_error_None. rewrite vec_len. exact H. Qed.
Lemma vec_ext {A} n (f g : nat -> A) : (forall i, i < n -> f i = g i) -> vec n f = vec n g.
Proof. intros H. unfold vec. apply map_ext_in. intros i Hi. apply H. apply in_seq in Hi. lia. Qed.
Lemma vec_of {A} (l : list A) d : l = vec (length l) (fun i => nth i l d).
Proof. induction l as [|x l IH]; [reflexivity|]. simpl length. rewrite vec_S. simpl. f_equal. exact IH. Qed.
Lemma map_vec {A B} (h : A -> B) n f : map h (vec n f) = vec n (fun i => h (f i)).
Proof. unfold vec. rewrite map_map. reflexivity. Qed.
Lemma zip_vec {A B C} (h : A -> B -> C) n f g : zip_with2 h (vec n f) (vec n g) = vec n (fun i => h (f i) (g i)).
Proof. revert f g. induction n as [|n IH]; intros f g; [reflexivity|]. rewrite !vec_S. simpl. rewrite IH. reflexivity. Qed.
Lemma zip22_tab {A B C} (h : A -> B -> C) np nr f g : zip22 h (tab np nr f) (tab np nr g) = tab np nr (fun p r => h (f p r) (g p r)).
Proof. unfold zip22, tab. rewrite zip_vec. apply vec_ext. intros p _. apply zip_vec. Qed.
Lemma map_tab {A B} (h : A -> B) np nr f : map (map h) (tab np nr f) = tab np nr (fun p r => h (f p r)).
Proof. unfold tab. rewrite map_vec. apply vec_ext. intros p _. apply map_vec. Qed.
Lemma map_tab_rows {A B} (h : list A -> B) np nr f : map h (tab np nr f) = vec np (fun p => h (vec nr (f p))).
Proof. unfold tab. apply map_vec. Qed.
Lemma mapi_from_vec {A B} (h : nat -> A -> B) n f s : mapi_from h s (vec n f) = vec n (fun i => h (s + i) (f i)).
Proof.
  revert f s. induction n as [|n IH]; intros f s; [reflexivity|]. rewrite !vec_S. simpl. rewrite Nat.add_0_r. f_equal. rewrite IH.
  apply vec_ext. intros i _. rewrite Nat.add_succ_r. reflexivity.
Qed.
Lemma mapi_vec {A B} (h : nat -> A -> B) n f : mapi h (vec n f) = vec n (fun i => h i (f i)).
Proof. apply mapi_from_vec. Qed.
Lemma combine_vec {A B} n (f : nat -> A) (g : nat -> B) : combine (vec n f) (vec n g) = vec n (fun i => (f i, g i)).
Proof. revert f g. induction n as [|n IH]; intros f g; [reflexivity|]. rewrite !vec_S. simpl. rewrite IH. reflexivity. Qed.
Lemma repeat_vec {A} (x : A) n : repeat x n = vec n (fun _ => x).
Proof. induction n as [|n IH]; [reflexivity|]. rewrite vec_S. simpl. rewrite IH. reflexivity. Qed.
Lemma repeat_tab {A} (x : A) np nr : repeat (repeat x nr) np = tab np nr (fun _ _ => x).
Proof. rewrite repeat_vec. unfold tab. apply vec_ext. intros. apply repeat_vec. Qed.
Lemma tab_ext {A} np nr (f g : nat -> nat -> A) : (forall p r, p < np -> r < nr -> f p r = g p r) -> tab np nr f = tab np nr g.
Proof. intros H. apply vec_ext. intros p Hp. apply vec_ext. intros r Hr. auto. Qed.
Lemma firstn_vec {A} m n (f : nat -> A) : firstn m (vec (m + n) f) = vec m f.
Proof. revert f. induction m as [|m IH]; intros f; [reflexivity|]. simpl plus. rewrite !vec_S. simpl. rewrite IH. reflexivity. Qed.
Lemma skipn_vec {A} m n (f : nat -> A) : skipn m (vec (m + n) f) = vec n (fun i => f (m + i)).
Proof. revert f. induction m as [|m IH]; intros f; [reflexivity|]. simpl plus. rewrite vec_S. simpl. rewrite IH. reflexivity. Qed.
Lemma chunks_vec {A} np nr (f : nat -> A) : chunks np nr (vec (np * nr) f) = tab np nr (fun p r => f (p * nr + r)).
Proof.
  revert f. induction np as [|np IH]; intros f; [reflexivity|]. simpl mult. simpl chunks. rewrite firstn_vec, skipn_vec, IH.
  unfold tab at 2. rewrite vec_S. f_equal. apply vec_ext. intros p Hp. apply vec_ext. intros r Hr. f_equal. lia.
Qed.
Lemma reshape_vec {A} np nr (f : nat -> A) : 0 < nr -> reshape nr (vec (np * nr) f) = Ok (tab np nr (fun p r => f (p * nr + r))).
Proof.
  intros H. unfold reshape. rewrite vec_len, Nat.mod_mul, Nat.div_mul by lia. destruct (Nat.eqb_spec nr 0); [lia|]. simpl. rewrite chunks_vec. reflexivity.
Qed.
Lemma concat_tab {A} np nr (f : nat -> nat -> A) : 0 < nr -> concat (tab np nr f) = vec (np * nr) (fun i => f (i / nr) (i mod nr)).
Proof.
  intros Hr. revert f. induction np as [|np IH]; intros f; [reflexivity|]. unfold tab. rewrite vec_S. simpl concat.
  change (vec np (fun p => vec nr (f (S p)))) with (tab np nr (fun p => f (S p))). rewrite IH. simpl mult.
  assert (H : vec (nr + np * nr) (fun i => f (i / nr) (i mod nr)) = firstn nr (vec (nr + np * nr) (fun i => f (i / nr) (i mod nr))) ++ skipn nr (vec (nr + np * nr) (fun i => f (i / nr) (i mod nr)))) by (symmetry; apply firstn_skipn).
  rewrite H, firstn_vec, skipn_vec. f_equal.
  - apply vec_ext. intros i Hi. rewrite Nat.div_small, Nat.mod_small by lia. reflexivity.
  - apply vec_ext. intros i Hi. replace (nr + i) with (i + 1 * nr) by lia. rewrite Nat.div_add, Nat.mod_add by lia. f_equal. lia.
Qed.
Lemma tab_nth {A} np nr (f : nat -> nat -> A) p r : p < np -> r < nr ->
  exists row, nth_error (tab np nr f) p = Some row /\ nth_error row r = Some (f p r).
Proof. intros Hp Hr. exists (vec nr (f p)). unfold tab. rewrite !vec_nth by assumption. auto. Qed.
Lemma existsb_vec {A} (h : A -> bool) n f : existsb h (vec n f) = true <-> exists i, i < n /\ h (f i) = true.
Proof.
  rewrite existsb_exists. unfold vec. split.
  - intros (x & Hx & Hh). apply in_map_iff in Hx. destruct Hx as (i & <- & Hi). apply in_seq in Hi. exists i. split; [lia | exact Hh].
  - intros (i & Hi & Hh). exists (f i). split; [apply in_map, in_seq; lia | exact Hh].
Qed.
Lemma forallb_vec {A} (h : A -> bool) n f : forallb h (vec n f) = true <-> forall i, i < n -> h (f i) = true.
Proof.
  rewrite forallb_forall. unfold vec. split.
  - intros H i Hi. apply H, in_map, in_seq. lia.
  - intros H x Hx. apply in_map_iff in Hx. destruct Hx as (i & <- & Hi). apply in_seq in Hi. apply H. lia.
Qed.

(** the solution with given tables *)
Definition mk_sol (it dof np nr : nat) (pt rt : F) (E : nat -> nat -> entry) (Rm A : nat -> bool) : iksol :=
  mkSol it dof nr pt rt (tab np nr E) (vec np Rm) (vec np A) (vec np (fun _ => false)) (vec np (fun _ => false)).

Lemma sol_init_eq dof np nr pt rt : sol_init dof np nr pt rt = mk_sol 0 dof np nr pt rt (fun _ _ => blank_entry dof) (fun _ => true) (fun _ => false).
Proof. unfold sol_init, mk_sol. rewrite repeat_tab, !repeat_vec. reflexivity. Qed.

(** the two tests of one entry *)
Definition pok (pt : F) (e : list F) : bool := flt (pos_err e) pt.
Definition rok (rt : F) (e : list F) : bool := flt (rot_err e) rt.
Definition ok (pt rt : F) (e : list F) : bool := pok pt e && rok rt e.
Definition upd_entry (pt rt : F) (o : entry) (q e : list F) : entry :=
  mkEntry (if e_conv o then e_q o else q) (if e_conv o then e_pos o else pos_err e) (if e_conv o then e_rot o else rot_err e)
    (e_cpos o || pok pt e) (e_crot o || rok rt e) (e_conv o || ok pt rt e).

Lemma sol_update_eq it dof np nr pt rt E Rm A Q D uk : 0 < nr ->
  sol_update (mk_sol it dof np nr pt rt E Rm A) (vec (np * nr) Q) (vec (np * nr) D) uk =
  Ok (mk_sol it dof np nr pt rt (fun p r => upd_entry pt rt (E p r) (Q (p * nr + r)) (D (p * nr + r)))
       (fun p => if uk then Rm p && negb (existsb (ok pt rt) (vec nr (fun r => D (p * nr + r)))) else Rm p)
       (fun p => A p || existsb (ok pt rt) (vec nr (fun r => D (p * nr + r))))).
Proof.
  intros Hr. unfold sol_update. cbn [s_nr mk_sol]. rewrite reshape_vec by exact Hr. cbn [rbind]. rewrite reshape_vec by exact Hr. cbn [rbind].
  destruct uk; unfold keep_mask, mk_sol; cbn [s_iter s_dof s_nr s_ptol s_rtol s_entries s_remaining s_any s_pos_any s_rot_any]; do 2 f_equal.
  - rewrite !zip22_tab. apply tab_ext. intros p r _ _. reflexivity.
  - rewrite map_tab_rows, map_vec, zip_vec. reflexivity.
  - rewrite map_tab_rows, zip_vec. reflexivity.
  - rewrite !zip22_tab. apply tab_ext. intros p r _ _. reflexivity.
  - rewrite map_tab_rows, zip_vec. reflexivity.
Qed.

Section Run.
Variable kern : nat -> list F -> list F * list F.
Variable k : ik.
Variable np : nat.
Hypothesis Hnr : 0 < ik_nr k.
Hypothesis Hls : forall f, ik_ls k = Some f -> forall q dq dx rem, length dq = length q -> length dx = length q -> length (f q dq dx rem) = length q.
Notation nr := (ik_nr k).
Notation dof := (ik_dof k).
Notation pt := (ik_ptol k).
Notation rt := (ik_rtol k).

(** the pose error of problem [p], retry [r] when the rows are [Q] *)
Definition dxr (Q : nat -> list F) (p r : nat) : list F := snd (kern p (Q (p * nr + r))).

Lemma row_div p r : r < nr -> (p * nr + r) / nr = p.
Proof. intros H. rewrite Nat.add_comm, Nat.div_add, Nat.div_small by lia. lia. Qed.

Lemma kern_all_vec (Q : nat -> list F) : kern_all kern k (vec (np * nr) Q) = vec (np * nr) (fun i => kern (i / nr) (Q i)).
Proof. unfold kern_all. apply mapi_vec. Qed.

(** err_min and counter after one iteration *)
Definition imp1 (e : nat -> nat -> F) (i : option ((nat -> nat -> F) * (nat -> nat -> nat))) : option ((nat -> nat -> F) * (nat -> nat -> nat)) :=
  match ik_noimp k with
  | NoStop => i
  | _ => match i with
    | None => Some (e, fun _ _ => 0)
    | Some (m, c) => Some (fun p r => if flt (e p r) (m p r) then e p r else m p r, fun p r => if flt (e p r) (m p r) then 0 else S (c p r))
    end
  end.
Definition keep1 (i i' : option ((nat -> nat -> F) * (nat -> nat -> nat))) (p : nat) : bool :=
  match ik_noimp k, i, i' with
  | NoStop, _, _ => true
  | _, Some _, Some (_, c) => keep_problem k (vec nr (fun r => c p r <=? ik_patience k))
  | _, _, _ => true
  end.
Definition imp_tab (i : option ((nat -> nat -> F) * (nat -> nat -> nat))) : option (list (list F) * list (list nat)) :=
  match i with None => None | Some (m, c) => Some (tab np nr m, tab np nr c) end.

Lemma improvement_eq e i it E Rm A :
  improvement k (tab np nr e) (imp_tab i) (mk_sol it dof np nr pt rt E Rm A) =
  (imp_tab (imp1 e i), mk_sol it dof np nr pt rt E (fun p => Rm p && keep1 i (imp1 e i) p) A).
Proof.
  assert (K : forall Rm A E, mk_sol it dof np nr pt rt E (fun p => Rm p && true) A = mk_sol it dof np nr pt rt E Rm A).
  { intros. unfold mk_sol. f_equal. apply vec_ext. intros. apply andb_true_r. }
  unfold improvement, imp1, keep1. destruct (ik_noimp k) eqn:En; [rewrite K; reflexivity| | |];
    (destruct i as [[m c]|]; cbn [imp_tab]; [|rewrite map_tab; rewrite K; reflexivity]);
    rewrite !zip22_tab; unfold keep_mask, mk_sol; cbn [s_iter s_dof s_nr s_ptol s_rtol s_entries s_remaining s_any s_pos_any s_rot_any fst snd];
    f_equal; f_equal; rewrite map_tab_rows, zip_vec; apply vec_ext; intros p _; rewrite map_vec; reflexivity.
Qed.

(** the step sizes as a function of the row *)
Definition lrs (q dq dx : list (list F)) (rem : list bool) (i : nat) : F :=
  match ik_ls k with Some f => nth i (f q dq dx rem) NaN | None => ik_lr k end.
Definition clampq (q : list F) : list F := if ik_clamp k then clamp_row (ik_low k) (ik_high k) q else q.
Lemma move_eq Q D X rem : length X = np * nr -> move k (vec (np * nr) Q) (vec (np * nr) D) X rem =
  vec (np * nr) (fun i => clampq (step_row (lrs (vec (np * nr) Q) (vec (np * nr) D) X rem i) (Q i) (D i))).
Proof.
  intros HX. unfold move, clampq, lrs.
  assert (H : match ik_ls k with Some f => f (vec (np * nr) Q) (vec (np * nr) D) X rem | None => map (fun _ => ik_lr k) (vec (np * nr) Q) end =
    vec (np * nr) (fun i => match ik_ls k with Some f => nth i (f (vec (np * nr) Q) (vec (np * nr) D) X rem) NaN | None => ik_lr k end)).
  { destruct (ik_ls k) as [f|] eqn:El; [|rewrite map_vec; reflexivity].
    rewrite <- (vec_len (np * nr) Q) at 3. rewrite <- (Hls f eq_refl (vec (np * nr) Q) (vec (np * nr) D) X rem) by (rewrite ?vec_len; congruence). apply vec_of. }
  rewrite H, combine_vec, zip_vec. destruct (ik_clamp k); [rewrite map_vec|]; apply vec_ext; intros i _; reflexivity.
Qed.

(** the loop state as functions *)
Record fst_ := mkF { f_q : nat -> list F; f_it : nat; f_E : nat -> nat -> entry; f_R : nat -> bool; f_A : nat -> bool;
  f_i : option ((nat -> nat -> F) * (nat -> nat -> nat)) }.
Definition conc (a : fst_) : st :=
  mkSt (vec (np * nr) (f_q a)) (mk_sol (f_it a) dof np nr pt rt (f_E a) (f_R a) (f_A a)) (imp_tab (f_i a)).
(** some retry of problem [p] meets both tolerances *)
Definition conv_p (Q : nat -> list F) (p : nat) : bool := existsb (ok pt rt) (vec nr (dxr Q p)).
Definition fbody (a : fst_) : fst_ :=
  let i' := imp1 (fun p r => fnorm (dxr (f_q a) p r)) (f_i a) in
  let R' := fun p => (if ik_stop_any k then f_R a p && negb (conv_p (f_q a) p) else f_R a p) && keep1 (f_i a) i' p in
  mkF (fun i => clampq (step_row (lrs (vec (np * nr) (f_q a)) (vec (np * nr) (fun i => fst (kern (i / nr) (f_q a i))))
                                   (vec (np * nr) (fun i => snd (kern (i / nr) (f_q a i)))) (vec np R') i) (f_q a i) (fst (kern (i / nr) (f_q a i)))))
    (S (f_it a)) (fun p r => upd_entry pt rt (f_E a p r) (f_q a (p * nr + r)) (dxr (f_q a) p r)) R' (fun p => f_A a p || conv_p (f_q a) p) i'.

Lemma body_eq a : body kern k (conc a) = Ok (conc (fbody a)).
Proof.
  unfold body, conc. cbn [st_q st_sol st_imp]. rewrite kern_all_vec, !map_vec. rewrite reshape_vec by exact Hnr. cbn [rbind].
  unfold tick. cbn [mk_sol s_iter s_dof s_nr s_ptol s_rtol s_entries s_remaining s_any s_pos_any s_rot_any].
  match goal with |- context [sol_update ?s _ _ _] => change s with (mk_sol (S (f_it a)) dof np nr pt rt (f_E a) (f_R a) (f_A a)) end.
  rewrite sol_update_eq by exact Hnr. cbn [rbind]. rewrite map_tab.
  assert (T1 : tab np nr (fun p r => fnorm (snd (kern ((p * nr + r) / nr) (f_q a (p * nr + r))))) = tab np nr (fun p r => fnorm (dxr (f_q a) p r))).
  { apply tab_ext. intros p r _ H. rewrite row_div by exact H. reflexivity. }
  assert (T2 : forall p, vec nr (fun r => snd (kern ((p * nr + r) / nr) (f_q a (p * nr + r)))) = vec nr (dxr (f_q a) p)).
  { intros p. apply vec_ext. intros r H. rewrite row_div by exact H. reflexivity. }
  assert (T3 : mk_sol (S (f_it a)) dof np nr pt rt
      (fun p r => upd_entry pt rt (f_E a p r) (f_q a (p * nr + r)) (snd (kern ((p * nr + r) / nr) (f_q a (p * nr + r)))))
      (fun p => if ik_stop_any k then f_R a p && negb (existsb (ok pt rt) (vec nr (fun r => snd (kern ((p * nr + r) / nr) (f_q a (p * nr + r)))))) else f_R a p)
      (fun p => f_A a p || existsb (ok pt rt) (vec nr (fun r => snd (kern ((p * nr + r) / nr) (f_q a (p * nr + r)))))) =
    mk_sol (S (f_it a)) dof np nr pt rt (fun p r => upd_entry pt rt (f_E a p r) (f_q a (p * nr + r)) (dxr (f_q a) p r))
      (fun p => if ik_stop_any k then f_R a p && negb (conv_p (f_q a) p) else f_R a p) (fun p => f_A a p || conv_p (f_q a) p)).
  { unfold mk_sol. f_equal.
    - apply tab_ext. intros p r _ H. rewrite row_div by exact H. reflexivity.
    - apply vec_ext. intros p _. rewrite T2. reflexivity.
    - apply vec_ext. intros p _. rewrite T2. reflexivity. }
  rewrite T3, T1, improvement_eq. cbn [mk_sol s_remaining]. rewrite move_eq by apply vec_len. reflexivity.
Qed.

(** the state after [n] turns of the loop, with its break *)
Fixpoint floop (n : nat) (a : fst_) : fst_ :=
  match n with 0 => a | S n => if existsb (f_R a) (seq 0 np) then floop n (fbody a) else a end.
Lemma loop_eq n a : loop kern k n (conc a) = Ok (conc (floop n a)).
Proof.
  revert a. induction n as [|n IH]; intros a; [reflexivity|]. cbn [loop floop].
  assert (E : existsb (fun b => b) (s_remaining (st_sol (conc a))) = existsb (f_R a) (seq 0 np)).
  { cbn [conc st_sol mk_sol s_remaining]. unfold vec. induction (seq 0 np) as [|x l IHl]; [reflexivity|]. simpl. rewrite IHl. reflexivity. }
  rewrite E. destruct (existsb (f_R a) (seq 0 np)); [|reflexivity]. rewrite body_eq. cbn [rbind]. apply IH.
Qed.
Definition finit (Q0 : nat -> list F) : fst_ := mkF Q0 0 (fun _ _ => blank_entry dof) (fun _ => true) (fun _ => false) None.
Lemma init_conc Q0 : mkSt (vec (np * nr) Q0) (sol_init dof np nr pt rt) None = conc (finit Q0).
Proof. unfold conc, finit. cbn [f_q f_it f_E f_R f_A f_i imp_tab]. rewrite sol_init_eq. reflexivity. Qed.

(** the loop without its break stands still once nothing remains, so iterate the body only when it runs *)
Fixpoint iter (n : nat) (a : fst_) : fst_ := match n with 0 => a | S n => fbody (iter n a) end.
Lemma iter_S n a : iter (S n) a = iter n (fbody a).
Proof. induction n as [|n IH]; [reflexivity|]. cbn [iter] in *. rewrite IH. reflexivity. Qed.
Lemma floop_iter n a : exists m, m <= n /\ floop n a = iter m a /\ (forall j, j < m -> existsb (f_R (iter j a)) (seq 0 np) = true) /\
  (m < n -> existsb (f_R (iter m a)) (seq 0 np) = false).
Proof.
  revert a. induction n as [|n IH]; intros a; [exists 0; repeat split; auto; lia|]. cbn [floop].
  destruct (existsb (f_R a) (seq 0 np)) eqn:E.
  - destruct (IH (fbody a)) as (m & Hm & H1 & H2 & H3). exists (S m). repeat split; [lia | rewrite H1, iter_S; reflexivity | |].
    + intros [|j] Hj; [exact E|]. rewrite iter_S. apply H2. lia.
    + intros Hlt. rewrite iter_S. apply H3. lia.
  - exists 0. repeat split; [lia | lia | intros _; exact E].
Qed.

(** the solution after the loop and the final check *)
Definition final (a : fst_) : iksol :=
  mk_sol (f_it a) dof np nr pt rt (fun p r => upd_entry pt rt (f_E a p r) (f_q a (p * nr + r)) (dxr (f_q a) p r))
    (fun p => if ik_stop_any k then f_R a p && negb (conv_p (f_q a) p) else f_R a p) (fun p => f_A a p || conv_p (f_q a) p).
Lemma final_eq a : sol_update (st_sol (conc a)) (st_q (conc a)) (map snd (kern_all kern k (st_q (conc a)))) (ik_stop_any k) = Ok (final a).
Proof.
  cbn [conc st_sol st_q]. rewrite kern_all_vec, map_vec, sol_update_eq by exact Hnr. unfold final, mk_sol. do 2 f_equal.
  - apply tab_ext. intros p r _ H. rewrite row_div by exact H. reflexivity.
  - apply vec_ext. intros p _. unfold conv_p. replace (vec nr (dxr (f_q a) p)) with (vec nr (fun r => snd (kern ((p * nr + r) / nr) (f_q a (p * nr + r))))); [reflexivity|].
    apply vec_ext. intros r H. rewrite row_div by exact H. reflexivity.
  - apply vec_ext. intros p _. unfold conv_p. replace (vec nr (dxr (f_q a) p)) with (vec nr (fun r => snd (kern ((p * nr + r) / nr) (f_q a (p * nr + r))))); [reflexivity|].
    apply vec_ext. intros r H. rewrite row_div by exact H. reflexivity.
Qed.

(** refinement and enforcement *)
Definition ref1 (Q : nat -> list F) (i : nat) : list F := clamp_row (ik_low k) (ik_high k) (step_row (ik_lr k) (Q i) (fst (kern (i / nr) (Q i)))).
Fixpoint refs (n : nat) (Q : nat -> list F) : nat -> list F := match n with 0 => Q | S n => refs n (ref1 Q) end.
Lemma refine_eq n Q : refine kern k n (vec (np * nr) Q) = vec (np * nr) (refs n Q).
Proof. revert Q. induction n as [|n IH]; intros Q; [reflexivity|]. cbn [refine refs]. rewrite kern_all_vec, zip_vec. apply IH. Qed.
Definition enf_q (E : nat -> nat -> entry) : nat -> list F :=
  refs (ik_refine k) (fun i => clamp_row (ik_low k) (ik_high k) (wrap_row k (e_q (E (i / nr) (i mod nr))))).
Lemma enforce_eq it E Rm A : enforce_limits kern k (mk_sol it dof np nr pt rt E Rm A) =
  Ok (mk_sol it dof np nr pt rt
    (fun p r => let q := enf_q E (p * nr + r) in let e := snd (kern p q) in mkEntry q (pos_err e) (rot_err e) (pok pt e) (rok rt e) (ok pt rt e))
    Rm (fun p => conv_p (enf_q E) p)).
Proof.
  unfold enforce_limits. cbn [mk_sol s_entries]. rewrite concat_tab by exact Hnr. rewrite !map_vec, refine_eq.
  fold (enf_q E). rewrite kern_all_vec, map_vec. unfold reset_conv. cbn [mk_sol s_iter s_dof s_nr s_ptol s_rtol s_entries s_remaining s_any s_pos_any s_rot_any].
  rewrite map_tab, map_vec.
  match goal with |- sol_update ?s _ _ _ = _ => change s with (mk_sol it dof np nr pt rt (fun p r => mkEntry (e_q (E p r)) (e_pos (E p r)) (e_rot (E p r)) false false false) Rm (fun _ => false)) end.
  rewrite sol_update_eq by exact Hnr. unfold mk_sol. do 2 f_equal.
  - apply tab_ext. intros p r _ H. unfold upd_entry. cbn [e_q e_pos e_rot e_cpos e_crot e_conv orb]. rewrite row_div by exact H. reflexivity.
  - apply vec_ext. intros p _. unfold conv_p. simpl orb. f_equal. apply vec_ext. intros r H. rewrite row_div by exact H. reflexivity.
Qed.

Lemma solve_eq Q0 : exists m, m <= ik_max k /\ (forall j, j < m -> existsb (f_R (iter j (finit Q0))) (seq 0 np) = true) /\
  (m < ik_max k -> existsb (f_R (iter m (finit Q0))) (seq 0 np) = false) /\
  solve_from kern k np (vec (np * nr) Q0) =
    if ik_enforce k && has_finite_limits k then enforce_limits kern k (final (iter m (finit Q0))) else Ok (final (iter m (finit Q0))).
Proof.
  destruct (floop_iter (ik_max k) (finit Q0)) as (m & Hm & E & H1 & H2). exists m. repeat split; auto.
  unfold solve_from. rewrite init_conc, loop_eq. cbn [rbind]. rewrite final_eq. cbn [rbind]. rewrite E. reflexivity.
Qed.
End Run.
