(** Last steps of the proofs quoted in Properties_Batch.v. *)
From Coq Require Import Reals Lra Bool Arith Lia List ZArith.
From Verif Require Import Prelude ExtF IKModel IKProofs IKMore SpecBatch IKBatch.
Import ListNotations.
Local Open Scope nat_scope.
Local Open Scope list_scope.

(** [m] iterations are run *)
Definition runs kern k np Q m : Prop := m <= ik_max k /\ (forall j, j < m -> exists p, p < np /\ f_R (iter kern k np j (finit k Q)) p = true) /\
  (m < ik_max k -> forall p, p < np -> f_R (iter kern k np m (finit k Q)) p = false).
Lemma runs_unique kern k np Q m m' : runs kern k np Q m -> runs kern k np Q m' -> m = m'.
Proof.
  intros (H1 & H2 & H3) (H1' & H2' & H3'). destruct (lt_eq_lt_dec m m') as [[Lt|]|Lt]; [|assumption|]; exfalso.
  - destruct (H2' m Lt) as (p & Hp & R). rewrite (H3 ltac:(lia) p Hp) in R. discriminate R.
  - destruct (H2 m' Lt) as (p & Hp & R). rewrite (H3' ltac:(lia) p Hp) in R. discriminate R.
Qed.
Definition rowf (q0 : list (list F)) (i : nat) : list F := nth i q0 [].
Definition subf (nr : nat) (q0 : list (list F)) (pick : list nat) (j : nat) : list F := nth (nth (j / nr) pick 0 * nr + j mod nr) q0 [].
Lemma whole kern k np q0 : 0 < ik_nr k -> length q0 = np * ik_nr k -> ik_ls k = None ->
  exists s, solve_from kern k np q0 = Ok s /\ runs kern k np (rowf q0) (s_iter s) /\
  (forall p r, p < np -> r < ik_nr k -> entry_at s p r = Some (result k (kern p) (entry_after k kern np (rowf q0) (s_iter s) p r))).
Proof.
  intros Hn Hl L. assert (E0 : q0 = vec (np * ik_nr k) (rowf q0)) by (rewrite <- Hl; apply vec_of).
  destruct (solve_entries kern k np (rowf q0) Hn L) as (m & s & Hm & A1 & A2 & Es & Ei & En). exists s. rewrite E0 at 1. rewrite Ei. repeat split; assumption.
Qed.
Lemma sub_same kern k np q0 pick i p : 0 < ik_nr k -> nth_error pick i = Some p -> (forall p, In p pick -> p < np) ->
  i < length pick /\ p < np /\ sub_kern kern pick i = kern p /\ forall r, r < ik_nr k -> subf (ik_nr k) q0 pick (i * ik_nr k + r) = rowf q0 (p * ik_nr k + r).
Proof.
  intros Hn H Hp. assert (Hi : i < length pick) by (apply nth_error_Some; rewrite H; discriminate). pose proof (nth_error_nth pick i 0 H) as Nt.
  split; [exact Hi|]. split; [apply Hp, (nth_error_In _ _ H)|]. split; [unfold sub_kern; rewrite Nt; reflexivity|].
  intros r Hr. unfold subf, rowf. rewrite (row_div k Hn) by exact Hr. assert (Hmod : (i * ik_nr k + r) mod ik_nr k = r) by (rewrite Nat.add_comm, Nat.mod_add, Nat.mod_small by lia; reflexivity). rewrite Hmod, Nt. reflexivity.
Qed.
Lemma part kern k np q0 pick : 0 < ik_nr k -> length q0 = np * ik_nr k -> ik_ls k = None -> (forall p, In p pick -> p < np) ->
  exists s', solve_from (sub_kern kern pick) k (length pick) (sub_rows (ik_nr k) q0 pick) = Ok s' /\
  runs (sub_kern kern pick) k (length pick) (subf (ik_nr k) q0 pick) (s_iter s') /\
  (forall i p r, nth_error pick i = Some p -> r < ik_nr k -> entry_at s' i r = Some (result k (kern p) (entry_after k kern np (rowf q0) (s_iter s') p r))).
Proof.
  intros Hn Hl L Hp. set (Q := rowf q0). set (Q' := subf (ik_nr k) q0 pick).
  destruct (solve_entries (sub_kern kern pick) k (length pick) Q' Hn L) as (m' & s' & Hm' & A1' & A2' & Es' & Ei' & En').
  exists s'. rewrite Ei'. split; [rewrite (sub_rows_vec (ik_nr k) np q0 pick Hn Hl Hp); exact Es'|]. split; [repeat split; assumption|].
  intros i p r Hi Hr. destruct (sub_same kern k np q0 pick i p Hn Hi Hp) as (Hil & Hpn & Hk & HQ). rewrite (En' i r Hil Hr), Hk. unfold entry_after.
  rewrite (same_hist k kern (sub_kern kern pick) np (length pick) Q Q' p i Hn L Hk HQ (S m') r Hr). reflexivity.
Qed.
Lemma fewer kern k np q0 pick m m' : 0 < ik_nr k -> ik_ls k = None -> (forall p, In p pick -> p < np) -> runs kern k np (rowf q0) m -> runs (sub_kern kern pick) k (length pick) (subf (ik_nr k) q0 pick) m' -> m' <= m.
Proof.
  intros Hn L Hp (Hm & A1 & A2) (Hm' & A1' & A2'). destruct (le_lt_dec m' m) as [|Lt]; [assumption|]. exfalso. destruct (A1' m Lt) as (i & Hi & Ri). destruct (nth_error pick i) as [p|] eqn:Ep; [|apply nth_error_None in Ep; lia].
  destruct (sub_same kern k np q0 pick i p Hn Ep Hp) as (_ & Hpn & Hk & HQ). rewrite (same_R k kern (sub_kern kern pick) np (length pick) _ _ p i Hn L Hk HQ m) in Ri. rewrite (A2 ltac:(lia) p Hpn) in Ri. discriminate Ri.
Qed.
Lemma part_of kern k np q0 pick : 0 < ik_nr k -> length q0 = np * ik_nr k -> ik_ls k = None -> (forall p, In p pick -> p < np) ->
  exists s s', solve_from kern k np q0 = Ok s /\ solve_from (sub_kern kern pick) k (length pick) (sub_rows (ik_nr k) q0 pick) = Ok s' /\ s_iter s' <= s_iter s /\
  (forall p r, p < np -> r < ik_nr k -> entry_at s p r = Some (result k (kern p) (entry_after k kern np (rowf q0) (s_iter s) p r))) /\
  (forall i p r, nth_error pick i = Some p -> r < ik_nr k -> entry_at s' i r = Some (result k (kern p) (entry_after k kern np (rowf q0) (s_iter s') p r))) /\
  runs kern k np (rowf q0) (s_iter s) /\ runs (sub_kern kern pick) k (length pick) (subf (ik_nr k) q0 pick) (s_iter s').
Proof.
  intros Hn Hl L Hp. destruct (whole kern k np q0 Hn Hl L) as (s & Es & Rs & En). destruct (part kern k np q0 pick Hn Hl L Hp) as (s' & Es' & Rs' & En').
  exists s, s'. split; [exact Es|]. split; [exact Es'|]. split; [exact (fewer kern k np q0 pick _ _ Hn L Hp Rs Rs')|]. split; [exact En|]. split; [exact En'|]. split; assumption.
Qed.
Lemma some_eq {A} (a b : A) : Some a = Some b -> a = b. Proof. congruence. Qed.
Lemma ok_eq {A} (a b : A) : Ok a = Ok b -> a = b. Proof. congruence. Qed.
Lemma result_eq k kp e e' : ik_enforce k = true -> (exists x, In x (ik_low k ++ ik_high k) /\ isfinite x = true) -> e_q e = e_q e' -> result k kp e = result k kp e'.
Proof.
  intros Ef (x & Hx & Fx) Eq. unfold result. assert (H : has_finite_limits k = true).
  { unfold has_finite_limits. rewrite <- existsb_app. apply existsb_exists. exists x. auto. }
  rewrite Ef, H. cbn [andb]. unfold enforced. rewrite Eq. reflexivity.
Qed.
Lemma norm6 x : (0 <= x)%R -> fnorm [Fin x; Fin 0%R; Fin 0%R; Fin 0%R; Fin 0%R; Fin 0%R] = Fin x.
Proof.
  intros Hx. unfold fnorm. cbn [map fmul fsum fold_right fadd fsqrt]. unfold Rltb. replace (x * x + (0 * 0 + (0 * 0 + (0 * 0 + (0 * 0 + (0 * 0 + 0))))))%R with (x * x)%R by ring.
    destruct (Rlt_dec _ 0) as [L|L]; [exfalso; pose proof (Rle_0_sqr x) as Q; unfold Rsqr in Q; lra|]. f_equal. apply sqrt_square. exact Hx. Qed.
Lemma norm3 x : (0 <= x)%R -> fnorm [Fin x; Fin 0%R; Fin 0%R] = Fin x.
Proof.
  intros Hx. unfold fnorm. cbn [map fmul fsum fold_right fadd fsqrt]. unfold Rltb. replace (x * x + (0 * 0 + (0 * 0 + 0)))%R with (x * x)%R by ring.
    destruct (Rlt_dec _ 0) as [L|L]; [exfalso; pose proof (Rle_0_sqr x) as Q; unfold Rsqr in Q; lra|]. f_equal. apply sqrt_square. exact Hx. Qed.
Ltac dec_R := match goal with |- context[Rltb ?a ?b] => first [
  replace (Rltb a b) with true by (symmetry; unfold Rltb; destruct (Rlt_dec a b); [reflexivity | exfalso; lra]) |
  replace (Rltb a b) with false by (symmetry; unfold Rltb; destruct (Rlt_dec a b); [exfalso; lra | reflexivity])] end.
(** ** A line search whose step sizes depend on the batch *)
(** errors in one joint: constant up to 3/2 for problem 0, falling for the others; both step by one *)
Definition flat (p : nat) (x : R) : R := match p with 0 => if Rltb x (3/2) then (1/200)%R else 0%R | _ => (100 - x)%R end.
Definition flat_kern (p : nat) (q : list F) : list F * list F := match q with [Fin x] => ([Fin 1%R], [Fin (flat p x); Fin 0%R; Fin 0%R; Fin 0%R; Fin 0%R; Fin 0%R]) | _ => ([], []) end.
(** BacktrackingLineSearch with one halving, on one retry *)
Definition halving (kern : nat -> list F -> list F * list F) (q dq dx : list (list F)) (rem : list bool) : list F :=
  map l_lr (do_line_search (fun i q => fnorm (snd (kern i q))) (mkLS 1 (1/2) 1 (1/100)) 1 q dq dx rem).
Definition halving_ik (kern : nat -> list F -> list F * list F) : ik := mkIK 1 1 (Fin (1/1000)) (Fin 1) 2 (Fin 1) (Some (halving kern)) false StopAny 0 false 0 false [] [] [].
Ltac go := cbv -[Rplus Rmult Rminus Rdiv Rinv Ropp Rltb IZR fnorm flat INR].
Ltac ev := repeat (first [rewrite norm6 by lra | rewrite norm3 by lra | progress unfold flat | dec_R]; go).
Definition toward (p : nat) (q : list F) : list F * list F := match q with [Fin x] => ([Fin (INR p - x)%R], [Fin (INR p - x)%R; Fin 0%R; Fin 0%R; Fin 0%R; Fin 0%R; Fin 0%R]) | _ => ([], []) end.
Definition toward_ik (st : bool) (en : bool) : ik := mkIK 1 1 (Fin (1/10)) (Fin 1) 3 (Fin 1) None st NoStop 0 en 1 false [Fin 0%R] [Fin 9%R] [false].

Lemma l87_part : forall kern k np q0 pick, 0 < ik_nr k -> length q0 = np * ik_nr k -> ik_ls k = None -> (forall p, In p pick -> p < np) ->
  exists s s', solve_from kern k np q0 = Ok s /\ solve_from (sub_kern kern pick) k (length pick) (sub_rows (ik_nr k) q0 pick) = Ok s' /\ s_iter s' <= s_iter s /\
  (s_iter s' = s_iter s -> forall i p r, nth_error pick i = Some p -> r < ik_nr k -> entry_at s' i r = entry_at s p r) /\
  (ik_enforce k = false -> forall i p r e', nth_error pick i = Some p -> r < ik_nr k -> entry_at s' i r = Some e' -> e_conv e' = true ->
     exists e, entry_at s p r = Some e /\ e_q e = e_q e' /\ e_pos e = e_pos e' /\ e_rot e = e_rot e' /\ e_conv e = true).
Proof.
  intros kern k np q0 pick Hn Hl L Hp. destruct (part_of kern k np q0 pick Hn Hl L Hp) as (s & s' & Es & Es' & Le & En & En' & Rs & Rs').
  assert (Hin : forall i p, nth_error pick i = Some p -> p < np) by (intros i p H; apply Hp, (nth_error_In _ _ H)).
  exists s, s'. split; [exact Es|]. split; [exact Es'|]. split; [exact Le|]. split.
  - intros Eq i p r Hi Hr. rewrite (En' i p r Hi Hr), (En p r (Hin i p Hi) Hr), Eq. reflexivity.
  - intros Ef i p r e' Hi Hr He Hc. rewrite (En' i p r Hi Hr) in He. apply some_eq in He. unfold result in *. rewrite Ef in *. cbn [andb] in *. subst e'.
    eexists. split; [apply (En p r (Hin i p Hi) Hr)|]. exact (longer_kept k kern np (rowf q0) _ _ p r Le Hc).
Qed.

Lemma l87_part_enforced : forall kern k np q0 pick, 0 < ik_nr k -> length q0 = np * ik_nr k -> ik_ls k = None -> (forall p, In p pick -> p < np) ->
  exists s s' u', solve_from kern k np q0 = Ok s /\ solve_from (sub_kern kern pick) k (length pick) (sub_rows (ik_nr k) q0 pick) = Ok s' /\
  solve_from (sub_kern kern pick) (no_enforce k) (length pick) (sub_rows (ik_nr k) q0 pick) = Ok u' /\
  (ik_enforce k = true -> (exists x, In x (ik_low k ++ ik_high k) /\ isfinite x = true) ->
   forall i p r e', nth_error pick i = Some p -> r < ik_nr k -> entry_at u' i r = Some e' -> e_conv e' = true -> entry_at s' i r = entry_at s p r).
Proof.
  intros kern k np q0 pick Hn Hl L Hp. destruct (part_of kern k np q0 pick Hn Hl L Hp) as (s & s' & Es & Es' & Le & En & En' & Rs & Rs').
  destruct (part_of kern (no_enforce k) np q0 pick Hn Hl L Hp) as (u & u' & Eu & Eu' & Leu & Un & Un' & Ru & Ru').
  assert (Hin : forall i p, nth_error pick i = Some p -> p < np) by (intros i p H; apply Hp, (nth_error_In _ _ H)).
  assert (Ei : s_iter u' = s_iter s') by exact (runs_unique (sub_kern kern pick) k (length pick) (subf (ik_nr k) q0 pick) _ _ Ru' Rs').
  exists s, s', u'. split; [exact Es|]. split; [exact Es'|]. split; [exact Eu'|]. intros Ef Fx i p r e' Hi Hr He Hc.
  rewrite (Un' i p r Hi Hr) in He. apply some_eq in He. subst e'. rewrite Ei in Hc. change (e_conv (entry_after k kern np (rowf q0) (s_iter s') p r) = true) in Hc.
  rewrite (En' i p r Hi Hr), (En p r (Hin i p Hi) Hr). apply f_equal, (result_eq k (kern p) _ _ Ef Fx). symmetry. exact (proj1 (longer_kept k kern np (rowf q0) _ _ p r Le Hc)).
Qed.

Lemma l87_iterations : forall kern k np q0, 0 < ik_nr k -> length q0 = np * ik_nr k -> ik_ls k = None -> 0 < np ->
  exists s, solve_from kern k np q0 = Ok s /\
  (forall p, p < np -> exists s', solve_from (fun _ => kern p) k 1 (rows_of (ik_nr k) q0 p) = Ok s' /\ s_iter s' <= s_iter s) /\
  exists p s', p < np /\ solve_from (fun _ => kern p) k 1 (rows_of (ik_nr k) q0 p) = Ok s' /\ s_iter s' = s_iter s.
Proof.
  intros kern k np q0 Hn Hl L Hnp. destruct (whole kern k np q0 Hn Hl L) as (s & Es & Rs & En). exists s. split; [exact Es|].
  assert (One : forall p, p < np -> exists s', solve_from (fun _ => kern p) k 1 (rows_of (ik_nr k) q0 p) = Ok s' /\ runs (fun _ => kern p) k 1 (rowf (rows_of (ik_nr k) q0 p)) (s_iter s') /\
    forall m, f_R (iter (fun _ => kern p) k 1 m (finit k (rowf (rows_of (ik_nr k) q0 p)))) 0 = f_R (iter kern k np m (finit k (rowf q0))) p).
  { intros p Hp. pose proof (rows_vec (ik_nr k) np q0 p Hl Hp) as Rv.
    destruct (whole (fun _ => kern p) k 1 (rows_of (ik_nr k) q0 p) Hn ltac:(rewrite Rv, vec_len; lia) L) as (s' & Es' & Rs' & _).
    exists s'. split; [exact Es'|]. split; [exact Rs'|]. intros m. apply (same_R k kern (fun _ => kern p) np 1 (rowf q0) _ p 0 Hn L eq_refl). intros r Hr. unfold rowf. rewrite Rv. cbn [mult plus]. apply nth_error_nth. rewrite vec_nth by exact Hr. reflexivity. }
  destruct Rs as (Hm & A1 & A2). split.
  - intros p Hp. destruct (One p Hp) as (s' & Es' & (Hm' & A1' & A2') & Sm). exists s'. split; [exact Es'|]. destruct (le_lt_dec (s_iter s') (s_iter s)) as [|Lt]; [assumption|]. exfalso.
    destruct (A1' (s_iter s) Lt) as (i & Hi & R). assert (i = 0) by lia. subst i. rewrite Sm, (A2 ltac:(lia) p Hp) in R. discriminate R.
  - assert (Ex : exists p, p < np /\ (0 < s_iter s -> f_R (iter kern k np (s_iter s - 1) (finit k (rowf q0))) p = true)).
    { destruct (s_iter s) as [|m] eqn:Em; [exists 0; split; [exact Hnp | lia]|]. destruct (A1 m ltac:(lia)) as (p & Hp & R). exists p. split; [exact Hp|]. intros _. replace (S m - 1) with m by lia. exact R. }
    destruct Ex as (p & Hp & R). destruct (One p Hp) as (s' & Es' & (Hm' & A1' & A2') & Sm). exists p, s'. split; [exact Hp|]. split; [exact Es'|].
    destruct (lt_eq_lt_dec (s_iter s') (s_iter s)) as [[Lt|]|Lt]; [|assumption|]; exfalso.
    + assert (Dn : forall j, s_iter s' <= j -> f_R (iter kern k np j (finit k (rowf q0))) p = false).
      { intros j Hj. induction Hj as [|j Hj IH]; [rewrite <- Sm; apply (A2' ltac:(lia) 0); lia|]. apply not_true_iff_false. intros X. apply iter_R_mono in X. rewrite IH in X. discriminate X. }
      rewrite (Dn (s_iter s - 1) ltac:(lia)) in R. specialize (R ltac:(lia)). discriminate R.
    + destruct (A1' (s_iter s) Lt) as (i & Hi & R'). assert (i = 0) by lia. subst i. rewrite Sm, (A2 ltac:(lia) p Hp) in R'. discriminate R'.
Qed.

Lemma l87_attempt_alone : forall kern k np q0 p r, 0 < ik_nr k -> length q0 = np * ik_nr k -> ik_ls k = None -> ik_stop_any k = false -> ik_noimp k = NoStop ->
  p < np -> r < ik_nr k ->
  exists s s' e, solve_from kern k np q0 = Ok s /\ solve_from (fun _ => kern p) (one_retry k) 1 [nth (p * ik_nr k + r) q0 []] = Ok s' /\
  entry_at s p r = Some e /\ entry_at s' 0 0 = Some e.
Proof.
  intros kern k np q0 p r Hn Hl L Sa Ni Hp Hr. destruct (whole kern k np q0 Hn Hl L) as (s & Es & Rs & En).
  destruct (whole (fun _ => kern p) (one_retry k) 1 [nth (p * ik_nr k + r) q0 []] ltac:(cbn; lia) eq_refl L) as (s' & Es' & Rs' & En').
  assert (Al : forall kn kk n Q p m, ik_stop_any kk = false -> ik_noimp kk = NoStop -> f_R (iter kn kk n m (finit kk Q)) p = true).
  { intros kn kk n Q x m H1 H2. induction m as [|m IH]; [reflexivity|]. apply iter_R. split; [exact IH|]. rewrite H1, H2. split; [discriminate | intros X; contradiction]. }
  assert (E1 : s_iter s = ik_max k).
  { destruct Rs as (Hm & _ & A2). destruct (Nat.eq_dec (s_iter s) (ik_max k)) as [|Ne]; [assumption|]. exfalso. specialize (A2 ltac:(lia) p Hp). rewrite Al in A2 by assumption. discriminate A2. }
  assert (E2 : s_iter s' = ik_max k).
  { destruct Rs' as (Hm & _ & A2). cbn [one_retry ik_max] in *. destruct (Nat.eq_dec (s_iter s') (ik_max k)) as [|Ne]; [assumption|]. exfalso. specialize (A2 ltac:(lia) 0 ltac:(lia)). rewrite Al in A2 by assumption. discriminate A2. }
  exists s, s'. eexists. split; [exact Es|]. split; [exact Es'|]. split; [exact (En p r Hp Hr)|]. rewrite (En' 0 0 ltac:(lia) ltac:(cbn; lia)), E1, E2. apply f_equal.
  change (result k (kern p) (entry_after (one_retry k) (fun _ => kern p) 1 (rowf [nth (p * ik_nr k + r) q0 []]) (ik_max k) 0 0) = result k (kern p) (entry_after k kern np (rowf q0) (ik_max k) p r)).
  apply f_equal. unfold entry_after. cbn [one_retry ik_ptol ik_rtol ik_dof]. apply f_equal. apply map_ext. intros j.
  assert (EQ : Qj (fun _ => kern p) (one_retry k) 1 (rowf [nth (p * ik_nr k + r) q0 []]) j 0 = Qj kern k np (rowf q0) j (p * ik_nr k + r)).
  { rewrite (row_path_at kern k np (rowf q0) L Hn j p r Hr). rewrite (row_path (fun _ => kern p) (one_retry k) 1 _ L j 0). reflexivity. }
  unfold pairj, Dj. cbn [one_retry ik_nr mult plus]. rewrite EQ. reflexivity.
Qed.

Lemma l87_independent_refuted : exists kern k q0 s s' e e', ik_nr k = 1 /\ ik_ls k = None /\ ik_enforce k = false /\
  solve_from kern k 2 q0 = Ok s /\ solve_from (fun _ => kern 0) k 1 (rows_of 1 q0 0) = Ok s' /\ s_iter s' = 2 /\ s_iter s = 3 /\
  entry_at s' 0 0 = Some e' /\ e_conv e' = false /\ entry_at s 0 0 = Some e /\ e_conv e = true /\ e_q e = [Fin 3%R].
Proof.
  set (err := fun (p : nat) (x : R) => match p with 0 => if Rltb x 3 then 5%R else 0%R | _ => (100 - x)%R end).
  set (kern := fun (p : nat) q => match q with [Fin x] => ([Fin 1%R], [Fin (err p x); Fin 0%R; Fin 0%R; Fin 0%R; Fin 0%R; Fin 0%R]) | _ => ([], []) end).
  set (q0 := [[Fin 0%R]; [Fin 0%R]]). set (k := mkIK 1 1 (Fin (1/10)) (Fin 1) 3 (Fin 1) None false StopAny 0 false 0 false [] [] []).
  assert (N : forall x, (0 <= x)%R -> fnorm [Fin x; Fin 0%R; Fin 0%R; Fin 0%R; Fin 0%R; Fin 0%R] = Fin x).
  { intros x Hx. unfold fnorm. cbn [map fmul fsum fold_right fadd fsqrt]. unfold Rltb. replace (x * x + (0 * 0 + (0 * 0 + (0 * 0 + (0 * 0 + (0 * 0 + 0))))))%R with (x * x)%R by ring.
    destruct (Rlt_dec _ 0) as [L|L]; [exfalso; pose proof (Rle_0_sqr x) as Q; unfold Rsqr in Q; lra|]. f_equal. apply sqrt_square. exact Hx. }
  assert (St : forall p x, row_step k (kern p) [Fin x] = [Fin (x + 1 * 1)]) by (intros p x; reflexivity).
  assert (Tn : forall kn np Q j p p', Q p = [Fin 0%R] -> kn p = kern p' -> Qj kn k np Q j p = [Fin (INR j)]).
  { intros kn np Q j p p' HQ HK. rewrite (row_path kn k np Q eq_refl). cbn [ik_nr k]. rewrite Nat.div_1_r, HQ, HK. induction j as [|j IH]; [reflexivity|]. cbn [turns]. rewrite IH, St, S_INR. do 2 f_equal. ring. }
  assert (Dd : forall kn np Q j p p', Q p = [Fin 0%R] -> kn p = kern p' -> Dj kn k np Q p 0 j = [Fin (err p' (INR j)); Fin 0%R; Fin 0%R; Fin 0%R; Fin 0%R; Fin 0%R]).
  { intros kn np Q j p p' HQ HK. unfold Dj. cbn [ik_nr k]. replace (p * 1 + 0) with p by lia. rewrite (Tn kn np Q j p p' HQ HK), HK. reflexivity. }
  assert (I2 : INR 2 = 2%R) by (cbn; lra). assert (I3' : INR 3 = 3%R) by (cbn; lra).
  assert (Er : (err 0%nat 0%R = 5 /\ err 0%nat 1%R = 5 /\ err 0%nat 2%R = 5 /\ err 0%nat 3%R = 0)%R).
  { unfold err, Rltb. repeat split; (destruct (Rlt_dec _ _); [reflexivity || (exfalso; lra) | reflexivity || (exfalso; lra)]). }
  destruct Er as (V0 & V1 & V2 & V3).
  assert (Kp : forall b, keep_problem k [b] = b) by (intros []; reflexivity).
  assert (R2 : forall kn np Q p p', Q p = [Fin 0%R] -> kn p = kern p' -> f_R (iter kn k np 1 (finit k Q)) p = true).
  { intros. apply iter_R. split; [reflexivity|]. split; [discriminate | intros _ X; inversion X]. }
  assert (RA : forall kn np Q p, Q p = [Fin 0%R] -> kn p = kern 0 -> f_R (iter kn k np 2 (finit k Q)) p = false).
  { intros kn np Q p HQ HK. apply not_true_iff_false. intros X. apply iter_R in X as (_ & _ & X). specialize (X ltac:(discriminate) ltac:(lia)). cbn [ik_nr k] in X.
    change (keep_problem k [cntj kn k np Q p 0 1 <=? 0] = true) in X. rewrite Kp in X. cbn [cntj minj] in X. unfold ej in X. rewrite !(Dd kn np Q _ p 0 HQ HK) in X. cbn [INR] in X. rewrite V0, V1, !N in X by lra. cbn [flt] in X. unfold Rltb in X.
    destruct (Rlt_dec 5 5); [lra | discriminate X]. }
  assert (RB : forall kn np Q p, Q p = [Fin 0%R] -> kn p = kern 1 -> f_R (iter kn k np 2 (finit k Q)) p = true).
  { intros kn np Q p HQ HK. apply iter_R. split; [apply (R2 kn np Q p 1 HQ HK)|]. split; [discriminate|]. intros _ _. cbn [ik_nr k].
    change (keep_problem k [cntj kn k np Q p 0 1 <=? 0] = true). rewrite Kp. cbn [cntj minj]. unfold ej. rewrite !(Dd kn np Q _ p 1 HQ HK). cbn [INR err]. rewrite !N by lra. cbn [flt]. unfold Rltb.
    destruct (Rlt_dec (100 - 1) (100 - 0)); [reflexivity | exfalso; lra]. }
  assert (Ok0 : forall x, (0 <= x)%R -> ok (Fin (1/10)) (Fin 1) [Fin x; Fin 0%R; Fin 0%R; Fin 0%R; Fin 0%R; Fin 0%R] = Rltb x (1/10)).
  { intros x Hx. unfold ok, pok, rok, pos_err, rot_err, fnorm. cbn [firstn skipn map fmul fsum fold_right fadd fsqrt].
    replace (x * x + (0 * 0 + (0 * 0 + 0)))%R with (x * x)%R by ring. replace (0 * 0 + (0 * 0 + (0 * 0 + 0)))%R with 0%R by ring.
    unfold Rltb at 1 2. destruct (Rlt_dec (x * x) 0) as [L|_]; [exfalso; pose proof (Rle_0_sqr x) as Q; unfold Rsqr in Q; lra|]. destruct (Rlt_dec 0 0) as [L|_]; [exfalso; lra|].
    rewrite sqrt_square, sqrt_0 by exact Hx. cbn [flt]. unfold Rltb at 2. destruct (Rlt_dec 0 1); [apply andb_true_r | exfalso; lra]. }
  assert (B5 : Rltb 5 (1/10) = false) by (unfold Rltb; destruct (Rlt_dec 5 (1/10)); [exfalso; lra | reflexivity]).
  assert (B0 : Rltb 0 (1/10) = true) by (unfold Rltb; destruct (Rlt_dec 0 (1/10)); [reflexivity | exfalso; lra]).
  assert (C2 : forall kn np Q p, Q p = [Fin 0%R] -> kn p = kern 0 -> e_conv (entry_after k kn np Q 2 p 0) = false).
  { intros kn np Q p HQ HK. unfold entry_after. rewrite (proj2 (proj2 (hist_flags _ _ _ _))). cbn [blank_entry e_conv orb seq map existsb pairj snd ik_ptol ik_rtol k]. rewrite !(Dd kn np Q _ p 0 HQ HK), I2. cbn [INR]. rewrite V0, V1, V2, !Ok0 by lra. rewrite B5. reflexivity. }
  destruct (whole kern k 2 q0 ltac:(cbn; lia) eq_refl eq_refl) as (s & Es & Rs & En).
  destruct (whole (fun _ => kern 0) k 1 (rows_of 1 q0 0) ltac:(cbn; lia) eq_refl eq_refl) as (s' & Es' & Rs' & En').
  assert (Is' : s_iter s' = 2).
  { apply (runs_unique _ _ _ _ _ _ Rs'). split; [cbn; lia|]. split.
    - intros j Hj. exists 0. split; [lia|]. destruct j as [|[|j]]; [reflexivity | apply (R2 _ _ _ 0 0); reflexivity | lia].
    - intros _ p Hp. assert (p = 0) by lia. subst p. apply RA; reflexivity. }
  assert (Is : s_iter s = 3).
  { apply (runs_unique _ _ _ _ _ _ Rs). split; [cbn; lia|]. split; [|cbn; lia].
    intros j Hj. exists 1. split; [lia|]. destruct j as [|[|[|j]]]; [reflexivity | apply (R2 _ _ _ 1 1); reflexivity | apply RB; reflexivity | lia]. }
  exists kern, k, q0, s, s', (entry_after k kern 2 (rowf q0) 3 0 0), (entry_after k (fun _ => kern 0) 1 (rowf (rows_of 1 q0 0)) 2 0 0).
  split; [reflexivity|]. split; [reflexivity|]. split; [reflexivity|]. split; [exact Es|]. split; [exact Es'|]. split; [exact Is'|]. split; [exact Is|].
  split; [rewrite (En' 0 0) by (cbn; lia); rewrite Is'; reflexivity|]. split; [apply C2; reflexivity|]. split; [rewrite (En 0 0) by (cbn; lia); rewrite Is; reflexivity|].
  assert (Last : entry_after k kern 2 (rowf q0) 3 0 0 = upd_entry (Fin (1/10)) (Fin 1) (entry_after k kern 2 (rowf q0) 2 0 0) [Fin 3%R] [Fin 0%R; Fin 0%R; Fin 0%R; Fin 0%R; Fin 0%R; Fin 0%R]).
  { unfold entry_after. rewrite (seq_S 3), map_app, hist_app. cbn [plus map]. unfold pairj. rewrite (Dd kern 2 (rowf q0) 3 0 0 eq_refl eq_refl). cbn [ik_nr k mult plus]. rewrite (Tn kern 2 (rowf q0) 3 0 0 eq_refl eq_refl), I3', V3. reflexivity. }
  rewrite Last. unfold upd_entry. cbn [e_conv e_q]. rewrite (C2 kern 2 (rowf q0) 0 eq_refl eq_refl), Ok0, B0 by lra. split; reflexivity.
Qed.

Lemma l87_line_search_refuted : exists s s' e e',
  solve_from (fun _ => flat_kern 0) (halving_ik (fun _ => flat_kern 0)) 1 [[Fin 0%R]] = Ok s' /\ entry_at s' 0 0 = Some e' /\ e_conv e' = true /\ s_iter s' = 2 /\
  solve_from flat_kern (halving_ik flat_kern) 2 [[Fin 0%R]; [Fin 0%R]] = Ok s /\ entry_at s 0 0 = Some e /\ e_conv e = false /\ s_iter s = 2.
Proof.
  eexists; eexists; eexists; eexists. split; [go; ev; reflexivity|]. split; [reflexivity|]. split; [reflexivity|]. split; [reflexivity|]. split; [go; ev; reflexivity|]. repeat split; reflexivity.
Qed.
