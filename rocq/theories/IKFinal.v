(** Last steps of the proofs quoted in Properties_IK.v. *)
From Coq Require Import Reals Lra String Bool Arith Lia List ZArith.
From Verif Require Import Prelude ExtF IKModel IKProofs IKMore IKLimits.
Import ListNotations.
Local Open Scope nat_scope.
Local Open Scope list_scope.


Lemma l39_history : forall dof np nr pt rt h, 0 < nr -> (forall q e b, In (q, e, b) h -> length q = np * nr /\ length e = np * nr) ->
  exists s, run_updates (sol_init dof np nr pt rt) h = Ok s /\
  (forall p r, p < np -> r < nr ->
    let seen := map (fun x => (nth (p * nr + r) (fst (fst x)) [], nth (p * nr + r) (snd (fst x)) [])) h in
    let good := fun qe : list F * list F => flt (fnorm (firstn 3 (snd qe))) pt = true /\ flt (fnorm (skipn 3 (snd qe))) rt = true in
    exists e, entry_at s p r = Some e /\ (e_conv e = true <-> exists qe, In qe seen /\ good qe) /\
      (forall a qe b, seen = a ++ qe :: b -> (forall x, In x a -> ~ good x) -> (good qe \/ b = []) ->
        e_q e = fst qe /\ e_pos e = fnorm (firstn 3 (snd qe)) /\ e_rot e = fnorm (skipn 3 (snd qe))) /\
      (e_conv e = true -> flt (e_pos e) pt = true /\ flt (e_rot e) rt = true)) /\
  (forall p, p < np -> exists b, nth_error (s_any s) p = Some b /\ (b = true <-> exists r e, entry_at s p r = Some e /\ e_conv e = true)).
Proof.
  intros dof np nr pt rt h Hnr Hh. rewrite sol_init_eq, run_updates_eq by assumption. eexists. split; [reflexivity|].
  assert (G : forall e, (flt (fnorm (firstn 3 e)) pt = true /\ flt (fnorm (skipn 3 e)) rt = true) <-> ok pt rt e = true).
  { intros e. unfold ok, pok, rok, pos_err, rot_err. rewrite andb_true_iff. reflexivity. }
  assert (C : forall p r, e_conv (hist pt rt (blank_entry dof) (map (rowp nr p r) h)) = true <-> exists qe, In qe (map (rowp nr p r) h) /\ ok pt rt (snd qe) = true).
  { intros p r. destruct (hist_flags pt rt (map (rowp nr p r) h) (blank_entry dof)) as (_ & _ & ->). cbn [blank_entry e_conv orb]. rewrite existsb_exists. reflexivity. }
  split.
  - intros p r Hp Hr seen good. eexists. split; [apply entry_mk; assumption|]. change seen with (map (rowp nr p r) h) in *. split; [|split].
    + rewrite C. unfold good. split; intros (qe & H1 & H2); exists qe; (split; [exact H1 | apply G; exact H2]).
    + intros a qe b E Ha Hb. unfold good in *.
      destruct (hist_at pt rt (blank_entry dof) _ a qe b eq_refl E) as (V1 & V2 & V3 & _).
      * intros x Hx. apply not_true_iff_false. intros Q. apply (Ha x Hx). apply G. exact Q.
      * destruct Hb as [Hb|Hb]; [left; apply G; exact Hb | right; exact Hb].
      * auto.
    + intros HC. apply C in HC. destruct (map (rowp nr p r) h) as [|x l] eqn:El; [destruct HC as (? & [] & _)|].
      destruct (hist_values pt rt (x :: l) (blank_entry dof) eq_refl ltac:(discriminate)) as (a & qe & b & E & Ha & Hb & V1 & V2 & V3 & V4).
      assert (ok pt rt (snd qe) = true).
      { destruct Hb as [Hb| ->]; [exact Hb|]. destruct HC as (y & Hy & Oy). rewrite E in Hy. apply in_app_or in Hy. destruct Hy as [Hy|[<-|[]]]; [rewrite Ha in Oy by exact Hy; discriminate | exact Oy]. }
      rewrite V2, V3. apply G. assumption.
  - intros p Hp. eexists. split; [cbn [mk_sol s_any]; apply vec_nth; exact Hp|]. cbn [orb]. rewrite existsb_exists. split.
    + intros (x & Hx & Q). unfold any_ok in Q. apply existsb_vec in Q. destruct Q as (r & Hr & Q). exists r. eexists. split; [apply entry_mk; assumption|].
      apply C. exists (rowp nr p r x). split; [apply in_map; exact Hx | exact Q].
    + intros (r & e & He & Hc). destruct (lt_dec r nr) as [Hr|Hr].
      * rewrite entry_mk in He by assumption. assert (HX : forall X (a b : X), Some a = Some b -> a = b) by (intros; congruence). apply HX in He. subst e.
        apply C in Hc. destruct Hc as (qe & H1 & H2). apply in_map_iff in H1. destruct H1 as (x & <- & Hx). exists x. split; [exact Hx|].
        unfold any_ok. apply existsb_vec. exists r. auto.
      * exfalso. unfold entry_at in He. cbn [mk_sol s_entries] in He. unfold tab in He. rewrite vec_nth in He by exact Hp. rewrite vec_none in He by lia. discriminate.
Qed.

Lemma l39_frozen : forall dof np nr pt rt h1 h2, 0 < nr -> (forall q e b, In (q, e, b) (h1 ++ h2) -> length q = np * nr /\ length e = np * nr) ->
  exists s1 s2, run_updates (sol_init dof np nr pt rt) h1 = Ok s1 /\ run_updates s1 h2 = Ok s2 /\
  forall p r e1, p < np -> r < nr -> entry_at s1 p r = Some e1 -> e_conv e1 = true ->
    exists e2, entry_at s2 p r = Some e2 /\ e_q e2 = e_q e1 /\ e_pos e2 = e_pos e1 /\ e_rot e2 = e_rot e1 /\ e_conv e2 = true.
Proof.
  intros dof np nr pt rt h1 h2 Hnr Hh. rewrite sol_init_eq, run_updates_eq by (auto; intros; apply Hh with (b := b); apply in_or_app; auto).
  eexists; eexists. split; [reflexivity|]. rewrite run_updates_eq by (auto; intros; apply Hh with (b := b); apply in_or_app; auto). split; [reflexivity|].
  intros p r e1 Hp Hr H1 H2. rewrite entry_mk in H1 by assumption. assert (HX : forall X (a b : X), Some a = Some b -> a = b) by (intros; congruence). apply HX in H1. subst e1.
  eexists. split; [apply entry_mk; assumption|]. apply hist_frozen. exact H2.
Qed.

Lemma l39_solve : forall kern k np q0, 0 < ik_nr k -> length q0 = np * ik_nr k ->
  (forall f, ik_ls k = Some f -> forall q dq dx rem, length dq = length q -> length dx = length q -> length (f q dq dx rem) = length q) ->
  exists s, solve_from kern k np q0 = Ok s /\
  (forall p r, p < np -> r < ik_nr k -> exists e, entry_at s p r = Some e /\
    e_pos e = fnorm (firstn 3 (snd (kern p (e_q e)))) /\ e_rot e = fnorm (skipn 3 (snd (kern p (e_q e)))) /\
    (e_conv e = true <-> flt (e_pos e) (ik_ptol k) = true /\ flt (e_rot e) (ik_rtol k) = true)) /\
  (forall p, p < np -> exists b, nth_error (s_any s) p = Some b /\ (b = true <-> exists r e, entry_at s p r = Some e /\ e_conv e = true)).
Proof.
  intros kern k np q0 Hnr Hl Hls. rewrite (vec_of q0 []), Hl. set (Q0 := fun i => nth i q0 []).
  destruct (solve_eq kern k np Hnr Hls Q0) as (m & _ & _ & _ & E). rewrite E. clear E.
  destruct (ik_enforce k && has_finite_limits k).
  - unfold final. rewrite enforce_eq by exact Hnr. eexists. split; [reflexivity|]. split.
    + intros p r Hp Hr. eexists. split; [apply entry_mk; assumption|]. cbv zeta. cbn [e_q e_pos e_rot e_conv]. unfold ok, pok, rok, pos_err, rot_err. rewrite andb_true_iff. repeat split; tauto.
    + intros p Hp. eexists. split; [cbn [mk_sol s_any]; apply vec_nth; exact Hp|]. rewrite conv_p_true. split.
      * intros (r & Hr & H). exists r. eexists. split; [apply entry_mk; assumption | exact H].
      * intros (r & e & He & Hc). destruct (lt_dec r (ik_nr k)) as [Hr|Hr].
        -- rewrite entry_mk in He by assumption. assert (HX : forall X (a b : X), Some a = Some b -> a = b) by (intros; congruence). apply HX in He. subst e. exists r. auto.
        -- exfalso. unfold entry_at in He. cbn [mk_sol s_entries] in He. unfold tab in He. rewrite vec_nth in He by exact Hp. rewrite vec_none in He by lia. discriminate.
  - eexists. split; [reflexivity|]. split.
    + intros p r Hp Hr. rewrite final_entry by assumption. eexists. split; [reflexivity|].
      destruct (stored_consistent kern k np Q0 m p r) as (j & Hj & V1 & V2 & V3 & V4 & _). rewrite V1, V2, V3, V4. fold (Dj kern k np Q0 p r j).
      unfold ok, pok, rok, pos_err, rot_err. rewrite andb_true_iff. repeat split; tauto.
    + intros p Hp. apply final_any. exact Hp.
Qed.

Lemma l40_flags_implied : forall kern k np q0, 0 < ik_nr k -> length q0 = np * ik_nr k ->
  (forall f, ik_ls k = Some f -> forall q dq dx rem, length dq = length q -> length dx = length q -> length (f q dq dx rem) = length q) ->
  exists s, solve_from kern k np q0 = Ok s /\
  forall p r, p < np -> r < ik_nr k -> exists e, entry_at s p r = Some e /\
    (flt (e_pos e) (ik_ptol k) = true -> e_cpos e = true) /\ (flt (e_rot e) (ik_rtol k) = true -> e_crot e = true) /\
    (e_conv e = true -> e_cpos e = true /\ e_crot e = true).
Proof.
  intros kern k np q0 Hnr Hl Hls. rewrite (vec_of q0 []), Hl. set (Q0 := fun i => nth i q0 []).
  destruct (solve_eq kern k np Hnr Hls Q0) as (m & _ & _ & _ & E). rewrite E. clear E.
  destruct (ik_enforce k && has_finite_limits k).
  - unfold final. rewrite enforce_eq by exact Hnr. eexists. split; [reflexivity|].
    intros p r Hp Hr. eexists. split; [apply entry_mk; assumption|]. cbv zeta. cbn [e_pos e_rot e_cpos e_crot e_conv]. unfold ok. rewrite andb_true_iff. auto.
  - eexists. split; [reflexivity|]. intros p r Hp Hr. rewrite final_entry by assumption. eexists. split; [reflexivity|].
    destruct (stored_consistent kern k np Q0 m p r) as (j & Hj & V1 & V2 & V3 & V4 & _). rewrite V2, V3, V4.
    destruct (hist_flags (ik_ptol k) (ik_rtol k) (map (pairj kern k np Q0 p r) (seq 0 (S m))) (blank_entry (ik_dof k))) as (-> & -> & _). cbn [blank_entry e_cpos e_crot orb].
    rewrite !existsb_exists.
    assert (In (pairj kern k np Q0 p r j) (map (pairj kern k np Q0 p r) (seq 0 (S m)))) by (apply in_map, in_seq; lia).
    unfold ok. rewrite andb_true_iff. repeat split; intros; eexists; split; eauto; cbn [pairj snd]; unfold pok, rok; tauto.
Qed.

Lemma l40_exact_after_enforcement : forall kern k np q0, 0 < ik_nr k -> length q0 = np * ik_nr k ->
  (forall f, ik_ls k = Some f -> forall q dq dx rem, length dq = length q -> length dx = length q -> length (f q dq dx rem) = length q) ->
  ik_enforce k = true -> (exists x, In x (ik_low k ++ ik_high k) /\ isfinite x = true) ->
  exists s, solve_from kern k np q0 = Ok s /\
  forall p r, p < np -> r < ik_nr k -> exists e, entry_at s p r = Some e /\
    e_cpos e = flt (e_pos e) (ik_ptol k) /\ e_crot e = flt (e_rot e) (ik_rtol k) /\ e_conv e = e_cpos e && e_crot e.
Proof.
  intros kern k np q0 Hnr Hl Hls He (x & Hx & Fx). rewrite (vec_of q0 []), Hl. set (Q0 := fun i => nth i q0 []).
  destruct (solve_eq kern k np Hnr Hls Q0) as (m & _ & _ & _ & E). rewrite E. clear E.
  assert (Hf : has_finite_limits k = true).
  { unfold has_finite_limits. rewrite <- existsb_app. apply existsb_exists. eauto. }
  rewrite He, Hf. cbn [andb]. unfold final. rewrite enforce_eq by exact Hnr. eexists. split; [reflexivity|].
  intros p r Hp Hr. eexists. split; [apply entry_mk; assumption|]. cbv zeta. cbn [e_pos e_rot e_cpos e_crot e_conv]. auto.
Qed.

Lemma l40_flags_refuted : exists kern k s e, solve_from kern k 1 [[Fin 0%R]] = Ok s /\ entry_at s 0 0 = Some e /\
  e_cpos e = true /\ flt (e_pos e) (ik_ptol k) = false /\ s_pos_any s = [false].
Proof.
  exists (fun _ q => match q with [Fin x] => ([Fin 1], [Fin x; Fin 0; Fin 0; Fin 3; Fin 0; Fin 0]) | _ => ([], []) end),
    (mkIK 1 1 (Fin (1/2)) (Fin 1) 1 (Fin 1) None false NoStop 0 false 0 false [] [] []).
  assert (N : forall x, fnorm [Fin x; Fin 0%R; Fin 0%R] = Fin (sqrt (x * x + (0 * 0 + (0 * 0 + 0))))).
  { intros x. unfold fnorm. cbn [map fmul fsum fold_right fadd fsqrt]. unfold Rltb. destruct (Rlt_dec _ 0) as [L|L]; [|reflexivity]. exfalso. pose proof (Rle_0_sqr x) as Q. unfold Rsqr in Q. lra. }
  assert (V : forall x, (0 <= x)%R -> fnorm [Fin x; Fin 0%R; Fin 0%R] = Fin x).
  { intros x Hx. rewrite N. f_equal. replace (x * x + (0 * 0 + (0 * 0 + 0)))%R with (x * x)%R by ring. apply sqrt_square. exact Hx. }
  assert (B1 : flt (Fin (0 + 1 * 1)) (Fin (1/2)) = false) by (cbn [flt]; apply Rltb_false; lra).
  assert (B2 : flt (Fin 0) (Fin (1/2)) = true) by (cbn [flt]; apply Rltb_true; lra).
  assert (B3 : flt (Fin 3) (Fin 1) = false) by (cbn [flt]; apply Rltb_false; lra).
  eexists; eexists. split.
  - unfold solve_from. cbn -[fnorm flt]. unfold conv_now, pos_err, rot_err. cbn -[fnorm flt]. rewrite !V by lra. rewrite B2, B3. cbn -[fnorm flt].
    unfold conv_now, pos_err, rot_err. cbn -[fnorm flt]. rewrite B1. reflexivity.
  - split; [reflexivity|]. cbn -[fnorm flt]. auto.
Qed.

Lemma l40_any_never_set : forall kern k np q0, 0 < ik_nr k -> length q0 = np * ik_nr k ->
  (forall f, ik_ls k = Some f -> forall q dq dx rem, length dq = length q -> length dx = length q -> length (f q dq dx rem) = length q) ->
  exists s, solve_from kern k np q0 = Ok s /\ s_pos_any s = repeat false np /\ s_rot_any s = repeat false np.
Proof.
  intros kern k np q0 Hnr Hl Hls. rewrite (vec_of q0 []), Hl. set (Q0 := fun i => nth i q0 []).
  destruct (solve_eq kern k np Hnr Hls Q0) as (m & _ & _ & _ & E). rewrite E. clear E. rewrite repeat_vec.
  destruct (ik_enforce k && has_finite_limits k).
  - unfold final. rewrite enforce_eq by exact Hnr. eexists. split; [reflexivity|]. split; reflexivity.
  - eexists. split; [reflexivity|]. split; reflexivity.
Qed.

Lemma l41_run : forall kern k np q0, 0 < ik_nr k -> length q0 = np * ik_nr k ->
  (forall f, ik_ls k = Some f -> forall q dq dx rem, length dq = length q -> length dx = length q -> length (f q dq dx rem) = length q) ->
  exists s (Q : nat -> nat -> list F) (lr : nat -> nat -> F), solve_from kern k np q0 = Ok s /\
  let err := fun p r j => snd (kern p (Q j (p * ik_nr k + r))) in
  let met := fun p r j => flt (fnorm (firstn 3 (err p r j))) (ik_ptol k) = true /\ flt (fnorm (skipn 3 (err p r j))) (ik_rtol k) = true in
  let newmin := fun p r i => isnan (fnorm (err p r 0)) = false /\ forall l, l < i -> isnan (fnorm (err p r l)) = false -> flt (fnorm (err p r i)) (fnorm (err p r l)) = true in
  let stalled := fun p r j => ik_patience k < j /\ forall i, j - ik_patience k <= i <= j -> ~ newmin p r i in
  let improving := fun p j => exists c, (forall r, r < ik_nr k -> (c r = true <-> ~ stalled p r j)) /\
    match ik_noimp k with
    | NoStop => True
    | StopAll => forall r, r < ik_nr k -> c r = true
    | StopAny => exists r, r < ik_nr k /\ c r = true
    | StopRatio x => (x < INR (length (filter c (seq 0 (ik_nr k)))) / INR (ik_nr k))%R
    end in
  let alive := fun p n => (ik_stop_any k = true -> forall j r, j < n -> r < ik_nr k -> ~ met p r j) /\
    (ik_noimp k <> NoStop -> forall j, 0 < j < n -> improving p j) in
  (forall i, i < np * ik_nr k -> nth_error q0 i = Some (Q 0 i)) /\
  (forall j i, j < s_iter s -> i < np * ik_nr k -> Q (S j) i =
    (let q := zip_with2 (fun x d => fadd x (fmul (lr j i) d)) (Q j i) (fst (kern (i / ik_nr k) (Q j i))) in
     if ik_clamp k then clamp_row (ik_low k) (ik_high k) q else q)) /\
  (ik_ls k = None -> forall j i, lr j i = ik_lr k) /\
  s_iter s <= ik_max k /\
  (forall j, j < s_iter s -> exists p, p < np /\ alive p j) /\
  (s_iter s < ik_max k -> forall p, p < np -> ~ alive p (s_iter s)) /\
  (forall p, p < np -> exists b, nth_error (s_remaining s) p = Some b /\
    (b = true <-> alive p (s_iter s) /\ (ik_stop_any k = true -> forall r, r < ik_nr k -> ~ met p r (s_iter s)))).
Proof.
  intros kern k np q0 Hnr Hl Hls. rewrite (vec_of q0 []), Hl. set (Q0 := fun i => nth i q0 []).
  destruct (solve_eq kern k np Hnr Hls Q0) as (m & Hm & HR1 & HR2 & E).
  set (Q := Qj kern k np Q0).
  assert (HS : exists s, solve_from kern k np (vec (np * ik_nr k) Q0) = Ok s /\ s_iter s = m /\ s_remaining s = s_remaining (final kern k np (iter kern k np m (finit k Q0)))).
  { rewrite E. destruct (ik_enforce k && has_finite_limits k).
    - unfold final. rewrite enforce_eq by exact Hnr. eexists. split; [reflexivity|]. split; [apply iter_it | reflexivity].
    - eexists. split; [reflexivity|]. split; [apply iter_it | reflexivity]. }
  clear E. destruct HS as (s & Hs & Hit & Hrem).
  exists s, Q, (fun j i => lrs k (vec (np * ik_nr k) (Q j)) (vec (np * ik_nr k) (fun i => fst (kern (i / ik_nr k) (Q j i)))) (vec (np * ik_nr k) (fun i => snd (kern (i / ik_nr k) (Q j i))))
     (vec np (f_R (iter kern k np (S j) (finit k Q0)))) i).
  split; [exact Hs|]. rewrite Hit. intros err met newmin stalled improving alive.
  assert (Hmet : forall p r j, met p r j <-> ok (ik_ptol k) (ik_rtol k) (Dj kern k np Q0 p r j) = true).
  { intros. unfold met, ok, pok, rok, pos_err, rot_err. rewrite andb_true_iff. reflexivity. }
  assert (Hst : forall p r j, stalled p r j <-> ik_patience k < cntj kern k np Q0 p r j).
  { intros p r j. rewrite cntj_spec. reflexivity. }
  assert (Himp : forall p j, ik_noimp k <> NoStop -> (improving p j <-> keep_problem k (vec (ik_nr k) (fun r => cntj kern k np Q0 p r j <=? ik_patience k)) = true)).
  { intros p j N. set (b := fun r => cntj kern k np Q0 p r j <=? ik_patience k).
    assert (Hb : forall r, b r = true <-> ~ stalled p r j) by (intros r; unfold b; rewrite Hst, Nat.leb_le; lia).
    assert (Heq : forall c : nat -> bool, (forall r, r < ik_nr k -> (c r = true <-> ~ stalled p r j)) -> forall r, r < ik_nr k -> c r = b r).
    { intros c Hc r Hr. specialize (Hc r Hr). rewrite <- Hb in Hc. apply eq_true_iff_eq. exact Hc. }
    assert (Hcount : forall c : nat -> bool, (forall r, r < ik_nr k -> c r = b r) -> length (filter c (seq 0 (ik_nr k))) = length (filter (fun x => x) (vec (ik_nr k) b))).
    { intros c Hc. unfold vec. assert (Hin : forall r, In r (seq 0 (ik_nr k)) -> c r = b r) by (intros r Hr; apply Hc; apply in_seq in Hr; lia). clear Hc. revert Hin. clear.
      induction (seq 0 (ik_nr k)) as [|x l IH]; intros H; [reflexivity|]. cbn [filter map]. rewrite (H x (or_introl eq_refl)). destruct (b x); cbn [length]; rewrite IH by (intros; apply H; right; assumption); reflexivity. }
    unfold improving, keep_problem. destruct (ik_noimp k) as [| | |x]; [contradiction| | |].
    - rewrite forallb_vec. split.
      + intros (c & Hc & H) r Hr. rewrite <- (Heq c Hc r Hr). auto.
      + intros H. exists b. split; [intros; apply Hb | exact H].
    - rewrite existsb_vec. split.
      + intros (c & Hc & r & Hr & H). exists r. rewrite <- (Heq c Hc r Hr). auto.
      + intros H. exists b. split; [intros; apply Hb | exact H].
    - rewrite Rltb_true. split.
      + intros (c & Hc & H). rewrite <- (Hcount c (Heq c Hc)). exact H.
      + intros H. exists b. split; [intros; apply Hb |]. rewrite (Hcount b (fun _ _ => eq_refl)). exact H. }
  assert (Hal : forall p n, alive p n <-> f_R (iter kern k np n (finit k Q0)) p = true).
  { intros p n. induction n as [|n IH].
    - cbn [iter finit f_R]. split; [reflexivity|]. intros _. split; [intros; lia | intros; lia].
    - rewrite iter_R, <- IH. unfold alive. split.
      + intros [A B]. split; [split|split].
        * intros Sa j r Hj Hr. apply A; [exact Sa | lia | exact Hr].
        * intros N j Hj. apply B; [exact N | lia].
        * intros Sa r Hr. apply not_true_iff_false. rewrite <- Hmet. apply A; [exact Sa | lia | exact Hr].
        * intros N H0. apply Himp; [exact N|]. apply B; [exact N | lia].
      + intros [[A B] [C D]]. split.
        * intros Sa j r Hj Hr. destruct (Nat.eq_dec j n) as [->|]; [|apply A; auto; lia]. rewrite Hmet, (C Sa r Hr). discriminate.
        * intros N j Hj. destruct (Nat.eq_dec j n) as [->|]; [|apply B; auto; lia]. apply Himp; [exact N|]. apply D; [exact N | lia]. }
  assert (Hex : forall n, existsb (f_R (iter kern k np n (finit k Q0))) (seq 0 np) = true <-> exists p, p < np /\ alive p n).
  { intros n. rewrite existsb_exists. split; intros (p & H1 & H2); exists p.
    - apply in_seq in H1. rewrite Hal. split; [lia | exact H2].
    - rewrite Hal in H2. split; [apply in_seq; lia | exact H2]. }
  split; [|split; [|split; [|split; [|split; [|split]]]]].
  - intros i Hi. apply vec_nth. exact Hi.
  - intros j i Hj Hi. reflexivity.
  - intros Hn j i. unfold lrs. rewrite Hn. reflexivity.
  - exact Hm.
  - intros j Hj. apply Hex. apply HR1. exact Hj.
  - intros Hlt p Hp Ha. specialize (HR2 Hlt). apply not_true_iff_false in HR2. apply HR2. apply Hex. eauto.
  - intros p Hp. rewrite Hrem. unfold final. eexists. split; [cbn [mk_sol s_remaining]; apply vec_nth; exact Hp|]. rewrite Hal.
    assert (C : conv_p kern k (f_q (iter kern k np m (finit k Q0))) p = false <-> forall r, r < ik_nr k -> ~ met p r m).
    { rewrite <- not_true_iff_false, conv_p_true. split.
      - intros H r Hr Q'. apply H. exists r. split; [exact Hr|]. apply Hmet in Q'. exact Q'.
      - intros H (r & Hr & Q'). apply (H r Hr). apply Hmet. exact Q'. }
    rewrite <- C. destruct (ik_stop_any k); [rewrite andb_true_iff, negb_true_iff; intuition | intuition discriminate].
Qed.

Lemma l41_full_budget : forall kern k np q0, 0 < ik_nr k -> 0 < np -> length q0 = np * ik_nr k ->
  (forall f, ik_ls k = Some f -> forall q dq dx rem, length dq = length q -> length dx = length q -> length (f q dq dx rem) = length q) -> ik_stop_any k = false -> ik_noimp k = NoStop ->
  exists s, solve_from kern k np q0 = Ok s /\ s_iter s = ik_max k /\ s_remaining s = repeat true np.
Proof.
  intros kern k np q0 Hnr Hnp Hl Hls Hs Hn. rewrite (vec_of q0 []), Hl. set (Q0 := fun i => nth i q0 []).
  destruct (solve_eq kern k np Hnr Hls Q0) as (m & Hm & HR1 & HR2 & E).
  assert (HR : forall n p, f_R (iter kern k np n (finit k Q0)) p = true).
  { intros n p. induction n as [|n IH]; [reflexivity|]. apply iter_R. split; [exact IH|]. split; [rewrite Hs; discriminate | rewrite Hn; intros Q; contradiction]. }
  assert (m = ik_max k).
  { destruct (Nat.eq_dec m (ik_max k)) as [|N]; [assumption|]. exfalso. specialize (HR2 ltac:(lia)). apply not_true_iff_false in HR2. apply HR2.
    apply existsb_exists. exists 0. split; [apply in_seq; lia | apply HR]. }
  assert (F : s_iter (final kern k np (iter kern k np m (finit k Q0))) = ik_max k /\ s_remaining (final kern k np (iter kern k np m (finit k Q0))) = repeat true np).
  { unfold final. cbn [mk_sol s_iter s_remaining]. rewrite iter_it, repeat_vec, Hs. split; [assumption|]. apply vec_ext. intros. apply HR. }
  rewrite E. destruct (ik_enforce k && has_finite_limits k); [|eexists; split; [reflexivity | exact F]].
  unfold final in *. rewrite enforce_eq by exact Hnr. eexists. split; [reflexivity | exact F].
Qed.

Lemma l47_swapped_refuted : exists kern k q0 s s', ik_nr k = 2 /\ ik_noimp k = StopAll /\
  solve_from kern k 1 q0 = Ok s /\ s_remaining s = [false] /\
  solve_from kern (mkIK (ik_dof k) 2 (ik_ptol k) (ik_rtol k) (ik_max k) (ik_lr k) (ik_ls k) (ik_stop_any k) StopAny (ik_patience k) (ik_enforce k)
    (ik_refine k) (ik_clamp k) (ik_low k) (ik_high k) (ik_rev k)) 1 q0 = Ok s' /\ s_remaining s' = [true] /\
  (forall x, snd (kern 0 [Fin 0%R]) = [Fin 1%R; Fin 0%R; Fin 0%R; Fin 0%R; Fin 0%R; Fin 0%R] /\ fst (kern 0 [Fin 0%R]) = [Fin 0%R] /\
     ((x < 0)%R -> kern 0 [Fin x] = ([Fin (- x / 2)%R], [Fin (- x)%R; Fin 0%R; Fin 0%R; Fin 0%R; Fin 0%R; Fin 0%R]))) /\ q0 = [[Fin 0%R]; [Fin (-4)%R]].
Proof.
  set (kern := fun (_ : nat) q => match q with
    | [Fin x] => if Rltb x 0 then ([Fin (- x / 2)%R], [Fin (- x)%R; Fin 0%R; Fin 0%R; Fin 0%R; Fin 0%R; Fin 0%R]) else ([Fin 0%R], [Fin 1%R; Fin 0%R; Fin 0%R; Fin 0%R; Fin 0%R; Fin 0%R])
    | _ => ([], []) end).
  set (q0 := [[Fin 0%R]; [Fin (-4)%R]]).
  set (kk := fun md => mkIK 1 2 (Fin (1/10)) (Fin 1) 2 (Fin 1) None false md 0 false 0 false [] [] []).
  assert (N : forall x, (0 <= x)%R -> fnorm [Fin x; Fin 0%R; Fin 0%R; Fin 0%R; Fin 0%R; Fin 0%R] = Fin x).
  { intros x Hx. unfold fnorm. cbn [map fmul fsum fold_right fadd fsqrt]. unfold Rltb. replace (x * x + (0 * 0 + (0 * 0 + (0 * 0 + (0 * 0 + (0 * 0 + 0))))))%R with (x * x)%R by ring.
    destruct (Rlt_dec _ 0) as [L|L]; [exfalso; pose proof (Rle_0_sqr x) as Q; unfold Rsqr in Q; lra|]. f_equal. apply sqrt_square. exact Hx. }
  assert (K0 : kern 0 [Fin 0%R] = ([Fin 0%R], [Fin 1%R; Fin 0%R; Fin 0%R; Fin 0%R; Fin 0%R; Fin 0%R])).
  { unfold kern. unfold Rltb. destruct (Rlt_dec 0 0); [exfalso; lra | reflexivity]. }
  assert (Kn : forall x, (x < 0)%R -> kern 0 [Fin x] = ([Fin (- x / 2)%R], [Fin (- x)%R; Fin 0%R; Fin 0%R; Fin 0%R; Fin 0%R; Fin 0%R])).
  { intros x Hx. unfold kern. unfold Rltb. destruct (Rlt_dec x 0); [reflexivity | exfalso; lra]. }
  assert (R : forall md, md <> NoStop -> exists s, solve_from kern (kk md) 1 q0 = Ok s /\ s_remaining s = [keep_problem (kk md) [false; true]]).
  { intros md Hmd. set (k := kk md). set (Q0 := fun i => nth i q0 []).
    assert (Ht : forall f, ik_ls k = Some f -> forall q dq dx rem, length dq = length q -> length dx = length q -> length (f q dq dx rem) = length q) by (intros f Q; discriminate Q).
    destruct (solve_eq kern k 1 (Nat.lt_0_succ 1) Ht Q0) as (m & Hm & HR1 & HR2 & E). change (vec (1 * ik_nr k) Q0) with q0 in E. cbn [andb ik_enforce k kk] in E.
    assert (Q00 : Qj kern k 1 Q0 0 0 = [Fin 0%R]) by reflexivity. assert (Q01 : Qj kern k 1 Q0 0 1 = [Fin (-4)%R]) by reflexivity.
    assert (Q10 : Qj kern k 1 Q0 1 0 = [Fin 0%R]).
    { change (step_row (Fin 1) [Fin 0%R] (fst (kern 0 [Fin 0%R])) = [Fin 0%R]). rewrite K0. cbn. do 2 f_equal. ring. }
    assert (Q11 : Qj kern k 1 Q0 1 1 = [Fin (-2)%R]).
    { change (step_row (Fin 1) [Fin (-4)%R] (fst (kern 0 [Fin (-4)%R])) = [Fin (-2)%R]). rewrite Kn by lra. cbn. do 2 f_equal. lra. }
    assert (E00 : ej kern k 1 Q0 0 0 0 = Fin 1%R) by (unfold ej, Dj; cbn [ik_nr k kk mult plus]; rewrite Q00, K0; apply N; lra).
    assert (E10 : ej kern k 1 Q0 0 0 1 = Fin 1%R) by (unfold ej, Dj; cbn [ik_nr k kk mult plus]; rewrite Q10, K0; apply N; lra).
    assert (E01 : ej kern k 1 Q0 0 1 0 = Fin (- -4)%R) by (unfold ej, Dj; cbn [ik_nr k kk mult plus]; rewrite Q01, Kn by lra; apply N; lra).
    assert (E11 : ej kern k 1 Q0 0 1 1 = Fin (- -2)%R) by (unfold ej, Dj; cbn [ik_nr k kk mult plus]; rewrite Q11, Kn by lra; apply N; lra).
    assert (C0 : cntj kern k 1 Q0 0 0 1 = 1).
    { cbn [cntj minj]. rewrite E10, E00. cbn [flt]. unfold Rltb. destruct (Rlt_dec 1 1); [exfalso; lra | reflexivity]. }
    assert (C1 : cntj kern k 1 Q0 0 1 1 = 0).
    { cbn [cntj minj]. rewrite E11, E01. cbn [flt]. unfold Rltb. destruct (Rlt_dec (- -2) (- -4)); [reflexivity | exfalso; lra]. }
    assert (R0 : f_R (iter kern k 1 0 (finit k Q0)) 0 = true) by reflexivity.
    assert (R1 : f_R (iter kern k 1 1 (finit k Q0)) 0 = true) by (apply iter_R; split; [exact R0|]; split; [intros Sa; discriminate Sa | intros _ L0; exfalso; exact (Nat.lt_irrefl 0 L0)]).
    assert (m = 2).
    { destruct (Nat.eq_dec m 2) as [|Nm]; [assumption|]. exfalso. cbn [ik_max k kk] in HR2, Hm. specialize (HR2 ltac:(lia)).
      assert (Hm' : m = 0 \/ m = 1) by lia. cbn [seq existsb] in HR2. destruct Hm' as [-> | ->]; [rewrite R0 in HR2 | rewrite R1 in HR2]; discriminate HR2. }
    subst m. rewrite E. eexists. split; [reflexivity|]. unfold final. cbn [mk_sol s_remaining]. cbn [ik_stop_any k kk]. change (vec 1 (fun p => f_R (iter kern k 1 2 (finit k Q0)) p)) with [f_R (iter kern k 1 2 (finit k Q0)) 0].
    f_equal. apply eq_true_iff_eq. rewrite iter_R. cbn [ik_nr k kk ik_stop_any ik_noimp ik_patience]. change (vec 2 (fun r => cntj kern k 1 Q0 0 r 1 <=? 0)) with [cntj kern k 1 Q0 0 0 1 <=? 0; cntj kern k 1 Q0 0 1 1 <=? 0].
    rewrite C0, C1. cbn [Nat.leb]. split.
    - intros (_ & _ & H). apply H; [exact Hmd | lia].
    - intros H. split; [exact R1|]. split; [discriminate|]. intros _ _. exact H. }
  destruct (R StopAll ltac:(discriminate)) as (s & H1 & H2). destruct (R StopAny ltac:(discriminate)) as (s' & H3 & H4).
  exists kern, (kk StopAll), q0, s, s'. split; [reflexivity|]. split; [reflexivity|]. split; [exact H1|]. split; [exact H2|]. split; [exact H3|]. split; [exact H4|].
  split; [|reflexivity]. intros x. rewrite K0. split; [reflexivity|]. split; [reflexivity|]. apply Kn.
Qed.

Lemma l47_ratio_equivalents : forall k c, 0 < ik_nr k < 1000 -> length c = ik_nr k ->
  let with_mode md := mkIK (ik_dof k) (ik_nr k) (ik_ptol k) (ik_rtol k) (ik_max k) (ik_lr k) (ik_ls k) (ik_stop_any k) md (ik_patience k) (ik_enforce k)
    (ik_refine k) (ik_clamp k) (ik_low k) (ik_high k) (ik_rev k) in
  keep_problem (with_mode (StopRatio 0.999)) c = keep_problem (with_mode StopAll) c /\ keep_problem (with_mode (StopRatio 0.001)) c = keep_problem (with_mode StopAny) c.
Proof.
  intros k c Hn Hl with_mode. unfold keep_problem, with_mode. cbn [ik_noimp ik_nr].
  set (f := length (filter (fun b => b) c)). assert (Hf : f <= ik_nr k) by (unfold f; rewrite <- Hl; clear; induction c as [|[] c IH]; cbn; lia).
  assert (Hall : forallb (fun b => b) c = true <-> f = ik_nr k).
  { unfold f. rewrite <- Hl. clear. assert (B : forall c : list bool, length (filter (fun b => b) c) <= length c) by (clear; intros l; induction l as [|[] l IH]; cbn; lia).
    induction c as [|[] c IH]; cbn [forallb filter length andb]; [tauto | rewrite IH; lia |]. specialize (B c). split; [discriminate | lia]. }
  assert (Hany : existsb (fun b => b) c = true <-> 0 < f).
  { unfold f. clear. induction c as [|[] c IH]; cbn [existsb filter length orb]; [split; [discriminate | lia] | split; [lia | reflexivity] | exact IH]. }
  assert (P : (0 < INR (ik_nr k))%R) by (apply lt_0_INR; lia). assert (P2 : (INR (ik_nr k) < 1000)%R) by (replace 1000%R with (INR 1000) by (rewrite INR_IZR_INZ; reflexivity); apply lt_INR; lia).
  assert (D : forall x, (x < INR f / INR (ik_nr k))%R <-> (x * INR (ik_nr k) < INR f)%R).
  { intros x. split; intros H.
    - apply Rmult_lt_compat_r with (r := INR (ik_nr k)) in H; [|exact P]. unfold Rdiv in H. rewrite Rmult_assoc, Rinv_l, Rmult_1_r in H by lra. exact H.
    - apply Rmult_lt_reg_r with (r := INR (ik_nr k)); [exact P|]. unfold Rdiv. rewrite Rmult_assoc, Rinv_l, Rmult_1_r by lra. exact H. }
  split; apply eq_true_iff_eq; rewrite Rltb_true, D.
  - rewrite Hall. split.
    + intros H. destruct (Nat.eq_dec f (ik_nr k)) as [|N]; [assumption|]. exfalso. assert (S f <= ik_nr k) by lia. apply le_INR in H0. rewrite S_INR in H0. lra.
    + intros H. rewrite H. lra.
  - rewrite Hany. split.
    + intros H. destruct f; [cbn in H; exfalso; lra | lia].
    + intros H. assert (1 <= INR f)%R by (apply (le_INR 1 f); lia). lra.
Qed.

Lemma l42_limits : forall kern k np q0, 0 < ik_nr k -> length q0 = np * ik_nr k ->
  (forall f, ik_ls k = Some f -> forall q dq dx rem, length dq = length q -> length dx = length q -> length (f q dq dx rem) = length q) ->
  ik_enforce k = true -> (exists x, In x (ik_low k ++ ik_high k) /\ isfinite x = true) ->
  exists s, solve_from kern k np q0 = Ok s /\
  forall p r, p < np -> r < ik_nr k -> exists e, entry_at s p r = Some e /\
    (forall j x lo hi, nth_error (e_q e) j = Some x -> nth_error (ik_low k) j = Some lo -> nth_error (ik_high k) j = Some hi -> fle lo hi = true ->
       x = NaN \/ (fle lo x = true /\ fle x hi = true)) /\
    (e_conv e = true <-> flt (fnorm (firstn 3 (snd (kern p (e_q e))))) (ik_ptol k) = true /\ flt (fnorm (skipn 3 (snd (kern p (e_q e))))) (ik_rtol k) = true).
Proof.
  intros kern k np q0 Hnr Hl Hls He (x & Hx & Fx). rewrite (vec_of q0 []), Hl. set (Q0 := fun i => nth i q0 []).
  destruct (solve_eq kern k np Hnr Hls Q0) as (m & _ & _ & _ & E). rewrite E. clear E.
  assert (Hf : has_finite_limits k = true).
  { unfold has_finite_limits. rewrite <- existsb_app. apply existsb_exists. eauto. }
  rewrite He, Hf. cbn [andb]. unfold final. rewrite enforce_eq by exact Hnr. eexists. split; [reflexivity|].
  intros p r Hp Hr. eexists. split; [apply entry_mk; assumption|]. cbv zeta. cbn [e_q e_conv]. split.
  - intros j y lo hi Hy Hlo Hhi Hle. match type of Hy with nth_error (enf_q kern k ?E ?i) _ = _ => destruct (enf_clamped kern k E i) as (z & Ez) end.
    rewrite Ez in Hy. exact (clamp_row_range _ _ _ _ _ _ _ Hy Hlo Hhi Hle).
  - unfold ok, pok, rok, pos_err, rot_err. rewrite andb_true_iff. tauto.
Qed.

Lemma l42_limits_finite : forall kern k np q0, 0 < ik_nr k -> length q0 = np * ik_nr k ->
  (forall q, In q q0 -> length q = ik_dof k /\ (forall x, In x q -> isfinite x = true)) ->
  (forall p q, length q = ik_dof k -> (forall x, In x q -> isfinite x = true) -> length (fst (kern p q)) = ik_dof k /\ (forall x, In x (fst (kern p q)) -> isfinite x = true)) ->
  (forall f, ik_ls k = Some f -> forall q dq dx rem, length dq = length q -> length dx = length q -> length (f q dq dx rem) = length q /\ (forall x, In x (f q dq dx rem) -> isfinite x = true)) ->
  isfinite (ik_lr k) = true -> length (ik_low k) = ik_dof k -> length (ik_high k) = ik_dof k -> length (ik_rev k) = ik_dof k ->
  (forall j lo hi, nth_error (ik_low k) j = Some lo -> nth_error (ik_high k) j = Some hi -> fle lo hi = true /\ lo <> PInf /\ hi <> NInf /\
    (nth_error (ik_rev k) j = Some true -> isfinite lo = true /\ isfinite hi = true)) ->
  ik_enforce k = true -> (exists x, In x (ik_low k ++ ik_high k) /\ isfinite x = true) ->
  exists s, solve_from kern k np q0 = Ok s /\
  forall p r, p < np -> r < ik_nr k -> exists e, entry_at s p r = Some e /\ length (e_q e) = ik_dof k /\
    forall j x, nth_error (e_q e) j = Some x -> exists lo hi y, nth_error (ik_low k) j = Some lo /\ nth_error (ik_high k) j = Some hi /\ x = Fin y /\ fle lo x = true /\ fle x hi = true.
Proof.
  intros kern k np q0 Hnr Hl Hq Hk Hls Hlr L1 L2 L3 L4 He Hx.
  assert (Hls' : forall f, ik_ls k = Some f -> forall q dq dx rem, length dq = length q -> length dx = length q -> length (f q dq dx rem) = length q) by (intros f Hf q dq dx rem X1 X2; apply (Hls f Hf q dq dx rem X1 X2)).
  rewrite (vec_of q0 []), Hl. set (Q0 := fun i => nth i q0 []).
  destruct (solve_eq kern k np Hnr Hls' Q0) as (m & _ & _ & _ & E). rewrite E. clear E.
  assert (Hf : has_finite_limits k = true).
  { unfold has_finite_limits. rewrite <- existsb_app. apply existsb_exists. exact Hx. }
  rewrite He, Hf. cbn [andb]. unfold final. rewrite enforce_eq by exact Hnr. eexists. split; [reflexivity|].
  assert (Hlim : good_limits k) by (split; [exact L1|]; split; [exact L2|]; split; [exact L3 | exact L4]).
  assert (Hk' : forall p q, fin_row k q -> length (fst (kern p q)) = ik_dof k /\ all_fin (fst (kern p q))) by (intros p q [A B]; apply Hk; assumption).
  assert (H0 : forall i, i < np * ik_nr k -> fin_row k (Q0 i)).
  { intros i Hi. apply Hq. apply nth_In. rewrite Hl. exact Hi. }
  pose proof (iter_fin kern k Hk' Hlr Hlim np Hls Q0 H0) as Hj.
  intros p r Hp Hr. eexists. split; [apply entry_mk; assumption|]. cbv zeta. cbn [e_q].
  assert (B : forall p r, p < np -> r < ik_nr k -> p * ik_nr k + r < np * ik_nr k).
  { intros p' r' Hp' Hr'. apply Nat.lt_le_trans with (p' * ik_nr k + ik_nr k); [lia|]. replace (p' * ik_nr k + ik_nr k) with (S p' * ik_nr k) by lia. apply Nat.mul_le_mono_r. lia. }
  match goal with |- context [enf_q kern k ?E ?i] => set (EE := E); set (ii := i) end.
  assert (HE : forall p r, p < np -> r < ik_nr k -> fin_row k (e_q (EE p r))).
  { intros p' r' Hp' Hr'. unfold EE. pose proof (iter_E kern k np Q0 (S m) p' r') as HEm. cbn [iter fbody f_E] in HEm. rewrite HEm.
    destruct (stored_consistent kern k np Q0 m p' r') as (j & _ & V1 & _). rewrite V1. apply Hj. apply B; assumption. }
  assert (Hi : ii / ik_nr k < np /\ ii mod ik_nr k < ik_nr k).
  { split; [apply Nat.div_lt_upper_bound; [lia|]; rewrite Nat.mul_comm; apply B; assumption | apply Nat.mod_upper_bound; lia]. }
  set (qq := fun i => if i =? ii then clamp_row (ik_low k) (ik_high k) (wrap_row k (e_q (EE (i / ik_nr k) (i mod ik_nr k)))) else clamp_row (ik_low k) (ik_high k) (wrap_row k (e_q (EE (ii / ik_nr k) (ii mod ik_nr k))))).
  assert (Hqq : forall i, fin_row k (qq i)).
  { intros i. unfold qq. destruct (Nat.eqb_spec i ii) as [->|]; apply clamp_row_fin; auto; apply wrap_row_fin; auto; apply HE; apply Hi. }
  assert (Eq : forall n Q Q', Q ii = Q' ii -> refs kern k n Q ii = refs kern k n Q' ii).
  { induction n as [|n IH]; intros Q Q' HQ; [exact HQ|]. cbn [refs]. apply IH. unfold ref1. rewrite HQ. reflexivity. }
  assert (Ef : enf_q kern k EE ii = refs kern k (ik_refine k) qq ii) by (apply Eq; unfold qq; rewrite Nat.eqb_refl; reflexivity).
  assert (FR : fin_row k (enf_q kern k EE ii)) by (rewrite Ef; apply refs_fin; assumption).
  destruct FR as [FR1 FR2]. split; [exact FR1|]. intros j x Hj'.
  assert (Hjl : j < ik_dof k) by (rewrite <- FR1; apply nth_error_Some; congruence).
  destruct (nth_error (ik_low k) j) as [lo|] eqn:Elo; [|apply nth_error_None in Elo; lia].
  destruct (nth_error (ik_high k) j) as [hi|] eqn:Ehi; [|apply nth_error_None in Ehi; lia].
  destruct (all_fin_nth _ _ _ FR2 Hj') as [y ->]. exists lo, hi, y. repeat split; auto.
  - destruct (enf_clamped kern k EE ii) as (z & Ez). rewrite Ez in Hj'. destruct (L4 j lo hi Elo Ehi) as (A & _).
    destruct (clamp_row_range _ _ _ _ _ _ _ Hj' Elo Ehi A) as [Q|[Q _]]; [discriminate Q | exact Q].
  - destruct (enf_clamped kern k EE ii) as (z & Ez). rewrite Ez in Hj'. destruct (L4 j lo hi Elo Ehi) as (A & _).
    destruct (clamp_row_range _ _ _ _ _ _ _ Hj' Elo Ehi A) as [Q|[_ Q]]; [discriminate Q | exact Q].
Qed.

Lemma l42_unlimited_revolute_refuted : exists kern k s s' e e', ik_low k = [NInf; Fin (-1)] /\ ik_high k = [PInf; Fin 1] /\ ik_rev k = [true; true] /\
  solve_from kern (mkIK (ik_dof k) (ik_nr k) (ik_ptol k) (ik_rtol k) (ik_max k) (ik_lr k) (ik_ls k) (ik_stop_any k) (ik_noimp k) (ik_patience k) false
    (ik_refine k) (ik_clamp k) (ik_low k) (ik_high k) (ik_rev k)) 1 [[Fin 0%R; Fin 0%R]] = Ok s /\
  entry_at s 0 0 = Some e /\ e_conv e = true /\ e_q e = [Fin 0%R; Fin 0%R] /\
  ik_enforce k = true /\ solve_from kern k 1 [[Fin 0%R; Fin 0%R]] = Ok s' /\ entry_at s' 0 0 = Some e' /\ nth_error (e_q e') 0 = Some NaN /\ e_conv e' = false.
Proof.
  set (kern := fun (_ : nat) (q : list F) => match q with [Fin x; Fin y] => ([Fin 0%R; Fin 0%R], repeat (Fin 0%R) 6) | _ => ([NaN; NaN], repeat NaN 6) end).
  set (kk := fun en => mkIK 2 1 (Fin 1) (Fin 1) 0 (Fin 1) None false NoStop 0 en 0 false [NInf; Fin (-1)] [PInf; Fin 1] [true; true]).
  assert (Z : fnorm [Fin 0%R; Fin 0%R; Fin 0%R] = Fin 0%R).
  { unfold fnorm. cbn [map fmul fsum fold_right fadd fsqrt]. replace (0 * 0 + (0 * 0 + (0 * 0 + 0)))%R with 0%R by ring. unfold Rltb. destruct (Rlt_dec 0 0); [exfalso; lra|]. rewrite sqrt_0. reflexivity. }
  assert (B : flt (Fin 0) (Fin 1) = true) by (apply Rltb_true; lra).
  assert (SU : sol_update (sol_init 2 1 1 (Fin 1) (Fin 1)) [[Fin 0%R; Fin 0%R]] [repeat (Fin 0%R) 6] false =
    Ok (mkSol 0 2 1 (Fin 1) (Fin 1) [[mkEntry [Fin 0%R; Fin 0%R] (Fin 0%R) (Fin 0%R) true true true]] [true] [true] [false] [false])).
  { unfold sol_update. cbn -[fnorm flt]. unfold conv_now, pos_err, rot_err. cbn -[fnorm flt]. rewrite Z, B. reflexivity. }
  assert (WR : clamp_row [NInf; Fin (-1)] [PInf; Fin 1] (wrap_row (kk true) [Fin 0%R; Fin 0%R]) = [NaN; fclamp (wrap1 true (Fin (-1)) (Fin 1) (Fin 0%R)) (Fin (-1)) (Fin 1)]).
  { unfold wrap_row. cbn [ik_rev ik_low ik_high kk combine zip_with2 fst snd].
    assert (W : wrap1 true NInf PInf (Fin 0%R) = NaN) by (unfold wrap1, fdivr, Reqb; cbn [fadd]; destruct (Req_EM_T 2 0), (Req_EM_T (2 * PI) 0); reflexivity).
    rewrite W. cbn [clamp_row zip_with2 combine fst snd]. rewrite fclamp_nan. reflexivity. }
  exists kern, (kk true). eexists; eexists; eexists; eexists. split; [reflexivity|]. split; [reflexivity|]. split; [reflexivity|].
  split; [unfold solve_from; cbn [ik_max kk loop rbind st_sol st_q]; change (map snd (kern_all kern _ [[Fin 0%R; Fin 0%R]])) with [repeat (Fin 0%R) 6]; cbn [ik_dof ik_nr ik_ptol ik_rtol ik_stop_any ik_enforce kk];
    rewrite SU; reflexivity|].
  split; [reflexivity|]. split; [reflexivity|]. split; [reflexivity|]. split; [reflexivity|].
  split; [unfold solve_from; cbn [ik_max kk loop rbind st_sol st_q]; change (map snd (kern_all kern _ [[Fin 0%R; Fin 0%R]])) with [repeat (Fin 0%R) 6]; cbn [ik_dof ik_nr ik_ptol ik_rtol ik_stop_any ik_enforce kk];
    rewrite SU; cbn [rbind]; cbn [andb ik_enforce kk has_finite_limits existsb ik_low ik_high isfinite orb];
    unfold enforce_limits; cbn [map concat app s_entries e_q ik_refine refine kk];
    cbn [ik_low ik_high kk];
    rewrite WR; reflexivity|].
  split; [reflexivity|]. split; reflexivity.
Qed.

Lemma l42_one_sided_limit_refuted : exists kern k s e, ik_enforce k = true /\ ik_low k = [NInf] /\ ik_high k = [Fin 1%R] /\
  solve_from kern k 1 [[Fin 0%R]] = Ok s /\ entry_at s 0 0 = Some e /\ forall x, In x (e_q e) -> isfinite x = false.
Proof.
  set (kern := fun (_ : nat) (q : list F) => ([Fin 0%R], repeat (Fin 0%R) 6)).
  set (kk := mkIK 1 1 (Fin 1) (Fin 1) 0 (Fin 1) None false NoStop 0 true 0 false [NInf] [Fin 1%R] [true]).
  assert (Ht : forall f, ik_ls kk = Some f -> forall q dq dx rem, length dq = length q -> length dx = length q -> length (f q dq dx rem) = length q) by (intros f Q; discriminate Q).
  destruct (solve_eq kern kk 1 (Nat.lt_0_succ 0) Ht (fun _ => [Fin 0%R])) as (m & Hm & _ & _ & E).
  cbn [ik_max kk] in Hm. assert (m = 0) by lia. subst m. clear Hm. change (ik_enforce kk && has_finite_limits kk) with true in E. cbn iota in E.
  unfold final in E. rewrite enforce_eq in E by (cbn; lia).
  exists kern, kk. eexists. eexists. split; [reflexivity|]. split; [reflexivity|]. split; [reflexivity|]. split; [exact E|]. split; [apply entry_mk; cbn; lia|]. cbv zeta.
  cbn [e_q]. change (0 * ik_nr kk + 0) with 0. unfold enf_q. cbn [ik_refine kk refs]. change (0 / ik_nr kk) with 0. change (0 mod ik_nr kk) with 0. cbn [iter finit f_E].
  match goal with |- forall x, In x (clamp_row _ _ (wrap_row _ ?r)) -> _ => assert (Hr : r = [Fin 0%R]) by reflexivity; rewrite Hr end.
  unfold wrap_row. cbn [ik_rev ik_low ik_high kk combine zip_with2 fst snd clamp_row].
  assert (W : isfinite (fclamp (wrap1 true NInf (Fin 1%R) (Fin 0%R)) NInf (Fin 1%R)) = false).
  { unfold wrap1, fdivr, Reqb. cbn [fadd]. destruct (Req_EM_T 2 0); [exfalso; lra|]. unfold Rltb. destruct (Rlt_dec 2 0); [exfalso; lra|].
    pose proof PI_RGT_0. cbn. destruct (Req_EM_T (2 * PI) 0); [exfalso; lra|]. repeat (unfold Rltb; destruct (Rlt_dec _ _); try (exfalso; lra); cbn); reflexivity. }
  intros x [<-|[]]. exact W.
Qed.

Lemma l43_wrap : forall lo hi q, exists n : Z, wrap1 true (Fin lo) (Fin hi) (Fin q) = Fin (q + 2 * PI * IZR n)%R /\
  (Rabs (q + 2 * PI * IZR n - (lo + hi) / 2) <= PI)%R /\
  (forall m : Z, (lo <= q + 2 * PI * IZR m <= hi)%R -> (lo <= q + 2 * PI * IZR n <= hi)%R) /\
  forall x y z, wrap1 false x y z = z.
Proof.
  intros lo hi q. eexists. split; [apply wrap1_fin|]. split; [apply wrap_centre|]. split; [intros m; apply wrap_in | reflexivity].
Qed.

Lemma l46_line_search : forall errf ls nr n (q dq dx : nat -> list F) rem,
  let progress := fun i j => flt (Fin (ls_suff ls)) (fsub (fnorm (dx i)) (errf i (zip_with2 (fun x d => fadd x (fmul (Fin (ls_lr ls * ls_factor ls ^ j)) d)) (q i) (dq i)))) = true in
  exists m rows, do_line_search errf ls nr (map q (seq 0 n)) (map dq (seq 0 n)) (map dx (seq 0 n)) rem = rows /\ length rows = n /\ m <= ls_iter ls /\
  forall i, i < n -> exists row j, nth_error rows i = Some row /\ l_lr row = Fin (ls_lr ls * ls_factor ls ^ j)%R /\ j <= m /\
    (forall l, l < j -> ~ progress i l) /\ (j < m -> progress i j) /\
    (m < ls_iter ls -> nth (i / nr) rem false = true -> progress i j).
Proof.
  intros errf ls nr n q dq dx rem progress. pose proof (search_rows errf ls nr n q dq dx rem) as E.
  destruct (ls_loop_rows errf ls n q dq (fun i => fnorm (dx i)) (fun i => nth (i / nr) rem false) (ls_iter ls) 0) as (m & Hm & L & R).
  rewrite L in E. clear L. exists m. eexists. split; [exact E|]. split; [apply vec_len|]. split; [lia|].
  intros i Hi. destruct (rowj_spec errf ls q dq (fun i => fnorm (dx i)) (fun i => nth (i / nr) rem false) i m) as (j & Hj & Hlr & H1 & H2 & H3).
  eexists; exists j. split; [apply vec_nth; exact Hi|]. split; [exact Hlr|]. split; [exact Hj|]. split; [|split].
  - intros l Hl Q. specialize (H1 l Hl). unfold suff in H1. unfold progress in Q. unfold step_row, lrj in H1. rewrite H1 in Q. discriminate.
  - intros Hlt. exact (H2 Hlt).
  - intros Hlt Hr. specialize (R ltac:(lia) i Hi). rewrite H3, Hr in R. cbn [andb] in R. destruct (Nat.eqb_spec j m) as [|N]; [discriminate|]. apply H2. lia.
Qed.

Lemma l46_untried_step_refuted : exists errf ls row, do_line_search errf ls 1 [[Fin 0%R]] [[Fin 1%R]] [[Fin 3%R]] [true] = [row] /\
  fnorm [Fin 3%R] = Fin 3%R /\ (forall x, errf 0 [Fin x] = if Reqb x 1 then Fin 3%R else Fin (3 + x)%R) /\ exists r, l_lr row = Fin r /\ (3 < 3 + (0 + r * 1))%R /\
  errf 0 (step_row (l_lr row) [Fin 0%R] [Fin 1%R]) = Fin (3 + (0 + r * 1))%R.
Proof.
  exists (fun _ q => match q with [Fin x] => if Reqb x 1 then Fin 3%R else Fin (3 + x)%R | _ => NaN end), (mkLS 1 (1/2) 1 (1/100)).
  assert (N : fnorm [Fin 3%R] = Fin 3%R).
  { unfold fnorm. cbn [map fmul fsum fold_right fadd fsqrt]. unfold Rltb. destruct (Rlt_dec _ 0); [exfalso; lra|]. f_equal. replace (3 * 3 + 0)%R with (3 * 3)%R by ring. apply sqrt_square. lra. }
  assert (E1 : Reqb (0 + 1 * 1) 1 = true) by (apply Reqb_true; lra).
  assert (E2 : Reqb (0 + 1 * (1 / 2) * 1) 1 = false) by (apply Reqb_false; lra).
  assert (E3 : flt (Fin (1/100)) (fsub (Fin 3) (Fin 3)) = false) by (cbn; apply Rltb_false; lra).
  eexists. split.
  - unfold do_line_search. cbn -[fnorm flt fsub Reqb]. unfold ls_row. cbn -[fnorm flt fsub Reqb]. rewrite E1, N. cbn -[fnorm flt fsub Reqb]. rewrite E3. reflexivity.
  - split; [exact N|]. split; [reflexivity|]. eexists. split; [reflexivity|]. split; [lra|]. cbn -[Reqb]. rewrite E2. reflexivity.
Qed.

Lemma l48_uniform_within_limits : forall draws lim dof n, 0 < dof -> length lim = dof -> length (draws n dof) = n * dof ->
  (forall u, In u (draws n dof) -> (0 <= u < 1)%R) -> (forall l h, In (l, h) lim -> exists a b, l = Fin a /\ h = Fin b /\ (a <= b)%R) ->
  exists data, sample_configs draws Uniform (Some lim) dof n = Ok (mkTens [n; dof] data) /\ length data = n * dof /\
  forall r j, r < n -> j < dof -> exists a b x, nth_error lim j = Some (Fin a, Fin b) /\ nth_error data (r * dof + j) = Some (Fin x) /\ (a <= x <= b)%R /\ ((a < b)%R -> (x < b)%R).
Proof.
  intros draws lim dof n Hd Hl Hlen Hu Hlim. eexists. split; [reflexivity|].
  rewrite (vec_of (draws n dof) 0%R), Hlen, mapi_vec. split; [apply vec_len|]. intros r j Hr Hj.
  assert (Hi : r * dof + j < n * dof) by (apply Nat.lt_le_trans with (r * dof + dof); [lia|]; replace (r * dof + dof) with (S r * dof) by lia; apply Nat.mul_le_mono_r; lia).
  assert (Hmod : (r * dof + j) mod dof = j) by (rewrite Nat.add_comm, Nat.mod_add, Nat.mod_small by lia; reflexivity).
  destruct (nth_error lim j) as [[l h]|] eqn:El; [|apply nth_error_None in El; lia].
  destruct (Hlim l h (nth_error_In _ _ El)) as (a & b & -> & -> & Hab). exists a, b.
  set (u := nth (r * dof + j) (draws n dof) 0%R). assert (Hu' : (0 <= u < 1)%R) by (apply Hu, nth_In; rewrite Hlen; exact Hi).
  exists (u * (b + - a) + a)%R. split; [reflexivity|]. split.
  - rewrite vec_nth by exact Hi. rewrite Hmod, (nth_error_nth _ _ _ El). reflexivity.
  - assert (0 <= u * (b + - a))%R by (apply Rmult_le_pos; lra). assert (u * (b + - a) <= 1 * (b + - a))%R by (apply Rmult_le_compat_r; lra).
    split; [lra|]. intros. assert (u * (b + - a) < 1 * (b + - a))%R by (apply Rmult_lt_compat_r; lra). lra.
Qed.

Lemma l48_infinite_limits_refuted : exists lim, lim = [(NInf, PInf)] /\ forall draws n u, draws n 1 = [u] -> (0 <= u < 1)%R ->
  exists t, sample_configs draws Uniform (Some lim) 1 n = Ok t /\ t_data t = [NaN].
Proof.
  eexists. split; [reflexivity|]. intros draws n u Hd Hu. eexists. split; [reflexivity|]. cbn [t_data]. rewrite Hd. cbn.
  unfold Rltb. destruct (Rlt_dec 0 u); [reflexivity|]. destruct (Rlt_dec u 0); [exfalso; lra | reflexivity].
Qed.

Lemma l48_retry_2d : forall draws m lim num dof nr np d, 0 < dof -> 0 < nr ->
  init_configs draws m lim dof (Some (mkTens [nr; dof] (map d (seq 0 (nr * dof))))) num = Ok (mkTens [nr; dof] (map d (seq 0 (nr * dof))), nr) /\
  exists rows, start_configs dof nr np (mkTens [nr; dof] (map d (seq 0 (nr * dof)))) = Ok rows /\ length rows = np * nr /\
    forall p r, p < np -> r < nr -> nth_error rows (p * nr + r) = Some (map (fun j => d (r * dof + j)) (seq 0 dof)).
Proof.
  intros draws m lim num dof nr np d Hd Hn. split.
  - unfold init_configs. cbn [t_shape nth_error]. rewrite Nat.eqb_refl. reflexivity.
  - eexists. split; [apply (start_2d dof nr np d Hd Hn)|]. split; [apply vec_len|]. intros p r Hp Hr.
    rewrite vec_nth.
    + rewrite (Nat.add_comm (p * nr)), Nat.mod_add, Nat.mod_small by lia. reflexivity.
    + apply Nat.lt_le_trans with (p * nr + nr); [lia|]. replace (p * nr + nr) with (S p * nr) by lia. apply Nat.mul_le_mono_r. lia.
Qed.

Lemma l48_retry_3d : forall draws m lim num dof nr np d, 0 < dof ->
  let t := mkTens [np; nr; dof] (map d (seq 0 (np * nr * dof))) in
  (nr <> dof -> init_configs draws m lim dof (Some t) num = Err ValueError) /\
  (nr = dof -> init_configs draws m lim dof (Some t) num = Ok (t, nr)) /\
  exists rows, start_configs dof nr np t = Ok rows /\ forall p r, p < np -> r < nr -> nth_error rows (p * nr + r) = Some (map (fun j => d ((p * nr + r) * dof + j)) (seq 0 dof)).
Proof.
  intros draws m lim num dof nr np d Hd t. split; [|split].
  - intros H. unfold init_configs. cbn [t t_shape nth_error]. destruct (Nat.eqb_spec nr dof); [contradiction | reflexivity].
  - intros H. unfold init_configs. cbn [t t_shape nth_error]. destruct (Nat.eqb_spec nr dof); [reflexivity | contradiction].
  - eexists. split; [apply (start_3d dof nr np d Hd)|]. intros p r Hp Hr. rewrite vec_nth; [reflexivity|].
    apply Nat.lt_le_trans with (p * nr + nr); [lia|]. replace (p * nr + nr) with (S p * nr) by lia. apply Nat.mul_le_mono_r. lia.
Qed.

Lemma l48_retry_3d_refuted : exists t, t_shape t = [2; 5; 3] /\ length (t_data t) = 30 /\
  forall draws m lim num, init_configs draws m lim 3 (Some t) num = Err ValueError.
Proof. exists (mkTens [2; 5; 3] (repeat (Fin 0%R) 30)). split; [reflexivity|]. split; [reflexivity|]. intros. reflexivity. Qed.

Lemma l48_single_config : forall dof nr np q, length q = dof -> 0 < dof -> 1 < nr -> 0 < np ->
  exists rows, start_configs dof nr np (mkTens [dof] q) = Ok rows /\ length rows = np * nr /\ forall i, i < np * nr -> nth_error rows i = Some q.
Proof.
  intros dof nr np q Hq Hd Hn Hp. exists (repeat q (np * nr)). split; [|split].
  - unfold start_configs, numel. cbn [t_shape t_data fold_right length]. rewrite Nat.mul_1_r.
    assert (E1 : (dof =? np * dof * nr) = false).
    { apply Nat.eqb_neq. assert (dof * 1 <= np * dof) by (rewrite (Nat.mul_comm np dof); apply Nat.mul_le_mono_l; lia).
      assert (np * dof * 2 <= np * dof * nr) by (apply Nat.mul_le_mono_l; lia). lia. }
    assert (E2 : (dof =? dof * nr) = false).
    { apply Nat.eqb_neq. assert (dof * 2 <= dof * nr) by (apply Nat.mul_le_mono_l; lia). lia. }
    rewrite E1, E2, Nat.eqb_refl. reflexivity.
  - apply repeat_length.
  - intros i Hi. revert i Hi. induction (np * nr) as [|m IH]; intros i Hi; [lia|]. destruct i; [reflexivity|]. simpl. apply IH. lia.
Qed.

Lemma l48_gaussian_around : forall draws config std n, length (draws n (length config)) = n * length config ->
  t_shape (gaussian_around draws (map Fin config) std n) = [n; length config] /\
  length (t_data (gaussian_around draws (map Fin config) std n)) = n * length config /\
  forall r j, r < n -> j < length config -> exists g c, nth_error (draws n (length config)) (r * length config + j) = Some g /\
    nth_error config j = Some c /\
    nth_error (t_data (gaussian_around draws (map Fin config) std n)) (r * length config + j) = Some (Fin (g * std + c)).
Proof.
  intros draws config std n HL. unfold gaussian_around. rewrite map_length. cbn [t_shape t_data]. split; [reflexivity|].
  split; [unfold mapi; rewrite mapi_from_len; exact HL|]. intros r j Hr Hj.
  assert (Hi : r * length config + j < n * length config).
  { assert (S r * length config <= n * length config) by (apply Nat.mul_le_mono_r; lia). simpl in *. lia. }
  destruct (nth_error (draws n (length config)) (r * length config + j)) as [g|] eqn:Eg; [|apply nth_error_None in Eg; lia].
  destruct (nth_error config j) as [c|] eqn:Ec; [|apply nth_error_None in Ec; lia].
  exists g, c. split; [reflexivity|]. split; [reflexivity|]. unfold mapi. rewrite nth_error_mapi_from, Eg. cbn [option_map]. f_equal.
  rewrite Nat.add_0_l, Nat.add_comm, Nat.mod_add, Nat.mod_small by lia.
  rewrite (nth_error_nth _ _ _ (map_nth_error Fin _ _ Ec)). reflexivity.
Qed.
