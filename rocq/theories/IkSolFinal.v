(** Last steps of the proofs quoted in Properties_IkSol.v. *)
From Coq Require Import Reals Lra Bool Arith Lia List.
From Verif Require Import Prelude ExtF TorchModel SpecTorch TorchProofs FkTorchModel IKModel IKMore IKFinal IKProofs IkTorch IkSolTorchModel SpecIkSol IkSolTorch IkSolRun.
Import ListNotations.
Local Open Scope nat_scope.

Lemma ls_step_len errf ls q dq err rs : List.length q = List.length rs -> List.length dq = List.length rs -> List.length err = List.length rs -> List.length (ls_step errf ls q dq err rs) = List.length rs.
Proof. intros A B C. unfold ls_step, mapi. assert (L : forall X Y (h : nat -> X -> Y) l i, List.length (mapi_from h i l) = List.length l) by (intros X Y h l; induction l; intros; cbn; auto). rewrite L, !combine_length. lia. Qed.
Lemma ls_loop_len errf ls n : forall q dq err rs, List.length q = List.length rs -> List.length dq = List.length rs -> List.length err = List.length rs -> List.length (ls_loop errf ls n q dq err rs) = List.length rs.
Proof. induction n as [|n IH]; intros q dq err rs A B C; cbn [ls_loop]; [reflexivity|]. destruct (existsb l_rem rs); [|reflexivity]. rewrite IH; rewrite ls_step_len by assumption; auto. Qed.
Lemma search_len errf ls nr q dq dx rem : List.length dq = List.length q -> List.length dx = List.length q -> List.length (map l_lr (do_line_search errf ls nr q dq dx rem)) = List.length q.
Proof.
  intros A B. rewrite map_length. unfold do_line_search. set (rs := mapi _ q). assert (L : List.length rs = List.length q).
  { unfold rs, mapi. generalize 0. induction q as [|x q IH]; intros i; cbn; [reflexivity|]. f_equal. clear. revert i. induction q as [|y q IH]; intros i; cbn; [reflexivity|]. f_equal. apply IH. }
  rewrite ls_loop_len; rewrite ?map_length; congruence.
Qed.
Lemma op2_err {A B C} (g : A -> B -> C) e1 e2 x : op2 g e1 e2 = Err x -> e1 = Err x \/ e2 = Err x \/ x = RuntimeError.
Proof.
  unfold op2. destruct e1 as [t|y]; cbn [rbind]; [|intros E; left; congruence]. destruct e2 as [u|y]; cbn [rbind]; [|intros E; right; left; congruence].
  destruct (bshape (shape t) (shape u)); [discriminate|]. intros E. right; right. congruence.
Qed.
Lemma rows3_bad {A} n k (t : tensor A) : n = 0 \/ k = 0 \/ prod (shape t) mod (n * k) <> 0 -> rows3 n k (Ok t) = Err RuntimeError.
Proof.
  intros H. unfold rows3. cbn [rbind]. destruct (Nat.eqb_spec (n * k) 0) as [E|N]; [reflexivity|]. unfold TorchModel.reshape. cbn [rbind prod].
  destruct (Nat.eqb_spec (k * (n * (prod (shape t) / (n * k) * 1))) (prod (shape t))) as [E|_]; [|reflexivity]. exfalso. destruct H as [->|[->|H]]; [lia|lia|]. apply H.
  rewrite <- E. replace (k * (n * (prod (shape t) / (n * k) * 1))) with (prod (shape t) / (n * k) * (n * k)) by lia. apply Nat.mod_mul. exact N.
Qed.
Lemma rows3_err {A} n k (t : tensor A) x : rows3 n k (Ok t) = Err x -> x = RuntimeError.
Proof. unfold rows3. cbn [rbind]. destruct (n * k =? 0); [congruence|]. unfold TorchModel.reshape. cbn [rbind]. destruct (_ =? _); congruence. Qed.
Lemma tab_inj {A} np nr (f g : nat -> nat -> A) : tab np nr f = tab np nr g -> forall p r, p < np -> r < nr -> f p r = g p r.
Proof.
  intros E p r Lp Lr. destruct (tab_nth np nr f p r Lp Lr) as (a & Ea & Fa). destruct (tab_nth np nr g p r Lp Lr) as (b & Eb & Gb). rewrite E in Ea. congruence.
Qed.
Lemma vec_inj {A} n (f g : nat -> A) : vec n f = vec n g -> forall i, i < n -> f i = g i.
Proof. intros E i L. pose proof (vec_nth n f i L) as A1. pose proof (vec_nth n g i L) as A2. congruence. Qed.
Lemma exists_row {A} (h : A -> bool) n f : existsb h (vec n f) = true <-> exists i, i < n /\ h (f i) = true.
Proof.
  rewrite existsb_exists. split.
  - intros (x & Hx & E). unfold vec in Hx. apply in_map_iff in Hx as (i & <- & Li). apply in_seq in Li. exists i. split; [lia | exact E].
  - intros (i & L & E). exists (f i). split; [|exact E]. unfold vec. apply in_map, in_seq. lia.
Qed.
Lemma any_ok nr np pt rt err : 0 < nr -> shape err = [6; np * nr] -> exists f, is_t (any_last (op2 andb (op1 (fun x => flt x pt) (norm_last (slice 0 3 (rows3 nr 6 (Ok err))))) (op1 (fun x => flt x rt) (norm_last (from 3 (rows3 nr 6 (Ok err))))))) [np] f.
Proof.
  intros Hn Ee. pose proof (t_rows3 _ nr 6 np _ (is_in err _ Ee) Hn ltac:(lia)) as T.
  pose proof (t_over fnorm _ 3 [nr; np] _ (t_slice _ 0 3 6 _ _ T ltac:(lia) ltac:(lia))) as P. pose proof (t_over fnorm _ 3 [nr; np] _ (t_from _ 3 6 _ _ T ltac:(lia))) as Q.
  pose proof (t_over (existsb (fun b => b)) _ nr [np] _ (t_op2_same andb _ _ _ _ _ (t_op1 (fun x => flt x pt) _ _ _ P) (t_op1 (fun x => flt x rt) _ _ _ Q))) as C.
  eexists. exact C.
Qed.
(** a tensor program for any step function on rows *)
Definition tabulated (kern : nat -> list F -> list F * list F) (dof np nr : nat) (q : tensor F) : res (tensor F * tensor F) :=
  let at_row (part : list F * list F -> list F) i := nth (nth 1 i 0) (part (kern (nth 2 i 0 / nr) (row_of q dof (nth 2 i 0)))) NaN in
  Ok (mkT [1; dof; np * nr] (at_row fst), mkT [1; 6; np * nr] (at_row snd)).
Lemma tabulated_acts kern dof np nr : (forall p q, List.length q = dof -> List.length (fst (kern p q)) = dof /\ List.length (snd (kern p q)) = 6) -> acts_as (tabulated kern dof np nr) kern dof np nr.
Proof.
  intros H q Sq. eexists _, _. split; [reflexivity|]. split; [reflexivity|]. split; [reflexivity|]. intros r Lr. cbn [at_ nth].
  destruct (H (r / nr) (row_of q dof r)) as (H1 & H2); [exact (vec_len dof _)|]. destruct (kern (r / nr) (row_of q dof r)) as (a & b). cbn [fst snd] in *.
  f_equal; [rewrite <- H1 | rewrite <- H2]; exact (vec_of _ NaN).
Qed.
Definition ex_kern (p : nat) (q : list F) : list F * list F := ([Fin 1%R], [match q with [Fin x] => Fin (1 - x)%R | _ => NaN end; Fin 0%R; Fin 0%R; Fin 0%R; Fin 0%R; Fin 0%R]).
Definition ex_ik (search : option lsearch) : ik :=
  mkIK 1 1 (Fin (1/2)) (Fin 1) 1 (Fin 1) (option_map (fun ls q dq dx rem => map l_lr (do_line_search (fun i row => fnorm (snd (ex_kern (i / 1) row))) ls 1 q dq dx rem)) search)
    false NoStop 0 false 0 false [Fin 0%R] [Fin 0%R] [true].
Definition ex_lim : tensor F := mkT [1] (fun _ => Fin 0%R).
Lemma ex_acts np : acts_as (tabulated ex_kern 1 np 1) ex_kern 1 np 1. Proof. apply tabulated_acts. intros p q _. split; reflexivity. Qed.
Lemma ex_norm x : (0 <= x)%R -> fnorm [Fin x; Fin 0%R; Fin 0%R] = Fin x.
Proof.
  intros Hx. assert (N : fnorm [Fin x; Fin 0%R; Fin 0%R] = Fin (sqrt (x * x + (0 * 0 + (0 * 0 + 0))))).
  { unfold fnorm. cbn [map fmul fsum fold_right fadd fsqrt]. unfold Rltb. destruct (Rlt_dec _ 0) as [L|L]; [|reflexivity]. exfalso. pose proof (Rle_0_sqr x) as Q. unfold Rsqr in Q. lra. }
  rewrite N. f_equal. replace (x * x + (0 * 0 + (0 * 0 + 0)))%R with (x * x)%R by ring. apply sqrt_square. exact Hx.
Qed.
Lemma ex_norm6 x : (0 <= x)%R -> fnorm [Fin x; Fin 0%R; Fin 0%R; Fin 0%R; Fin 0%R; Fin 0%R] = Fin x.
Proof.
  intros Hx. assert (N : fnorm [Fin x; Fin 0%R; Fin 0%R; Fin 0%R; Fin 0%R; Fin 0%R] = Fin (sqrt (x * x + (0 * 0 + (0 * 0 + (0 * 0 + (0 * 0 + (0 * 0 + 0)))))))).
  { unfold fnorm. cbn [map fmul fsum fold_right fadd fsqrt]. unfold Rltb. destruct (Rlt_dec _ 0) as [L|L]; [|reflexivity]. exfalso. pose proof (Rle_0_sqr x) as Q. unfold Rsqr in Q. lra. }
  rewrite N. f_equal. replace (x * x + (0 * 0 + (0 * 0 + (0 * 0 + (0 * 0 + (0 * 0 + 0))))))%R with (x * x)%R by ring. apply sqrt_square. exact Hx.
Qed.

Lemma l92_solver_is_rowwise : forall eval kern k search low high np q0, 0 < ik_dof k -> 0 < ik_nr k -> acts_as eval kern (ik_dof k) np (ik_nr k) ->
  shape low = [ik_dof k] -> shape high = [ik_dof k] -> ik_low k = map (fun j => at_ low [j]) (seq 0 (ik_dof k)) -> ik_high k = map (fun j => at_ high [j]) (seq 0 (ik_dof k)) ->
  ik_ls k = option_map (fun ls q dq dx rem => map l_lr (do_line_search (fun i row => fnorm (snd (kern (i / ik_nr k) row))) ls (ik_nr k) q dq dx rem)) search ->
  List.length (ik_rev k) = ik_dof k -> shape q0 = [ik_dof k; np * ik_nr k] ->
  exists s, solve_program eval k search low high np q0 = Ok s /\
    solve_from kern k np (rows_of q0 (np * ik_nr k) (ik_dof k)) = Ok (solution_of (ik_dof k) np (ik_nr k) (ik_ptol k) (ik_rtol k) s).
Proof.
  intros eval kern k search low high np q0 Hd Hn HE Sl Sh El Eh Els Hr S0.
  destruct (solve_ok eval kern k search low high np Hd Hn HE Sl Sh El Eh Els Hr q0 S0) as (s & E & _ & L). exists s. split; [exact E | exact L].
Qed.

Lemma l92_converged_means_within_tolerance : forall eval kern k search low high np q0, 0 < ik_dof k -> 0 < ik_nr k -> acts_as eval kern (ik_dof k) np (ik_nr k) ->
  shape low = [ik_dof k] -> shape high = [ik_dof k] -> ik_low k = map (fun j => at_ low [j]) (seq 0 (ik_dof k)) -> ik_high k = map (fun j => at_ high [j]) (seq 0 (ik_dof k)) ->
  ik_ls k = option_map (fun ls q dq dx rem => map l_lr (do_line_search (fun i row => fnorm (snd (kern (i / ik_nr k) row))) ls (ik_nr k) q dq dx rem)) search ->
  List.length (ik_rev k) = ik_dof k -> shape q0 = [ik_dof k; np * ik_nr k] ->
  exists s, solve_program eval k search low high np q0 = Ok s /\
    (forall p r, p < np -> r < ik_nr k -> let dx := snd (kern p (map (fun j => at_ (t_solutions s) [j; r; p]) (seq 0 (ik_dof k)))) in
      at_ (t_err_pos s) [r; p] = fnorm (firstn 3 dx) /\ at_ (t_err_rot s) [r; p] = fnorm (skipn 3 dx) /\
      (at_ (t_conv s) [r; p] = true <-> flt (at_ (t_err_pos s) [r; p]) (ik_ptol k) = true /\ flt (at_ (t_err_rot s) [r; p]) (ik_rtol k) = true)) /\
    (forall p, p < np -> at_ (t_any s) [p] = true <-> exists r, r < ik_nr k /\ at_ (t_conv s) [r; p] = true).
Proof.
  intros eval kern k search low high np q0 Hd Hn HE Sl Sh El Eh Els Hr S0.
  destruct (solve_ok eval kern k search low high np Hd Hn HE Sl Sh El Eh Els Hr q0 S0) as (s & E & Hs & L). exists s. split; [exact E|].
  destruct (l39_solve kern k np (rows_of q0 (np * ik_nr k) (ik_dof k)) Hn (vec_len _ _)) as (s0 & E0 & H1 & H2).
  { intros f Hf q dq dx rem L1 L2. rewrite Els in Hf. destruct search as [ls|]; [|discriminate Hf]. cbn [option_map] in Hf. assert (Ef : f = (fun q dq dx rem => map l_lr (do_line_search (fun i row => fnorm (snd (kern (i / ik_nr k) row))) ls (ik_nr k) q dq dx rem))) by congruence. rewrite Ef. apply search_len; assumption. }
  assert (Es : s0 = solution_of (ik_dof k) np (ik_nr k) (ik_ptol k) (ik_rtol k) s) by congruence. rewrite (solution_mk _ _ _ _ _ s Hs) in Es. subst s0.
  assert (EA : forall p r, p < np -> r < ik_nr k -> entry_at (mk_sol (t_iter s) (ik_dof k) np (ik_nr k) (ik_ptol k) (ik_rtol k) (entry_of (ik_dof k) s) (fun p => at_ (t_remaining s) [p]) (fun p => at_ (t_any s) [p])) p r = Some (entry_of (ik_dof k) s p r)).
  { intros p r Lp Lr. unfold entry_at. cbn [mk_sol s_entries]. destruct (tab_nth np (ik_nr k) (entry_of (ik_dof k) s) p r Lp Lr) as (row & -> & Er). exact Er. }
  split.
  - intros p r Lp Lr dx. destruct (H1 p r Lp Lr) as (e & Ee & A & B & C). rewrite (EA p r Lp Lr) in Ee. assert (Eq : e = entry_of (ik_dof k) s p r) by congruence. subst e. cbn [entry_of e_pos e_rot e_conv e_q] in A, B, C. split; [exact A|]. split; [exact B | exact C].
  - intros p Lp. destruct (H2 p Lp) as (b & Eb & Hb). cbn [mk_sol s_any] in Eb. rewrite vec_nth in Eb by exact Lp. assert (Eq : b = at_ (t_any s) [p]) by congruence. subst b. rewrite Hb. split.
    + intros (r & e & Ee & Ce). destruct (Nat.lt_ge_cases r (ik_nr k)) as [Lr|Ge].
      * rewrite (EA p r Lp Lr) in Ee. assert (Eq : e = entry_of (ik_dof k) s p r) by congruence. subst e. exists r. split; [exact Lr | exact Ce].
      * exfalso. unfold entry_at in Ee. cbn [mk_sol s_entries] in Ee. unfold tab in Ee. rewrite vec_nth in Ee by exact Lp. rewrite vec_none in Ee by exact Ge. discriminate Ee.
    + intros (r & Lr & Cr). exists r, (entry_of (ik_dof k) s p r). split; [exact (EA p r Lp Lr) | exact Cr].
Qed.

Lemma l92_search_is_rowwise : forall eval kern ls dof np nr q dq dx remaining, 0 < dof -> 0 < nr -> 0 < np -> acts_as eval kern dof np nr ->
  shape q = [dof; np * nr] -> shape dq = [dof; np * nr] -> shape dx = [1; 6; np * nr] -> shape remaining = [np] ->
  exists lr, line_search_t eval ls q dq dx remaining = Ok lr /\ shape lr = [np * nr] /\
    map l_lr (do_line_search (fun i row => fnorm (snd (kern (i / nr) row))) ls nr (rows_of q (np * nr) dof) (rows_of dq (np * nr) dof)
      (map (fun r => map (fun c => at_ dx [0; c; r]) (seq 0 6)) (seq 0 (np * nr))) (map (fun p => at_ remaining [p]) (seq 0 np))) = map (fun r => at_ lr [r]) (seq 0 (np * nr)).
Proof.
  intros eval kern ls dof np nr q dq dx remaining Hd Hn Hp HE Sq Sd Sx Sr.
  pose (k := mkIK dof nr (Fin 0%R) (Fin 0%R) 0 (Fin 0%R) None false NoStop 0 false 0 false [] [] []).
  exact (line_search_ok eval kern k np Hd Hn HE ls q dq dx remaining Hp Sq Sd Sx Sr).
Qed.

Lemma l92_update_cells : forall dof np nr ptol rtol s q err use_keep, 0 < dof -> 0 < nr ->
  shape (t_solutions s) = [dof; nr; np] -> shape (t_remaining s) = [np] -> shape (t_err_pos s) = [nr; np] -> shape (t_err_rot s) = [nr; np] -> shape (t_conv_pos s) = [nr; np] -> shape (t_conv_rot s) = [nr; np] ->
  shape (t_conv s) = [nr; np] -> shape (t_any s) = [np] -> (forall p, p < np -> at_ (t_pos_any s) [p] = false) -> (forall p, p < np -> at_ (t_rot_any s) [p] = false) ->
  shape q = [dof; np * nr] -> shape err = [6; np * nr] ->
  exists s', update_t dof nr ptol rtol s q err use_keep = Ok s' /\ t_iter s' = t_iter s /\
    let perr p r := fnorm [at_ err [0; p * nr + r]; at_ err [1; p * nr + r]; at_ err [2; p * nr + r]] in
    let rerr p r := fnorm [at_ err [3; p * nr + r]; at_ err [4; p * nr + r]; at_ err [5; p * nr + r]] in
    let within p r := flt (perr p r) ptol = true /\ flt (rerr p r) rtol = true in
    (forall p r, p < np -> r < nr ->
      (at_ (t_conv s) [r; p] = true -> at_ (t_err_pos s') [r; p] = at_ (t_err_pos s) [r; p] /\ at_ (t_err_rot s') [r; p] = at_ (t_err_rot s) [r; p] /\
        forall j, j < dof -> at_ (t_solutions s') [j; r; p] = at_ (t_solutions s) [j; r; p]) /\
      (at_ (t_conv s) [r; p] = false -> at_ (t_err_pos s') [r; p] = perr p r /\ at_ (t_err_rot s') [r; p] = rerr p r /\
        forall j, j < dof -> at_ (t_solutions s') [j; r; p] = at_ q [j; p * nr + r]) /\
      (at_ (t_conv s') [r; p] = true <-> at_ (t_conv s) [r; p] = true \/ within p r) /\
      (at_ (t_conv_pos s') [r; p] = true <-> at_ (t_conv_pos s) [r; p] = true \/ flt (perr p r) ptol = true) /\
      (at_ (t_conv_rot s') [r; p] = true <-> at_ (t_conv_rot s) [r; p] = true \/ flt (rerr p r) rtol = true)) /\
    (forall p, p < np ->
      (at_ (t_any s') [p] = true <-> at_ (t_any s) [p] = true \/ exists r, r < nr /\ within p r) /\
      (at_ (t_remaining s') [p] = true <-> at_ (t_remaining s) [p] = true /\ (use_keep = true -> ~ exists r, r < nr /\ within p r))).
Proof.
  intros dof np nr ptol rtol s q err use_keep Hd Hn A1 A2 A3 A4 A5 A6 A7 A8 A9 A10 Sq Se. assert (Hs : shaped dof np nr s) by (constructor; assumption).
  destruct (update_ok dof np nr ptol rtol s q err use_keep Hd Hn Hs Sq Se) as (s' & E & Hs' & It & H). exists s'. split; [exact E|]. split; [exact It|]. intros perr rerr within.
  rewrite (solution_mk dof np nr ptol rtol s Hs), (solution_mk dof np nr ptol rtol s' Hs') in H.
  change (rows_of q (np * nr) dof) with (vec (np * nr) (row_of q dof)) in H. change (rows_of err (np * nr) 6) with (vec (np * nr) (row_of err 6)) in H.
  rewrite sol_update_eq in H by exact Hn.
  assert (H0 : forall a b : iksol, Ok a = Ok b -> a = b) by (intros; congruence). apply H0 in H. clear H0.
  pose proof (f_equal s_entries H) as HT. pose proof (f_equal s_any H) as HA. pose proof (f_equal s_remaining H) as HR. cbn [mk_sol s_entries s_any s_remaining] in HT, HA, HR. clear H.
  assert (OK : forall p r, ok ptol rtol (row_of err 6 (p * nr + r)) = true <-> within p r).
  { intros p r. unfold ok. rewrite andb_true_iff. reflexivity. }
  split.
  - intros p r Lp Lr. pose proof (tab_inj np nr _ _ HT p r Lp Lr) as G. cbv beta in G.
    pose proof (f_equal e_q G) as G1. pose proof (f_equal e_pos G) as G2. pose proof (f_equal e_rot G) as G3. pose proof (f_equal e_cpos G) as G4. pose proof (f_equal e_crot G) as G5. pose proof (f_equal e_conv G) as G6. clear G.
    unfold upd_entry, entry_of in G1, G2, G3, G4, G5, G6. cbn [e_q e_pos e_rot e_cpos e_crot e_conv] in G1, G2, G3, G4, G5, G6.
    change (pos_err (row_of err 6 (p * nr + r))) with (perr p r) in *. change (rot_err (row_of err 6 (p * nr + r))) with (rerr p r) in *.
    split; [intros Cv; rewrite Cv in *; cbn [negb] in *; split; [congruence|]; split; [congruence|]; intros j Lj; symmetry; exact (vec_inj dof _ _ G1 j Lj)|].
    split; [intros Cv; rewrite Cv in *; cbn [negb] in *; split; [congruence|]; split; [congruence|]; intros j Lj; symmetry; exact (vec_inj dof _ _ G1 j Lj)|].
    split; [|split].
    + rewrite <- G6, orb_true_iff. rewrite <- (OK p r). reflexivity.
    + rewrite <- G4, orb_true_iff. reflexivity.
    + rewrite <- G5, orb_true_iff. reflexivity.
  - intros p Lp. pose proof (vec_inj np _ _ HA p Lp) as G1. pose proof (vec_inj np _ _ HR p Lp) as G2. cbv beta in G1, G2.
    assert (EX : existsb (ok ptol rtol) (vec nr (fun r => row_of err 6 (p * nr + r))) = true <-> exists r, r < nr /\ within p r).
    { rewrite exists_row. split; intros (r & Lr & O); exists r; (split; [exact Lr | apply OK; exact O]). }
    split.
    + rewrite <- G1, orb_true_iff. rewrite <- EX. reflexivity.
    + rewrite <- G2. rewrite <- EX. destruct use_keep.
      * rewrite andb_true_iff, negb_true_iff. split; intros (U & V); (split; [exact U|]).
        { intros _ W. congruence. }
        { apply not_true_is_false. exact (V eq_refl). }
      * split; [intros U; split; [exact U | discriminate] | intros (U & _); exact U].
Qed.

Lemma l92_update_rejects : forall dof np nr ptol rtol s q err use_keep,
  (nr = 0 \/ prod (shape err) mod (nr * 6) <> 0 -> update_t dof nr ptol rtol s q err use_keep = Err RuntimeError) /\
  (dof = 0 \/ prod (shape q) mod (nr * dof) <> 0 -> 0 < nr -> shape err = [6; np * nr] -> shape (t_remaining s) = [np] -> update_t dof nr ptol rtol s q err use_keep = Err RuntimeError).
Proof.
  intros dof np nr ptol rtol s q err use_keep. split.
  - intros H. assert (Eb : rows3 nr 6 (Ok err) = Err RuntimeError) by (apply rows3_bad; tauto). unfold update_t. rewrite Eb. destruct use_keep; [reflexivity|]. cbn [rbind].
    destruct (where_ _ _ _) as [sols|x] eqn:E1; cbn [rbind]; [reflexivity|]. apply op2_err in E1 as [E1|[E1|E1]]; [discriminate E1| |congruence].
    apply op2_err in E1 as [E1|[E1|E1]]; [|discriminate E1|congruence]. apply rows3_err in E1. congruence.
  - intros H Hn Se Sr. assert (Eb : rows3 nr dof (Ok q) = Err RuntimeError) by (apply rows3_bad; tauto). unfold update_t. rewrite Eb.
    destruct (any_ok nr np ptol rtol err Hn Se) as (f & Hf). set (ca := any_last _) in *.
    assert (K : exists s1, (if use_keep then keep_t s (op1 negb ca) else Ok s) = Ok s1).
    { destruct use_keep; [|exists s; reflexivity]. destruct (t_op2_same andb _ _ _ _ _ (is_in (t_remaining s) [np] Sr) (t_op1 negb _ _ _ Hf)) as (r & Er & _). unfold keep_t. rewrite Er. eexists. reflexivity. }
    destruct K as (s1 & ->). reflexivity.
Qed.
