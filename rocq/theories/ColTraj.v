(** The solver on its way to a pose that was made from a configuration near by. *)
From Coq Require Import Reals Lra String Bool Arith Lia List ZArith.
From Verif Require Import Prelude ExtF Tree ChainModel SpecFK ChainProofs ChainTables TreeQueries Input Widths Lin Trig RotModel RotBasic QuatProofs AxisAngle ChainInst
  FKMore ChainClamp Examples SerialModel SerialProofs SerialMore Deriv JacModel JacProofs JacMore IKModel IKProofs IKMore IKLimits IKKernel KernelProofs DeltaPose IKSolve SolveProofs
  SpecDescent PathDeriv DescentProofs DescFinal SpecLocal LocalNorm LocalCont LocalErr LocalDeriv LocalStep LocalRun LocalTraj ColStep.
Import ListNotations.
Local Open Scope list_scope.
Local Open Scope R_scope.

(** without limits to enforce, the row that is reported is one that was accepted *)
Lemma run_plain_good kern (k : ik) np Q0 p t N : (0 < ik_nr k)%nat -> (p < np)%nat -> (t < ik_nr k)%nat -> ok (ik_ptol k) (ik_rtol k) (Dj kern k np Q0 p t N) = true -> (N <= ik_max k)%nat ->
  ik_noimp k = NoStop \/ ((forall m, (ik_patience k < cntj kern k np Q0 p t m)%nat -> exists j, (j <= m)%nat /\ ok (ik_ptol k) (ik_rtol k) (Dj kern k np Q0 p t j) = true) /\
    (ik_noimp k = StopAny \/ (ik_nr k = 1%nat /\ forall x, ik_noimp k = StopRatio x -> x < 1))) ->
  ik_enforce k && has_finite_limits k = false ->
  (forall f, ik_ls k = Some f -> forall q dq dx rem, length dq = length q -> length dx = length q -> length (f q dq dx rem) = length q) ->
  exists sol, solve_from kern k np (vec (np * ik_nr k) Q0) = Ok sol /\ nth_error (s_any sol) p = Some true /\
    (ik_stop_any k = false \/ ik_nr k = 1%nat -> exists e j, entry_at sol p t = Some e /\ e_conv e = true /\ e_q e = Qj kern k np Q0 j (p * ik_nr k + t) /\ ok (ik_ptol k) (ik_rtol k) (Dj kern k np Q0 p t j) = true).
Proof.
  intros Hnr Hp Ht HN Hmax Hstop He Hls. destruct (run_row kern k np Q0 Hnr p t N Hp Ht HN Hmax Hstop Hls) as (m & Es & (j & r & Hj & Hr & Ho) & H2). rewrite He in Es. eexists. split; [exact Es|]. split.
  - destruct (final_any kern k np Q0 m p Hp) as (b & Hb & Hiff). rewrite Hb. f_equal. apply Hiff. destruct (entry_conv kern k np Q0 Hnr p t N Hp Ht Hmax Hstop m r j Hr Hj Ho) as (e & E1 & E2 & _). exists r, e. auto.
  - intros H. destruct (H2 H) as (l & Hl & Hg). destruct (entry_conv kern k np Q0 Hnr p t N Hp Ht Hmax Hstop m t l Ht Hl Hg) as (e & E1 & E2 & _).
    assert (EE := final_entry kern k np Q0 m p t Hp Ht). rewrite EE in E1. assert (E1' : forall X (a b : X), Some a = Some b -> a = b) by (intros; congruence). apply E1' in E1. subst e.
    destruct (stored_consistent kern k np Q0 m p t) as (q & Hq & Eq & _ & _ & _ & Hfirst & Hor).
    assert (Gj : ok (ik_ptol k) (ik_rtol k) (Dj kern k np Q0 p t q) = true).
    { destruct Hor as [Hor|Hor]; [exact Hor|]. subst q. destruct (Nat.eq_dec l m) as [->|Hlm]; [exact Hg|]. rewrite (Hfirst l) in Hg by lia. discriminate. }
    eexists. exists q. split; [exact EE|]. split; [exact E2|]. split; [exact Eq | exact Gj].
Qed.

Section CTraj.
Variables (root r : mframe) (fs : list mframe) (s : schain M4 V3).
Hypothesis Ht : serial_tables mops zax s r fs.
Variables (reg lm wp wr lr dl rho c1 c2 b : R) (w vt : config (S := R)).
Hypothesis (Hwp : 0 < wp) (Hwr : 0 < wr) (Hlr : 0 < lr <= 1) (Hrho : 0 < rho < 1) (Hc1 : 0 < c1) (Hc2 : 0 < c2).
Notation e v := (werr wp wr (pose vt fs) (pose v fs)).
Notation off v := (forall m, ~ In m (path_names fs) -> v m = vt m).
Hypothesis Hstep : forall v, near dl v w -> off v ->
  c1 * dist fs v vt <= e v <= c2 * dist fs v vt /\
  exists d : config (S := R), pik_row s (pose vt fs) reg lm (Some (row_weights wp wr)) (map v (path_names fs)) = Ok (map d (path_names fs), map (six (comp_err (pose vt fs) (pose v fs))) (seq 0 6)) /\
  (forall m, ~ In m (path_names fs) -> d m = 0) /\ (e v <= 1 -> dist fs (drive v d lr) vt <= rho * dist fs v vt).
Hypothesis (Hvt : near (dl / 2) vt w) (Hb : b <= dl / 2) (Hb1 : c2 * b <= 1) (Hb2 : c2 * b <= Rmin wp wr).
Definition cstate (v : config (S := R)) : Prop := off v /\ dist fs v vt <= b.
Lemma cstate_near v : cstate v -> near dl v w.
Proof. intros [H1 H2] m. pose proof (dist_near fs v vt H1 m). pose proof (Hvt m). replace (v m - w m) with ((v m - vt m) + (vt m - w m)) by ring. eapply Rle_trans; [apply Rabs_triang|]. lra. Qed.
Lemma cstate_bounds v : cstate v -> c1 * dist fs v vt <= e v <= c2 * dist fs v vt.
Proof. intros H. apply Hstep; [apply cstate_near; exact H | apply H]. Qed.
Lemma cstate_step v : cstate v -> exists d : config (S := R),
  pik_row s (pose vt fs) reg lm (Some (row_weights wp wr)) (map v (path_names fs)) = Ok (map d (path_names fs), map (six (comp_err (pose vt fs) (pose v fs))) (seq 0 6)) /\
  cstate (drive v d lr) /\ dist fs (drive v d lr) vt <= rho * dist fs v vt.
Proof.
  intros Hs. destruct (Hstep v (cstate_near v Hs) (proj1 Hs)) as ([_ U] & d & Hk & Ho & Hd). destruct Hs as [H1 H2]. exists d. split; [exact Hk|]. pose proof (dist_nonneg fs v vt) as P.
  assert (c2 * dist fs v vt <= c2 * b) by (apply Rmult_le_compat_l; lra). specialize (Hd ltac:(lra)). split; [|exact Hd]. split.
  - intros m Hm. unfold drive. rewrite (Ho m Hm), (H1 m Hm). ring.
  - assert (rho * dist fs v vt <= 1 * dist fs v vt) by (apply Rmult_le_compat_r; lra). lra.
Qed.

Variable targets : nat -> M4.
Variable i : nat.
Hypothesis Etg : targets i = pose vt fs.
Variables (o : ik) (np : nat) (Q0 : nat -> list F).
Let k := pik_init s o.
Let kern := pik_kern s targets reg lm (Some (row_weights wp wr)).
Hypothesis (Hnr : (0 < ik_nr o)%nat) (Holr : ik_lr o = Fin lr) (Hols : ik_ls o = None).
Lemma ckern_at v d dx : pik_row s (pose vt fs) reg lm (Some (row_weights wp wr)) (map v (path_names fs)) = Ok (map d (path_names fs), dx) -> kern i (map Fin (map v (path_names fs))) = (map Fin (map d (path_names fs)), map Fin dx).
Proof. intros E. rewrite <- Etg in E. unfold kern. apply (kern_at r fs s Ht reg lm wp wr targets i v d dx E). Qed.
Variable t : nat.
Hypothesis (Hi : (i < np)%nat) (Htt : (t < ik_nr o)%nat).
Variable v0 : config (S := R).
Hypothesis (Hv0 : Q0 (i * ik_nr o + t)%nat = map Fin (map v0 (path_names fs))) (Hs0 : cstate v0).
Hypothesis Hcp : ik_clamp k = false \/ free fs s dl w o.
(** how far the row is from the configuration the target was made from *)
Definition X (j : nat) : R := nrm (length (path_names fs)) (fun h => nth h (map vt (path_names fs)) 0 - match nth h (Qj kern k np Q0 j (i * ik_nr o + t)) NaN with Fin x => x | _ => 0 end).
Lemma X_of j v : Qj kern k np Q0 j (i * ik_nr o + t) = map Fin (map v (path_names fs)) -> X j = dist fs v vt.
Proof.
  intros E. unfold X, dist. apply nrm_ext. intros h Hh. rewrite E. unfold apart. rewrite (nth_indep _ NaN (Fin (v None))) by (rewrite !map_length; exact Hh). rewrite map_nth, map_nth.
  rewrite (nth_indep _ 0 (vt None)), map_nth by (rewrite map_length; exact Hh). rewrite (nth_indep _ 0 (vt None - v None)), (map_nth (fun n => vt n - v n)) by (rewrite map_length; exact Hh). reflexivity.
Qed.
Lemma ctraj j : exists v, Qj kern k np Q0 j (i * ik_nr o + t) = map Fin (map v (path_names fs)) /\ cstate v /\ Dj kern k np Q0 i t j = map Fin (map (six (comp_err (targets i) (pose v fs))) (seq 0 6)) /\
  X j = dist fs v vt /\ X (S j) <= rho * X j.
Proof.
  assert (B : forall l v, Qj kern k np Q0 l (i * ik_nr o + t) = map Fin (map v (path_names fs)) -> forall d,
    pik_row s (pose vt fs) reg lm (Some (row_weights wp wr)) (map v (path_names fs)) = Ok (map d (path_names fs), map (six (comp_err (pose vt fs) (pose v fs))) (seq 0 6)) -> cstate (drive v d lr) ->
    Qj kern k np Q0 (S l) (i * ik_nr o + t) = map Fin (map (drive v d lr) (path_names fs))).
  { intros l v Eq d Hk Hs'. unfold Qj in *. cbn [IKProofs.iter fbody f_q]. unfold lrs. change (ik_ls k) with (ik_ls o). change (ik_lr k) with (ik_lr o). change (ik_nr k) with (ik_nr o). rewrite Hols, Holr.
    rewrite Eq. rewrite Nat.div_add_l, (Nat.div_small t (ik_nr o) Htt), Nat.add_0_r by lia. rewrite (ckern_at v d _ Hk). cbn [fst]. rewrite row_step_fin.
    unfold clampq. destruct Hcp as [->|Hf]; [reflexivity|]. destruct (ik_clamp k); [|reflexivity]. apply Hf. apply cstate_near. exact Hs'. }
  assert (C : forall l, exists v, Qj kern k np Q0 l (i * ik_nr o + t) = map Fin (map v (path_names fs)) /\ cstate v).
  { induction l as [|l (v & Eq & Hs)]; [exists v0; split; [exact Hv0 | exact Hs0]|]. destruct (cstate_step v Hs) as (d & Hk & Hs' & _). exists (drive v d lr). split; [|exact Hs']. apply (B l v Eq d Hk Hs'). }
  destruct (C j) as (v & Eq & Hs). exists v. destruct (cstate_step v Hs) as (d & Hk & Hs' & Hd). split; [exact Eq|]. split; [exact Hs|]. split; [|split].
  - unfold Dj. change (ik_nr k) with (ik_nr o). rewrite Eq, (ckern_at v d _ Hk), Etg. reflexivity.
  - apply X_of. exact Eq.
  - rewrite (X_of j v Eq), (X_of (S j) _ (B j v Eq d Hk Hs')). exact Hd.
Qed.
Lemma X_pow j l : X (j + l) <= rho ^ l * X j.
Proof.
  induction l as [|l IH]; [rewrite Nat.add_0_r; cbn [pow]; lra|]. rewrite Nat.add_succ_r. destruct (ctraj (j + l)) as (v & _ & _ & _ & _ & H). cbn [pow].
  assert (rho * X (j + l) <= rho * (rho ^ l * X j)) by (apply Rmult_le_compat_l; lra). lra.
Qed.
Lemma X_0 : X 0 <= b. Proof. rewrite (X_of 0 v0 Hv0). apply Hs0. Qed.
Variables pt rt : R.
Hypothesis (Hpt : ik_ptol o = Fin pt) (Hrt : ik_rtol o = Fin rt).
Lemma csmall_ok v : e v < wp * pt -> e v < wr * rt -> ok (ik_ptol k) (ik_rtol k) (map Fin (map (six (comp_err (targets i) (pose v fs))) (seq 0 6))) = true.
Proof. rewrite <- Etg. intros H1 H2. apply (small_ok fs s wp wr Hwp Hwr targets i o pt rt Hpt Hrt v H1 H2). Qed.
Lemma cok_inv v : 0 <= pt -> 0 <= rt -> ok (ik_ptol k) (ik_rtol k) (map Fin (map (six (comp_err (targets i) (pose v fs))) (seq 0 6))) = true -> e v <= wp * pt + wr * rt.
Proof. rewrite <- Etg. intros P1 P2 H. apply (ok_small_inv fs s wp wr Hwp Hwr targets i o pt rt Hpt Hrt v P1 P2 H). Qed.
Definition kappa : R := (wp + wr) * (c2 / c1 / Rmin wp wr + / c1).
Lemma ratio_pos : 0 < c2 / c1. Proof. apply Rdiv_lt_0_compat; assumption. Qed.
Lemma wmin_pos : 0 < Rmin wp wr. Proof. apply Rmin_pos; assumption. Qed.
Lemma kappa_1 : c2 / c1 * (wp + wr) <= kappa * Rmin wp wr.
Proof.
  pose proof wmin_pos as W. pose proof ratio_pos. unfold kappa. replace ((wp + wr) * (c2 / c1 / Rmin wp wr + / c1) * Rmin wp wr) with (c2 / c1 * (wp + wr) + (wp + wr) * / c1 * Rmin wp wr) by (field; lra).
  assert (0 <= (wp + wr) * / c1 * Rmin wp wr); [|lra]. apply Rmult_le_pos; [|lra]. apply Rmult_le_pos; [lra|]. left. apply Rinv_0_lt_compat. exact Hc1.
Qed.
Lemma kappa_2 : (wp + wr) / c1 <= kappa.
Proof. pose proof wmin_pos as W. pose proof ratio_pos as P. unfold kappa, Rdiv in *. apply Rmult_le_compat_l; [lra|]. assert (0 < c2 * / c1 * / Rmin wp wr) by (apply Rmult_lt_0_compat; [exact P | apply Rinv_0_lt_compat; exact W]). lra. Qed.
Lemma close_row v : 0 <= pt -> 0 <= rt -> cstate v -> e v <= wp * pt + wr * rt -> dist fs v vt <= kappa * (pt + rt).
Proof.
  intros P1 P2 Hs He. destruct (cstate_bounds v Hs) as [L _]. pose proof kappa_2 as K2.
  assert (wp * pt + wr * rt <= (wp + wr) * (pt + rt)) by (assert (0 <= wp * rt) by (apply Rmult_le_pos; lra); assert (0 <= wr * pt) by (apply Rmult_le_pos; lra); lra).
  apply Rle_trans with ((wp + wr) / c1 * (pt + rt)); [|apply Rmult_le_compat_r; lra]. apply Rmult_le_reg_l with c1; [exact Hc1|]. replace (c1 * ((wp + wr) / c1 * (pt + rt))) with ((wp + wr) * (pt + rt)) by (field; lra). lra.
Qed.
(** the stopping rule does not run out of patience before the row has converged *)
Lemma cpatience : 0 < pt -> 0 < rt -> kappa * rho ^ S (ik_patience o) < 1 -> forall m, (ik_patience k < cntj kern k np Q0 i t m)%nat -> exists j, (j <= m)%nat /\ ok (ik_ptol k) (ik_rtol k) (Dj kern k np Q0 i t j) = true.
Proof.
  intros Hpt0 Hrt0 Hpat m Hc. change (ik_patience k) with (ik_patience o) in Hc. apply cntj_spec in Hc. destruct Hc as [Hm Hrec].
  set (u := fun j => match ej kern k np Q0 i t j with Fin x => x | _ => 0 end).
  assert (U : forall j, ej kern k np Q0 i t j = Fin (u j) /\ Rmin wp wr * u j <= c2 * X j /\ c1 * X j <= Rmax wp wr * u j).
  { intros j. destruct (ctraj j) as (v & _ & Hs & Ed & Ee & _). unfold u, ej. rewrite Ed, six_norm. split; [reflexivity|]. rewrite Ee. destruct (cstate_bounds v Hs) as [B1 B2]. destruct (usize_bounds wp wr (comp_err (pose vt fs) (pose v fs)) Hwp Hwr) as [B3 B4]. rewrite Etg. unfold werr in *. lra. }
  pose proof wmin_pos as W0. assert (X0 : forall j, 0 <= X j) by (intros; apply nrm_nonneg).
  destruct (Rle_lt_or_eq_dec 0 (X m) (X0 m)) as [L|L].
  2:{ exists m. split; [lia|]. destruct (ctraj m) as (v & _ & Hs & -> & Ee & _). destruct (cstate_bounds v Hs) as [_ B2]. rewrite <- Ee, <- L, Rmult_0_r in B2.
      assert (0 < wp * pt) by (apply Rmult_lt_0_compat; assumption). assert (0 < wr * rt) by (apply Rmult_lt_0_compat; assumption). apply csmall_ok; lra. }
  exfalso. destruct (first_min u m) as (a & Ha & H1 & H2).
  assert (R : record (ej kern k np Q0 i t) a).
  { split; [rewrite (proj1 (U 0%nat)); reflexivity|]. intros l Hl _. rewrite (proj1 (U a)), (proj1 (U l)). cbn [flt]. apply Rltb_true. apply H1. exact Hl. }
  assert (La : (a + S (ik_patience o) <= m)%nat). { destruct (le_lt_dec (a + S (ik_patience o)) m) as [Q|Q]; [exact Q|]. exfalso. apply (Hrec a); [lia | exact R]. }
  pose proof (X_pow a (m - a)) as EP. replace (a + (m - a))%nat with m in EP by lia.
  assert (PW : rho ^ (m - a) <= rho ^ S (ik_patience o)).
  { replace (m - a)%nat with (S (ik_patience o) + (m - a - S (ik_patience o)))%nat by lia. rewrite pow_add. pose proof (pow_lt rho (S (ik_patience o)) (proj1 Hrho)) as P0.
    pose proof (pow_incr rho 1 (m - a - S (ik_patience o)) ltac:(lra)) as P1. rewrite pow1 in P1. rewrite <- (Rmult_1_r (rho ^ S (ik_patience o))) at 2. apply Rmult_le_compat_l; lra. }
  destruct (U a) as [_ [_ Ua]]. destruct (U m) as [_ [Um _]]. pose proof (H2 m (le_n m)) as Mn. assert (PP := pow_lt rho (S (ik_patience o)) (proj1 Hrho)). set (q := rho ^ S (ik_patience o)) in *.
  assert (Q1 : X m <= q * X a) by (assert (rho ^ (m - a) * X a <= q * X a) by (apply Rmult_le_compat_r; [apply X0 | exact PW]); lra).
  assert (Xa : 0 < X a) by (destruct (Rle_lt_or_eq_dec 0 (X a) (X0 a)) as [P|P]; [exact P | rewrite <- P, Rmult_0_r in Q1; lra]).
  assert (WM : Rmax wp wr <= wp + wr) by (unfold Rmax; destruct (Rle_dec wp wr); lra). assert (WP : 0 < Rmax wp wr) by (pose proof (Rmax_l wp wr); lra).
  assert (cX : 0 < c1 * X a) by (apply Rmult_lt_0_compat; assumption).
  assert (Ua0 : 0 < u a) by (apply Rnot_le_lt; intros Q; assert (Rmax wp wr * u a <= Rmax wp wr * 0) by (apply Rmult_le_compat_l; lra); lra).
  assert (Xb : X a <= (wp + wr) * u a / c1).
  { apply Rmult_le_reg_l with c1; [exact Hc1|]. replace (c1 * ((wp + wr) * u a / c1)) with ((wp + wr) * u a) by (field; lra). assert (Rmax wp wr * u a <= (wp + wr) * u a) by (apply Rmult_le_compat_r; lra). lra. }
  assert (Q2 : c2 * X m <= c2 * (q * ((wp + wr) * u a / c1))).
  { apply Rmult_le_compat_l; [lra|]. eapply Rle_trans; [exact Q1|]. apply Rmult_le_compat_l; [lra | exact Xb]. }
  replace (c2 * (q * ((wp + wr) * u a / c1))) with (c2 / c1 * (wp + wr) * (q * u a)) in Q2 by (field; lra).
  assert (qu : 0 < q * u a) by (apply Rmult_lt_0_compat; assumption). pose proof kappa_1 as K1.
  assert (Q3 : c2 / c1 * (wp + wr) * (q * u a) <= kappa * Rmin wp wr * (q * u a)) by (apply Rmult_le_compat_r; lra).
  assert (Q4 : kappa * q * (Rmin wp wr * u a) < 1 * (Rmin wp wr * u a)) by (apply Rmult_lt_compat_r; [apply Rmult_lt_0_compat; assumption | exact Hpat]).
  assert (Q5 : Rmin wp wr * u a <= Rmin wp wr * u m) by (apply Rmult_le_compat_l; lra). replace (kappa * Rmin wp wr * (q * u a)) with (kappa * q * (Rmin wp wr * u a)) in Q3 by ring. lra.
Qed.
(** the steps taken after the limits have been enforced *)
Lemma crefs n : free fs s dl w o -> forall Q v, Q (i * ik_nr o + t)%nat = map Fin (map v (path_names fs)) -> cstate v ->
  exists v', refs kern k n Q (i * ik_nr o + t) = map Fin (map v' (path_names fs)) /\ cstate v' /\ dist fs v' vt <= rho ^ n * dist fs v vt /\ (n = 0%nat -> v' = v).
Proof.
  intros Hf. induction n as [|n IH]; intros Q v Eq Hs; cbn [refs].
  - exists v. split; [exact Eq|]. split; [exact Hs|]. cbn [pow]. split; [lra | reflexivity].
  - destruct (cstate_step v Hs) as (d & Hk & Hs' & Hd). destruct (IH (ref1 kern k Q) (drive v d lr)) as (v' & E1 & E2 & E3 & _).
    + unfold ref1. change (ik_nr k) with (ik_nr o). rewrite Nat.div_add_l, (Nat.div_small t (ik_nr o) Htt), Nat.add_0_r by lia. rewrite Eq, (ckern_at v d _ Hk). cbn [fst]. change (ik_lr k) with (ik_lr o). rewrite Holr, row_step_fin. apply Hf. apply cstate_near. exact Hs'.
    + exact Hs'.
    + exists v'. split; [exact E1|]. split; [exact E2|]. split; [|discriminate]. cbn [pow]. pose proof (pow_lt rho n (proj1 Hrho)) as P. assert (rho ^ n * dist fs (drive v d lr) vt <= rho ^ n * (rho * dist fs v vt)) by (apply Rmult_le_compat_l; lra). lra.
Qed.
(** ** the whole run *)
Variable N : nat.
Hypothesis (HN1 : rho ^ N < pt) (HN2 : rho ^ N < rt) (Hmax : (N <= ik_max o)%nat).
Hypothesis Hstop : ik_noimp o = NoStop \/ ((ik_noimp o = StopAny \/ (ik_nr o = 1%nat /\ forall x, ik_noimp o = StopRatio x -> x < 1)) /\ kappa * rho ^ S (ik_patience o) < 1).
Lemma cgood_N : ok (ik_ptol k) (ik_rtol k) (Dj kern k np Q0 i t N) = true.
Proof.
  pose proof (X_pow 0 N) as P. cbn [Nat.add] in P. pose proof X_0 as P1. pose proof (pow_lt rho N (proj1 Hrho)) as P0. pose proof (Rmin_l wp wr). pose proof (Rmin_r wp wr).
  destruct (ctraj N) as (v & _ & Hs & -> & Ev & _). destruct (cstate_bounds v Hs) as [_ B2]. rewrite <- Ev in B2.
  assert (A1 : rho ^ N * X 0 <= rho ^ N * b) by (apply Rmult_le_compat_l; lra). assert (A2 : c2 * X N <= c2 * (rho ^ N * b)) by (apply Rmult_le_compat_l; lra).
  assert (A3 : rho ^ N * (c2 * b) <= rho ^ N * Rmin wp wr) by (apply Rmult_le_compat_l; lra).
  assert (B3 : rho ^ N * Rmin wp wr <= rho ^ N * wp) by (apply Rmult_le_compat_l; lra). assert (B4 : rho ^ N * Rmin wp wr <= rho ^ N * wr) by (apply Rmult_le_compat_l; lra).
  assert (C1 : rho ^ N * wp < pt * wp) by (apply Rmult_lt_compat_r; assumption). assert (C2 : rho ^ N * wr < rt * wr) by (apply Rmult_lt_compat_r; assumption).
  apply csmall_ok; lra.
Qed.
Lemma cstop_kept : ik_noimp k = NoStop \/
  ((forall m, (ik_patience k < cntj kern k np Q0 i t m)%nat -> exists j, (j <= m)%nat /\ ok (ik_ptol k) (ik_rtol k) (Dj kern k np Q0 i t j) = true) /\ (ik_noimp k = StopAny \/ (ik_nr k = 1%nat /\ forall x, ik_noimp k = StopRatio x -> x < 1))).
Proof.
  destruct Hstop as [H|[H1 H2]]; [left; exact H|]. right. split; [|exact H1]. pose proof (pow_lt rho N (proj1 Hrho)). apply cpatience; [lra | lra | exact H2].
Qed.
Lemma cno_search : forall f, ik_ls k = Some f -> forall q dq dx rem, length dq = length q -> length dx = length q -> length (f q dq dx rem) = length q.
Proof. intros f Hf. change (ik_ls k) with (ik_ls o) in Hf. congruence. Qed.
Lemma col_plain : ik_enforce k && has_finite_limits k = false -> exists sol, solve_from kern k np (vec (np * ik_nr o) Q0) = Ok sol /\ nth_error (s_any sol) i = Some true /\
  (ik_stop_any o = false \/ ik_nr o = 1%nat -> exists en v, entry_at sol i t = Some en /\ e_conv en = true /\ e_q en = map Fin (map v (path_names fs)) /\ cstate v /\ dist fs v vt <= kappa * (pt + rt)).
Proof.
  intros He. destruct (run_plain_good kern k np Q0 i t N Hnr Hi Htt cgood_N Hmax cstop_kept He cno_search) as (sol & Es & H1 & H2). exists sol. split; [exact Es|]. split; [exact H1|]. intros Hs.
  destruct (H2 Hs) as (en & l & G1 & G2 & G3 & G4). destruct (ctraj l) as (v & Eq & Hsv & Ed & _). exists en, v. split; [exact G1|]. split; [exact G2|]. split; [rewrite G3; exact Eq|]. split; [exact Hsv|].
  pose proof (pow_lt rho N (proj1 Hrho)). apply close_row; [lra | lra | exact Hsv|]. apply cok_inv; [lra | lra|]. rewrite <- Ed. exact G4.
Qed.
Lemma col_enforced : ik_enforce k && has_finite_limits k = true -> free fs s dl w o -> unturned fs s dl w o -> ik_stop_any o = false \/ ik_nr o = 1%nat ->
  ik_refine o = 0%nat \/ (kappa * rho ^ ik_refine o * (pt + rt) < pt /\ kappa * rho ^ ik_refine o * (pt + rt) < rt) ->
  exists sol, solve_from kern k np (vec (np * ik_nr o) Q0) = Ok sol /\ nth_error (s_any sol) i = Some true /\
  exists en v, entry_at sol i t = Some en /\ e_conv en = true /\ e_q en = map Fin (map v (path_names fs)) /\ cstate v /\ dist fs v vt <= kappa * (pt + rt).
Proof.
  intros He Hf Hu Hs Hre. pose proof (pow_lt rho N (proj1 Hrho)) as P0.
  assert (R : forall j Q, ok (ik_ptol k) (ik_rtol k) (Dj kern k np Q0 i t j) = true -> Q (i * ik_nr k + t)%nat = clamp_row (ik_low k) (ik_high k) (wrap_row k (Qj kern k np Q0 j (i * ik_nr k + t))) ->
    exists v', refs kern k (ik_refine k) Q (i * ik_nr k + t) = map Fin (map v' (path_names fs)) /\ cstate v' /\ ok (ik_ptol k) (ik_rtol k) (snd (kern i (refs kern k (ik_refine k) Q (i * ik_nr k + t)))) = true /\ dist fs v' vt <= kappa * (pt + rt)).
  { intros j Q Hg HQ. destruct (ctraj j) as (v & Eq & Hsv & Ed & _ & _). change (ik_nr k) with (ik_nr o) in *. rewrite Eq in HQ. unfold k in HQ. rewrite (Hu v (cstate_near v Hsv)), (Hf v (cstate_near v Hsv)) in HQ.
    destruct (crefs (ik_refine o) Hf Q v HQ Hsv) as (v' & E1 & E2 & E3 & E4). exists v'. change (ik_refine k) with (ik_refine o). split; [exact E1|]. split; [exact E2|]. rewrite E1.
    destruct (cstate_step v' E2) as (d & Hk & _). rewrite (ckern_at v' d _ Hk). cbn [snd]. rewrite Ed in Hg. pose proof (cok_inv v ltac:(lra) ltac:(lra) Hg) as Ev. pose proof (close_row v ltac:(lra) ltac:(lra) Hsv Ev) as CV.
    pose proof (pow_lt rho (ik_refine o) (proj1 Hrho)) as P1. pose proof (dist_nonneg fs v vt) as DV. split.
    - destruct Hre as [Z|[Z1 Z2]]; [rewrite (E4 Z), <- Etg; exact Hg|]. set (q := rho ^ ik_refine o) in *. destruct (cstate_bounds v Hsv) as [L1 _]. destruct (cstate_bounds v' E2) as [_ U1]. pose proof wmin_pos as W0. pose proof kappa_1 as K1. pose proof (Rmin_l wp wr). pose proof (Rmin_r wp wr). pose proof ratio_pos as RP.
      assert (B1 : e v <= (wp + wr) * (pt + rt)) by (assert (0 <= wp * rt) by (apply Rmult_le_pos; lra); assert (0 <= wr * pt) by (apply Rmult_le_pos; lra); lra).
      assert (B2 : dist fs v vt <= (wp + wr) * (pt + rt) / c1) by (apply Rmult_le_reg_l with c1; [exact Hc1|]; replace (c1 * ((wp + wr) * (pt + rt) / c1)) with ((wp + wr) * (pt + rt)) by (field; lra); lra).
      assert (B3 : c2 * dist fs v' vt <= c2 * (q * ((wp + wr) * (pt + rt) / c1))).
      { apply Rmult_le_compat_l; [lra|]. eapply Rle_trans; [exact E3|]. apply Rmult_le_compat_l; [lra | exact B2]. }
      replace (c2 * (q * ((wp + wr) * (pt + rt) / c1))) with (c2 / c1 * (wp + wr) * (q * (pt + rt))) in B3 by (field; lra).
      assert (B4 : c2 / c1 * (wp + wr) * (q * (pt + rt)) <= kappa * Rmin wp wr * (q * (pt + rt))) by (apply Rmult_le_compat_r; [apply Rmult_le_pos; lra | exact K1]).
      replace (kappa * Rmin wp wr * (q * (pt + rt))) with (Rmin wp wr * (kappa * q * (pt + rt))) in B4 by ring.
      assert (B5 : Rmin wp wr * (kappa * q * (pt + rt)) < Rmin wp wr * pt) by (apply Rmult_lt_compat_l; lra). assert (B6 : Rmin wp wr * (kappa * q * (pt + rt)) < Rmin wp wr * rt) by (apply Rmult_lt_compat_l; lra).
      assert (B7 : Rmin wp wr * pt <= wp * pt) by (apply Rmult_le_compat_r; lra). assert (B8 : Rmin wp wr * rt <= wr * rt) by (apply Rmult_le_compat_r; lra). rewrite <- Etg. apply csmall_ok; lra.
    - pose proof (pow_incr rho 1 (ik_refine o) ltac:(lra)) as P2. rewrite pow1 in P2. assert (rho ^ ik_refine o * dist fs v vt <= 1 * dist fs v vt) by (apply Rmult_le_compat_r; lra). lra. }
  destruct (run_enforced kern k np Q0 Hnr i t N Hi Htt cgood_N Hmax cstop_kept He cno_search Hs) as (sol & Es & H1 & en & G1 & G2 & j & Q & G3 & G4 & G5).
  { intros j Q Hg HQ. destruct (R j Q Hg HQ) as (_ & _ & _ & O & _). exact O. }
  exists sol. split; [exact Es|]. split; [exact H1|]. destruct (R j Q G3 G4) as (v' & F1 & F2 & _ & F3). exists en, v'. split; [exact G1|]. split; [exact G2|]. split; [|split; [exact F2 | exact F3]]. rewrite G5. exact F1.
Qed.
End CTraj.
