(** The solver near a configuration from which it can move in every direction. *)
From Coq Require Import Reals Lra String Bool Arith Lia List ZArith.
From Verif Require Import Prelude ExtF Tree ChainModel SpecFK ChainProofs ChainTables TreeQueries Input Widths Lin Trig RotModel RotBasic QuatProofs AxisAngle ChainInst
  FKMore ChainClamp Examples SerialModel SerialProofs SerialMore Deriv JacModel JacProofs JacMore IKModel IKProofs IKMore IKLimits IKKernel KernelProofs DeltaPose IKSolve SolveProofs
  SpecDescent PathDeriv DescentProofs DescFinal SpecLocal LocalNorm LocalCont LocalErr LocalDeriv LocalStep LocalRun.
Import ListNotations.
Local Open Scope list_scope.
Local Open Scope R_scope.

Lemma row_step_fin lr (v d : config (S := R)) l : step_row (Fin lr) (map Fin (map v l)) (map Fin (map d l)) = map Fin (map (drive v d lr) l).
Proof. induction l as [|x l IH]; [reflexivity|]. unfold step_row in *. cbn [map zip_with2]. rewrite IH. reflexivity. Qed.
Lemma six_pos e : pos_err (map Fin (map (six e) (seq 0 6))) = Fin (vnorm (fst e)).
Proof. unfold pos_err. cbn [seq map firstn]. unfold six. rewrite norm3. destruct (fst e); reflexivity. Qed.
Lemma six_rot e : rot_err (map Fin (map (six e) (seq 0 6))) = Fin (vnorm (snd e)).
Proof. unfold rot_err. cbn [seq map skipn]. unfold six. rewrite norm3. destruct (snd e); reflexivity. Qed.
(** the unweighted size of a six-dimensional error *)
Definition usize (e : V3 * V3) : R := sqrt (vnorm2 (fst e) + vnorm2 (snd e)).
Lemma six_norm e : fnorm (map Fin (map (six e) (seq 0 6))) = Fin (usize e).
Proof.
  cbn [seq map]. unfold six, fnorm, usize. cbn [map fmul fsum fold_right fadd fsqrt].
  match goal with |- context [Rltb ?a 0] => replace a with (vnorm2 (fst e) + vnorm2 (snd e)) by (unfold vnorm2, vdot; ring) end.
  unfold Rltb. destruct (Rlt_dec _ 0) as [L|L]; [|reflexivity]. exfalso. pose proof (vnorm2_nonneg (fst e)). pose proof (vnorm2_nonneg (snd e)). lra.
Qed.
Lemma usize_bounds wp wr e : 0 < wp -> 0 < wr -> Rmin wp wr * usize e <= nrm 6 (weigh (Some (row_weights wp wr)) e) <= Rmax wp wr * usize e.
Proof.
  intros Hp Hr. destruct e as [a b]. pose proof (wnorm_split wp wr a b) as S. set (N := nrm 6 (weigh (Some (row_weights wp wr)) (a, b))) in *. assert (N0 : 0 <= N) by apply nrm_nonneg.
  pose proof (vnorm2_nonneg a) as A0. pose proof (vnorm2_nonneg b) as B0. assert (U0 : 0 <= usize (a, b)) by apply sqrt_pos.
  assert (U : usize (a, b) * usize (a, b) = vnorm2 a + vnorm2 b) by (unfold usize; cbn [fst snd]; apply sqrt_sqrt; lra).
  assert (m0 : 0 < Rmin wp wr) by (apply Rmin_pos; assumption). pose proof (Rmin_l wp wr). pose proof (Rmin_r wp wr). pose proof (Rmax_l wp wr). pose proof (Rmax_r wp wr). set (mn := Rmin wp wr) in *. set (mx := Rmax wp wr) in *.
  assert (Q : forall x y z, 0 <= x -> x <= y -> 0 <= z -> x * x * z <= y * y * z) by (intros; apply Rmult_le_compat_r; [assumption|]; apply Rmult_le_compat; assumption).
  split; apply Rsqr_incr_0_var; unfold Rsqr; try (apply Rmult_le_pos; lra); try exact N0.
  - rewrite S. replace (mn * usize (a, b) * (mn * usize (a, b))) with (mn * mn * (usize (a, b) * usize (a, b))) by ring. rewrite U. pose proof (Q mn wp (vnorm2 a) ltac:(lra) ltac:(lra) A0). pose proof (Q mn wr (vnorm2 b) ltac:(lra) ltac:(lra) B0). lra.
  - rewrite S. replace (mx * usize (a, b) * (mx * usize (a, b))) with (mx * mx * (usize (a, b) * usize (a, b))) by ring. rewrite U. pose proof (Q wp mx (vnorm2 a) ltac:(lra) ltac:(lra) A0). pose proof (Q wr mx (vnorm2 b) ltac:(lra) ltac:(lra) B0). lra.
Qed.
(** the first smallest value *)
Lemma first_min (u : nat -> R) m : exists i, (i <= m)%nat /\ (forall l, (l < i)%nat -> u i < u l) /\ forall l, (l <= m)%nat -> u i <= u l.
Proof.
  induction m as [|m (i & Hi & H1 & H2)].
  - exists 0%nat. split; [lia|]. split; [intros; lia|]. intros l Hl. replace l with 0%nat by lia. lra.
  - destruct (Rlt_dec (u (S m)) (u i)) as [L|L].
    + exists (S m). split; [lia|]. split; intros l Hl; [specialize (H2 l ltac:(lia)); lra|]. destruct (Nat.eq_dec l (S m)) as [->|Hn]; [lra | specialize (H2 l ltac:(lia)); lra].
    + exists i. split; [lia|]. split; [exact H1|]. intros l Hl. destruct (Nat.eq_dec l (S m)) as [->|Hn]; [lra | apply H2; lia].
Qed.

Section Traj.
Variables (root r : mframe) (fs : list mframe) (s : schain M4 V3).
Hypothesis (Hin : In r (preorder root)) (Hdj : distinct_joints root) (Hdf : distinct_frames root) (Hcl : clean_names root)
  (Hp : root_path r (r :: fs)) (Ht : serial_tables mops zax s r fs) (Hrig : rigid_tree root).
Variables (reg lm wp wr lr dl rho : R) (w : config (S := R)).
Hypothesis (Hreg : 0 < reg) (Hlm : 0 <= lm) (Hwp : 0 < wp) (Hwr : 0 < wr) (Hlr : 0 < lr <= 1) (Hdl : 0 < dl) (Hrho : 0 < rho < 1).
Hypothesis Hstep : forall target v, is_rot (rotp target) -> closeR dl (rotp target) (rotp (pose w fs)) -> near dl v w ->
  let e := werr wp wr target (pose v fs) in
  exists d : config (S := R), pik_row s target reg lm (Some (row_weights wp wr)) (map v (path_names fs)) = Ok (map d (path_names fs), map (six (comp_err target (pose v fs))) (seq 0 6)) /\
  (e <= 1 -> (forall m, Rabs (d m) <= e / sqrt reg) /\ (near dl (drive v d lr) w -> werr wp wr target (pose (drive v d lr) fs) <= rho * e)).
Variable targets : nat -> M4.
Variable i : nat.
Hypothesis (Htg : is_rot (rotp (targets i))) (Hclose : closeR dl (rotp (targets i)) (rotp (pose w fs))).

Definition reach : R := / (sqrt reg * (1 - rho)).
Notation e v := (werr wp wr (targets i) (pose v fs)).
(** close enough to stay close *)
Definition state (v : config (S := R)) : Prop := e v <= 1 /\ near (dl - reach * e v) v w.
Lemma reach_pos : 0 < reach. Proof. apply Rinv_0_lt_compat. apply Rmult_lt_0_compat; [apply sqrt_lt_R0; exact Hreg | lra]. Qed.
Lemma state_near v : state v -> near dl v w.
Proof. intros [_ H]. eapply near_mono; [|exact H]. pose proof reach_pos. pose proof (werr_nonneg wp wr (targets i) (pose v fs)). assert (0 <= reach * e v) by (apply Rmult_le_pos; lra). lra. Qed.
Lemma state_step v : state v -> exists d : config (S := R),
  pik_row s (targets i) reg lm (Some (row_weights wp wr)) (map v (path_names fs)) = Ok (map d (path_names fs), map (six (comp_err (targets i) (pose v fs))) (seq 0 6)) /\
  state (drive v d lr) /\ e (drive v d lr) <= rho * e v.
Proof.
  intros Hs. pose proof (state_near v Hs) as Hn. destruct Hs as [He1 Hn']. destruct (Hstep (targets i) v Htg Hclose Hn) as (d & Hk & Hd). exists d. split; [exact Hk|].
  destruct (Hd He1) as [Hb Hc]. pose proof (werr_nonneg wp wr (targets i) (pose v fs)) as e0. set (e1 := e v) in *. assert (Hsr : 0 < sqrt reg) by (apply sqrt_lt_R0; exact Hreg).
  assert (RE : e1 / sqrt reg = reach * ((1 - rho) * e1)) by (unfold reach; field; lra).
  assert (M : near (dl - reach * (rho * e1)) (drive v d lr) w).
  { intros n. unfold drive. specialize (Hn' n). specialize (Hb n). rewrite RE in Hb. replace (v n + lr * d n - w n) with ((v n - w n) + lr * d n) by ring. eapply Rle_trans; [apply Rabs_triang|]. rewrite Rabs_mult, (Rabs_pos_eq lr) by lra.
    assert (lr * Rabs (d n) <= 1 * Rabs (d n)) by (apply Rmult_le_compat_r; [apply Rabs_pos | lra]). replace (dl - reach * (rho * e1)) with ((dl - reach * e1) + reach * ((1 - rho) * e1)) by ring. lra. }
  pose proof reach_pos as RP. assert (P0 : 0 <= rho * e1) by (apply Rmult_le_pos; lra). assert (P1 : 0 <= reach * (rho * e1)) by (apply Rmult_le_pos; lra).
  assert (D : e (drive v d lr) <= rho * e1) by (apply Hc; eapply near_mono; [|exact M]; lra).
  split; [|exact D]. split.
  - assert (rho * e1 <= 1 * e1) by (apply Rmult_le_compat_r; lra). lra.
  - eapply near_mono; [|exact M]. assert (reach * e (drive v d lr) <= reach * (rho * e1)) by (apply Rmult_le_compat_l; lra). lra.
Qed.

Variables (o : ik) (np : nat) (Q0 : nat -> list F).
Let k := pik_init s o.
Let kern := pik_kern s targets reg lm (Some (row_weights wp wr)).
Hypothesis (Hnr : (0 < ik_nr o)%nat) (Holr : ik_lr o = Fin lr) (Hols : ik_ls o = None).
Definition free : Prop := forall v, near dl v w -> clamp_row (ik_low k) (ik_high k) (map Fin (map v (path_names fs))) = map Fin (map v (path_names fs)).
Definition unturned : Prop := forall v, near dl v w -> wrap_row k (map Fin (map v (path_names fs))) = map Fin (map v (path_names fs)).
Lemma kern_at v d dx : pik_row s (targets i) reg lm (Some (row_weights wp wr)) (map v (path_names fs)) = Ok (map d (path_names fs), dx) -> kern i (map Fin (map v (path_names fs))) = (map Fin (map d (path_names fs)), map Fin dx).
Proof. intros E. unfold kern, pik_kern. rewrite (proj2 (fin_row_of_some _ _) eq_refl), map_length, (path_chain_names r fs s Ht), Nat.eqb_refl, E. reflexivity. Qed.

Variable t : nat.
Hypothesis (Hi : (i < np)%nat) (Htt : (t < ik_nr o)%nat).
Variable v0 : config (S := R).
Hypothesis (Hv0 : Q0 (i * ik_nr o + t)%nat = map Fin (map v0 (path_names fs))) (Hs0 : state v0).
Hypothesis Hcp : ik_clamp k = false \/ free.

Definition E (j : nat) : R := nrm 6 (fun h => row_weights wp wr h * match nth h (Dj kern k np Q0 i t j) NaN with Fin x => x | _ => 0 end).
Lemma ltraj j : exists v, Qj kern k np Q0 j (i * ik_nr o + t) = map Fin (map v (path_names fs)) /\ state v /\ Dj kern k np Q0 i t j = map Fin (map (six (comp_err (targets i) (pose v fs))) (seq 0 6)) /\
  E j = e v /\ E (S j) <= rho * E j.
Proof.
  assert (A : forall j v, Qj kern k np Q0 j (i * ik_nr o + t) = map Fin (map v (path_names fs)) -> state v -> Dj kern k np Q0 i t j = map Fin (map (six (comp_err (targets i) (pose v fs))) (seq 0 6)) /\ E j = e v).
  { intros l v Eq Hs. destruct (state_step v Hs) as (d & Hk & _).
    assert (ED : Dj kern k np Q0 i t l = map Fin (map (six (comp_err (targets i) (pose v fs))) (seq 0 6))) by (unfold Dj; change (ik_nr k) with (ik_nr o); rewrite Eq, (kern_at v d _ Hk); reflexivity).
    split; [exact ED|]. unfold E, werr. apply nrm_ext. intros h Hh. rewrite ED. unfold weigh. rewrite <- (nth_indep _ (Fin (six (comp_err (targets i) (pose v fs)) 0)) NaN) by (rewrite !map_length, seq_length; exact Hh).
    rewrite map_nth, map_nth, seq_nth by exact Hh. reflexivity. }
  assert (B : forall l v, Qj kern k np Q0 l (i * ik_nr o + t) = map Fin (map v (path_names fs)) -> state v -> forall d,
    pik_row s (targets i) reg lm (Some (row_weights wp wr)) (map v (path_names fs)) = Ok (map d (path_names fs), map (six (comp_err (targets i) (pose v fs))) (seq 0 6)) -> state (drive v d lr) ->
    Qj kern k np Q0 (S l) (i * ik_nr o + t) = map Fin (map (drive v d lr) (path_names fs))).
  { intros l v Eq Hs d Hk Hs'. unfold Qj in *. cbn [IKProofs.iter fbody f_q]. unfold lrs. change (ik_ls k) with (ik_ls o). change (ik_lr k) with (ik_lr o). change (ik_nr k) with (ik_nr o). rewrite Hols, Holr.
    rewrite Eq. rewrite Nat.div_add_l, (Nat.div_small t (ik_nr o) Htt), Nat.add_0_r by lia. rewrite (kern_at v d _ Hk). cbn [fst]. rewrite row_step_fin.
    unfold clampq. destruct Hcp as [->|Hf]; [reflexivity|]. destruct (ik_clamp k); [|reflexivity]. apply Hf. apply state_near. exact Hs'. }
  assert (C : forall l, exists v, Qj kern k np Q0 l (i * ik_nr o + t) = map Fin (map v (path_names fs)) /\ state v).
  { induction l as [|l (v & Eq & Hs)]; [exists v0; split; [exact Hv0 | exact Hs0]|]. destruct (state_step v Hs) as (d & Hk & Hs' & _). exists (drive v d lr). split; [|exact Hs']. apply (B l v Eq Hs d Hk Hs'). }
  destruct (C j) as (v & Eq & Hs). exists v. destruct (A j v Eq Hs) as [A1 A2]. split; [exact Eq|]. split; [exact Hs|]. split; [exact A1|]. split; [exact A2|].
  destruct (state_step v Hs) as (d & Hk & Hs' & Hd). destruct (A (S j) _ (B j v Eq Hs d Hk Hs') Hs') as [_ ->]. rewrite A2. exact Hd.
Qed.
Lemma E_pow j l : E (j + l) <= rho ^ l * E j.
Proof.
  induction l as [|l IH]; [rewrite Nat.add_0_r; cbn [pow]; lra|]. rewrite Nat.add_succ_r. destruct (ltraj (j + l)) as (v & _ & _ & _ & _ & H). cbn [pow].
  assert (rho * E (j + l) <= rho * (rho ^ l * E j)) by (apply Rmult_le_compat_l; lra). lra.
Qed.
Lemma E_0 : E 0 = e v0.
Proof. destruct (ltraj 0) as (v & Eq & Hs & _ & -> & _). change (Qj kern k np Q0 0 (i * ik_nr o + t)) with (Q0 (i * ik_nr o + t)%nat) in Eq. rewrite Hv0 in Eq.
  assert (EV : map v0 (path_names fs) = map v (path_names fs)). { assert (J : forall a b : list R, map Fin a = map Fin b -> a = b) by (induction a as [|x a IH]; intros [|y b] H; try discriminate; [reflexivity|]; cbn [map] in H; assert (x = y) by congruence; assert (map Fin a = map Fin b) by congruence; f_equal; auto). apply J. exact Eq. }
  assert (PE : pose v fs = pose v0 fs); [|rewrite PE; reflexivity]. apply pose_ext. intros f Hf Hm. assert (Hn : In (j_name (f_joint f)) (path_names fs)) by (unfold path_names; apply (in_map (fun g : mframe => j_name (f_joint g))); apply filter_In; auto). generalize dependent (j_name (f_joint f)). intros n Hn. clear - EV Hn. induction (path_names fs) as [|a l IH]; [contradiction|]. cbn [map] in EV. destruct Hn as [<-|Hn]; [congruence | apply IH; [congruence | exact Hn]].
Qed.

Variables pt rt : R.
Hypothesis (Hpt : ik_ptol o = Fin pt) (Hrt : ik_rtol o = Fin rt).
Lemma small_ok v : e v < wp * pt -> e v < wr * rt -> ok (ik_ptol k) (ik_rtol k) (map Fin (map (six (comp_err (targets i) (pose v fs))) (seq 0 6))) = true.
Proof.
  intros H1 H2. unfold werr in *. destruct (comp_err (targets i) (pose v fs)) as [a b] eqn:Ec. destruct (wnorm_parts wp wr a b Hwp Hwr) as [P1 P2]. unfold ok, pok, rok. rewrite six_pos, six_rot. cbn [fst snd].
  change (ik_ptol k) with (ik_ptol o). change (ik_rtol k) with (ik_rtol o). rewrite Hpt, Hrt. cbn [flt]. apply andb_true_iff. rewrite !Rltb_true. split; [apply Rmult_lt_reg_l with wp; lra | apply Rmult_lt_reg_l with wr; lra].
Qed.
Lemma ok_small_inv v : 0 <= pt -> 0 <= rt -> ok (ik_ptol k) (ik_rtol k) (map Fin (map (six (comp_err (targets i) (pose v fs))) (seq 0 6))) = true -> e v <= wp * pt + wr * rt.
Proof.
  intros Hp0 Hr0 H. unfold werr in *. destruct (comp_err (targets i) (pose v fs)) as [a b] eqn:Ec. unfold ok, pok, rok in H. rewrite six_pos, six_rot in H. cbn [fst snd] in H.
  change (ik_ptol k) with (ik_ptol o) in H. change (ik_rtol k) with (ik_rtol o) in H. rewrite Hpt, Hrt in H. cbn [flt] in H. apply andb_true_iff in H. rewrite !Rltb_true in H. destruct H as [H1 H2].
  pose proof (wnorm_split wp wr a b) as S. pose proof (vnorm_nonneg a) as A0. pose proof (vnorm_nonneg b) as B0. rewrite <- !vnorm_sq in S.
  apply Rsqr_incr_0_var; [|assert (0 <= wp * pt) by (apply Rmult_le_pos; lra); assert (0 <= wr * rt) by (apply Rmult_le_pos; lra); lra]. unfold Rsqr. rewrite S.
  assert (Q1 : wp * vnorm a <= wp * pt) by (apply Rmult_le_compat_l; lra). assert (Q2 : wr * vnorm b <= wr * rt) by (apply Rmult_le_compat_l; lra). assert (Q3 : 0 <= wp * vnorm a) by (apply Rmult_le_pos; lra). assert (Q4 : 0 <= wr * vnorm b) by (apply Rmult_le_pos; lra).
  replace (wp * wp * vnorm a ^ 2 + wr * wr * vnorm b ^ 2) with (wp * vnorm a * (wp * vnorm a) + wr * vnorm b * (wr * vnorm b)) by ring.
  apply Rle_trans with (wp * pt * (wp * pt) + wr * rt * (wr * rt)); [apply Rplus_le_compat; apply Rmult_le_compat; lra|]. assert (0 <= wp * pt * (wr * rt)) by (apply Rmult_le_pos; lra). lra.
Qed.
Lemma good_at j : E j < wp * pt -> E j < wr * rt -> ok (ik_ptol k) (ik_rtol k) (Dj kern k np Q0 i t j) = true.
Proof. destruct (ltraj j) as (v & _ & _ & -> & -> & _). apply small_ok. Qed.
(** the stopping rule does not run out of patience before the row has converged *)
Lemma patience_kept : 0 < pt -> 0 < rt -> rho ^ S (ik_patience o) * Rmax wp wr < Rmin wp wr -> forall m, (ik_patience k < cntj kern k np Q0 i t m)%nat -> exists j, (j <= m)%nat /\ ok (ik_ptol k) (ik_rtol k) (Dj kern k np Q0 i t j) = true.
Proof.
  intros Hpt0 Hrt0 Hpat m Hc. change (ik_patience k) with (ik_patience o) in Hc. apply cntj_spec in Hc. destruct Hc as [Hm Hrec].
  set (u := fun j => match ej kern k np Q0 i t j with Fin x => x | _ => 0 end).
  assert (U : forall j, ej kern k np Q0 i t j = Fin (u j) /\ Rmin wp wr * u j <= E j <= Rmax wp wr * u j).
  { intros j. destruct (ltraj j) as (v & _ & _ & Ed & Ee & _). unfold u, ej. rewrite Ed, six_norm. split; [reflexivity|]. rewrite Ee. apply usize_bounds; assumption. }
  destruct (Rle_lt_or_eq_dec 0 (E m) (nrm_nonneg _ _)) as [L|L].
  2:{ exists m. split; [lia|]. apply good_at; rewrite <- L; apply Rmult_lt_0_compat; assumption. }
  exfalso. destruct (first_min u m) as (a & Ha & H1 & H2).
  assert (R : record (ej kern k np Q0 i t) a).
  { split; [rewrite (proj1 (U 0%nat)); reflexivity|]. intros l Hl _. rewrite (proj1 (U a)), (proj1 (U l)). cbn [flt]. apply Rltb_true. apply H1. exact Hl. }
  assert (La : (a + S (ik_patience o) <= m)%nat). { destruct (le_lt_dec (a + S (ik_patience o)) m) as [Q|Q]; [exact Q|]. exfalso. apply (Hrec a); [lia | exact R]. }
  pose proof (E_pow a (m - a)) as EP. replace (a + (m - a))%nat with m in EP by lia.
  assert (PW : rho ^ (m - a) <= rho ^ S (ik_patience o)).
  { replace (m - a)%nat with (S (ik_patience o) + (m - a - S (ik_patience o)))%nat by lia. rewrite pow_add. pose proof (pow_lt rho (S (ik_patience o)) (proj1 Hrho)) as P0.
    pose proof (pow_incr rho 1 (m - a - S (ik_patience o)) ltac:(lra)) as P1. rewrite pow1 in P1. rewrite <- (Rmult_1_r (rho ^ S (ik_patience o))) at 2. apply Rmult_le_compat_l; lra. }
  assert (Ea0 : 0 <= E a) by apply nrm_nonneg. destruct (U a) as [_ [_ Ua]]. destruct (U m) as [_ [Um _]]. pose proof (H2 m (le_n m)) as Mn. pose proof (Rmin_pos wp wr Hwp Hwr) as W0.
  assert (PP := pow_lt rho (S (ik_patience o)) (proj1 Hrho)). assert (Q1 : rho ^ (m - a) * E a <= rho ^ S (ik_patience o) * E a) by (apply Rmult_le_compat_r; assumption).
  assert (Q2 : rho ^ S (ik_patience o) * E a <= rho ^ S (ik_patience o) * (Rmax wp wr * u a)) by (apply Rmult_le_compat_l; lra).
  assert (Ua0 : 0 < u a).
  { apply Rnot_le_lt. intros Q. assert (Rmax wp wr * u a <= Rmax wp wr * 0) by (apply Rmult_le_compat_l; [pose proof (Rmax_l wp wr); lra | exact Q]). assert (E a = 0) by lra. assert (E m <= 0) by (rewrite H0, Rmult_0_r in EP; exact EP). lra. }
  assert (Q3 : rho ^ S (ik_patience o) * Rmax wp wr * u a < Rmin wp wr * u a) by (apply Rmult_lt_compat_r; assumption).
  assert (Q4 : Rmin wp wr * u a <= Rmin wp wr * u m) by (apply Rmult_le_compat_l; lra). replace (rho ^ S (ik_patience o) * (Rmax wp wr * u a)) with (rho ^ S (ik_patience o) * Rmax wp wr * u a) in Q2 by ring. lra.
Qed.
(** the steps taken after the limits have been enforced *)
Lemma refs_state n : free -> forall Q v, Q (i * ik_nr o + t)%nat = map Fin (map v (path_names fs)) -> state v ->
  exists v', refs kern k n Q (i * ik_nr o + t) = map Fin (map v' (path_names fs)) /\ state v' /\ e v' <= rho ^ n * e v /\ (n = 0%nat -> v' = v).
Proof.
  intros Hf. induction n as [|n IH]; intros Q v Eq Hs; cbn [refs].
  - exists v. split; [exact Eq|]. split; [exact Hs|]. cbn [pow]. split; [lra | reflexivity].
  - destruct (state_step v Hs) as (d & Hk & Hs' & Hd). destruct (IH (ref1 kern k Q) (drive v d lr)) as (v' & E1 & E2 & E3 & _).
    + unfold ref1. change (ik_nr k) with (ik_nr o). rewrite Nat.div_add_l, (Nat.div_small t (ik_nr o) Htt), Nat.add_0_r by lia. rewrite Eq, (kern_at v d _ Hk). cbn [fst]. change (ik_lr k) with (ik_lr o). rewrite Holr, row_step_fin. apply Hf. apply state_near. exact Hs'.
    + exact Hs'.
    + exists v'. split; [exact E1|]. split; [exact E2|]. split; [|discriminate]. cbn [pow]. pose proof (pow_lt rho n (proj1 Hrho)) as P. assert (rho ^ n * e (drive v d lr) <= rho ^ n * (rho * e v)) by (apply Rmult_le_compat_l; lra). lra.
Qed.
(** ** the whole run *)
Variable N : nat.
Hypothesis (He0 : e v0 <= Rmin wp wr) (HN1 : rho ^ N < pt) (HN2 : rho ^ N < rt) (Hmax : (N <= ik_max o)%nat).
Hypothesis Hstop : ik_noimp o = NoStop \/ ((ik_noimp o = StopAny \/ (ik_nr o = 1%nat /\ forall x, ik_noimp o = StopRatio x -> x < 1)) /\ rho ^ S (ik_patience o) * Rmax wp wr < Rmin wp wr).
Lemma good_N : ok (ik_ptol k) (ik_rtol k) (Dj kern k np Q0 i t N) = true.
Proof.
  pose proof (E_pow 0 N) as P. cbn [Nat.add] in P. rewrite E_0 in P. pose proof (pow_lt rho N (proj1 Hrho)) as P0. pose proof (Rmin_l wp wr). pose proof (Rmin_r wp wr).
  assert (A : rho ^ N * e v0 <= rho ^ N * Rmin wp wr) by (apply Rmult_le_compat_l; lra).
  assert (B1 : rho ^ N * Rmin wp wr <= rho ^ N * wp) by (apply Rmult_le_compat_l; lra). assert (B2 : rho ^ N * Rmin wp wr <= rho ^ N * wr) by (apply Rmult_le_compat_l; lra).
  assert (C1 : rho ^ N * wp < pt * wp) by (apply Rmult_lt_compat_r; assumption). assert (C2 : rho ^ N * wr < rt * wr) by (apply Rmult_lt_compat_r; assumption).
  apply good_at; lra.
Qed.
Lemma stop_kept : ik_noimp k = NoStop \/
  ((forall m, (ik_patience k < cntj kern k np Q0 i t m)%nat -> exists j, (j <= m)%nat /\ ok (ik_ptol k) (ik_rtol k) (Dj kern k np Q0 i t j) = true) /\ (ik_noimp k = StopAny \/ (ik_nr k = 1%nat /\ forall x, ik_noimp k = StopRatio x -> x < 1))).
Proof.
  destruct Hstop as [H|[H1 H2]]; [left; exact H|]. right. split; [|exact H1]. pose proof (pow_lt rho N (proj1 Hrho)). apply patience_kept; [lra | lra | exact H2].
Qed.
Lemma no_search : forall f, ik_ls k = Some f -> forall q dq dx rem, length dq = length q -> length dx = length q -> length (f q dq dx rem) = length q.
Proof. intros f Hf. change (ik_ls k) with (ik_ls o) in Hf. congruence. Qed.
Lemma local_plain : ik_enforce k && has_finite_limits k = false -> exists sol, solve_from kern k np (vec (np * ik_nr o) Q0) = Ok sol /\ nth_error (s_any sol) i = Some true /\
  (ik_stop_any o = false \/ ik_nr o = 1%nat -> exists en v, entry_at sol i t = Some en /\ e_conv en = true /\ e_q en = map Fin (map v (path_names fs)) /\ near dl v w).
Proof.
  intros He. destruct (run_plain kern k np Q0 Hnr i t N Hi Htt good_N Hmax stop_kept He no_search) as (sol & Es & H1 & H2). exists sol. split; [exact Es|]. split; [exact H1|]. intros Hs.
  destruct (H2 Hs) as (en & G1 & G2 & l & G3). destruct (ltraj l) as (v & Eq & Hsv & _). exists en, v. split; [exact G1|]. split; [exact G2|]. split; [|apply state_near; exact Hsv]. rewrite G3. exact Eq.
Qed.
Lemma local_enforced : ik_enforce k && has_finite_limits k = true -> free -> unturned -> ik_stop_any o = false \/ ik_nr o = 1%nat ->
  ik_refine o = 0%nat \/ (rho ^ ik_refine o * (wp * pt + wr * rt) < wp * pt /\ rho ^ ik_refine o * (wp * pt + wr * rt) < wr * rt) ->
  exists sol, solve_from kern k np (vec (np * ik_nr o) Q0) = Ok sol /\ nth_error (s_any sol) i = Some true /\
  exists en v, entry_at sol i t = Some en /\ e_conv en = true /\ e_q en = map Fin (map v (path_names fs)) /\ near dl v w.
Proof.
  intros He Hf Hu Hs Hre. pose proof (pow_lt rho N (proj1 Hrho)) as P0.
  assert (R : forall j Q, ok (ik_ptol k) (ik_rtol k) (Dj kern k np Q0 i t j) = true -> Q (i * ik_nr k + t)%nat = clamp_row (ik_low k) (ik_high k) (wrap_row k (Qj kern k np Q0 j (i * ik_nr k + t))) ->
    exists v', refs kern k (ik_refine k) Q (i * ik_nr k + t) = map Fin (map v' (path_names fs)) /\ near dl v' w /\ ok (ik_ptol k) (ik_rtol k) (snd (kern i (refs kern k (ik_refine k) Q (i * ik_nr k + t)))) = true).
  { intros j Q Hg HQ. destruct (ltraj j) as (v & Eq & Hsv & Ed & _ & _). change (ik_nr k) with (ik_nr o) in *. rewrite Eq in HQ. rewrite (Hu v (state_near v Hsv)), (Hf v (state_near v Hsv)) in HQ.
    destruct (refs_state (ik_refine o) Hf Q v HQ Hsv) as (v' & E1 & E2 & E3 & E4). exists v'. change (ik_refine k) with (ik_refine o). split; [exact E1|]. split; [apply state_near; exact E2|]. rewrite E1.
    destruct (state_step v' E2) as (d & Hk & _). rewrite (kern_at v' d _ Hk). cbn [snd]. rewrite Ed in Hg. destruct Hre as [Z|[Z1 Z2]].
    - rewrite (E4 Z). exact Hg.
    - pose proof (ok_small_inv v ltac:(lra) ltac:(lra) Hg) as Ev. pose proof (pow_lt rho (ik_refine o) (proj1 Hrho)) as P1.
      assert (rho ^ ik_refine o * e v <= rho ^ ik_refine o * (wp * pt + wr * rt)) by (apply Rmult_le_compat_l; lra). apply small_ok; lra. }
  destruct (run_enforced kern k np Q0 Hnr i t N Hi Htt good_N Hmax stop_kept He no_search Hs) as (sol & Es & H1 & en & G1 & G2 & j & Q & G3 & G4 & G5).
  { intros j Q Hg HQ. destruct (R j Q Hg HQ) as (_ & _ & _ & O). exact O. }
  exists sol. split; [exact Es|]. split; [exact H1|]. destruct (R j Q G3 G4) as (v' & F1 & F2 & _). exists en, v'. split; [exact G1|]. split; [exact G2|]. split; [|exact F2]. rewrite G5. exact F1.
Qed.
End Traj.
