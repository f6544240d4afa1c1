(** One step of the solver near a configuration whose Jacobian reaches every direction. *)
From Coq Require Import Reals Lra String Bool Arith Lia List FunctionalExtensionality.
From Coquelicot Require Import Coquelicot.
From Verif Require Import Prelude ExtF Tree ChainModel SpecFK ChainProofs ChainTables TreeQueries Input Widths Lin Trig RotModel RotBasic QuatProofs AxisAngle ChainInst
  FKMore ChainClamp Examples SerialModel SerialProofs SerialMore Deriv JacModel JacProofs JacMore IKModel IKProofs IKMore IKLimits IKKernel KernelProofs DeltaPose IKSolve SolveProofs
  SpecDescent PathDeriv AngleDeriv DescentProofs DescFinal LocalNorm LocalCont LocalErr LocalDeriv.
Import ListNotations.
Local Open Scope list_scope.
Local Open Scope R_scope.

(** the weighted size of the error *)
Definition werr (wp wr : R) (target T : M4) : R := nrm 6 (weigh (Some (row_weights wp wr)) (comp_err target T)).
Lemma werr_nonneg wp wr target T : 0 <= werr wp wr target T. Proof. apply nrm_nonneg. Qed.

Lemma names_dec : forall a b : option string, {a = b} + {a <> b}.
Proof. intros [a|] [b|]; try (right; congruence); [destruct (string_dec a b); [left | right]; congruence | left; reflexivity]. Qed.
(** a row as a configuration that is given elsewhere *)
Lemma row_config_else root (r : mframe) fs row (w : config (S := R)) : In r (preorder root) -> distinct_joints root -> root_path r (r :: fs) -> length row = length (path_names fs) ->
  exists v : config (S := R), row = map v (path_names fs) /\ forall n, ~ In n (path_names fs) -> v n = w n.
Proof.
  intros Hin Hdj Hp Hl. destruct (row_config root r fs Hin Hdj Hp row Hl) as (v & ->). exists (fun n => if in_dec names_dec n (path_names fs) then v n else w n). split.
  - apply map_ext_in. intros n Hn. destruct (in_dec names_dec n (path_names fs)); [reflexivity | contradiction].
  - intros n Hn. destruct (in_dec names_dec n (path_names fs)); [contradiction | reflexivity].
Qed.
Lemma row_comp root (r : mframe) fs s target v reg lm wp wr :
  In r (preorder root) -> distinct_joints root -> distinct_frames root -> clean_names root -> root_path r (r :: fs) -> serial_tables mops zax s r fs -> rigid_tree root ->
  is_rot (rotp target) -> 0 < reg -> 0 <= lm ->
  let n := length (path_names fs) in
  let A := jac_w (Some (row_weights wp wr)) (map (col_of v (pose v fs)) (mov [] fs)) in
  let d := weigh (Some (row_weights wp wr)) (comp_err target (pose v fs)) in
  exists x, solves 6 (gram n A (damping reg lm d)) d x /\
  pik_row s target reg lm (Some (row_weights wp wr)) (map v (path_names fs)) = Ok (map (jt 6 A x) (seq 0 n), map (six (comp_err target (pose v fs))) (seq 0 6)).
Proof.
  intros Hin Hdj Hdf Hcl Hp Ht Hrig Hr Hreg Hlm n A d. destruct (comp_spec target (pose v fs) Hr (pose_rot root r fs Hin Hp Hrig v)) as (a & Hd & _).
  destruct (ik_step_eq (map (col_of v (pose v fs)) (mov [] fs)) (comp_err target (pose v fs)) reg lm (Some (row_weights wp wr)) Hreg Hlm) as (x & Hs & Hk).
  assert (L : length (map (col_of v (pose v fs)) (mov [] fs)) = n) by (unfold n; rewrite map_length, <- (map_length snd), mov_snd; unfold path_names; rewrite map_length; reflexivity).
  rewrite L in Hs, Hk. exists x. split; [exact Hs|].
  unfold pik_row. rewrite map_length. change (mkTh (length (path_names fs)) [map v (path_names fs)]) with (path_tensor fs [v]).
  rewrite (jacobian_tensor_eq root r fs s [v] Hin Hdj Hdf Hcl Hp Ht). cbn [rbind map]. rewrite Hd. rewrite fin3_of_fin. cbn [of_opt rbind]. rewrite <- surjective_pairing, Hk. reflexivity.
Qed.

Lemma near_segment dl v d w lr t : near dl v w -> near dl (drive v d lr) w -> 0 <= t <= lr -> near dl (drive v d t) w.
Proof.
  intros H0 H1 Ht n. specialize (H0 n). specialize (H1 n). unfold drive in *. apply Rabs_le_between in H0. apply Rabs_le_between in H1.
  destruct (Req_dec lr 0) as [Z|Z]; [assert (t = 0) by lra; subst t; rewrite Rmult_0_l, Rplus_0_r; apply Rabs_le; lra|].
  set (c := t / lr). assert (Hc : 0 <= c <= 1).
  { unfold c. split; [apply Rmult_le_pos; [lra | left; apply Rinv_0_lt_compat; lra]|]. apply Rmult_le_reg_r with lr; [lra|]. unfold Rdiv. rewrite Rmult_assoc, Rinv_l by exact Z. lra. }
  assert (E : v n + t * d n - w n = (1 - c) * (v n - w n) + c * (v n + lr * d n - w n)) by (unfold c; field; exact Z). rewrite E. apply Rabs_le.
  assert (A1 : (1 - c) * (v n - w n) <= (1 - c) * dl) by (apply Rmult_le_compat_l; lra). assert (A2 : (1 - c) * (- dl) <= (1 - c) * (v n - w n)) by (apply Rmult_le_compat_l; lra).
  assert (A3 : c * (v n + lr * d n - w n) <= c * dl) by (apply Rmult_le_compat_l; lra). assert (A4 : c * (- dl) <= c * (v n + lr * d n - w n)) by (apply Rmult_le_compat_l; lra). lra.
Qed.
Lemma weights_bounds wp wr i : 0 < wp -> 0 < wr -> Rmin wp wr <= row_weights wp wr i <= wp + wr.
Proof. intros. unfold row_weights. pose proof (Rmin_l wp wr). pose proof (Rmin_r wp wr). destruct (Nat.ltb i 3); lra. Qed.
Lemma wnorm_split wp wr a b : nrm 6 (weigh (Some (row_weights wp wr)) (a, b)) * nrm 6 (weigh (Some (row_weights wp wr)) (a, b)) = wp * wp * vnorm2 a + wr * wr * vnorm2 b.
Proof. rewrite nrm_sq. cbn [rsum]. unfold weigh, row_weights, six. cbn [Nat.ltb Nat.leb fst snd]. unfold vnorm2, vdot. ring. Qed.
Lemma wnorm_rot wp wr b : 0 < wr -> nrm 6 (weigh (Some (row_weights wp wr)) (vzero, b)) = wr * vnorm b.
Proof.
  intros H. apply Rsqr_inj; [apply nrm_nonneg | apply Rmult_le_pos; [lra | apply vnorm_nonneg]|]. unfold Rsqr. rewrite wnorm_split. replace (vnorm2 vzero) with 0 by (unfold vnorm2, vdot, vzero; cbn [vx vy vz]; ring).
  replace (wr * vnorm b * (wr * vnorm b)) with (wr * wr * vnorm b ^ 2) by ring. rewrite vnorm_sq. ring.
Qed.
Lemma wnorm_parts wp wr a b : 0 < wp -> 0 < wr -> wp * vnorm a <= nrm 6 (weigh (Some (row_weights wp wr)) (a, b)) /\ wr * vnorm b <= nrm 6 (weigh (Some (row_weights wp wr)) (a, b)).
Proof.
  intros Hp Hr. pose proof (wnorm_split wp wr a b) as S. set (N := nrm 6 (weigh (Some (row_weights wp wr)) (a, b))) in *. assert (0 <= N) by apply nrm_nonneg.
  pose proof (vnorm_nonneg a). pose proof (vnorm_nonneg b). rewrite <- !vnorm_sq in S. assert (0 <= wp * wp * vnorm a ^ 2) by (apply Rmult_le_pos; [apply Rle_0_sqr | apply pow2_ge_0]). assert (0 <= wr * wr * vnorm b ^ 2) by (apply Rmult_le_pos; [apply Rle_0_sqr | apply pow2_ge_0]).
  split; apply Rsqr_incr_0_var; try assumption; unfold Rsqr; lra.
Qed.

Section Step.
Variables (root r : mframe) (fs : list mframe) (s : schain M4 V3).
Hypothesis (Hin : In r (preorder root)) (Hdj : distinct_joints root) (Hdf : distinct_frames root) (Hcl : clean_names root)
  (Hp : root_path r (r :: fs)) (Ht : serial_tables mops zax s r fs) (Hrig : rigid_tree root).
Variables (reg lm wp wr lr : R) (w : config (S := R)).
Hypothesis (Hreg : 0 < reg) (Hlm : 0 <= lm) (Hwp : 0 < wp) (Hwr : 0 < wr) (Hlr : 0 < lr <= 1).
Let n := length (path_names fs).
Variable B : nat -> nat -> R.
Hypothesis HB : forall i k, (i < 6)%nat -> (k < 6)%nat -> rsum n (fun j => cm fs w k j * B j i) = if Nat.eqb k i then 1 else 0.

Lemma cols_len v : length (map (col_of v (pose v fs)) (mov [] fs)) = n.
Proof. unfold n; rewrite map_length, <- (map_length snd), mov_snd; unfold path_names; rewrite map_length; reflexivity. Qed.
Lemma cm_in j : (j < n)%nat -> exists pg, In pg (mov [] fs) /\ forall u i, cm fs u i j = six (col_of u (pose u fs) pg) i.
Proof.
  intros Hj. rewrite <- (cols_len w), map_length in Hj. destruct (nth_error (mov [] fs) j) as [pg|] eqn:E; [|apply nth_error_None in E; lia]. exists pg. split; [eapply nth_error_In; exact E|].
  intros u i. unfold cm. erewrite nth_error_nth by (rewrite nth_error_map, E; reflexivity). reflexivity.
Qed.
Lemma cm_bounded : exists M, 0 <= M /\ forall i j, (j < n)%nat -> Rabs (cm fs w i j) <= M.
Proof.
  exists (rsum n (fun j => rsum 6 (fun i => Rabs (cm fs w i j)))). assert (P : forall j, 0 <= rsum 6 (fun i => Rabs (cm fs w i j))) by (intros j; apply rsum_nonneg; intros; apply Rabs_pos).
  assert (P1 : forall m f k, (forall i, (i < m)%nat -> 0 <= f i) -> (k < m)%nat -> f k <= rsum m f).
  { intros m f k Hf Hk. rewrite <- (rsum_delta m k f Hk). apply rsum_le. intros i Hi. destruct (Nat.eqb i k); [lra | apply Hf; exact Hi]. }
  split; [apply rsum_nonneg; intros; apply P|]. intros i j Hj. destruct (lt_dec i 6) as [L|L].
  - apply Rle_trans with (rsum 6 (fun i => Rabs (cm fs w i j))); [apply (P1 6%nat (fun i => Rabs (cm fs w i j)) i); [intros; apply Rabs_pos | exact L]|]. apply (P1 n (fun j => rsum 6 (fun i => Rabs (cm fs w i j))) j); [intros; apply P | exact Hj].
  - assert (Z : cm fs w i j = 0) by (unfold cm, six; do 6 (destruct i as [|i]; [lia|]); reflexivity). rewrite Z, Rabs_R0. apply rsum_nonneg; intros; apply P.
Qed.

Lemma local_step : exists dl rho, 0 < dl /\ 0 < rho < 1 /\ forall target v, is_rot (rotp target) -> closeR dl (rotp target) (rotp (pose w fs)) -> near dl v w ->
  let e := werr wp wr target (pose v fs) in
  exists d : config (S := R), pik_row s target reg lm (Some (row_weights wp wr)) (map v (path_names fs)) = Ok (map d (path_names fs), map (six (comp_err target (pose v fs))) (seq 0 6)) /\
  (e <= 1 -> (forall m, Rabs (d m) <= e / sqrt reg) /\ (near dl (drive v d lr) w -> werr wp wr target (pose (drive v d lr) fs) <= rho * e)).
Proof.
  assert (Hr := rigid_path root r fs Hrig Hin Hp). destruct cm_bounded as (M & HM0 & HM).
  set (mu := mu_of 6 n B). assert (Hmu : 0 < mu) by apply mu_pos. set (wm := Rmin wp wr). assert (Hwm : 0 < wm) by (apply Rmin_pos; assumption).
  set (m0 := wm * wm * (mu / 4)). assert (Hm0 : 0 < m0) by (unfold m0; apply Rmult_lt_0_compat; [apply Rmult_lt_0_compat; exact Hwm | lra]).
  set (K0 := reg + lm). assert (HK0 : 0 < K0) by (unfold K0; lra). set (th := lr * m0 / (m0 + K0)).
  assert (Hth : 0 < th < 1).
  { unfold th. split; [apply Rdiv_lt_0_compat; [apply Rmult_lt_0_compat; lra | lra]|]. apply Rmult_lt_reg_r with (m0 + K0); [lra|]. unfold Rdiv. rewrite Rmult_assoc, Rinv_l by lra.
    assert (lr * m0 <= 1 * m0) by (apply Rmult_le_compat_r; lra). lra. }
  assert (Hsr : 0 < sqrt reg) by (apply sqrt_lt_R0; exact Hreg). pose proof (pos_INR n) as Hn.
  set (L := 6 * (wp + wr) * (14 + 12 * M) * INR n / sqrt reg).
  assert (HL : 0 <= L). { unfold L, Rdiv. apply Rmult_le_pos; [|left; apply Rinv_0_lt_compat; exact Hsr]. apply Rmult_le_pos; [|exact Hn]. apply Rmult_le_pos; lra. }
  set (eta := Rmin 1 (Rmin (th / (8 * (L + 1))) (Rmin (th / 864) (mu / (24 * (INR n + 1)))))).
  assert (H1 : 0 < th / (8 * (L + 1))) by (apply Rdiv_lt_0_compat; lra). assert (H2 : 0 < mu / (24 * (INR n + 1))) by (apply Rdiv_lt_0_compat; lra).
  assert (He : 0 < eta) by (unfold eta; repeat apply Rmin_pos; lra).
  assert (E1 : eta <= 1) by apply Rmin_l.
  assert (E2 : eta <= th / (8 * (L + 1))) by (eapply Rle_trans; [apply Rmin_r | apply Rmin_l]).
  assert (E3 : eta <= th / 864) by (eapply Rle_trans; [apply Rmin_r | eapply Rle_trans; [apply Rmin_r | apply Rmin_l]]).
  assert (E4 : eta <= mu / (24 * (INR n + 1))) by (eapply Rle_trans; [apply Rmin_r | eapply Rle_trans; [apply Rmin_r | apply Rmin_r]]).
  clearbody eta. assert (EE : eta * eta <= eta) by (assert (eta * eta <= eta * 1) by (apply Rmult_le_compat_l; lra); lra).
  assert (F2 : eta * L <= th / 8).
  { apply Rle_trans with (eta * (L + 1)); [apply Rmult_le_compat_l; lra|]. apply Rle_trans with (th / (8 * (L + 1)) * (L + 1)); [apply Rmult_le_compat_r; lra|]. right. field. lra. }
  assert (F3 : 108 * (eta * eta) <= th / 8) by lra.
  assert (F4 : INR n * (INR 6 * (eta * eta)) <= mu / 4).
  { replace (INR 6) with 6 by (simpl; ring). apply Rle_trans with ((INR n + 1) * (6 * eta)); [apply Rmult_le_compat; try lra; assert (0 <= eta * eta) by apply Rle_0_sqr; lra|].
    apply Rle_trans with ((INR n + 1) * (6 * (mu / (24 * (INR n + 1))))); [apply Rmult_le_compat_l; lra|]. right. field. lra. }
  destruct (path_continuous fs w eta He) as (d1 & D1 & PC). exists (Rmin eta d1), (1 - th / 2). split; [apply Rmin_pos; assumption|]. split; [lra|].
  intros target v Htg Hclose Hv e.
  assert (ML : Rmin eta d1 <= eta) by apply Rmin_l. assert (MR : Rmin eta d1 <= d1) by apply Rmin_r.
  assert (NC : forall u, near (Rmin eta d1) u w -> (forall i j, (j < n)%nat -> Rabs (cm fs u i j - cm fs w i j) <= eta) /\ closeR (2 * eta) (rotp target) (rotp (pose u fs))).
  { intros u Hu. destruct (PC u (near_mono _ _ _ _ MR Hu)) as (P1 & P2 & _). split.
    - intros i j Hj. destruct (cm_in j Hj) as (pg & Hpg & E). rewrite !E. apply P1. exact Hpg.
    - replace (2 * eta) with (eta + eta) by ring. apply closeR_trans with (rotp (pose w fs)); [eapply closeR_mono; [exact ML | exact Hclose]|]. apply closeR_sym. intros h Hh. apply P2. exact Hh. }
  destruct (row_comp root r fs s target v reg lm wp wr Hin Hdj Hdf Hcl Hp Ht Hrig Htg Hreg Hlm) as (x & Hx & Hk). fold n in Hx, Hk.
  set (A := jac_w (Some (row_weights wp wr)) (map (col_of v (pose v fs)) (mov [] fs))) in *. set (g := weigh (Some (row_weights wp wr)) (comp_err target (pose v fs))) in *.
  assert (EA : forall i j, A i j = row_weights wp wr i * cm fs v i j) by reflexivity.
  destruct (row_config_else root r fs (map (jt 6 A x) (seq 0 n)) (fun _ => 0) Hin Hdj Hp) as (d & Ed & Od); [rewrite map_length, seq_length; reflexivity|].
  exists d. rewrite Hk, Ed. split; [reflexivity|]. intros He1.
  assert (Nd : forall j, (j < n)%nat -> nth j (map d (path_names fs)) 0 = jt 6 A x j).
  { intros j Hj. rewrite <- Ed. rewrite (nth_indep _ 0 (jt 6 A x 0%nat)) by (rewrite map_length, seq_length; exact Hj). rewrite map_nth, seq_nth by exact Hj. reflexivity. }
  set (K := damping reg lm g) in *.
  assert (EG : e = nrm 6 g) by reflexivity.
  assert (KB : reg <= K <= K0).
  { unfold K, damping, K0. assert (Q : 0 <= rsum 6 (fun i => g i * g i) <= 1).
    { split; [apply sq_sum_nonneg|]. rewrite <- nrm_sq. pose proof (nrm_nonneg 6 g). rewrite EG in He1. assert (nrm 6 g * nrm 6 g <= 1 * 1) by (apply Rmult_le_compat; lra). lra. }
    unfold Rltb. destruct (Rlt_dec 0 lm) as [Lm|Lm]; [|lra]. assert (0 <= lm * rsum 6 (fun i => g i * g i)) by (apply Rmult_le_pos; lra). assert (lm * rsum 6 (fun i => g i * g i) <= lm * 1) by (apply Rmult_le_compat_l; lra). lra. }
  assert (HKp : 0 < K) by lra.
  pose proof (step_size 6 n A g x K Hx reg Hreg (proj1 KB)) as SS. rewrite <- EG in SS.
  assert (e0 : 0 <= e) by apply werr_nonneg.
  split.
  { intros m. destruct (in_dec names_dec m (path_names fs)) as [I|I].
    - destruct (In_nth _ _ None I) as (j & Hj & Ej). fold n in Hj. specialize (Nd j Hj). rewrite (nth_indep _ 0 (d None)) in Nd by (rewrite map_length; exact Hj). rewrite map_nth, Ej in Nd. rewrite Nd.
      eapply Rle_trans; [apply (nrm_entry n (jt 6 A x) j Hj) | exact SS].
    - rewrite (Od m I), Rabs_R0. apply Rmult_le_pos; [exact e0 | left; apply Rinv_0_lt_compat; exact Hsr]. }
  intros Hv'. destruct (NC v Hv) as [Cv Rv].
  assert (Hlow : forall y, m0 * rsum 6 (fun i => y i * y i) <= rsum n (fun j => jt 6 A y j * jt 6 A y j)).
  { intros y. set (z := fun i => row_weights wp wr i * y i).
    pose proof (lower_near 6 n (cm fs w) B HB (cm fs v) eta z ltac:(lra) (fun i j _ Hj => Cv i j Hj) F4) as LN. fold mu in LN.
    rewrite (rsum_ext n (fun j => jt 6 A y j * jt 6 A y j) (fun j => jt 6 (cm fs v) z j * jt 6 (cm fs v) z j)).
    - eapply Rle_trans; [|exact LN]. unfold m0. replace (wm * wm * (mu / 4) * rsum 6 (fun i => y i * y i)) with (mu / 4 * (wm * wm * rsum 6 (fun i => y i * y i))) by ring. apply Rmult_le_compat_l; [lra|].
      rewrite <- rsum_scal. apply rsum_le. intros i _. unfold z. destruct (weights_bounds wp wr i Hwp Hwr) as [W1 _]. fold wm in W1.
      replace (row_weights wp wr i * y i * (row_weights wp wr i * y i)) with (row_weights wp wr i * row_weights wp wr i * (y i * y i)) by ring. apply Rmult_le_compat_r; [apply Rle_0_sqr|]. apply Rmult_le_compat; lra.
    - intros j _. assert (E : jt 6 A y j = jt 6 (cm fs v) z j) by (unfold jt; apply rsum_ext; intros i _; unfold z; rewrite EA; ring). rewrite E. reflexivity. }
  pose proof (shrinks 6 n A g x K m0 lr HKp Hm0 Hlr Hx Hlow) as SH.
  assert (SH2 : nrm 6 (fun i => g i - lr * jv n A (jt 6 A x) i) <= (1 - th) * e).
  { eapply Rle_trans; [exact SH|]. rewrite <- EG. apply Rmult_le_compat_r; [exact e0|]. assert (th <= lr * m0 / (m0 + K)); [|lra]. unfold th, Rdiv. apply Rmult_le_compat_l; [apply Rmult_le_pos; lra|]. apply Rinv_le_contravar; lra. }
  (* the motion in between *)
  assert (Seg : forall t, 0 <= t <= lr -> near (Rmin eta d1) (drive v d t) w) by (intros t Ht'; apply (near_segment _ v d w lr t Hv Hv' Ht')).
  pose proof (soft_step fs target v d lr eta (M + 1) Hr ltac:(lra) ltac:(lra) ltac:(lra)) as ST.
  assert (ST1 : forall i, Rabs (six (soft_err target (pose (drive v d lr) fs)) i - six (soft_err target (pose v fs)) i + lr * rsum n (fun j => cm fs v i j * nth j (map d (path_names fs)) 0)) <=
    lr * ((2 * eta + 12 * (eta * (M + 1))) * travel fs d)).
  { apply ST.
    - intros t Ht'. apply NC. apply Seg. exact Ht'.
    - intros t i j Ht' Hj. destruct (NC _ (Seg t Ht')) as [Ct _]. pose proof (Ct i j Hj) as Q1. pose proof (Cv i j Hj) as Q2. pose proof (HM i j Hj) as Q3. split.
      + replace (cm fs (drive v d t) i j - cm fs v i j) with ((cm fs (drive v d t) i j - cm fs w i j) + - (cm fs v i j - cm fs w i j)) by ring. eapply Rle_trans; [apply Rabs_triang|]. rewrite Rabs_Ropp. lra.
      + replace (cm fs (drive v d t) i j) with ((cm fs (drive v d t) i j - cm fs w i j) + cm fs w i j) by ring. eapply Rle_trans; [apply Rabs_triang|]. lra. }
  clear ST. set (tr := travel fs d) in *.
  assert (TR : tr <= INR n * (e / sqrt reg)).
  { unfold tr, travel. fold n. rewrite <- rsum_const. apply rsum_le. intros j Hj. rewrite (Nd j Hj). eapply Rle_trans; [apply (nrm_entry n (jt 6 A x) j Hj) | exact SS]. }
  set (q := fun i => row_weights wp wr i * (six (soft_err target (pose (drive v d lr) fs)) i - six (soft_err target (pose v fs)) i + lr * rsum n (fun j => cm fs v i j * nth j (map d (path_names fs)) 0))).
  assert (tr0 : 0 <= tr) by apply travel_nonneg.
  assert (QB : nrm 6 q <= th / 8 * e).
  { set (b := (wp + wr) * (eta * (14 + 12 * M) * tr)). assert (b0 : 0 <= b) by (unfold b; apply Rmult_le_pos; [lra|]; apply Rmult_le_pos; [apply Rmult_le_pos; lra | exact tr0]).
    eapply Rle_trans; [apply (nrm_entries 6 q b b0)|].
    - intros i _. unfold q, b. rewrite Rabs_mult. destruct (weights_bounds wp wr i Hwp Hwr) as [W1 W2]. fold wm in W1. rewrite (Rabs_pos_eq (row_weights wp wr i)) by lra. apply Rmult_le_compat; [lra | apply Rabs_pos | exact W2 |].
      eapply Rle_trans; [apply ST1|]. replace (2 * eta + 12 * (eta * (M + 1))) with (eta * (14 + 12 * M)) by ring. rewrite <- (Rmult_1_l (eta * (14 + 12 * M) * tr)) at 2. apply Rmult_le_compat_r; [|lra]. apply Rmult_le_pos; [apply Rmult_le_pos; lra | exact tr0].
    - unfold b. replace (INR 6) with 6 by (simpl; ring). apply Rle_trans with (6 * ((wp + wr) * (eta * (14 + 12 * M) * (INR n * (e / sqrt reg))))).
      + apply Rmult_le_compat_l; [lra|]. apply Rmult_le_compat_l; [lra|]. apply Rmult_le_compat_l; [apply Rmult_le_pos; lra | exact TR].
      + replace (6 * ((wp + wr) * (eta * (14 + 12 * M) * (INR n * (e / sqrt reg))))) with (eta * L * e) by (unfold L; field; lra). apply Rmult_le_compat_r; [exact e0 | exact F2]. }
  (* computed and smooth errors *)
  assert (CS : forall u, near (Rmin eta d1) u w -> nrm 6 (weigh (Some (row_weights wp wr)) (soft_err target (pose u fs))) <= werr wp wr target (pose u fs) /\
     nrm 6 (fun i => weigh (Some (row_weights wp wr)) (comp_err target (pose u fs)) i - weigh (Some (row_weights wp wr)) (soft_err target (pose u fs)) i) <= th / 8 * nrm 6 (weigh (Some (row_weights wp wr)) (soft_err target (pose u fs)))).
  { intros u Hu. destruct (NC u Hu) as [_ Ru]. assert (Ru0 : is_rot (rotp (pose u fs))) by (exact (pose_rot root r fs Hin Hp Hrig u)). destruct (comp_spec target (pose u fs) Htg Ru0) as (a & _ & Ha & Hsp).
    pose proof (closeR_angle target (pose u fs) a (2 * eta) Htg Ru0 Ha ltac:(lra) Ru) as AA. assert (A1 : a * a <= th / 8) by lra. assert (A2 : a <= 1) by (destruct Ha as [[P _] _]; apply Rsqr_incr_0_var; unfold Rsqr; lra).
    destruct (Hsp A2) as (_ & S1 & S2). unfold werr. assert (EP : fst (comp_err target (pose u fs)) = fst (soft_err target (pose u fs))) by reflexivity.
    destruct (comp_err target (pose u fs)) as [pp cr]. destruct (soft_err target (pose u fs)) as [pp' sr]. cbn [fst snd] in *. subst pp'.
    destruct (wnorm_parts wp wr pp sr Hwp Hwr) as [_ N2]. pose proof (wnorm_split wp wr pp sr) as N3. pose proof (wnorm_split wp wr pp cr) as N4. split.
    - apply Rsqr_incr_0_var; [|apply nrm_nonneg]. unfold Rsqr. rewrite N3, N4. apply Rplus_le_compat_l. apply Rmult_le_compat_l; [apply Rle_0_sqr|]. rewrite <- !vnorm_sq. apply pow_incr. split; [apply vnorm_nonneg | exact S1].
    - rewrite (nrm_ext 6 _ (weigh (Some (row_weights wp wr)) (vzero, vsub cr sr))).
      + rewrite wnorm_rot by exact Hwr. apply Rle_trans with (th / 8 * (wr * vnorm sr)).
        * replace (th / 8 * (wr * vnorm sr)) with (wr * (th / 8 * vnorm sr)) by ring. apply Rmult_le_compat_l; [lra|]. eapply Rle_trans; [exact S2|]. apply Rmult_le_compat_r; [apply vnorm_nonneg | exact A1].
        * apply Rmult_le_compat_l; [lra | exact N2].
      + intros i _. unfold weigh, six, vsub, vzero. cbn [fst snd vx vy vz]. do 6 (destruct i as [|i]; [ring|]). ring. }
  destruct (CS v Hv) as [C1 C2]. destruct (CS _ Hv') as [_ C4]. fold e in C1.
  set (so := weigh (Some (row_weights wp wr)) (soft_err target (pose v fs))) in *. set (so' := weigh (Some (row_weights wp wr)) (soft_err target (pose (drive v d lr) fs))) in *.
  set (g' := weigh (Some (row_weights wp wr)) (comp_err target (pose (drive v d lr) fs))) in *.
  assert (Eso : forall i, (i < 6)%nat -> so' i = (g i - lr * jv n A (jt 6 A x) i) + (- 1 * (g i - so i) + q i)).
  { intros i _. assert (EJ : jv n A (jt 6 A x) i = row_weights wp wr i * rsum n (fun j => cm fs v i j * nth j (map d (path_names fs)) 0)).
    { unfold jv. rewrite <- rsum_scal. apply rsum_ext. intros j Hj. rewrite (Nd j Hj), EA. ring. }
    rewrite EJ. unfold q, so, so', weigh. ring. }
  assert (B1 : nrm 6 so' <= (1 - th) * e + (th / 8 * e + th / 8 * e)).
  { rewrite (nrm_ext 6 so' _ Eso). eapply Rle_trans; [apply nrm_triangle|]. apply Rplus_le_compat; [exact SH2|]. eapply Rle_trans; [apply nrm_triangle|]. apply Rplus_le_compat; [|exact QB].
    eapply Rle_trans; [apply (nrm_le 6 _ (fun i => g i - so i))|].
    - intros i _. replace (-1 * (g i - so i)) with (- (g i - so i)) by ring. rewrite Rabs_Ropp. lra.
    - eapply Rle_trans; [exact C2|]. apply Rmult_le_compat_l; lra. }
  assert (B2 : werr wp wr target (pose (drive v d lr) fs) <= nrm 6 so' + th / 8 * nrm 6 so').
  { unfold werr. fold g'. rewrite (nrm_ext 6 g' (fun i => so' i + (g' i - so' i))) by (intros; ring). eapply Rle_trans; [apply nrm_triangle|]. apply Rplus_le_compat_l. exact C4. }
  eapply Rle_trans; [exact B2|]. apply Rle_trans with ((1 + th / 8) * ((1 - th) * e + (th / 8 * e + th / 8 * e))).
  - replace (nrm 6 so' + th / 8 * nrm 6 so') with ((1 + th / 8) * nrm 6 so') by ring. apply Rmult_le_compat_l; lra.
  - replace ((1 + th / 8) * ((1 - th) * e + (th / 8 * e + th / 8 * e))) with (((1 + th / 8) * (1 - 3 * th / 4)) * e) by field. apply Rmult_le_compat_r; [exact e0|].
    assert (0 <= th * th) by apply Rle_0_sqr. lra.
Qed.
End Step.
