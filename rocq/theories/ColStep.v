(** One step of the solver towards a pose that is reached near by, on an arm whose Jacobian has independent columns. *)
From Coq Require Import Reals Lra String Bool Arith Lia List FunctionalExtensionality.
From Coquelicot Require Import Coquelicot.
From Verif Require Import Prelude ExtF Tree ChainModel SpecFK ChainProofs ChainTables TreeQueries Input Widths Lin Trig RotModel RotBasic QuatProofs AxisAngle ChainInst
  FKMore ChainClamp Examples SerialModel SerialProofs SerialMore Deriv JacModel JacProofs JacMore IKModel IKProofs IKMore IKLimits IKKernel KernelProofs DeltaPose IKSolve SolveProofs
  SpecDescent PathDeriv AngleDeriv DescentProofs DescFinal LocalNorm LocalCont LocalErr LocalDeriv LocalStep.
Import ListNotations.
Local Open Scope list_scope.
Local Open Scope R_scope.

(** ** the damped step on a vector [g] close to the image of [dlt] *)
Section Damped.
Variables (m n : nat) (A : nat -> nat -> R) (g x dlt : nat -> R) (K lo a lr : R).
Hypothesis (HK : 0 < K) (Hlo : 0 < lo) (Ha : 0 <= a) (Hlr : 0 < lr <= 1) (Hx : solves m (gram n A K) g x).
Hypothesis Hlow : forall y, lo * rsum n (fun j => y j * y j) <= rsum m (fun i => jv n A y i * jv n A y i).
Hypothesis Hup : forall y, nrm m (jv n A y) <= a * nrm n y.
Let u := fun j => dlt j - jt m A x j.
Let rr := fun i => g i - jv n A dlt i.
Lemma image_u i : (i < m)%nat -> jv n A u i = K * x i - rr i.
Proof.
  intros Hi. assert (E : jv n A u i = jv n A dlt i - jv n A (jt m A x) i) by (unfold jv, u; rewrite <- rsum_minus; apply rsum_ext; intros j _; ring). rewrite E.
  pose proof (residual m n A g K x Hx i Hi) as M. unfold rr. lra.
Qed.
Lemma rest_bound : nrm n u <= K / (lo + K) * nrm n dlt + a / (lo + K) * nrm m rr.
Proof.
  assert (Q : rsum m (fun i => jv n A u i * jv n A u i) + K * rsum n (fun j => u j * u j) = K * dot n dlt u - dot m rr (jv n A u)).
  { assert (E1 : rsum m (fun i => jv n A u i * jv n A u i) = K * dot m x (jv n A u) - dot m rr (jv n A u)).
    { unfold dot. rewrite <- rsum_scal, <- rsum_minus. apply rsum_ext. intros i Hi. rewrite (image_u i Hi) at 1. ring. }
    rewrite E1, adjoint. assert (E2 : dot n (jt m A x) u = dot n dlt u - rsum n (fun j => u j * u j)) by (unfold dot; rewrite <- rsum_minus; apply rsum_ext; intros j _; unfold u; ring). rewrite E2. ring. }
  pose proof (nrm_nonneg n u) as U0. pose proof (nrm_nonneg n dlt) as D0. pose proof (nrm_nonneg m rr) as R0.
  pose proof (cauchy n dlt u) as C1. pose proof (cauchy m rr (jv n A u)) as C2. apply Rabs_le_between in C1. apply Rabs_le_between in C2.
  assert (C3 : nrm m rr * nrm m (jv n A u) <= nrm m rr * (a * nrm n u)) by (apply Rmult_le_compat_l; [exact R0 | apply Hup]).
  assert (C4 : K * dot n dlt u <= K * (nrm n dlt * nrm n u)) by (apply Rmult_le_compat_l; lra). pose proof (Hlow u) as L.
  rewrite <- !(nrm_sq n u) in *.
  assert (Z : (lo + K) * nrm n u * nrm n u <= (K * nrm n dlt + a * nrm m rr) * nrm n u) by lra.
  assert (F : (lo + K) * nrm n u <= K * nrm n dlt + a * nrm m rr).
  { destruct (Req_dec (nrm n u) 0) as [E|E]; [rewrite E, Rmult_0_r; apply Rplus_le_le_0_compat; apply Rmult_le_pos; lra|]. apply Rmult_le_reg_r with (nrm n u); lra. }
  apply Rmult_le_reg_l with (lo + K); [lra|]. eapply Rle_trans; [exact F|]. right. field. lra.
Qed.
Lemma closer : nrm n (fun j => dlt j - lr * jt m A x j) <= (1 - lr * lo / (lo + K)) * nrm n dlt + a / (lo + K) * nrm m rr.
Proof.
  pose proof rest_bound as B. pose proof (nrm_nonneg n dlt) as D0. pose proof (nrm_nonneg m rr) as R0. rewrite (nrm_ext n _ (fun j => (1 - lr) * dlt j + lr * u j)) by (intros; unfold u; ring).
  eapply Rle_trans; [apply nrm_triangle|]. rewrite !nrm_scale by lra.
  assert (P : 0 <= a / (lo + K) * nrm m rr) by (apply Rmult_le_pos; [apply Rmult_le_pos; [exact Ha | left; apply Rinv_0_lt_compat; lra] | exact R0]).
  assert (lr * nrm n u <= lr * (K / (lo + K) * nrm n dlt + a / (lo + K) * nrm m rr)) by (apply Rmult_le_compat_l; lra).
  assert (lr * (a / (lo + K) * nrm m rr) <= 1 * (a / (lo + K) * nrm m rr)) by (apply Rmult_le_compat_r; lra).
  assert (E : (1 - lr) * nrm n dlt + lr * (K / (lo + K) * nrm n dlt) = (1 - lr * lo / (lo + K)) * nrm n dlt) by (field; lra). lra.
Qed.
End Damped.

(** how far two configurations are apart on the path *)
Definition apart (fs : list mframe) (v vt : config (S := R)) (j : nat) : R := nth j (map (fun n => vt n - v n) (path_names fs)) 0.
Definition dist (fs : list mframe) (v vt : config (S := R)) : R := nrm (length (path_names fs)) (apart fs v vt).
Lemma dist_nonneg fs v vt : 0 <= dist fs v vt. Proof. apply nrm_nonneg. Qed.
Lemma dist_near fs v vt : (forall n, ~ In n (path_names fs) -> v n = vt n) -> near (dist fs v vt) v vt.
Proof.
  intros H n. destruct (in_dec names_dec n (path_names fs)) as [I|I]; [|rewrite (H n I), Rminus_diag_eq, Rabs_R0 by reflexivity; apply dist_nonneg].
  destruct (In_nth _ _ None I) as (j & Hj & E). rewrite Rabs_minus_sym. replace (vt n - v n) with (apart fs v vt j); [apply nrm_entry; exact Hj|].
  unfold apart. rewrite (nth_indep _ 0 (vt None - v None)) by (rewrite map_length; exact Hj). rewrite (map_nth (fun n => vt n - v n)), E. reflexivity.
Qed.
Lemma near_dist fs v vt b : 0 <= b -> near b v vt -> dist fs v vt <= INR (length (path_names fs)) * b.
Proof.
  intros Hb H. apply nrm_entries; [exact Hb|]. intros j Hj. unfold apart. rewrite (nth_indep _ 0 (vt None - v None)) by (rewrite map_length; exact Hj). rewrite (map_nth (fun n => vt n - v n)), Rabs_minus_sym. apply H.
Qed.
Lemma comp_soft fs root r (target : M4) (u : config (S := R)) wp wr eta th : In r (preorder root) -> root_path r (r :: fs) -> rigid_tree root -> is_rot (rotp target) -> 0 < wp -> 0 < wr -> 0 <= eta ->
  closeR (2 * eta) (rotp target) (rotp (pose u fs)) -> 108 * (eta * eta) <= th -> th <= 1 ->
  nrm 6 (fun i => weigh (Some (row_weights wp wr)) (comp_err target (pose u fs)) i - weigh (Some (row_weights wp wr)) (soft_err target (pose u fs)) i) <= th * nrm 6 (weigh (Some (row_weights wp wr)) (soft_err target (pose u fs))).
Proof.
  intros Hin Hp Hrig Htg Hwp Hwr He Ru Hth Hth1. assert (Ru0 : is_rot (rotp (pose u fs))) by (exact (pose_rot root r fs Hin Hp Hrig u)). destruct (comp_spec target (pose u fs) Htg Ru0) as (a & _ & Ha & Hsp).
  pose proof (closeR_angle target (pose u fs) a (2 * eta) Htg Ru0 Ha ltac:(lra) Ru) as AA. assert (A1 : a * a <= th) by lra. assert (A2 : a <= 1) by (destruct Ha as [[P _] _]; apply Rsqr_incr_0_var; unfold Rsqr; lra).
  destruct (Hsp A2) as (_ & S1 & S2). assert (EP : fst (comp_err target (pose u fs)) = fst (soft_err target (pose u fs))) by reflexivity.
  destruct (comp_err target (pose u fs)) as [pp cr]. destruct (soft_err target (pose u fs)) as [pp' sr]. cbn [fst snd] in *. subst pp'.
  destruct (wnorm_parts wp wr pp sr Hwp Hwr) as [_ N2]. rewrite (nrm_ext 6 _ (weigh (Some (row_weights wp wr)) (vzero, vsub cr sr))).
  - rewrite wnorm_rot by exact Hwr. apply Rle_trans with (th * (wr * vnorm sr)).
    + replace (th * (wr * vnorm sr)) with (wr * (th * vnorm sr)) by ring. apply Rmult_le_compat_l; [lra|]. eapply Rle_trans; [exact S2|]. apply Rmult_le_compat_r; [apply vnorm_nonneg | exact A1].
    + apply Rmult_le_compat_l; [|exact N2]. assert (0 <= a * a) by apply Rle_0_sqr. lra.
  - intros i _. unfold weigh, six, vsub, vzero. cbn [fst snd vx vy vz]. do 6 (destruct i as [|i]; [ring|]). ring.
Qed.
Lemma soft_self T : is_rot (rotp T) -> forall i, six (soft_err T T) i = 0.
Proof.
  intros [Ho _] i. unfold soft_err. unfold left_turn. rewrite Ho. unfold six, vsub, vscale. cbn [fst snd vx vy vz]. do 6 (destruct i as [|i]; [cbn; ring|]). reflexivity.
Qed.

Section Step.
Variables (root r : mframe) (fs : list mframe) (s : schain M4 V3).
Hypothesis (Hin : In r (preorder root)) (Hdj : distinct_joints root) (Hdf : distinct_frames root) (Hcl : clean_names root)
  (Hp : root_path r (r :: fs)) (Ht : serial_tables mops zax s r fs) (Hrig : rigid_tree root).
Variables (reg lm wp wr lr : R) (w : config (S := R)).
Hypothesis (Hreg : 0 < reg) (Hlm : 0 <= lm) (Hwp : 0 < wp) (Hwr : 0 < wr) (Hlr : 0 < lr <= 1).
Let n := length (path_names fs).
Variable B : nat -> nat -> R.
Hypothesis HB : forall i k, (i < n)%nat -> (k < n)%nat -> rsum 6 (fun j => cm fs w j k * B j i) = if Nat.eqb k i then 1 else 0.

Lemma col_step : exists dl rho c1 c2, 0 < dl /\ 0 < rho < 1 /\ 0 < c1 /\ 0 < c2 /\ forall vt v, near dl vt w -> near dl v w -> (forall m, ~ In m (path_names fs) -> v m = vt m) ->
  let e := werr wp wr (pose vt fs) (pose v fs) in
  c1 * dist fs v vt <= e <= c2 * dist fs v vt /\
  exists d : config (S := R), pik_row s (pose vt fs) reg lm (Some (row_weights wp wr)) (map v (path_names fs)) = Ok (map d (path_names fs), map (six (comp_err (pose vt fs) (pose v fs))) (seq 0 6)) /\
  (forall m, ~ In m (path_names fs) -> d m = 0) /\ (e <= 1 -> dist fs (drive v d lr) vt <= rho * dist fs v vt).
Proof.
  assert (Hr := rigid_path root r fs Hrig Hin Hp). destruct (cm_bounded fs w) as (M & HM0 & HM). fold n in HM.
  set (mu := mu_of n 6 B). assert (Hmu : 0 < mu) by apply mu_pos. set (wm := Rmin wp wr). assert (Hwm : 0 < wm) by (apply Rmin_pos; assumption).
  set (lo := wm * wm * (mu / 4)). assert (Hlo : 0 < lo) by (unfold lo; apply Rmult_lt_0_compat; [apply Rmult_lt_0_compat; exact Hwm | lra]).
  set (K0 := reg + lm). assert (HK0 : 0 < K0) by (unfold K0; lra). set (th := lr * lo / (lo + K0)).
  assert (Hth : 0 < th < 1).
  { unfold th. split; [apply Rdiv_lt_0_compat; [apply Rmult_lt_0_compat; lra | lra]|]. apply Rmult_lt_reg_r with (lo + K0); [lra|]. unfold Rdiv. rewrite Rmult_assoc, Rinv_l by lra.
    assert (lr * lo <= 1 * lo) by (apply Rmult_le_compat_r; lra). lra. }
  assert (Hsl : 0 < sqrt lo) by (apply sqrt_lt_R0; exact Hlo). pose proof (pos_INR n) as Hn.
  set (a := 6 * (INR n * ((wp + wr) * (M + 1)))). assert (Ha : 0 <= a) by (unfold a; apply Rmult_le_pos; [lra|]; apply Rmult_le_pos; [exact Hn|]; apply Rmult_le_pos; lra).
  set (L := 6 * ((wp + wr) * ((14 + 12 * M) * INR n))). assert (HL : 0 <= L) by (unfold L; apply Rmult_le_pos; [lra|]; apply Rmult_le_pos; [lra|]; apply Rmult_le_pos; lra).
  set (Q := 108 * (a + L) + L). assert (HQ : 0 <= Q) by (unfold Q; lra).
  assert (HaQ : 0 <= a * Q / lo) by (apply Rmult_le_pos; [apply Rmult_le_pos; lra | left; apply Rinv_0_lt_compat; exact Hlo]).
  set (eta := Rmin (1 / 108) (Rmin (th / (2 * (a * Q / lo + 1))) (Rmin (sqrt lo / (2 * (Q + 1))) (mu / (24 * (INR n + 1)))))).
  assert (H1 : 0 < th / (2 * (a * Q / lo + 1))) by (apply Rdiv_lt_0_compat; lra). assert (H2 : 0 < mu / (24 * (INR n + 1))) by (apply Rdiv_lt_0_compat; lra). assert (H3 : 0 < sqrt lo / (2 * (Q + 1))) by (apply Rdiv_lt_0_compat; lra).
  assert (He : 0 < eta) by (unfold eta; repeat apply Rmin_pos; lra).
  assert (E1 : eta <= 1 / 108) by apply Rmin_l.
  assert (E2 : eta <= th / (2 * (a * Q / lo + 1))) by (eapply Rle_trans; [apply Rmin_r | apply Rmin_l]).
  assert (E3 : eta <= sqrt lo / (2 * (Q + 1))) by (eapply Rle_trans; [apply Rmin_r | eapply Rle_trans; [apply Rmin_r | apply Rmin_l]]).
  assert (E4 : eta <= mu / (24 * (INR n + 1))) by (eapply Rle_trans; [apply Rmin_r | eapply Rle_trans; [apply Rmin_r | apply Rmin_r]]).
  clearbody eta. assert (EE : eta * eta <= eta) by (assert (eta * eta <= eta * 1) by (apply Rmult_le_compat_l; lra); lra).
  assert (F2 : eta * (a * Q / lo) <= th / 2).
  { apply Rle_trans with (eta * (a * Q / lo + 1)); [apply Rmult_le_compat_l; lra|]. apply Rle_trans with (th / (2 * (a * Q / lo + 1)) * (a * Q / lo + 1)); [apply Rmult_le_compat_r; lra|]. right. set (z := a * Q / lo) in *. field. lra. }
  assert (F3 : eta * Q <= sqrt lo / 2).
  { apply Rle_trans with (eta * (Q + 1)); [apply Rmult_le_compat_l; lra|]. apply Rle_trans with (sqrt lo / (2 * (Q + 1)) * (Q + 1)); [apply Rmult_le_compat_r; lra|]. right. field. lra. }
  assert (F4 : INR 6 * (INR n * (eta * eta)) <= mu / 4).
  { replace (INR 6) with 6 by (simpl; ring). replace (6 * (INR n * (eta * eta))) with (INR n * (6 * (eta * eta))) by ring. apply Rle_trans with ((INR n + 1) * (6 * eta)); [apply Rmult_le_compat; try lra; assert (0 <= eta * eta) by apply Rle_0_sqr; lra|].
    apply Rle_trans with ((INR n + 1) * (6 * (mu / (24 * (INR n + 1))))); [apply Rmult_le_compat_l; lra|]. right. field. lra. }
  destruct (path_continuous fs w eta He) as (d1 & D1 & PC). exists d1, (1 - th / 2), (sqrt lo / 2), (a + Q + 1). split; [exact D1|]. split; [lra|]. split; [lra|]. split; [lra|].
  intros vt v Hvt Hv Hoff e. set (T := pose vt fs) in *. assert (Htg : is_rot (rotp T)) by (exact (pose_rot root r fs Hin Hp Hrig vt)).
  assert (NC : forall u, near d1 u w -> (forall i j, (j < n)%nat -> Rabs (cm fs u i j - cm fs w i j) <= eta) /\ closeR (2 * eta) (rotp T) (rotp (pose u fs))).
  { intros u Hu. destruct (PC u Hu) as (P1 & P2 & _). destruct (PC vt Hvt) as (_ & P3 & _). split.
    - intros i j Hj. destruct (cm_in fs w j Hj) as (pg & Hpg & E). rewrite !E. apply P1. exact Hpg.
    - replace (2 * eta) with (eta + eta) by ring. apply closeR_trans with (rotp (pose w fs)); [intros h Hh; apply P3; exact Hh|]. apply closeR_sym. intros h Hh. apply P2. exact Hh. }
  destruct (row_comp root r fs s T v reg lm wp wr Hin Hdj Hdf Hcl Hp Ht Hrig Htg Hreg Hlm) as (x & Hx & Hk). fold n in Hx, Hk.
  set (A := jac_w (Some (row_weights wp wr)) (map (col_of v (pose v fs)) (mov [] fs))) in *. set (g := weigh (Some (row_weights wp wr)) (comp_err T (pose v fs))) in *.
  assert (EA : forall i j, A i j = row_weights wp wr i * cm fs v i j) by reflexivity. destruct (NC v Hv) as [Cv Rv].
  assert (Hlow : forall y, lo * rsum n (fun j => y j * y j) <= rsum 6 (fun i => jv n A y i * jv n A y i)).
  { intros y. pose proof (lower_near n 6 (fun j i => cm fs w i j) B HB (fun j i => cm fs v i j) eta y ltac:(lra) (fun i j Hj _ => Cv j i Hj) F4) as LN. fold mu in LN.
    apply Rle_trans with (wm * wm * (rsum 6 (fun i => jv n (cm fs v) y i * jv n (cm fs v) y i))).
    - unfold lo. rewrite Rmult_assoc. apply Rmult_le_compat_l; [apply Rle_0_sqr|]. exact LN.
    - rewrite <- rsum_scal. apply rsum_le. intros i _. assert (EJ : jv n A y i = row_weights wp wr i * jv n (cm fs v) y i) by (unfold jv; rewrite <- rsum_scal; apply rsum_ext; intros j _; rewrite EA; ring). rewrite EJ.
      destruct (weights_bounds wp wr i Hwp Hwr) as [W1 _]. fold wm in W1. set (z := jv n (cm fs v) y i). replace (row_weights wp wr i * z * (row_weights wp wr i * z)) with (row_weights wp wr i * row_weights wp wr i * (z * z)) by ring.
      apply Rmult_le_compat_r; [apply Rle_0_sqr|]. apply Rmult_le_compat; lra. }
  assert (Hup : forall y, nrm 6 (jv n A y) <= a * nrm n y).
  { intros y. pose proof (nrm_nonneg n y) as Y0. unfold a. replace (6 * (INR n * ((wp + wr) * (M + 1))) * nrm n y) with (INR 6 * (INR n * ((wp + wr) * (M + 1) * nrm n y))) by (simpl; ring).
    apply nrm_entries; [apply Rmult_le_pos; [exact Hn|]; apply Rmult_le_pos; [apply Rmult_le_pos; lra | exact Y0]|]. intros i _. unfold jv. eapply Rle_trans; [apply rsum_abs|]. rewrite <- rsum_const. apply rsum_le. intros j Hj.
    rewrite EA, !Rabs_mult. destruct (weights_bounds wp wr i Hwp Hwr) as [W1 W2]. fold wm in W1. rewrite (Rabs_pos_eq (row_weights wp wr i)) by lra. apply Rmult_le_compat; [apply Rmult_le_pos; [lra | apply Rabs_pos] | apply Rabs_pos | | apply nrm_entry; exact Hj].
    apply Rmult_le_compat; [lra | apply Rabs_pos | exact W2|]. pose proof (Cv i j Hj). pose proof (HM i j Hj). replace (cm fs v i j) with ((cm fs v i j - cm fs w i j) + cm fs w i j) by ring. eapply Rle_trans; [apply Rabs_triang|]. lra. }
  set (dl := apart fs v vt). set (D := dist fs v vt). assert (D0 : 0 <= D) by apply dist_nonneg. assert (ED : D = nrm n dl) by reflexivity.
  set (so := weigh (Some (row_weights wp wr)) (soft_err T (pose v fs))).
  (* the smooth error is nearly the image of the way that is left *)
  set (dd := fun m => vt m - v m).
  assert (Dr : forall m, drive v dd 1 m = vt m) by (intros m; unfold drive, dd; ring). assert (PT : pose (drive v dd 1) fs = T) by (apply pose_ext; intros; apply Dr).
  assert (Seg : forall t, 0 <= t <= 1 -> near d1 (drive v dd t) w) by (intros t Ht'; apply (near_segment _ v dd w 1 t Hv); [intros m; rewrite Dr; apply Hvt | exact Ht']).
  assert (TR : travel fs dd <= INR n * D).
  { unfold travel. fold n. rewrite <- rsum_const. apply rsum_le. intros j Hj. apply (nrm_entry n dl j Hj). }
  pose proof (travel_nonneg fs dd) as tr0.
  assert (SB : nrm 6 (fun i => so i - jv n A dl i) <= eta * L * D).
  { pose proof (soft_step fs T v dd 1 eta (M + 1) Hr ltac:(lra) ltac:(lra) ltac:(lra)) as ST.
    assert (ST1 : forall i, Rabs (six (soft_err T (pose (drive v dd 1) fs)) i - six (soft_err T (pose v fs)) i + 1 * rsum n (fun j => cm fs v i j * nth j (map dd (path_names fs)) 0)) <= 1 * ((2 * eta + 12 * (eta * (M + 1))) * travel fs dd)).
    { apply ST.
      - intros t Ht'. apply NC. apply Seg. exact Ht'.
      - intros t i j Ht' Hj. destruct (NC _ (Seg t Ht')) as [Ct _]. pose proof (Ct i j Hj) as Q1. pose proof (Cv i j Hj) as Q2. pose proof (HM i j Hj) as Q3. split.
        + replace (cm fs (drive v dd t) i j - cm fs v i j) with ((cm fs (drive v dd t) i j - cm fs w i j) + - (cm fs v i j - cm fs w i j)) by ring. eapply Rle_trans; [apply Rabs_triang|]. rewrite Rabs_Ropp. lra.
        + replace (cm fs (drive v dd t) i j) with ((cm fs (drive v dd t) i j - cm fs w i j) + cm fs w i j) by ring. eapply Rle_trans; [apply Rabs_triang|]. lra. }
    clear ST. rewrite PT in ST1. set (b := (wp + wr) * (eta * (14 + 12 * M) * (INR n * D))).
    assert (b0 : 0 <= b) by (unfold b; apply Rmult_le_pos; [lra|]; apply Rmult_le_pos; [apply Rmult_le_pos; lra | apply Rmult_le_pos; assumption]).
    eapply Rle_trans; [apply (nrm_entries 6 _ b b0)|]; [|unfold b, L; right; simpl INR; ring]. intros i _.
    assert (EJ : so i - jv n A dl i = row_weights wp wr i * (six (soft_err T (pose v fs)) i - rsum n (fun j => cm fs v i j * dl j))).
    { unfold so, weigh, jv. rewrite (rsum_ext n _ (fun j => row_weights wp wr i * (cm fs v i j * dl j))) by (intros j _; rewrite EA; ring). rewrite rsum_scal. ring. }
    rewrite EJ, Rabs_mult. destruct (weights_bounds wp wr i Hwp Hwr) as [W1 W2]. fold wm in W1. rewrite (Rabs_pos_eq (row_weights wp wr i)) by lra. unfold b. apply Rmult_le_compat; [lra | apply Rabs_pos | exact W2|].
    specialize (ST1 i). rewrite (soft_self T Htg i) in ST1. change (rsum n (fun j => cm fs v i j * nth j (map dd (path_names fs)) 0)) with (rsum n (fun j => cm fs v i j * dl j)) in ST1.
    replace (0 - six (soft_err T (pose v fs)) i + 1 * rsum n (fun j => cm fs v i j * dl j)) with (- (six (soft_err T (pose v fs)) i - rsum n (fun j => cm fs v i j * dl j))) in ST1 by ring. rewrite Rabs_Ropp in ST1.
    eapply Rle_trans; [exact ST1|]. replace (1 * ((2 * eta + 12 * (eta * (M + 1))) * travel fs dd)) with (eta * (14 + 12 * M) * travel fs dd) by ring. apply Rmult_le_compat_l; [apply Rmult_le_pos; lra | exact TR]. }
  assert (AD := Hup dl). rewrite <- ED in AD.
  assert (eLD : eta * L * D <= 1 * L * D) by (apply Rmult_le_compat_r; [exact D0|]; apply Rmult_le_compat_r; lra).
  assert (SO : nrm 6 so <= (a + L) * D).
  { rewrite (nrm_ext 6 so (fun i => jv n A dl i + (so i - jv n A dl i))) by (intros; ring). eapply Rle_trans; [apply nrm_triangle|]. lra. }
  pose proof (comp_soft fs root r T v wp wr eta (108 * eta) Hin Hp Hrig Htg Hwp Hwr ltac:(lra) Rv ltac:(lra) ltac:(lra)) as CS. fold g so in CS.
  assert (RR : nrm 6 (fun i => g i - jv n A dl i) <= eta * Q * D).
  { rewrite (nrm_ext 6 _ (fun i => (g i - so i) + (so i - jv n A dl i))) by (intros; ring). eapply Rle_trans; [apply nrm_triangle|].
    assert (108 * eta * nrm 6 so <= 108 * eta * ((a + L) * D)) by (apply Rmult_le_compat_l; lra). replace (eta * Q * D) with (108 * eta * ((a + L) * D) + eta * L * D) by (unfold Q; ring). lra. }
  assert (EG : e = nrm 6 g) by reflexivity.
  assert (QD : eta * Q * D <= sqrt lo / 2 * D) by (apply Rmult_le_compat_r; [exact D0 | exact F3]).
  assert (QD2 : eta * Q * D <= 1 * Q * D) by (apply Rmult_le_compat_r; [exact D0|]; apply Rmult_le_compat_r; lra).
  assert (LB : sqrt lo * D <= nrm 6 (jv n A dl)).
  { apply Rsqr_incr_0_var; [|apply nrm_nonneg]. unfold Rsqr. rewrite nrm_sq. replace (sqrt lo * D * (sqrt lo * D)) with (sqrt lo * sqrt lo * (D * D)) by ring. rewrite sqrt_sqrt by lra. rewrite ED, nrm_sq. apply Hlow. }
  split.
  { rewrite EG. split.
    - assert (nrm 6 (jv n A dl) <= nrm 6 g + nrm 6 (fun i => g i - jv n A dl i)).
      { rewrite (nrm_ext 6 (jv n A dl) (fun i => g i + - (g i - jv n A dl i))) by (intros; ring). eapply Rle_trans; [apply nrm_triangle|]. apply Rplus_le_compat_l. apply nrm_le. intros i _. rewrite Rabs_Ropp. lra. }
      lra.
    - rewrite (nrm_ext 6 g (fun i => jv n A dl i + (g i - jv n A dl i))) by (intros; ring). eapply Rle_trans; [apply nrm_triangle|]. lra. }
  destruct (row_config_else root r fs (map (jt 6 A x) (seq 0 n)) (fun _ => 0) Hin Hdj Hp) as (d & Ed & Od); [rewrite map_length, seq_length; reflexivity|].
  exists d. rewrite Hk, Ed. split; [reflexivity|]. split; [exact Od|]. intros He1.
  assert (Nd : forall j, (j < n)%nat -> nth j (map d (path_names fs)) 0 = jt 6 A x j).
  { intros j Hj. rewrite <- Ed. rewrite (nth_indep _ 0 (jt 6 A x 0%nat)) by (rewrite map_length, seq_length; exact Hj). rewrite map_nth, seq_nth by exact Hj. reflexivity. }
  set (K := damping reg lm g) in *.
  assert (KB : reg <= K <= K0).
  { unfold K, damping, K0. assert (Qs : 0 <= rsum 6 (fun i => g i * g i) <= 1).
    { split; [apply sq_sum_nonneg|]. rewrite <- nrm_sq. pose proof (nrm_nonneg 6 g). rewrite EG in He1. assert (nrm 6 g * nrm 6 g <= 1 * 1) by (apply Rmult_le_compat; lra). lra. }
    unfold Rltb. destruct (Rlt_dec 0 lm) as [Lm|Lm]; [|lra]. assert (0 <= lm * rsum 6 (fun i => g i * g i)) by (apply Rmult_le_pos; lra). assert (lm * rsum 6 (fun i => g i * g i) <= lm * 1) by (apply Rmult_le_compat_l; lra). lra. }
  assert (HKp : 0 < K) by lra.
  pose proof (closer 6 n A g x dl K lo a lr HKp Hlo Ha Hlr Hx Hlow Hup) as C. rewrite <- ED in C.
  assert (EN : dist fs (drive v d lr) vt = nrm n (fun j => dl j - lr * jt 6 A x j)).
  { unfold dist. fold n. apply nrm_ext. intros j Hj. rewrite <- (Nd j Hj). unfold dl, apart. fold n in Hj. rewrite (nth_indep _ 0 (vt None - drive v d lr None)), (map_nth (fun m => vt m - drive v d lr m)) by (rewrite map_length; exact Hj).
    rewrite (nth_indep (map (fun m => vt m - v m) _) 0 (vt None - v None)), (map_nth (fun m => vt m - v m)) by (rewrite map_length; exact Hj). rewrite (nth_indep (map d _) 0 (d None)), map_nth by (rewrite map_length; exact Hj). unfold drive. ring. }
  rewrite EN. eapply Rle_trans; [exact C|].
  assert (T1 : th <= lr * lo / (lo + K)) by (unfold th, Rdiv; apply Rmult_le_compat_l; [apply Rmult_le_pos; lra|]; apply Rinv_le_contravar; lra).
  assert (T2 : (1 - lr * lo / (lo + K)) * D <= (1 - th) * D) by (apply Rmult_le_compat_r; lra).
  assert (T3 : a / (lo + K) * nrm 6 (fun i => g i - jv n A dl i) <= a / lo * (eta * Q * D)).
  { apply Rmult_le_compat; [apply Rmult_le_pos; [exact Ha | left; apply Rinv_0_lt_compat; lra] | apply nrm_nonneg | | exact RR]. unfold Rdiv. apply Rmult_le_compat_l; [exact Ha|]. apply Rinv_le_contravar; lra. }
  assert (T4 : a / lo * (eta * Q * D) <= th / 2 * D) by (replace (a / lo * (eta * Q * D)) with (eta * (a * Q / lo) * D) by (field; lra); apply Rmult_le_compat_r; assumption).
  lra.
Qed.
End Step.
