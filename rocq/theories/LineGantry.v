(** The solver with a line search on a gantry. *)
From Coq Require Import Reals Lra String Bool Arith Lia List ZArith.
From Verif Require RoundNorm.
From Verif Require Import Prelude ExtF Tree ChainModel SpecFK ChainProofs ChainTables TreeQueries Input Widths Lin Trig RotModel RotBasic QuatProofs AxisAngle ChainInst
  FKMore ChainClamp Examples SerialModel SerialProofs SerialMore Deriv JacModel JacProofs JacMore IKModel IKProofs IKMore IKLimits IKKernel KernelProofs DeltaPose IKSolve SolveProofs
  SpecDescent PathDeriv DescentProofs DescFinal SpecGantry GantryProofs GantryRun ConvFinal LineModel LineProofs.
Import ListNotations.
Local Open Scope string_scope.
Local Open Scope list_scope.
Local Open Scope R_scope.

Lemma norm_le_of_sq u v : vnorm2 u <= vnorm2 v -> vnorm u <= vnorm v.
Proof. intros H. unfold vnorm. apply sqrt_le_1_alt. exact H. Qed.

(** a damped step never overshoots, and at most reaches the target *)
Lemma damped_short (m n : nat) (A : nat -> nat -> R) (d x : nat -> R) (K : R) : 0 < K -> solves m (gram n A K) d x -> dot m (jv n A (jt m A x)) (jv n A (jt m A x)) <= dot m d d.
Proof.
  intros HK Hx. pose proof (residual m n A d K x Hx) as Res. set (y := jv n A (jt m A x)) in *.
  assert (E : dot m d d = dot m y y + 2 * K * dot m x y + K * K * dot m x x).
  { unfold dot. rewrite <- !rsum_scal, <- !rsum_plus. apply rsum_ext. intros i Hi. pose proof (Res i Hi) as R0. replace (d i) with (y i + K * x i) by lra. ring. }
  assert (P : 0 <= dot m x y) by (unfold y; rewrite adjoint; apply dot_self_nonneg).
  pose proof (dot_self_nonneg m x). assert (0 <= 2 * K * dot m x y) by (apply Rmult_le_pos; lra). assert (0 <= K * K * dot m x x) by (apply Rmult_le_pos; [apply Rmult_le_pos; lra | assumption]). lra.
Qed.

Lemma gantry_moves root (r : mframe) fs s target v reg lm wp wr mu :
  In r (preorder root) -> distinct_joints root -> distinct_frames root -> clean_names root -> root_path r (r :: fs) -> serial_tables mops zax s r fs -> rigid_tree root ->
  is_rot (rotp target) -> rotp target = rotp (pose (fun _ => 0) fs) -> gantry fs -> spread mu (slide_axes I3 fs) -> 0 < mu -> 0 < reg -> 0 <= lm -> 0 < wp ->
  let e0 := vnorm (vsub (trp target) (trp (pose v fs))) in
  exists d, pik_row s target reg lm (Some (row_weights wp wr)) (map v (path_names fs)) = Ok (map d (path_names fs), map (six (vsub (trp target) (trp (pose v fs)), vzero)) (seq 0 6)) /\
  forall lr, 0 < lr <= 1 -> (1 - lr) * e0 <= vnorm (vsub (trp target) (trp (pose (drive v d lr) fs))) <= rate lr mu reg lm wp e0 * e0.
Proof.
  intros Hin Hdj Hdf Hcl Hp Ht Hrig Hrt Horient Hg Hsp Hmu Hreg Hlm Hwp e0.
  assert (Hr := rigid_path root r fs Hrig Hin Hp).
  destruct (row_step root r fs s target v reg lm wp wr Hin Hdj Hdf Hcl Hp Ht Hrig Hrt Hreg Hlm) as (dr & x & Hx & Hk & Ha). cbn zeta in Hx, Hk.
  assert (EO : rotp target = rotp (pose v fs)) by (destruct (pose_slide v v 0 fs Hr Hg) as [_ ->]; exact Horient).
  destruct (Ha 0 (dr_zero target v fs EO Hrt) (or_introl eq_refl)) as [Hn _]. apply vnorm_zero_eq in Hn. subst dr.
  set (n := length (path_names fs)) in *. set (A := jac_w (Some (row_weights wp wr)) (map (col_of v (pose v fs)) (mov [] fs))) in *.
  destruct (row_config root r fs Hin Hdj Hp (map (jt 6 A x) (seq 0 n))) as (d & Ed); [rewrite map_length, seq_length; reflexivity|].
  exists d. rewrite Hk, Ed. split; [reflexivity|]. intros lr Hlr.
  assert (EU : forall lr, vsub (trp target) (trp (pose (drive v d lr) fs)) = vsub (vsub (trp target) (trp (pose v fs))) (vscale lr (fst (twist v d fs)))).
  { intros t. destruct (pose_slide v d t fs Hr Hg) as [EP _]. rewrite EP, trp_aff. generalize (trp target) (trp (pose v fs)) (fst (twist v d fs)). intros a b c. lin. }
  split.
  - rewrite EU. set (ev := vsub (trp target) (trp (pose v fs))) in *. set (u := fst (twist v d fs)).
    set (dw := weigh (Some (row_weights wp wr)) (ev, vzero)) in *. pose proof (damping_pos reg lm dw Hreg Hlm) as HK.
    pose proof (damped_short 6 n A dw x _ HK Hx) as DS.
    assert (EY : forall i, (i < 6)%nat -> jv n A (jt 6 A x) i = row_weights wp wr i * six (twist v d fs) i).
    { intros i Hi. pose proof (col_sum_path v d fs (row_weights wp wr) i Hr) as CS. fold A n in CS. rewrite <- Ed in CS. rewrite <- CS. unfold jv. apply rsum_ext. intros j Hj. f_equal.
      rewrite (nth_indep _ 0 (jt 6 A x 0%nat)) by (rewrite map_length, seq_length; exact Hj). rewrite map_nth, seq_nth by exact Hj. reflexivity. }
    assert (D1 : dot 6 dw dw = wp ^ 2 * vnorm2 ev) by (unfold dot, dw; cbn [rsum]; unfold weigh, row_weights, six, vnorm2, vdot, vzero; cbn [Nat.ltb Nat.leb fst snd vx vy vz]; ring).
    assert (D2 : dot 6 (jv n A (jt 6 A x)) (jv n A (jt 6 A x)) = wp ^ 2 * vnorm2 u).
    { unfold dot. rewrite (rsum_ext 6 _ (fun i => (row_weights wp wr i * six (twist v d fs) i) * (row_weights wp wr i * six (twist v d fs) i))) by (intros i Hi; rewrite EY by exact Hi; reflexivity).
      pose proof (twist_gantry v d fs Hg) as TG. unfold u. destruct (twist v d fs) as [tu tw]. cbn [snd fst] in *. subst tw. cbn [rsum]. unfold row_weights, six, vnorm2, vdot, vzero. cbn [Nat.ltb Nat.leb fst snd vx vy vz]. ring. }
    rewrite D1, D2 in DS. assert (W : 0 < wp ^ 2) by (apply pow_lt; exact Hwp). apply Rmult_le_reg_l in DS; [|exact W]. apply norm_le_of_sq in DS.
    assert (TR : vnorm ev <= vnorm (vsub ev (vscale lr u)) + lr * vnorm u).
    { replace (lr * vnorm u) with (vnorm (vscale lr u)) by (rewrite vnorm_scale, Rabs_pos_eq by lra; reflexivity). eapply Rle_trans; [|apply RoundNorm.vnorm_triangle]. right. f_equal. generalize ev (vscale lr u). intros a b. lin. }
    assert (lr * vnorm u <= lr * vnorm ev) by (apply Rmult_le_compat_l; lra). unfold e0. fold ev. lra.
  - destruct (gantry_step root r fs s target v reg lm wp wr lr mu Hin Hdj Hdf Hcl Hp Ht Hrig Hrt Horient Hg Hsp Hmu Hreg Hlm Hwp Hlr) as (d' & E' & B'). rewrite Hk, Ed in E'.
    assert (HP : forall X Y (a b : X) (p q : Y), Ok (a, p) = Ok (b, q) -> a = b) by (intros; congruence). apply HP in E'.
    assert (EQ : pose (drive v d lr) fs = pose (drive v d' lr) fs); [|rewrite EQ; exact B'].
    assert (EM : map (drive v d lr) (path_names fs) = map (drive v d' lr) (path_names fs)) by (change (drive v d lr) with (fun y => v y + lr * d y); change (drive v d' lr) with (fun y => v y + lr * d' y); rewrite <- !zip_map, E'; reflexivity).
    destruct (serial_slots root r fs s [drive v d lr] Hin Hdj Hdf Hcl Hp Ht) as (arr & A1 & A2 & _). destruct (serial_slots root r fs s [drive v d' lr] Hin Hdj Hdf Hcl Hp Ht) as (arr' & B1 & B2 & _).
    change (path_tensor fs [drive v d lr]) with (mkTh (length (path_names fs)) [map (drive v d lr) (path_names fs)]) in A1. rewrite EM in A1.
    change (path_tensor fs [drive v d' lr]) with (mkTh (length (path_names fs)) [map (drive v d' lr) (path_names fs)]) in B1. rewrite A1 in B1. assert (HX : forall X (a b : X), Ok a = Ok b -> a = b) by (intros; congruence). apply HX in B1. subst arr'. rewrite A2 in B2. apply HX in B2. cbn [map] in B2. congruence.
Qed.

Lemma rate_anti l l' mu reg lm wp e : l <= l' -> 0 < mu -> 0 < reg -> 0 <= lm -> 0 < wp -> rate l' mu reg lm wp e <= rate l mu reg lm wp e.
Proof.
  intros Hl Hmu Hreg Hlm Hwp. unfold rate. assert (Hm : 0 < wp ^ 2 * mu) by (apply Rmult_lt_0_compat; [apply pow_lt; exact Hwp | exact Hmu]).
  assert (Hw : 0 <= lm * wp ^ 2 * e ^ 2) by (apply Rmult_le_pos; [apply Rmult_le_pos; [exact Hlm | apply pow2_ge_0] | apply pow2_ge_0]).
  set (m := wp ^ 2 * mu) in *. set (b := lm * wp ^ 2 * e ^ 2) in *. assert (Hi : 0 < / (m + reg + b)) by (apply Rinv_0_lt_compat; lra). unfold Rdiv.
  assert (l * m <= l' * m) by (apply Rmult_le_compat_r; lra). assert (l * m * / (m + reg + b) <= l' * m * / (m + reg + b)) by (apply Rmult_le_compat_r; lra). lra.
Qed.
(** the step of a row that never improves *)
Definition least (ls : lsearch) : R := ls_lr ls * ls_factor ls ^ ls_iter ls.
Lemma powers_between ls j : 0 < ls_lr ls <= 1 -> 0 < ls_factor ls <= 1 -> (j <= ls_iter ls)%nat -> 0 < least ls <= ls_lr ls * ls_factor ls ^ j /\ ls_lr ls * ls_factor ls ^ j <= 1.
Proof.
  intros Hl Hf Hj. unfold least. assert (P : forall n, 0 < ls_factor ls ^ n <= 1).
  { intros n. split; [apply pow_lt; lra|]. replace 1 with (1 ^ n) by apply pow1. apply pow_incr. lra. }
  pose proof (P j) as Pj. pose proof (P (ls_iter ls)) as Pi. replace (ls_iter ls) with (j + (ls_iter ls - j))%nat by lia. rewrite pow_add. pose proof (P (ls_iter ls - j)%nat) as Pd.
  set (a := ls_factor ls ^ j) in *. set (b := ls_factor ls ^ (ls_iter ls - j)) in *. split; [split|].
  - apply Rmult_lt_0_compat; [lra|]. apply Rmult_lt_0_compat; lra.
  - apply Rmult_le_compat_l; [lra|]. assert (a * b <= a * 1) by (apply Rmult_le_compat_l; lra). lra.
  - assert (ls_lr ls * a <= 1 * 1) by (apply Rmult_le_compat; lra). lra.
Qed.

Section Traj.
Variables (root r : mframe) (fs : list mframe) (s : schain M4 V3).
Hypothesis (Hin : In r (preorder root)) (Hdj : distinct_joints root) (Hdf : distinct_frames root) (Hcl : clean_names root)
  (Hp : root_path r (r :: fs)) (Ht : serial_tables mops zax s r fs) (Hrig : rigid_tree root).
Variables (targets : nat -> M4) (reg lm wp wr mu : R) (o : ik) (ls : lsearch).
Hypothesis (Htg : forall i, is_rigid (targets i)) (Hor : forall i, rotp (targets i) = rotp (pose (fun _ => 0) fs)) (Hg : gantry fs) (Hsp : spread mu (slide_axes I3 fs)).
Hypothesis (Hmu : 0 < mu) (Hreg : 0 < reg) (Hlm : 0 <= lm) (Hwp : 0 < wp) (Hll : 0 < ls_lr ls <= 1) (Hlf : 0 < ls_factor ls <= 1).
Variables (np : nat) (Q0 : nat -> list F).
Let k := pik_init s o.
Let kern := pik_kern s targets reg lm (Some (row_weights wp wr)).
Hypothesis (Hnr : (0 < ik_nr o)%nat) (Hols : ik_ls o = Some (line_search s targets ls (ik_nr o))) (Hoc : ik_clamp k = false).
Hypothesis HQ0 : forall i, (i < np * ik_nr o)%nat -> exists row, Q0 i = map Fin row /\ length row = length (path_names fs).

Definition ldist (i t j : nat) : R := match pos_err (Dj kern k np Q0 i t j) with Fin x => x | _ => 0 end.
Lemma kern_line i v : exists d, kern i (map Fin (map v (path_names fs))) = (map Fin (map d (path_names fs)), map Fin (map (six (vsub (trp (targets i)) (trp (pose v fs)), vzero)) (seq 0 6))) /\
  forall l, 0 < l <= 1 -> (1 - l) * vnorm (vsub (trp (targets i)) (trp (pose v fs))) <= vnorm (vsub (trp (targets i)) (trp (pose (drive v d l) fs))) <=
    rate l mu reg lm wp (vnorm (vsub (trp (targets i)) (trp (pose v fs)))) * vnorm (vsub (trp (targets i)) (trp (pose v fs))).
Proof.
  destruct (gantry_moves root r fs s (targets i) v reg lm wp wr mu Hin Hdj Hdf Hcl Hp Ht Hrig ltac:(apply Htg) (Hor i) Hg Hsp Hmu Hreg Hlm Hwp) as (d & E & B). exists d. split; [|exact B].
  unfold kern, pik_kern. rewrite (proj2 (fin_row_of_some _ _) eq_refl), map_length, (path_chain_names r fs s Ht), Nat.eqb_refl, E. reflexivity.
Qed.
Lemma ltraj i t j : (i < np)%nat -> (t < ik_nr o)%nat -> exists v l, Qj kern k np Q0 j (i * ik_nr o + t) = map Fin (map v (path_names fs)) /\
  ldist i t j = vnorm (vsub (trp (targets i)) (trp (pose v fs))) /\ pos_err (Dj kern k np Q0 i t j) = Fin (ldist i t j) /\ rot_err (Dj kern k np Q0 i t j) = Fin 0 /\ ej kern k np Q0 i t j = Fin (ldist i t j) /\
  0 < least ls <= l /\ l <= 1 /\ (1 - l) * ldist i t j <= ldist i t (S j) <= rate l mu reg lm wp (ldist i t j) * ldist i t j /\
  (f_R (IKProofs.iter kern k np (S j) (finit k Q0)) i = true -> ldist i t j <= ls_suff ls -> l = least ls).
Proof.
  intros Hi Htt. set (ix := (i * ik_nr o + t)%nat). assert (Hix : (ix < np * ik_nr o)%nat) by (unfold ix; nia).
  assert (Edn : (ix / ik_nr o = i)%nat) by (unfold ix; rewrite Nat.div_add_l, (Nat.div_small t (ik_nr o) Htt), Nat.add_0_r by lia; reflexivity).
  assert (A : forall j v, Qj kern k np Q0 j ix = map Fin (map v (path_names fs)) ->
    Dj kern k np Q0 i t j = map Fin (map (six (vsub (trp (targets i)) (trp (pose v fs)), vzero)) (seq 0 6)) /\
    ldist i t j = vnorm (vsub (trp (targets i)) (trp (pose v fs))) /\ pos_err (Dj kern k np Q0 i t j) = Fin (ldist i t j) /\ rot_err (Dj kern k np Q0 i t j) = Fin 0 /\ ej kern k np Q0 i t j = Fin (ldist i t j)).
  { intros l v E. destruct (kern_line i v) as (d & K & _). assert (ED : Dj kern k np Q0 i t l = map Fin (map (six (vsub (trp (targets i)) (trp (pose v fs)), vzero)) (seq 0 6))).
    { unfold Dj. change (ik_nr k) with (ik_nr o). fold ix. rewrite E, K. reflexivity. }
    split; [exact ED|]. unfold ldist, ej. rewrite ED, norm6_pos, norm6_rot, norm6. auto. }
  assert (B : forall j v, Qj kern k np Q0 j ix = map Fin (map v (path_names fs)) -> forall d dx, kern i (map Fin (map v (path_names fs))) = (map Fin (map d (path_names fs)), dx) ->
    exists l, Qj kern k np Q0 (S j) ix = map Fin (map (drive v d l) (path_names fs)) /\ 0 < least ls <= l /\ l <= 1 /\
      (f_R (IKProofs.iter kern k np (S j) (finit k Q0)) i = true -> forall e, fnorm dx = Fin e -> e <= ls_suff ls -> l = least ls)).
  { intros l v E d dx K. unfold Qj in *. cbn [IKProofs.iter fbody f_q f_R]. unfold clampq, lrs. rewrite Hoc. change (ik_ls k) with (ik_ls o). change (ik_nr k) with (ik_nr o). rewrite Hols.
    set (a := IKProofs.iter kern k np l (finit k Q0)) in *. rewrite E, Edn, K. cbn [fst].
    match goal with |- context [line_search s targets ls (ik_nr o) ?Q ?D ?X ?R] => destruct (search_row s targets ls (ik_nr o) (np * ik_nr o) Q D X R ix) as (jj & J1 & J2 & J3); [apply vec_len | apply vec_len | apply vec_len | exact Hix|]; set (RR := R) in * end.
    rewrite (nth_error_nth _ _ NaN J1). exists (ls_lr ls * ls_factor ls ^ jj). split; [rewrite step_fin; reflexivity|].
    destruct (powers_between ls jj Hll Hlf J2) as [P1 P2]. split; [exact P1|]. split; [exact P2|]. intros HR e Hnorm He.
    rewrite Edn in J3. erewrite (nth_error_nth (vec (np * ik_nr o) (fun i0 => snd (kern (i0 / ik_nr o)%nat (f_q a i0)))) ix []) in J3 by (apply vec_nth; exact Hix).
    cbv beta in J3. rewrite Edn, E, K in J3. cbn [snd] in J3. rewrite Hnorm in J3.
    assert (HRR : nth i RR false = true) by (unfold RR; erewrite nth_error_nth by (apply vec_nth; exact Hi); exact HR).
    destruct (J3 HRR) as [_ Hy]. unfold least. destruct (Nat.eq_dec jj (ls_iter ls)) as [->|NE]; [reflexivity|]. exfalso. specialize (Hy ltac:(lia)). rewrite line_err_not_less in Hy by exact He. discriminate Hy. }
  assert (C : forall j, exists v, Qj kern k np Q0 j ix = map Fin (map v (path_names fs))).
  { induction j0 as [|l (v & E)].
    - destruct (HQ0 ix Hix) as (row & E & L). destruct (row_config root r fs Hin Hdj Hp row L) as (v & ->). exists v. exact E.
    - destruct (kern_line i v) as (d & K & _). destruct (B l v E d _ K) as (lr & E2 & _). eexists. exact E2. }
  destruct (C j) as (v & E). destruct (kern_line i v) as (d & K & Bd). destruct (B j v E d _ K) as (l & E2 & L1 & L2 & L3). exists v, l. split; [exact E|].
  destruct (A j v E) as (_ & A1 & A2 & A3 & A4). split; [exact A1|]. split; [exact A2|]. split; [exact A3|]. split; [exact A4|]. split; [exact L1|]. split; [exact L2|].
  destruct (A (S j) _ E2) as (_ & A1' & _). rewrite A1'. rewrite A1. split; [apply Bd; lra|]. intros HR He. apply (L3 HR _ (norm6 _) He).
Qed.
Lemma ldist_nonneg i t j : (i < np)%nat -> (t < ik_nr o)%nat -> 0 <= ldist i t j.
Proof. intros Hi Htt. destruct (ltraj i t j Hi Htt) as (v & l & _ & -> & _). apply vnorm_nonneg. Qed.
Lemma ldist_step i t j : (i < np)%nat -> (t < ik_nr o)%nat -> ldist i t (S j) <= rate (least ls) mu reg lm wp (ldist i t j) * ldist i t j.
Proof.
  intros Hi Htt. destruct (ltraj i t j Hi Htt) as (v & l & _ & _ & _ & _ & _ & L1 & _ & [_ B] & _). eapply Rle_trans; [exact B|]. apply Rmult_le_compat_r; [apply ldist_nonneg; assumption|]. apply rate_anti; lra.
Qed.
Lemma least_ok : 0 < least ls <= 1.
Proof. destruct (powers_between ls 0 Hll Hlf ltac:(lia)) as [P1 P2]. lra. Qed.
Lemma ldist_down i t j : (i < np)%nat -> (t < ik_nr o)%nat -> (0 < ldist i t j -> ldist i t (S j) < ldist i t j) /\ (ldist i t j = 0 -> ldist i t (S j) = 0).
Proof.
  intros Hi Htt. pose proof (ldist_step i t j Hi Htt) as B. pose proof (ldist_nonneg i t (S j) Hi Htt) as N.
  pose proof (rate_bounds (least ls) mu reg lm wp (ldist i t j) least_ok Hmu Hreg Hlm Hwp) as RB. split; intros H.
  - assert (rate (least ls) mu reg lm wp (ldist i t j) * ldist i t j < 1 * ldist i t j) by (apply Rmult_lt_compat_r; lra). lra.
  - rewrite H, Rmult_0_r in B. lra.
Qed.
Lemma ldist_geo i t j : (i < np)%nat -> (t < ik_nr o)%nat -> ldist i t j <= rate (least ls) mu reg lm wp (ldist i t 0) ^ j * ldist i t 0 /\ ldist i t j <= ldist i t 0.
Proof.
  intros Hi Htt. pose proof least_ok as LO. pose proof (rate_bounds (least ls) mu reg lm wp (ldist i t 0) LO Hmu Hreg Hlm Hwp) as RB. induction j as [|j [IH1 IH2]]; [cbn [pow]; lra|].
  pose proof (ldist_step i t j Hi Htt) as B. pose proof (ldist_nonneg i t j Hi Htt) as N. destruct (ldist_down i t j Hi Htt) as [D Z].
  pose proof (rate_mono (least ls) mu reg lm wp (ldist i t 0) (ldist i t j) ltac:(lra) Hmu Hreg Hlm Hwp (conj N IH2)) as M. split.
  - cbn [pow]. apply Rle_trans with (rate (least ls) mu reg lm wp (ldist i t 0) * ldist i t j).
    + eapply Rle_trans; [exact B|]. apply Rmult_le_compat_r; assumption.
    + rewrite Rmult_assoc. apply Rmult_le_compat_l; lra.
  - destruct (Rle_lt_or_eq_dec 0 (ldist i t j) N) as [L|L]; [specialize (D L); lra | rewrite (Z (eq_sym L)), L; exact IH2].
Qed.
End Traj.
