(** Starting close enough: small errors, and room to the limits. *)
From Coq Require Import Reals Lra String Bool Arith Lia List ZArith.
From Coquelicot Require Rcomplements.
From Verif Require Import Prelude ExtF Tree ChainModel SpecFK ChainProofs ChainTables TreeQueries Input Widths Lin Trig RotModel RotBasic QuatProofs AxisAngle ChainInst
  FKMore ChainClamp Examples SerialModel SerialProofs SerialMore Deriv JacModel JacProofs JacMore IKModel IKProofs IKMore IKLimits IKKernel KernelProofs DeltaPose IKSolve SolveProofs
  SpecDescent PathDeriv DescentProofs DescFinal SpecLocal LocalNorm LocalCont LocalErr LocalDeriv LocalStep LocalRun LocalTraj.
Import ListNotations.
Local Open Scope list_scope.
Local Open Scope R_scope.

Lemma comp_abs h v : In h [vx; vy; vz] -> Rabs (h v) <= vnorm v.
Proof.
  intros Hh. rewrite <- (Rabs_pos_eq (vnorm v) (vnorm_nonneg v)). apply Rsqr_le_abs_0. unfold Rsqr. replace (vnorm v * vnorm v) with (vnorm v ^ 2) by ring. rewrite vnorm_sq. unfold vnorm2, vdot.
  pose proof (Rle_0_sqr (vx v)). pose proof (Rle_0_sqr (vy v)). pose proof (Rle_0_sqr (vz v)). unfold Rsqr in *. destruct Hh as [<-|[<-|[<-|[]]]]; lra.
Qed.
Lemma start_small root r fs (w : config (S := R)) wp wr b : In r (preorder root) -> root_path r (r :: fs) -> rigid_tree root -> 0 < wp -> 0 < wr -> 0 < b ->
  exists delta, 0 < delta /\ forall target v, is_rot (rotp target) -> near delta v w -> pose_within delta target (pose w fs) -> werr wp wr target (pose v fs) <= b /\ closeR b (rotp target) (rotp (pose w fs)).
Proof.
  intros Hin Hp Hrig Hwp Hwr Hb. set (eta := Rmin (1 / 25) (Rmin b (b / (132 * (wp + wr))))).
  assert (P1 : 0 < b / (132 * (wp + wr))) by (apply Rdiv_lt_0_compat; lra). assert (He : 0 < eta) by (unfold eta; repeat apply Rmin_pos; lra).
  assert (E1 : eta <= 1 / 25) by apply Rmin_l. assert (E2 : eta <= b) by (eapply Rle_trans; [apply Rmin_r | apply Rmin_l]). assert (E3 : eta <= b / (132 * (wp + wr))) by (eapply Rle_trans; [apply Rmin_r | apply Rmin_r]). clearbody eta.
  destruct (path_continuous fs w eta He) as (d1 & D1 & PC). exists (Rmin d1 (eta / 2)). split; [apply Rmin_pos; lra|]. intros target v Hr Hv (Hd & a & Ha & Hal).
  assert (M1 := Rmin_l d1 (eta / 2)). assert (M2 := Rmin_r d1 (eta / 2)). set (delta := Rmin d1 (eta / 2)) in *. clearbody delta.
  assert (Rw : is_rot (rotp (pose w fs))) by (exact (pose_rot root r fs Hin Hp Hrig w)). assert (Rv : is_rot (rotp (pose v fs))) by (exact (pose_rot root r fs Hin Hp Hrig v)).
  assert (C1 : closeR eta (rotp target) (rotp (pose w fs))) by (eapply closeR_mono; [|apply (angle_closeR target (pose w fs) a Hr Rw Ha)]; lra).
  destruct (PC v (near_mono _ _ _ _ M1 Hv)) as (_ & P2 & P3).
  assert (C2 : closeR (2 * eta) (rotp target) (rotp (pose v fs))) by (replace (2 * eta) with (eta + eta) by ring; eapply closeR_trans; [exact C1 | apply closeR_sym; intros h Hh; apply P2; exact Hh]).
  split; [|eapply closeR_mono; [exact E2 | exact C1]].
  destruct (comp_spec target (pose v fs) Hr Rv) as (a' & _ & Ha' & Hs). pose proof (closeR_angle target (pose v fs) a' (2 * eta) Hr Rv Ha' ltac:(lra) C2) as A2.
  assert (a0 : 0 <= a') by (destruct Ha' as [[Q _] _]; exact Q).
  assert (A3 : a' <= 11 * eta) by (apply Rsqr_incr_0_var; [unfold Rsqr; assert (0 <= eta * eta) by (apply Rmult_le_pos; lra); lra | lra]).
  destruct (Hs ltac:(lra)) as (S1 & _ & _).
  unfold werr. eapply Rle_trans; [apply (nrm_entries 6 _ ((wp + wr) * (22 * eta)))|].
  - apply Rmult_le_pos; lra.
  - intros h Hh. unfold weigh. rewrite Rabs_mult. destruct (weights_bounds wp wr h Hwp Hwr) as [_ W2]. assert (W0 : 0 <= row_weights wp wr h) by (unfold row_weights; destruct (Nat.ltb h 3); lra). rewrite (Rabs_pos_eq _ W0). apply Rmult_le_compat; [exact W0 | apply Rabs_pos | exact W2|].
    assert (PO : forall g, In g [vx; vy; vz] -> Rabs (g (trp target) - g (trp (pose v fs))) <= 22 * eta).
    { intros g Hg. replace (g (trp target) - g (trp (pose v fs))) with ((g (trp target) - g (trp (pose w fs))) + - (g (trp (pose v fs)) - g (trp (pose w fs)))) by ring. eapply Rle_trans; [apply Rabs_triang|]. rewrite Rabs_Ropp.
      pose proof (P3 g Hg) as Q1. pose proof (comp_abs g (vsub (trp target) (trp (pose w fs))) Hg) as Q2. assert (EG : g (vsub (trp target) (trp (pose w fs))) = g (trp target) - g (trp (pose w fs))) by (destruct Hg as [<-|[<-|[<-|[]]]]; reflexivity). rewrite EG in Q2. lra. }
    assert (RO : forall g, In g [vx; vy; vz] -> Rabs (g (snd (comp_err target (pose v fs)))) <= 22 * eta) by (intros g Hg; pose proof (comp_abs g (snd (comp_err target (pose v fs))) Hg); lra).
    do 6 (destruct h as [|h]; [unfold six; first [apply (PO vx); simpl; auto; fail | apply (PO vy); simpl; auto; fail | apply (PO vz); simpl; auto; fail | apply RO; simpl; auto]|]). lia.
  - replace (INR 6) with 6 by (simpl; ring). apply Rle_trans with (132 * (wp + wr) * (b / (132 * (wp + wr)))); [|right; field; lra]. replace (6 * ((wp + wr) * (22 * eta))) with (132 * (wp + wr) * eta) by ring. apply Rmult_le_compat_l; lra.
Qed.

(** ** room to the limits *)
Lemma room_one (f : mframe) x : exists dm, 0 < dm /\ (off_limits f x -> forall y, Rabs (y - x) <= dm ->
    fclamp (Fin y) (match j_lim (f_joint f) with None => NInf | Some (l, _) => l end) (match j_lim (f_joint f) with None => PInf | Some (_, h) => h end) = Fin y) /\
  (same_turn f x -> forall y, Rabs (y - x) <= dm ->
    wrap1 (jtype_eqb (j_type (f_joint f)) Revolute) (match j_lim (f_joint f) with None => NInf | Some (l, _) => l end) (match j_lim (f_joint f) with None => PInf | Some (_, h) => h end) (Fin y) = Fin y).
Proof.
  assert (A : exists d1, 0 < d1 /\ (off_limits f x -> forall y, Rabs (y - x) <= d1 ->
    fclamp (Fin y) (match j_lim (f_joint f) with None => NInf | Some (l, _) => l end) (match j_lim (f_joint f) with None => PInf | Some (_, h) => h end) = Fin y)).
  { unfold off_limits. destruct (j_lim (f_joint f)) as [[lo hi]|]; [|exists 1; split; [lra|]; intros _ y _; apply fclamp_id; reflexivity].
    assert (L : exists d, 0 < d /\ (flt lo (Fin x) = true -> forall y, Rabs (y - x) <= d -> fle lo (Fin y) = true)).
    { destruct lo as [l| | |]; try (exists 1; split; [lra|]; intros Q; try discriminate Q; reflexivity). destruct (Rlt_dec l x) as [Q|Q].
      - exists (x - l). split; [lra|]. intros _ y Hy. cbn [fle]. apply Rleb_true. apply Rcomplements.Rabs_le_between in Hy. lra.
      - exists 1. split; [lra|]. intros Q'. cbn [flt] in Q'. apply Rltb_true in Q'. lra. }
    assert (H : exists d, 0 < d /\ (flt (Fin x) hi = true -> forall y, Rabs (y - x) <= d -> fle (Fin y) hi = true)).
    { destruct hi as [h| | |]; try (exists 1; split; [lra|]; intros Q; try discriminate Q; reflexivity). destruct (Rlt_dec x h) as [Q|Q].
      - exists (h - x). split; [lra|]. intros _ y Hy. cbn [fle]. apply Rleb_true. apply Rcomplements.Rabs_le_between in Hy. lra.
      - exists 1. split; [lra|]. intros Q'. cbn [flt] in Q'. apply Rltb_true in Q'. lra. }
    destruct L as (d1 & L1 & L2). destruct H as (d2 & H1 & H2). exists (Rmin d1 d2). split; [apply Rmin_pos; assumption|]. intros [Q1 Q2] y Hy. pose proof (Rmin_l d1 d2). pose proof (Rmin_r d1 d2). apply fclamp_id; [apply L2 | apply H2]; try assumption; lra. }
  assert (B : exists d2, 0 < d2 /\ (same_turn f x -> forall y, Rabs (y - x) <= d2 ->
    wrap1 (jtype_eqb (j_type (f_joint f)) Revolute) (match j_lim (f_joint f) with None => NInf | Some (l, _) => l end) (match j_lim (f_joint f) with None => PInf | Some (_, h) => h end) (Fin y) = Fin y)).
  { unfold same_turn, wrap1. destruct (j_type (f_joint f)) eqn:Ty; cbn [jtype_eqb]; try (exists 1; split; [lra|]; reflexivity).
    destruct (j_lim (f_joint f)) as [[[lo| | |] [hi| | |]]|]; try (exists 1; split; [lra|]; intros Q; exfalso; destruct (Q eq_refl) as (l & h & Q1 & _); congruence).
    destruct (Rlt_dec (Rabs (x - (lo + hi) / 2)) PI) as [Q|Q].
    2:{ exists 1. split; [lra|]. intros Q'. exfalso. destruct (Q' eq_refl) as (l & h & Q1 & Q2). assert (l = lo) by congruence. assert (h = hi) by congruence. subst l h. lra. }
    exists ((PI - Rabs (x - (lo + hi) / 2)) / 2). split; [lra|]. intros _ y Hy. assert (FD := fdivr_fin).
    assert (HP2 : 2 * PI <> 0) by (pose proof PI_RGT_0; lra). cbn [fadd]. rewrite (FD _ 2) by lra. unfold fsub. cbn [fopp fadd]. rewrite FD by exact HP2. cbn [fround fmul fadd].
    set (c := (lo + hi) / 2) in *. assert (Hyc : Rabs (y - c) < PI). { replace (y - c) with ((y - x) + (x - c)) by ring. eapply Rle_lt_trans; [apply Rabs_triang|]. lra. }
    pose proof PI_RGT_0 as HPI. apply Rabs_def2 in Hyc. assert (Z : rround ((c + - y) / (2 * PI)) = 0%Z).
    { assert (Hz : - / 2 < (c + - y) / (2 * PI) < / 2).
      { split; apply Rmult_lt_reg_r with (2 * PI); try lra; unfold Rdiv; rewrite Rmult_assoc, Rinv_l by lra; lra. }
      set (z := (c + - y) / (2 * PI)) in *. assert (U : (up (z - / 2) = 0)%Z) by (symmetry; apply tech_up; simpl; lra). unfold rround. rewrite U. cbn [Z.sub Z.opp Z.add]. destruct (Req_EM_T (z - / 2) (IZR (-1))) as [Q3|Q3]; [exfalso; lra | reflexivity]. }
    match goal with |- context [rround ?q] => replace (rround q) with 0%Z by (rewrite <- Z; f_equal) end. f_equal. simpl. ring. }
  destruct A as (d1 & A1 & A2). destruct B as (d2 & B1 & B2). exists (Rmin d1 d2). split; [apply Rmin_pos; assumption|]. pose proof (Rmin_l d1 d2). pose proof (Rmin_r d1 d2). split; intros Q y Hy; [apply A2 | apply B2]; try assumption; lra.
Qed.
Lemma room_all (l : list mframe) (w : config (S := R)) : exists dm, 0 < dm /\ forall v, (forall n, Rabs (v n - w n) <= dm) ->
  (Forall2 off_limits l (map w (map (fun g => j_name (f_joint g)) l)) ->
    clamp_row (map (fun f : mframe => match j_lim (f_joint f) with None => NInf | Some (l, _) => l end) l) (map (fun f : mframe => match j_lim (f_joint f) with None => PInf | Some (_, h) => h end) l)
      (map Fin (map v (map (fun g : mframe => j_name (f_joint g)) l))) = map Fin (map v (map (fun g : mframe => j_name (f_joint g)) l))) /\
  (Forall2 same_turn l (map w (map (fun g => j_name (f_joint g)) l)) ->
    zip_with2 (fun x rlh => wrap1 (fst rlh) (fst (snd rlh)) (snd (snd rlh)) x) (map Fin (map v (map (fun g : mframe => j_name (f_joint g)) l)))
      (combine (map (fun f : mframe => jtype_eqb (j_type (f_joint f)) Revolute) l)
        (combine (map (fun f : mframe => match j_lim (f_joint f) with None => NInf | Some (l, _) => l end) l) (map (fun f : mframe => match j_lim (f_joint f) with None => PInf | Some (_, h) => h end) l)))
    = map Fin (map v (map (fun g : mframe => j_name (f_joint g)) l))).
Proof.
  induction l as [|f l (dm & D & IH)]; [exists 1; split; [lra|]; split; reflexivity|].
  destruct (room_one f (w (j_name (f_joint f)))) as (d1 & D1 & O1 & O2). exists (Rmin dm d1). split; [apply Rmin_pos; assumption|]. intros v Hv. pose proof (Rmin_l dm d1). pose proof (Rmin_r dm d1).
  destruct (IH v) as [IH1 IH2]; [intros n; specialize (Hv n); lra|]. pose proof (Hv (j_name (f_joint f))) as Hf. split; intros Q; cbn [map] in Q; inversion Q; subst.
  - unfold clamp_row in *. cbn [map combine zip_with2 fst snd]. rewrite IH1 by assumption. rewrite O1; [reflexivity | assumption | lra].
  - cbn [map combine zip_with2 fst snd]. rewrite IH2 by assumption. rewrite O2; [reflexivity | assumption | lra].
Qed.

(** ** columns that reach everything *)
Lemma six_combo J : forall y, length y = length J -> forall i, six (combo J y) i = rsum (length J) (fun j => six (nth j J (vzero, vzero)) i * nth j y 0).
Proof.
  assert (Sh : forall n f, rsum (S n) f = f 0%nat + rsum n (fun j => f (S j))).
  { reflexivity. }
  induction J as [|c J IH]; intros [|z y] L i; try discriminate.
  - unfold combo. cbn [combine fold_right length rsum]. do 6 (destruct i as [|i]; [reflexivity|]). reflexivity.
  - cbn [length]. rewrite Sh. cbn [nth]. rewrite <- (IH y) by (cbn [length] in L; lia). unfold combo. cbn [combine fold_right]. fold (combo J y). unfold six, vadd, vscale. cbn [fst snd vx vy vz].
    do 6 (destruct i as [|i]; [ring|]). ring.
Qed.
Definition unit6 (i : nat) : V3 * V3 := (mkV3 (if Nat.eqb i 0 then 1 else 0) (if Nat.eqb i 1 then 1 else 0) (if Nat.eqb i 2 then 1 else 0), mkV3 (if Nat.eqb i 3 then 1 else 0) (if Nat.eqb i 4 then 1 else 0) (if Nat.eqb i 5 then 1 else 0)).
Lemma unit6_six i k : (i < 6)%nat -> (k < 6)%nat -> six (unit6 i) k = if Nat.eqb k i then 1 else 0.
Proof. intros Hi Hk. do 6 (destruct i as [|i]; [do 6 (destruct k as [|k]; [reflexivity|]); lia|]). lia. Qed.
Lemma reaches_inverse J : reaches J -> exists B : nat -> nat -> R, forall i k, (i < 6)%nat -> (k < 6)%nat -> rsum (length J) (fun j => six (nth j J (vzero, vzero)) k * B j i) = if Nat.eqb k i then 1 else 0.
Proof.
  intros H. assert (A : forall m, exists Y : nat -> list R, forall i, (i < m)%nat -> length (Y i) = length J /\ combo J (Y i) = unit6 i).
  { induction m as [|m (Y & HY)]; [exists (fun _ => []); intros; lia|]. destruct (H (unit6 m)) as (y & Hy). exists (fun i => if Nat.eqb i m then y else Y i). intros i Hi. destruct (Nat.eqb_spec i m) as [->|Hn]; [exact Hy | apply HY; lia]. }
  destruct (A 6%nat) as (Y & HY). exists (fun j i => nth j (Y i) 0). intros i k Hi Hk. destruct (HY i Hi) as [L E]. rewrite <- (six_combo J (Y i) L k), E. apply unit6_six; assumption.
Qed.
