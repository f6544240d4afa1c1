(** The step on tensors: pose error and damped step together, and one iteration of the solver on a serial chain. *)
From Coq Require Import Reals Lra Bool Arith Lia List.
From Verif Require Import Prelude ExtF Lin Trig RotModel TorchModel RotTorchModel SpecTorch TorchProofs RotTorch ChainModel ChainInst SerialModel JacModel IKKernel FkTorchModel SpecFkTorch FkTorch FkTorchJac IKSolve IkTorchModel IkTorch.
Import ListNotations.
Local Open Scope nat_scope.

Lemma finite_t (D : tensor F) B (v : nat -> V3) : shape D = [1; 3; B] -> (forall r, r < B -> mkF3 (at_ D [0; 0; r]) (at_ D [0; 1; r]) (at_ D [0; 2; r]) = fin3 (v r)) ->
  is_t (finite3 (Ok D)) [1; 3; B] (fun i => v3get (v (nth 2 i 0)) (nth 1 i 0)).
Proof.
  intros E H. assert (G : forall c r, c < 3 -> r < B -> at_ D [0; c; r] = Fin (v3get (v r) c)).
  { intros c r Lc Lr. specialize (H r Lr). unfold fin3 in H. injection H as H0 H1 H2. destruct c as [|[|[|c]]]; [..|lia]; assumption. }
  unfold finite3. cbn [rbind]. rewrite E. replace (forallb _ (seq 0 B)) with true.
  - eexists. split; [reflexivity|]. split; [reflexivity|]. intros i V. apply valid3_inv in V as (x & c & r & -> & Lx & Lc & Lr). cbn [at_ nth]. replace x with 0 by lia. rewrite (G c r Lc Lr). reflexivity.
  - symmetry. apply forallb_forall. intros r Hr. apply in_seq in Hr. apply forallb_forall. intros c Hc. apply in_seq in Hc. rewrite (G c r) by lia. reflexivity.
Qed.
Lemma finite_bad (D : tensor F) B r : shape D = [1; 3; B] -> r < B -> (forall v, mkF3 (at_ D [0; 0; r]) (at_ D [0; 1; r]) (at_ D [0; 2; r]) <> fin3 v) -> finite3 (Ok D) = Err ValueError.
Proof.
  intros E L H. unfold finite3. cbn [rbind]. rewrite E. replace (forallb _ (seq 0 B)) with false; [reflexivity|]. symmetry. apply not_true_is_false. intros T. rewrite forallb_forall in T.
  specialize (T r ltac:(apply in_seq; lia)). cbn [seq forallb] in T.
  destruct (at_ D [0; 0; r]) as [a| | |] eqn:E0; [|discriminate T..]. destruct (at_ D [0; 1; r]) as [b| | |] eqn:E1; [|discriminate T..]. destruct (at_ D [0; 2; r]) as [c| | |] eqn:E2; [|discriminate T..].
  apply (H (mkV3 a b c)). reflexivity.
Qed.

Section Step.
Variables (m tp tq J : tensor R) (N M K n : nat) (reg lm : R) (w : option (tensor R)).
Hypothesis (Sm : shape m = [4; 4; N * M]) (HM : 0 < M) (Sp : shape tp = [3; K]) (Sq : shape tq = [4; K]) (HK : K = N \/ K = 1) (SJ : shape J = [n; 6; N * M])
  (Sw : forall t, w = Some t -> shape t = [6]).
Let wk : option (nat -> R) := option_map (fun t i => at_ t [i]) w.
Let err (r : nat) := delta_pose (m4_at m [r]) (v_at tp [tix K (r / M)]) (q_at tq [tix K (r / M)]).
Let Jr (r : nat) : jac := map (col_at J r) (seq 0 n).
(** the error as one tensor *)
Lemma dx_rows (P : tensor R) (D : tensor F) (v : nat -> V3) : shape P = [1; 3; N * M] -> shape D = [1; 3; N * M] ->
  (forall r, r < N * M -> mkF3 (at_ D [0; 0; r]) (at_ D [0; 1; r]) (at_ D [0; 2; r]) = fin3 (v r)) ->
  exists X, cat2 (Ok P) (finite3 (Ok D)) = Ok X /\ shape X = [1; 6; N * M] /\ forall r, r < N * M -> col_at X r 0 = (mkV3 (at_ P [0; 0; r]) (at_ P [0; 1; r]) (at_ P [0; 2; r]), v r).
Proof.
  intros E1 E2 H. destruct (t_cat2 _ _ _ _ _ _ _ _ (is_in P _ E1) (finite_t D _ v E2 H)) as (X & EX & SX & HX). exists X. split; [exact EX|]. split; [exact SX|]. intros r L.
  unfold col_at. cbv zeta. rewrite !HX by (apply valid3; lia). cbn [nth hd tl Nat.ltb Nat.leb Nat.sub v3get]. destruct (v r). reflexivity.
Qed.
Theorem step_rows : (forall r, r < N * M -> exists p v l, err r = (p, fin3 v) /\ ik_step (Jr r) (p, v) reg lm wk = Ok l) ->
  exists dq dx, ik_step_t m tp tq J (reg_t reg) M lm w = Ok (dq, dx) /\ shape dq = [1; n; N * M] /\ shape dx = [1; 6; N * M] /\
    forall r p v l, r < N * M -> err r = (p, fin3 v) -> ik_step (Jr r) (p, v) reg lm wk = Ok l -> col_at dx r 0 = (p, v) /\ map (fun j => at_ dq [0; j; r]) (seq 0 n) = l.
Proof.
  intros H. destruct (error_rows m tp tq N M K Sm HM Sp Sq HK) as (P & D & E & SP & SD & HD). unfold ik_step_t. rewrite E.
  set (v := fun r => match fin3_of (snd (err r)) with Some v => v | None => vzero end).
  assert (Fv : forall p0 v0 r, err r = (p0, fin3 v0) -> v r = v0). { intros p0 v0 r Er. unfold v. rewrite Er. cbn [snd]. destruct v0. reflexivity. }
  assert (Hv : forall r, r < N * M -> mkF3 (at_ D [0; 0; r]) (at_ D [0; 1; r]) (at_ D [0; 2; r]) = fin3 (v r)).
  { intros r L. destruct (H r L) as (p & v0 & l & Er & _). rewrite (Fv _ _ _ Er). unfold err in Er. rewrite (HD r L) in Er. apply (f_equal snd) in Er. exact Er. }
  destruct (dx_rows P D v SP SD Hv) as (X & EX & SX & HX). rewrite EX. cbn [rbind].
  assert (Ec : forall p v0 r, r < N * M -> err r = (p, fin3 v0) -> col_at X r 0 = (p, v0)).
  { intros p v0 r L Er. rewrite (HX r L), (Fv _ _ _ Er). f_equal. unfold err in Er. rewrite (HD r L) in Er. apply (f_equal fst) in Er. exact Er. }
  destruct (dls_rows X J reg lm w n (N * M) SX SJ Sw (fun r => match ik_step (Jr r) (col_at X r 0) reg lm wk with Ok l => l | Err _ => [] end)) as (dq & Eq & Sdq & Hdq).
  { intros r L. destruct (H r L) as (p & v0 & l & Er & Hl). fold (Jr r). fold wk. rewrite (Ec _ _ r L Er), Hl. reflexivity. }
  exists dq, X. rewrite Eq. cbn [rbind]. split; [reflexivity|]. split; [exact Sdq|]. split; [exact SX|]. intros r p v0 l L Er Hl. split; [exact (Ec _ _ r L Er)|]. rewrite (Hdq r L), (Ec _ _ r L Er), Hl. reflexivity.
Qed.
(** one row without a finite error, or with a singular system, and the call fails *)
Theorem step_not_finite r : r < N * M -> (forall v, snd (err r) <> fin3 v) -> ik_step_t m tp tq J (reg_t reg) M lm w = Err ValueError.
Proof.
  intros L H. destruct (error_rows m tp tq N M K Sm HM Sp Sq HK) as (P & D & E & SP & SD & HD). unfold ik_step_t. rewrite E. rewrite (finite_bad D (N * M) r SD L); [reflexivity|].
  intros v Hv. apply (H v). unfold err. rewrite (HD r L). exact Hv.
Qed.
Theorem step_fails r p v e : (forall r, r < N * M -> exists p v, err r = (p, fin3 v)) -> r < N * M -> err r = (p, fin3 v) -> ik_step (Jr r) (p, v) reg lm wk = Err e ->
  ik_step_t m tp tq J (reg_t reg) M lm w = Err RuntimeError.
Proof.
  intros H L Er Hf. destruct (error_rows m tp tq N M K Sm HM Sp Sq HK) as (P & D & E & SP & SD & HD). unfold ik_step_t. rewrite E.
  set (u := fun r => match fin3_of (snd (err r)) with Some v => v | None => vzero end).
  assert (Fv : forall p0 v0 r, err r = (p0, fin3 v0) -> u r = v0). { intros p0 v0 r0 Er0. unfold u. rewrite Er0. cbn [snd]. destruct v0. reflexivity. }
  assert (Hv : forall r, r < N * M -> mkF3 (at_ D [0; 0; r]) (at_ D [0; 1; r]) (at_ D [0; 2; r]) = fin3 (u r)).
  { intros r0 L0. destruct (H r0 L0) as (p0 & v0 & Er0). rewrite (Fv _ _ _ Er0). unfold err in Er0. rewrite (HD r0 L0) in Er0. apply (f_equal snd) in Er0. exact Er0. }
  destruct (dx_rows P D u SP SD Hv) as (X & EX & SX & HX). rewrite EX. cbn [rbind].
  rewrite (dls_fails X J reg lm w n (N * M) SX SJ Sw r e L); [reflexivity|]. fold (Jr r). fold wk. rewrite (HX r L), (Fv _ _ _ Er). rewrite <- Hf. f_equal. f_equal. unfold err in Er. rewrite (HD r L) in Er. apply (f_equal fst) in Er. exact Er.
Qed.
End Step.
