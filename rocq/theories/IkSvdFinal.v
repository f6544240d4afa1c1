(** Last steps of the proofs quoted in Properties_IkSvd.v. *)
From Coq Require Import Reals Lra Bool Arith Lia List.
From Verif Require Import Prelude ExtF Lin RotModel TorchModel RotTorchModel SpecTorch SpecFkTorch SpecIkTorch SpecIkSvd TorchProofs RotTorch JacModel IKKernel KernelProofs DeltaPose IKModel IKSolve FkTorchModel FkTorch FkTensFinal IkTorchModel IkTorch IkTorchStep IkTorchIter IkTensFinal IkSvdTorchModel IkSvdTorch.
Import ListNotations.
Local Open Scope nat_scope.

Lemma errors_t m tp tq N M K (v : nat -> V3) : shape m = [4; 4; N * M] -> 0 < M -> shape tp = [3; K] -> shape tq = [4; K] -> K = N \/ K = 1 ->
  (forall r, r < N * M -> exists p, delta_pose (m4_at m [r]) (v_at tp [target_of K M r]) (q_at tq [target_of K M r]) = (p, fin3 (v r))) ->
  exists P D X, pose_error_t m tp tq M = (Ok P, Ok D) /\ cat2 (Ok P) (finite3 (Ok D)) = Ok X /\ shape X = [1; 6; N * M].
Proof.
  intros Sm HM Sp Sq HK H. destruct (error_rows m tp tq N M K Sm HM Sp Sq HK) as (P & D & E & SP & SD & HD).
  destruct (dx_rows N M K HM HK P D v SP SD) as (X & EX & SX & _).
  { intros r L. destruct (H r L) as (p & Er). change (target_of K M r) with (tix K (r / M)) in Er. rewrite (HD r L) in Er. apply (f_equal snd) in Er. exact Er. }
  exists P, D, X. auto.
Qed.
Definition six_id : tensor R := mkT [6; 6; 1] (fun i => if nth 0 i 0 =? nth 1 i 0 then 1%R else 0%R).
Definition id_svd (A : tensor R) : tensor R * tensor R * tensor R := (six_id, mkT [6; 1] (fun _ => 1%R), six_id).
Lemma id_decomposes A : weighted 6 1 None six_id A -> decomposes 6 1 A (id_svd A).
Proof.
  intros (SA & HA). split; [reflexivity|]. split; [reflexivity|]. split; [reflexivity|]. intros r Lr.
  assert (Cs : forall k, k < 6 -> k = 0 \/ k = 1 \/ k = 2 \/ k = 3 \/ k = 4 \/ k = 5) by (intros; lia).
  split; [|split; [|split]].
  - intros k l Lk Ll. destruct (Cs k Lk) as [->|[->|[->|[->|[->| ->]]]]]; destruct (Cs l Ll) as [->|[->|[->|[->|[->| ->]]]]]; unfold total, delta; cbn [seq map fold_right six_id at_ nth Nat.eqb]; ring.
  - intros k l Lk Ll. destruct (Cs k Lk) as [->|[->|[->|[->|[->| ->]]]]]; destruct (Cs l Ll) as [->|[->|[->|[->|[->| ->]]]]]; unfold total, delta; cbn [seq map fold_right six_id at_ nth Nat.eqb]; ring.
  - intros k l Lk Ll. destruct (Cs k Lk) as [->|[->|[->|[->|[->| ->]]]]]; destruct (Cs l Ll) as [->|[->|[->|[->|[->| ->]]]]]; unfold total, delta; cbn [seq map fold_right six_id at_ nth Nat.eqb]; ring.
  - intros i j Li Lj. rewrite (HA i j r Li Lj Lr). cbn [weight_at]. destruct (Cs i Li) as [->|[->|[->|[->|[->| ->]]]]]; destruct (Cs j Lj) as [->|[->|[->|[->|[->| ->]]]]]; unfold total; cbn [Nat.min seq map fold_right six_id at_ nth Nat.eqb]; ring.
Qed.
Definition one_col : tensor R := mkT [1; 6; 1] (fun i => if nth 1 i 0 =? 0 then 1%R else 0%R).
Definition one_svd (A : tensor R) : tensor R * tensor R * tensor R := (six_id, mkT [1; 1] (fun _ => 1%R), mkT [1; 1; 1] (fun _ => 1%R)).
Lemma one_decomposes A : weighted 1 1 None one_col A -> decomposes 1 1 A (one_svd A).
Proof.
  intros (SA & HA). split; [reflexivity|]. split; [reflexivity|]. split; [reflexivity|]. intros r Lr.
  assert (Cs : forall k, k < 6 -> k = 0 \/ k = 1 \/ k = 2 \/ k = 3 \/ k = 4 \/ k = 5) by (intros; lia).
  split; [|split; [|split]].
  - intros k l Lk Ll. destruct (Cs k Lk) as [->|[->|[->|[->|[->| ->]]]]]; destruct (Cs l Ll) as [->|[->|[->|[->|[->| ->]]]]]; unfold total, delta; cbn [seq map fold_right six_id at_ nth Nat.eqb]; ring.
  - intros k l Lk Ll. destruct (Cs k Lk) as [->|[->|[->|[->|[->| ->]]]]]; destruct (Cs l Ll) as [->|[->|[->|[->|[->| ->]]]]]; unfold total, delta; cbn [seq map fold_right six_id at_ nth Nat.eqb]; ring.
  - intros k l Lk Ll. replace k with 0 by lia. replace l with 0 by lia. unfold total, delta. cbn [seq map fold_right at_ Nat.eqb]. ring.
  - intros i j Li Lj. rewrite (HA i j r Li Lj Lr). cbn [weight_at]. replace j with 0 by lia. destruct (Cs i Li) as [->|[->|[->|[->|[->| ->]]]]]; unfold total; cbn [Nat.min seq map fold_right six_id one_col at_ nth Nat.eqb]; ring.
Qed.

Lemma l93_svd_step_is_direct_step : forall svd (m target_pos target_wxyz J : tensor R) N M K n reg lm w, shape m = [4; 4; N * M] -> 0 < M -> shape target_pos = [3; K] -> shape target_wxyz = [4; K] -> K = N \/ K = 1 ->
  shape J = [n; 6; N * M] -> (forall t, w = Some t -> shape t = [6]) -> (0 < reg)%R -> (0 <= lm)%R -> 6 <= n -> (forall A, weighted n (N * M) w J A -> decomposes n (N * M) A (svd A)) ->
  (forall r, r < N * M -> exists p v, delta_pose (m4_at m [r]) (v_at target_pos [target_of K M r]) (q_at target_wxyz [target_of K M r]) = (p, fin3 v)) ->
  exists dq dq' dx, ik_step_t m target_pos target_wxyz J (reg_t reg) M lm w = Ok (dq, dx) /\ ik_step_svd_t svd m target_pos target_wxyz J (reg_t reg) M lm w = Ok (dq', dx) /\
    shape dq' = [1; n; N * M] /\ shape dq = [1; n; N * M] /\ forall j r, j < n -> r < N * M -> at_ dq' [0; j; r] = at_ dq [0; j; r].
Proof.
  intros svd m tp tq J N M K n reg lm w Sm HM Sp Sq HK SJ Sw Hreg Hlm Hn HS H.
  pose (v := fun r => match fin3_of (snd (delta_pose (m4_at m [r]) (v_at tp [target_of K M r]) (q_at tq [target_of K M r]))) with Some v => v | None => vzero end).
  destruct (errors_t m tp tq N M K v Sm HM Sp Sq HK) as (P & D & X & E & EX & SX).
  { intros r L. destruct (H r L) as (p & v0 & Er). exists p. rewrite Er. f_equal. unfold v. rewrite Er. cbn [snd]. destruct v0. reflexivity. }
  unfold ik_step_t, ik_step_svd_t. rewrite E, EX. cbn [rbind].
  set (wk := option_map (fun t i => at_ t [i]) w). pose (step r := ik_step (map (col_at J r) (seq 0 n)) (col_at X r 0) reg lm wk).
  assert (HP : forall r, r < N * M -> step r = Ok (match step r with Ok l => l | Err _ => [] end)).
  { intros r L. destruct (ik_step_eq (map (col_at J r) (seq 0 n)) (col_at X r 0) reg lm wk Hreg Hlm) as (x & _ & Es). unfold step. rewrite Es. reflexivity. }
  destruct (dls_rows X J reg lm w n (N * M) SX SJ Sw _ HP) as (dq & E1 & S1 & R1). destruct (dls_svd_rows svd X J reg lm w n (N * M) SX SJ Sw HS _ Hreg Hlm Hn HP) as (dq' & E2 & S2 & R2).
  rewrite E1, E2. cbn [rbind]. exists dq, dq', X. split; [reflexivity|]. split; [reflexivity|]. split; [exact S2|]. split; [exact S1|]. intros j r Lj Lr.
  assert (G : map (fun j => at_ dq' [0; j; r]) (seq 0 n) = map (fun j => at_ dq [0; j; r]) (seq 0 n)) by (rewrite (R1 r Lr), (R2 r Lr); reflexivity).
  apply (f_equal (fun l => nth_error l j)) in G. rewrite !nth_error_map in G. rewrite (nth_error_nth' (seq 0 n) 0) in G by (rewrite seq_length; exact Lj). rewrite seq_nth in G by exact Lj. cbn [option_map Nat.add] in G. congruence.
Qed.

Lemma l93_svd_step_is_damped_least_squares : forall svd (dx J : tensor R) n B reg lm w, shape dx = [1; 6; B] -> shape J = [n; 6; B] -> (forall t, w = Some t -> shape t = [6]) -> (0 < reg)%R -> (0 <= lm)%R -> 6 <= n ->
  (forall A, weighted n B w J A -> decomposes n B A (svd A)) ->
  exists dq, dls_svd_t svd dx J (reg_t reg) lm w = Ok dq /\ shape dq = [1; n; B] /\ forall r z, r < B ->
    let cost := damped_cost dx J n r reg lm w in (cost (fun j => at_ dq [0; j; r]%nat) <= cost z)%R /\ ((cost z <= cost (fun j => at_ dq [0; j; r]%nat))%R -> forall j, j < n -> z j = at_ dq [0; j; r]).
Proof.
  intros svd dx J n B reg lm w Sx SJ Sw Hreg Hlm Hn HS. set (wk := option_map (fun t i => at_ t [i]) w). pose (step r := ik_step (map (col_at J r) (seq 0 n)) (col_at dx r 0) reg lm wk).
  assert (HP : forall r, r < B -> step r = Ok (match step r with Ok l => l | Err _ => [] end)).
  { intros r L. destruct (ik_step_eq (map (col_at J r) (seq 0 n)) (col_at dx r 0) reg lm wk Hreg Hlm) as (x & _ & Es). unfold step. rewrite Es. reflexivity. }
  destruct (dls_rows dx J reg lm w n B Sx SJ Sw _ HP) as (d & E1 & S1 & R1). destruct (dls_svd_rows svd dx J reg lm w n B Sx SJ Sw HS _ Hreg Hlm Hn HP) as (dq & E2 & S2 & R2).
  exists dq. split; [exact E2|]. split; [exact S2|]. intros r z L cost.
  destruct (l91_step_is_damped_least_squares dx J n B reg lm w Sx SJ Sw Hreg Hlm) as (d' & E1' & _ & G). assert (Ed : d' = d) by congruence. subst d'.
  assert (Q : forall j, j < n -> at_ dq [0; j; r] = at_ d [0; j; r]).
  { intros j Lj. assert (G0 : map (fun j => at_ dq [0; j; r]) (seq 0 n) = map (fun j => at_ d [0; j; r]) (seq 0 n)) by (rewrite (R1 r L), (R2 r L); reflexivity).
    apply (f_equal (fun l => nth_error l j)) in G0. rewrite !nth_error_map in G0. rewrite (nth_error_nth' (seq 0 n) 0) in G0 by (rewrite seq_length; exact Lj). rewrite seq_nth in G0 by exact Lj. cbn [option_map Nat.add] in G0. congruence. }
  assert (C : cost (fun j => at_ dq [0; j; r]) = cost (fun j => at_ d [0; j; r])).
  { unfold cost, damped_cost. cbv zeta. rewrite !total_rsum. f_equal; [|f_equal]; apply ksum_ext; intros i Li; [rewrite !total_rsum; f_equal; f_equal; apply ksum_ext; intros j Lj |]; rewrite Q by assumption; reflexivity. }
  rewrite C. destruct (G r z L) as (G1 & G2). split; [exact G1|]. intros Hz j Lj. rewrite (Q j Lj). exact (G2 Hz j Lj).
Qed.

Lemma l93_svd_step_needs_six_joints : forall svd (m target_pos target_wxyz J : tensor R) N M K n reg lm w, shape m = [4; 4; N * M] -> 0 < M -> shape target_pos = [3; K] -> shape target_wxyz = [4; K] -> K = N \/ K = 1 ->
  shape J = [n; 6; N * M] -> (forall t, w = Some t -> shape t = [6]) -> (forall A, weighted n (N * M) w J A -> decomposes n (N * M) A (svd A)) ->
  (forall r, r < N * M -> exists p v, delta_pose (m4_at m [r]) (v_at target_pos [target_of K M r]) (q_at target_wxyz [target_of K M r]) = (p, fin3 v)) ->
  n < 6 -> ik_step_svd_t svd m target_pos target_wxyz J (reg_t reg) M lm w = Err RuntimeError.
Proof.
  intros svd m tp tq J N M K n reg lm w Sm HM Sp Sq HK SJ Sw HS H Hn.
  pose (v := fun r => match fin3_of (snd (delta_pose (m4_at m [r]) (v_at tp [target_of K M r]) (q_at tq [target_of K M r]))) with Some v => v | None => vzero end).
  destruct (errors_t m tp tq N M K v Sm HM Sp Sq HK) as (P & D & X & E & EX & SX).
  { intros r L. destruct (H r L) as (p & v0 & Er). exists p. rewrite Er. f_equal. unfold v. rewrite Er. cbn [snd]. destruct v0. reflexivity. }
  unfold ik_step_svd_t. rewrite E, EX. cbn [rbind]. rewrite (dls_svd_short svd X J reg lm w n (N * M) SX SJ Sw HS Hn). reflexivity.
Qed.
