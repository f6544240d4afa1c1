(** One iteration of the solver on tensors, on a serial chain. *)
From Coq Require Import Reals Lra String Bool Arith Lia List ZArith.
From Verif Require Import Prelude ExtF Lin Trig RotModel RotBasic QuatProofs TorchModel RotTorchModel SpecTorch SpecFkTorch TorchProofs RotTorch Tree ChainModel SpecFK ChainProofs ChainTables ChainInst Input FKMore
  SerialModel SerialProofs SerialMore Deriv JacModel JacProofs JacMore IKKernel KernelProofs DeltaPose IKModel IKSolve SolveProofs FkTorchModel FkTorch FkTorchJac FkTensFinal Examples FKFinal IkTorchModel IkTorch IkTorchStep.
Import ListNotations.
Local Open Scope nat_scope.
Local Open Scope list_scope.

Lemma tix_id N n : n < N -> tix N n = n. Proof. intros L. unfold tix. destruct (Nat.eqb_spec N 1); lia. Qed.
Lemma target_parts target N : shape target = [4; 4; N] -> exists tp tq, pos_of (Ok target) = Ok tp /\ matrix_to_quaternion_t (rot_of (Ok target)) = Ok tq /\ shape tp = [3; N] /\ shape tq = [4; N] /\
  forall k, k < N -> v_at tp [k] = trp (m4_at target [k]) /\ q_at tq [k] = matrix_to_quaternion (rotp (m4_at target [k])).
Proof.
  intros E. assert (M1t : M1 (Ok target) N (fun k => m4_at target [k])) by (exists target; auto). destruct (V1_pos _ _ _ M1t) as (tp & Ep & Sp & Hp).
  destruct (row_comp m3_at q_at [3; 3] [4] [N] _ _ matrix_to_quaternion_t matrix_to_quaternion (fun t => row_m2q t [N]) (row_rotp target [N] E)) as (tq & Eq & Sq & Hq).
  exists tp, tq. split; [exact Ep|]. split; [exact Eq|]. split; [exact Sp|]. split; [exact Sq|]. intros k L. split; [apply Hp, L | apply (Hq [k]), valid1, L].
Qed.

Section Iter.
Variables (root r : mframe) (fs : list mframe) (c0 : chain M4 V3) (en rn : string) (s : schain M4 V3).
Hypothesis (Hs : serial_init mops zax c0 en rn = Ok s).
Hypothesis (Hin : In r (preorder root)) (Hdj : distinct_joints root) (Hdf : distinct_frames root) (Hcl : clean_names root)
  (Hp : root_path r (r :: fs)) (Ht : serial_tables mops zax s r fs) (Hrig : rigid_tree root).
Let n := List.length (path_names fs).
Lemma rows_configs (rows : list (list R)) : (forall q, In q rows -> List.length q = n) -> exists vs : list (config (S := R)), rows = map (fun v => map v (path_names fs)) vs.
Proof.
  induction rows as [|q rows IH]; intros H; [exists []; reflexivity|]. destruct (row_config root r fs Hin Hdj Hp q (H q (or_introl eq_refl))) as (v & ->). destruct IH as (vs & ->); [intros; apply H; right; assumption|].
  exists (v :: vs). reflexivity.
Qed.
Lemma pik_row_form target reg lm w v : is_rot (rotp target) -> (0 < reg)%R -> (0 <= lm)%R -> exists p dr l,
  delta_pose (pose v fs) (trp target) (matrix_to_quaternion (rotp target)) = (p, fin3 dr) /\ ik_step (map (col_of v (pose v fs)) (mov [] fs)) (p, dr) reg lm w = Ok l /\
  pik_row s target reg lm w (map v (path_names fs)) = Ok (l, map (six (p, dr)) (seq 0 6)).
Proof.
  intros Hr H1 H2. destruct (m2q_spec _ Hr) as [Nq E]. destruct (delta_spec (pose v fs) (trp target) _ (pose_rot root r fs Hin Hp Hrig v) Nq) as (dr & a & Hd & _).
  destruct (ik_step_eq (map (col_of v (pose v fs)) (mov [] fs)) (vsub (trp target) (trp (pose v fs)), dr) reg lm w H1 H2) as (x & _ & Hx).
  eexists _, dr, _. split; [exact Hd|]. split; [exact Hx|]. unfold pik_row. rewrite map_length. change (mkTh (List.length (path_names fs)) [map v (path_names fs)]) with (path_tensor fs [v]).
  rewrite (jacobian_tensor_eq root r fs s [v] Hin Hdj Hdf Hcl Hp Ht). cbn [rbind map]. rewrite Hd, fin3_of_fin. cbn [of_opt rbind]. rewrite Hx. reflexivity.
Qed.

Variables (static axes dof_axes target q : tensor R) (N M : nat) (reg lm : R) (w : option (tensor R)) (junk : list nat -> R).
Hypothesis (H1 : holds_m4 static (c_static (s_chain s))) (H2 : holds_v3 axes (c_axes (s_chain s))) (H3 : holds_v3 dof_axes (s_dof_axes s)).
Hypothesis (St : shape target = [4; 4; N]) (Sq : shape q = [n; N * M]) (HN : 0 < N) (HM : 0 < M) (Sw : forall t, w = Some t -> shape t = [6]).
Hypothesis (Hreg : (0 < reg)%R) (Hlm : (0 <= lm)%R) (Htg : forall k, k < N -> is_rot (rotp (m4_at target [k]))).
Let wk : option (nat -> R) := option_map (fun t i => at_ t [i]) w.
Theorem iteration_rows : exists dq dx, ik_iteration_t junk s static axes dof_axes target q M reg lm w = Ok (dq, dx) /\ shape dq = [1; n; N * M] /\ shape dx = [1; 6; N * M] /\
  forall k, k < N * M -> pik_row s (m4_at target [k / M]) reg lm wk (map (fun j => at_ q [j; k]) (seq 0 n)) =
    Ok (map (fun j => at_ dq [0; j; k]) (seq 0 n), map (fun i => at_ dx [0; i; k]) (seq 0 6)).
Proof.
  destruct (target_parts target N St) as (tp & tq & Ep & Eq & Sp & Sqt & Htp). set (B := N * M) in *. assert (HB : 0 < B) by (unfold B; lia).
  destruct (rows_configs (th_rows (rows_of q n B))) as (vs & Evs); [apply rows_ok|].
  assert (EP : rows_of q n B = path_tensor fs vs). { exact (f_equal (mkTh n) Evs). }
  assert (Lv : List.length vs = B). { pose proof (f_equal (@List.length _) Evs) as G. rewrite map_length, rows_len in G. symmetry. exact G. }
  pose proof (jacobian_tensor_eq root r fs s vs Hin Hdj Hdf Hcl Hp Ht) as EJ. rewrite <- EP in EJ.
  destruct (l90_jacobian_is_rowwise c0 en rn s static axes dof_axes q n B junk _ _ Hs H1 H2 H3 Sq (or_introl HB) EJ) as (J & m & Ejm & SJ & Sm & _ & _ & HJ & Hm).
  assert (Lm : List.length (mov [] fs) = n). { rewrite <- (map_length snd), mov_snd. unfold n, path_names. rewrite map_length. reflexivity. }
  assert (Li : List.length (s_dof_idx s) = n).
  { destruct Ht as (_ & _ & _ & _ & HF & _). apply f2_ln in HF. rewrite <- HF. unfold n, path_names. rewrite map_length. reflexivity. }
  rewrite Li in SJ.
  assert (Hrow : forall k, k < B -> exists v, map (fun j => at_ q [j; k]) (seq 0 n) = map v (path_names fs) /\ m4_at m [k] = pose v fs /\ map (col_at J k) (seq 0 n) = map (col_of v (pose v fs)) (mov [] fs)).
  { intros k L. destruct (nth_error vs k) as [v|] eqn:Ev; [|apply nth_error_None in Ev; lia]. exists v. split; [|split].
    - assert (A : nth_error (th_rows (rows_of q n B)) k = Some (map v (path_names fs))) by (rewrite Evs; apply (map_nth_error (fun v => map v (path_names fs)) k vs Ev)).
      unfold rows_of in A. cbn [th_rows] in A. apply table_nth in A as (_ & A). symmetry. exact A.
    - apply Hm. apply (map_nth_error (fun v => pose v fs) k vs Ev).
    - pose proof (map_nth_error (fun v => map (col_of v (pose v fs)) (mov [] fs)) k vs Ev) as A. specialize (HJ k). 
      apply nth_ext with (d := (vzero, vzero)) (d' := (vzero, vzero)); [rewrite !map_length, seq_length; symmetry; exact Lm|]. intros j Lj. rewrite map_length, seq_length in Lj.
      rewrite (nth_indep _ _ (col_at J k 0)) by (rewrite map_length, seq_length; exact Lj). rewrite map_nth, seq_nth by exact Lj. cbn [Nat.add]. apply (HJ j _ _ A). apply nth_error_nth'. rewrite map_length, Lm. exact Lj. }
  assert (Hk : forall k, k < B -> tix N (k / M) = k / M /\ k / M < N). { intros k L. destruct (row_parts N M k L) as (_ & L2 & _). split; [apply tix_id|]; exact L2. }
  destruct (step_rows m tp tq J N M N n reg lm w Sm HM Sp Sqt (or_introl eq_refl) SJ Sw) as (dq & dx & Es & Sdq & Sdx & Hrows).
  { intros k L. destruct (Hrow k L) as (v & _ & -> & ->). destruct (Hk k L) as (-> & Lk). destruct (Htp _ Lk) as (-> & ->).
    destruct (pik_row_form (m4_at target [k / M]) reg lm wk v (Htg _ Lk) Hreg Hlm) as (p & dr & l & A & C & _). exists p, dr, l. split; [exact A | exact C]. }
  exists dq, dx. unfold ik_iteration_t. rewrite Ep. cbn [rbind]. rewrite Eq. cbn [rbind]. rewrite Ejm. cbn [rbind]. split; [exact Es|]. split; [exact Sdq|]. split; [exact Sdx|].
  intros k L. destruct (Hrow k L) as (v & Ev & Em & EJr). destruct (Hk k L) as (Et & Lk). destruct (Htp _ Lk) as (E1 & E2).
  destruct (pik_row_form (m4_at target [k / M]) reg lm wk v (Htg _ Lk) Hreg Hlm) as (p & dr & l & A & C & D). rewrite Ev, D. specialize (Hrows k p dr l L). rewrite Em, Et, E1, E2, EJr in Hrows. destruct (Hrows A C) as (G1 & G2).
  rewrite G2. f_equal. f_equal. rewrite <- G1. apply map_ext_in. intros i Hi. apply in_seq in Hi. apply six_col. lia.
Qed.
End Iter.
