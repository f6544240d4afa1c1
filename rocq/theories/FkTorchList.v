(** The Jacobian of [JacModel] on tables of matrices: every entry is the column that the tensor program computes. *)
From Coq Require Import Reals Lra String Bool Arith Lia List.
From Verif Require Import Prelude ExtF Lin Trig RotModel TorchModel RotTorchModel SpecTorch SpecFkTorch TorchProofs RotTorch Tree ChainModel SpecFK ChainProofs ChainInst Input SerialModel JacModel JacProofs FkTorchModel FkTorch FkTorchChain FkTorchBack FkTorchJac.
Import ListNotations.
Local Open Scope nat_scope.

Definition tb {X} (n B : nat) (f : nat -> nat -> X) : list (list X) := map (fun j => map (f j) (seq 0 B)) (seq 0 n).
Lemma tb_ext {X} n B (f g : nat -> nat -> X) : (forall j b, j < n -> b < B -> f j b = g j b) -> tb n B f = tb n B g.
Proof. intros H. unfold tb. apply map_ext_in. intros j Ij. apply map_ext_in. intros b Ib. apply in_seq in Ij, Ib. apply H; lia. Qed.
Lemma tb_zip {X Y Z} (h : X -> Y -> Z) n B f g : zip_with (zip_with h) (tb n B f) (tb n B g) = tb n B (fun j b => h (f j b) (g j b)).
Proof. unfold tb. rewrite zip_tab. apply map_ext. intros j. apply zip_tab. Qed.
Lemma tb_map {X Y} (h : X -> Y) n B f : map (map h) (tb n B f) = tb n B (fun j b => h (f j b)).
Proof. unfold tb. rewrite map_map. apply map_ext. intros j. apply map_map. Qed.
Lemma tb_row {X Y Z} (h : X -> Y -> Z) n B f g : map (fun l => zip_with h (map g (seq 0 B)) l) (tb n B f) = tb n B (fun j b => h (g b) (f j b)).
Proof. unfold tb. rewrite map_map. apply map_ext. intros j. apply zip_tab. Qed.
Lemma tb_row_r {X Y Z} (h : X -> Y -> Z) n B f g : map (fun l => zip_with h l (map g (seq 0 B))) (tb n B f) = tb n B (fun j b => h (f j b) (g b)).
Proof. unfold tb. rewrite map_map. apply map_ext. intros j. apply zip_tab. Qed.
Lemma tb_where {X} (l : list nat) (p : nat -> bool) n B (f g : nat -> nat -> X) : length l = n -> where_dof (map p l) (tb n B f) (tb n B g) = tb n B (fun j b => if p (nth j l 0) then f j b else g j b).
Proof.
  intros L. rewrite (list_tab' l 0 n L) at 1. rewrite map_map. unfold tb. rewrite where_dof_map. apply map_ext. intros j. destruct (p (nth j l 0)); reflexivity.
Qed.
Lemma tb_axes n B W (ax : list V3) : length ax = n -> world_axes (tb n B W) ax = tb n B (fun j b => m3vec (rotp (W j b)) (nth j ax vzero)).
Proof. intros L. unfold world_axes. rewrite (list_tab' ax vzero n L) at 1. unfold tb. rewrite zip_tab. apply map_ext. intros j. apply map_map. Qed.
Lemma tb_major {X} n B (f : nat -> nat -> X) : batch_major B (tb n B f) = Ok (map (fun b => map (fun j => f j b) (seq 0 n)) (seq 0 B)).
Proof. unfold tb. pose proof (batch_major_map (seq 0 B) (seq 0 n) f) as Q. rewrite seq_length in Q. exact Q. Qed.

Definition Tm (ms : list M4) (k : nat) : M4 := nth k ms I4.
Section Rows.
Variables (nf B : nat) (arr : list (option (list M4))) (W : nat -> nat -> M4).
Hypothesis A : agrees nf B arr W.
Lemma slot_tab f w : read_slot arr f = Ok w -> w = map (W f) (seq 0 B) /\ f < nf.
Proof.
  destruct A as [La HA]. unfold read_slot, get. destruct (nth_error arr f) as [[ws|]|] eqn:E; cbn [rbind of_opt]; intros H; try discriminate. injection H as <-. split; [exact (HA f ws E)|].
  rewrite <- La. apply nth_error_Some. congruence.
Qed.
Lemma slots_tab idx ws : rmap (read_slot arr) idx = Ok ws -> ws = tb (length idx) B (fun j => W (nth j idx 0)) /\ Forall (fun k => k < nf) idx.
Proof.
  intros H. assert (Q : ws = map (fun k => map (W k) (seq 0 B)) idx /\ Forall (fun k => k < nf) idx).
  { revert ws H. induction idx as [|k idx IH]; intros ws; cbn [rmap map]; [intros H; injection H as <-; auto|]. destruct (read_slot arr k) as [w|] eqn:E; cbn [rbind]; [|discriminate]. destruct (slot_tab _ _ E) as [-> Lk].
    destruct (rmap (read_slot arr) idx) as [l|]; cbn [rbind]; [|discriminate]. destruct (IH l eq_refl) as [-> F]. intros H. injection H as <-. auto. }
  destruct Q as [-> F]. split; [|exact F]. rewrite (list_tab' idx 0 _ eq_refl) at 1. rewrite map_map. reflexivity.
Qed.
Variable s : schain M4 V3.
Hypothesis (Lax : length (s_dof_axes s) = length (s_dof_idx s)) (Lty : length (s_dof_types s) = length (s_dof_idx s)).
Lemma jac_list Js Ts : jacobian_from s arr = Ok (Js, Ts) ->
  s_eef s < nf /\ Forall (fun k => k < nf) (s_dof_idx s) /\ rmap (read_slot arr) (s_dof_idx s) = Ok (tb (length (s_dof_idx s)) B (fun j => W (nth j (s_dof_idx s) 0))) /\ Ts = map (W (s_eef s)) (seq 0 B) /\
  Js = map (fun b => map (fun j => jac_cell (s_dof_axes s) (s_eef s) (s_dof_idx s) (s_dof_types s) W j b) (seq 0 (length (s_dof_idx s)))) (seq 0 B).
Proof.
  unfold jacobian_from. cbv zeta. destruct (read_slot arr (s_eef s)) as [Te|] eqn:E; cbn [rbind]; [|discriminate]. destruct (slot_tab _ _ E) as [-> Le].
  destruct (rmap (read_slot arr) (s_dof_idx s)) as [Td|] eqn:Ed; cbn [rbind]; [|discriminate]. destruct (slots_tab _ _ Ed) as [-> Fi].
  rewrite tb_axes by exact Lax. rewrite tb_map, map_map, tb_row, tb_zip, tb_map, !tb_where, tb_zip by exact Lty. rewrite map_length, seq_length, tb_major. cbn [rbind]. intros H.
  assert (E1 : Js = map (fun b => map (fun j => jac_cell (s_dof_axes s) (s_eef s) (s_dof_idx s) (s_dof_types s) W j b) (seq 0 (length (s_dof_idx s)))) (seq 0 B)).
  { apply (f_equal (fun r => match r with Ok p => fst p | Err _ => [] end)) in H. cbn [fst] in H. rewrite <- H. apply map_ext. intros b. apply map_ext. intros j. unfold jac_cell, zc. cbv zeta. destruct (Nat.eqb 1 (nth j (s_dof_types s) 0)); reflexivity. }
  apply (f_equal (fun r => match r with Ok p => snd p | Err _ => [] end)) in H. cbn [snd] in H. auto 10.
Qed.
(** with a tool *)
Variables (th : thT R) (i : input R) (ms : list M4).
Hypothesis (Hi : jac_input i = Ok th) (Ha : forward_kinematics_tensor mops (s_chain s) th = Ok arr).
Lemma tool_list Js Ts : jacobian_from s arr = Ok (Js, Ts) -> length ms = B \/ length ms = 1 ->
  jacobian s i (Some (ToolT ms)) = Ok (map (fun b => map (fun j => tool_cell (s_dof_axes s) (s_eef s) (s_dof_idx s) (s_dof_types s) W (length ms) (Tm ms) j b) (seq 0 (length (s_dof_idx s)))) (seq 0 B),
    map (fun b => m4mul (W (s_eef s) b) (Tm ms (tk (length ms) b))) (seq 0 B)).
Proof.
  intros HJ HN. destruct (jac_list _ _ HJ) as (Le & Fi & Ed & -> & EJ). unfold jacobian. rewrite Hi. cbn [rbind]. rewrite Ha. cbn [rbind]. rewrite HJ. cbn [rbind tool_matrix].
  assert (EM : bmatmul (map (W (s_eef s)) (seq 0 B)) ms = Ok (map (fun b => m4mul (W (s_eef s) b) (Tm ms (tk (length ms) b))) (seq 0 B))).
  { unfold bmatmul. rewrite map_length, seq_length. destruct (Nat.eqb B (length ms)) eqn:Q.
    - apply Nat.eqb_eq in Q. rewrite (list_tab' ms I4 B (eq_sym Q)) at 1. rewrite zip_tab. f_equal. apply map_ext_in. intros b I. apply in_seq in I. unfold Tm, tk. rewrite one_or by lia. reflexivity.
    - apply Nat.eqb_neq in Q. destruct HN as [HN|HN]; [congruence|]. destruct ms as [|m [|m' r]]; try discriminate HN. rewrite map_map. reflexivity. }
  rewrite EM. cbn [rbind]. rewrite Ed. cbn [rbind]. rewrite !map_map, tb_axes by exact Lax.
  assert (EB : bsub (map (fun b => trp (m4mul (W (s_eef s) b) (Tm ms (tk (length ms) b)))) (seq 0 B)) (map (fun b => trp (W (s_eef s) b)) (seq 0 B)) =
    map (fun b => vsub (trp (m4mul (W (s_eef s) b) (Tm ms (tk (length ms) b)))) (trp (W (s_eef s) b))) (seq 0 B)) by (unfold bsub; rewrite !map_length, Nat.eqb_refl; apply zip_tab).
  rewrite EB. unfold expand_batch. rewrite !map_length, seq_length, Nat.eqb_refl. cbn [rbind]. rewrite tb_row_r, tb_map, tb_where by exact Lty. rewrite tb_major. cbn [rbind]. rewrite EJ, zip_tab.
  match goal with |- Ok (?a, ?b) = Ok (?c, ?d) => assert (Q : a = c); [|rewrite Q; reflexivity] end.
  apply map_ext. intros b. rewrite zip_tab. apply map_ext. intros j. unfold tool_cell, zc. cbv zeta. destruct (Nat.eqb 1 (nth j (s_dof_types s) 0)); reflexivity.
Qed.
Lemma tool_list_bad Js Ts : jacobian_from s arr = Ok (Js, Ts) -> length ms <> B -> length ms <> 1 -> jacobian s i (Some (ToolT ms)) = Err RuntimeError.
Proof.
  intros HJ H1 H2. destruct (jac_list _ _ HJ) as (Le & Fi & Ed & -> & EJ). unfold jacobian. rewrite Hi. cbn [rbind]. rewrite Ha. cbn [rbind]. rewrite HJ. cbn [rbind tool_matrix].
  unfold bmatmul. rewrite map_length, seq_length. rewrite (proj2 (Nat.eqb_neq B (length ms))) by congruence. 
  assert (K : (exists a, map (W (s_eef s)) (seq 0 B) = [a] /\ B = 1) \/ (match map (W (s_eef s)) (seq 0 B) with [a] => Ok (map (m4mul a) ms) | _ => Err RuntimeError end = Err RuntimeError)).
  { clear. destruct B as [|[|n]]; [right; reflexivity | left; eexists; split; reflexivity | right; reflexivity]. }
  destruct K as [(a & Ea & EB) | K].
  - rewrite Ea. destruct ms as [|m [|m' r]]; [| cbn in H2; congruence |].
    + cbn [map rbind]. rewrite Ed. cbn [rbind]. rewrite tb_axes by exact Lax. match goal with |- context [expand_batch B ?d] => assert (Q : expand_batch B d = Err RuntimeError) by (rewrite EB; reflexivity); rewrite Q end. reflexivity.
    + cbn [rbind]. rewrite Ed. cbn [rbind]. rewrite tb_axes by exact Lax. match goal with |- context [expand_batch B ?d] => assert (Q : expand_batch B d = Err RuntimeError) by (rewrite EB; reflexivity); rewrite Q end. reflexivity.
  - destruct ms as [|m [|m' r]]; [| cbn in H2; congruence |]; rewrite K; reflexivity.
Qed.
End Rows.
