(** The tapes of [matrix_to_quaternion] and [quaternion_angular_distance], and their gradients. *)
From Coq Require Import Reals Lra Bool Arith Lia List.
From Coquelicot Require Import Coquelicot.
From Verif Require Import Prelude ExtF Trig Lin RotModel MathModel AcosProofs GradModel SpecGrad GradProofs GradDeriv GradTapes.
Import ListNotations.
Local Open Scope R_scope.

Lemma q_abs_diag A k : q_abs A k = sqrt (Rmax (diag4 A k) 0).
Proof. destruct k as [|[|[|[|]]]]; reflexivity. Qed.
Lemma rpick_argmax f : rpick (f 0%nat) (f 1%nat) (f 2%nat) (f 3%nat) = argmax4 f.
Proof. unfold rpick, argmax4. destruct (Rltb (f 0%nat) (f 1%nat)); [destruct (Rltb (f 1%nat) (f 2%nat)) | destruct (Rltb (f 0%nat) (f 2%nat))]; reflexivity. Qed.
Lemma argmax_max f j : (j < 4)%nat -> f j <= f (argmax4 f).
Proof.
  intros H. rewrite <- rpick_argmax. pose proof (rpick_max (f 0%nat) (f 1%nat) (f 2%nat) (f 3%nat) j H) as M. pose proof (rpick_lt (f 0%nat) (f 1%nat) (f 2%nat) (f 3%nat)) as L.
  destruct (rpick _ _ _ _) as [|[|[|[|]]]]; destruct j as [|[|[|[|]]]]; cbn [sel] in M; try lia; exact M.
Qed.
Lemma argmax_lt f : (argmax4 f < 4)%nat. Proof. rewrite <- rpick_argmax. apply rpick_lt. Qed.
(** the largest root is at least one for every matrix, rotation or not *)
Lemma best_ge_1 A : 1 <= q_abs A (argmax4 (q_abs A)).
Proof.
  assert (D : exists j, (j < 4)%nat /\ 1 <= diag4 A j).
  { destruct (Rle_lt_dec 1 (diag4 A 0)) as [L0|L0]; [exists 0%nat; auto with arith|]. destruct (Rle_lt_dec 1 (diag4 A 1)) as [L1|L1]; [exists 1%nat; auto with arith|]. destruct (Rle_lt_dec 1 (diag4 A 2)) as [L2|L2]; [exists 2%nat; auto with arith|].
    exists 3%nat. split; [lia|]. unfold diag4 in *. lra. }
  destruct D as (j & Hj & D). apply Rle_trans with (q_abs A j); [|apply argmax_max, Hj]. rewrite q_abs_diag, Rmax_left by lra. rewrite <- sqrt_1. apply sqrt_le_1_alt. exact D.
Qed.
Definition live_at (i k : nat) : bool :=
  if Nat.ltb k 44 then true else if Nat.ltb k 48 then Nat.eqb (k - 44) i else if Nat.ltb k 52 then Nat.eqb (k - 48) i else if Nat.ltb k 68 then Nat.eqb (Nat.div (k - 52) 4) i else true.
Lemma m2q_tape (a b c d e f g h i : R) :
  let l := [a; b; c; d; e; f; g; h; i] in let A := mkM3 a b c d e f g h i in
  routputs tape_matrix_to_quaternion l = m2q_list l /\
  ((forall k, (k < 4)%nat -> diag4 A k <> 0) -> along tame (p_ops tape_matrix_to_quaternion) l /\
     ((forall k, (k < 4)%nat -> k <> argmax4 (q_abs A) -> q_abs A k < q_abs A (argmax4 (q_abs A))) ->
      smooth (live_at (argmax4 (q_abs A))) (p_ops tape_matrix_to_quaternion) l)).
Proof.
  cbv zeta. set (A := mkM3 a b c d e f g h i). pose proof (best_ge_1 A) as B. pose proof (argmax_lt (q_abs A)) as Li.
  open_tape tape_matrix_to_quaternion [a; b; c; d; e; f; g; h; i].
  assert (D0 : v2 = diag4 A 0) by (subst; reflexivity). assert (D1 : v5 = diag4 A 1) by (subst; reflexivity). assert (D2 : v8 = diag4 A 2) by (subst; reflexivity). assert (D3 : v11 = diag4 A 3) by (subst; reflexivity).
  assert (Q0 : v12 = q_abs A 0) by (rewrite q_abs_diag, <- D0; assumption). assert (Q1 : v13 = q_abs A 1) by (rewrite q_abs_diag, <- D1; assumption).
  assert (Q2 : v14 = q_abs A 2) by (rewrite q_abs_diag, <- D2; assumption). assert (Q3 : v15 = q_abs A 3) by (rewrite q_abs_diag, <- D3; assumption).
  assert (Pk : rpick v12 v13 v14 v15 = argmax4 (q_abs A)) by (rewrite Q0, Q1, Q2, Q3; apply rpick_argmax).
  split; [|intros N; split].
  - outs tape_matrix_to_quaternion. rewrite Env. clear Env T Sm. cbn [map nth]. rewrite Pk in *. clear D0 D1 D2 D3.
    unfold m2q_list, q_list, list_m3. cbn [nth]. unfold matrix_to_quaternion. fold A. destruct (argmax4 (q_abs A)) as [|[|[|[|]]]]; [| | | |exfalso; lia]; cbn [sel nth] in *;
      unfold quat_candidate, qscale; cbn [qw qx qy qz quat_by_rijk]; rewrite <- ?Q0, <- ?Q1, <- ?Q2, <- ?Q3; clear Q0 Q1 Q2 Q3 B Pk; cbn [A m00 m01 m02 m10 m11 m12 m20 m21 m22]; subst A; cbn [m00 m01 m02 m10 m11 m12 m20 m21 m22];
      subst; repeat (apply f_equal2; [unfold Rdiv; ring|]); reflexivity.
  - pose proof (N 0%nat ltac:(lia)) as N0. pose proof (N 1%nat ltac:(lia)) as N1. pose proof (N 2%nat ltac:(lia)) as N2. pose proof (N 3%nat ltac:(lia)) as N3. rewrite <- D0 in N0. rewrite <- D1 in N1. rewrite <- D2 in N2. rewrite <- D3 in N3.
    assert (X : forall q x e, x = Rmax q v32 -> e = v33 * x -> e <> 0). { intros q x e0 Hx He. pose proof (Rmax_r q v32). rewrite He, Hx. assert (0 < v32) by lra. assert (v33 = 2) by assumption. nra. }
    apply T; clear T Sm Env. show_ops tape_matrix_to_quaternion. each; try assumption; (eapply X; [|eassumption]; eassumption).
  - intros M. apply Sm; clear T Sm Env.
    pose proof (N 0%nat ltac:(lia)) as N0. pose proof (N 1%nat ltac:(lia)) as N1. pose proof (N 2%nat ltac:(lia)) as N2. pose proof (N 3%nat ltac:(lia)) as N3. rewrite <- D0 in N0. rewrite <- D1 in N1. rewrite <- D2 in N2. rewrite <- D3 in N3.
    assert (X : forall q x e, x = Rmax q v32 -> e = v33 * x -> e <> 0). { intros q x e0 Hx He. pose proof (Rmax_r q v32). rewrite He, Hx. assert (0 < v32) by lra. assert (v33 = 2) by assumption. nra. }
    assert (F32 : v32 = 1 / 10) by assumption.
    assert (Y : forall j, (j < 4)%nat -> j <> argmax4 (q_abs A) -> sel j v12 v13 v14 v15 < sel (argmax4 (q_abs A)) v12 v13 v14 v15).
    { intros j Hj Nj. specialize (M j Hj Nj). revert M. destruct (argmax4 (q_abs A)) as [|[|[|[|]]]]; [| | | |exfalso; lia]; destruct j as [|[|[|[|]]]]; cbn [sel]; try lia; rewrite Q0 || idtac; rewrite Q1 || idtac; rewrite Q2 || idtac; rewrite Q3 || idtac; trivial. }
    assert (Z : sel (argmax4 (q_abs A)) v12 v13 v14 v15 <> v32).
    { rewrite F32. destruct (argmax4 (q_abs A)) as [|[|[|[|]]]]; [| | | |exfalso; lia]; cbn [sel]; [rewrite Q0 | rewrite Q1 | rewrite Q2 | rewrite Q3]; lra. }
    show_ops tape_matrix_to_quaternion. rewrite Pk. clear Pk M B. clear D0 D1 D2 D3 Q0 Q1 Q2 Q3. destruct (argmax4 (q_abs A)) as [|[|[|[|]]]]; [| | | |exfalso; lia]; cbn [sel] in *.
    all: repeat match goal with |- _ /\ _ => split | |- live_at _ _ = true -> _ => let Lv := fresh in intros Lv; first [vm_compute in Lv; discriminate Lv | clear Lv] | |- True => exact I end;
      try reflexivity; try assumption; (eapply X; [|eassumption]; eassumption).
Qed.

Lemma dist_tape (close : bool) (a b c d e f g h : R) :
  let l := [a; b; c; d; e; f; g; h] in let D := a * e + b * f + c * g + d * h in
  routputs (tape_quaternion_angular_distance close) l = [if close then 0 else angle_between (pair_of l)] /\
  (-1 < D < 1 -> along tame (p_ops (tape_quaternion_angular_distance close)) l /\ (D <> 0 -> smooth (fun _ => true) (p_ops (tape_quaternion_angular_distance close)) l)).
Proof.
  cbv zeta. set (D := a * e + b * f + c * g + d * h). open_tape (tape_quaternion_angular_distance close) [a; b; c; d; e; f; g; h].
  assert (ED : v5 = D) by (subst; reflexivity). split; [|intros H].
  - outs (tape_quaternion_angular_distance close). rewrite Env. clear Env T Sm. cbn [map nth]. subst. unfold angle_between, pair_of, list_q, rclamp, qdot. cbn [nth skipn fst snd qw qx qy qz]. reflexivity.
  - clearbody D. clear E E0 E1 E2 E3 E4 E5. rewrite Rmax_left in E6 by lra. rewrite Rmin_left in E6 by lra. assert (HD : 0 < 1 - Rabs D * Rabs D).
    { assert (X : Rabs D < 1) by (apply Rabs_def1; lra). pose proof (Rabs_pos D). nra. }
    assert (Hd : 0 < v10) by (subst; exact HD). pose proof (sqrt_lt_R0 _ Hd) as Hs. assert (Hs' : v11 <> 0) by (apply Rgt_not_eq; replace v11 with (sqrt v10) by (symmetry; assumption); exact Hs).
    split; [apply T | intros N; apply Sm]; clear T Sm Env; show_ops (tape_quaternion_angular_distance close); each; try assumption; try (left; assumption); try lra.
Qed.
