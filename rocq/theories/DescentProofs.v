(** The step of the pseudo-inverse solver against the true pose error. *)
From Coq Require Import Reals Lra String Bool Arith Lia List ZArith FunctionalExtensionality.
From Coquelicot Require Import Coquelicot.
From Verif Require Import Prelude ExtF Tree ChainModel SpecFK ChainProofs ChainTables TreeQueries Input Widths Lin Trig RotModel RotBasic QuatProofs AxisAngle ChainInst
  FKMore ChainClamp Examples SerialModel SerialProofs SerialMore Deriv JacModel JacProofs JacMore IKModel IKProofs IKMore IKLimits IKKernel KernelProofs DeltaPose IKSolve SolveProofs SpecDescent PathDeriv AngleDeriv.
Import ListNotations.
Local Open Scope R_scope.


Lemma six_add c a b i : six (vadd (vscale c (fst a)) (fst b), vadd (vscale c (snd a)) (snd b)) i = c * six a i + six b i.
Proof. unfold six, vadd, vscale. cbn [fst snd vx vy vz]. do 6 (destruct i as [|i]; [reflexivity|]). ring. Qed.
Lemma col_sum_rows v e T L W i :
  rsum (length L) (fun j => jac_w (Some W) (map (col_of v T) L) i j * nth j (map (fun pg => e (j_name (f_joint (snd pg)))) L) 0) = W i * six (col_sum v e T L) i.
Proof.
  induction L as [|pg L IH].
  - cbn [length rsum col_sum fold_right]. unfold six, vzero. cbn [fst snd vx vy vz]. do 6 (destruct i as [|i]; [ring|]). ring.
  - cbn [length rsum]. cbn [map nth]. unfold jac_w in *. cbn [map nth].
    match goal with |- _ + ?X = _ => change X with (rsum (length L) (fun j => weigh (Some W) (nth j (map (col_of v T) L) (vzero, vzero)) i * nth j (map (fun pg => e (j_name (f_joint (snd pg)))) L) 0)) end.
    rewrite IH. cbn [col_sum fold_right]. fold (col_sum v e T L). rewrite six_add. unfold weigh. ring.
Qed.
Lemma mov_names fs : forall p, map (fun pg => j_name (f_joint (snd pg))) (mov p fs) = path_names fs.
Proof.
  intros p. unfold path_names. rewrite <- (mov_snd fs p), map_map. reflexivity.
Qed.
Lemma col_sum_path v e fs W i : (forall f, In f fs -> rigid_frame f) ->
  jv (length (path_names fs)) (jac_w (Some W) (map (col_of v (pose v fs)) (mov [] fs))) (fun j => nth j (map e (path_names fs)) 0) i =
  W i * six (twist v e fs) i.
Proof.
  intros Hr. pose proof (twist_cols v e fs [] Hr) as E. rewrite pose_nil in E. cbn [app] in E.
  assert (E1 : rotp I4 = I3) by (unfold rotp, I4, I3; reflexivity). rewrite E1, !m3vec_1 in E.
  unfold jv. rewrite <- (mov_names fs []), map_map, map_length, col_sum_rows, E. destruct (twist v e fs); reflexivity.
Qed.

Lemma derive_sq_gap f (x c a d : R) : f x = a -> is_derive f x d -> is_derive (fun t : R => (c - f t) * (c - f t)) x (- 2 * ((c - a) * d)).
Proof.
  intros Ea D. assert (K : is_derive (fun t : R => c - f t) x (- d)).
  { eapply is_derive_eq; [exact (is_derive_minus (fun _ => c) f x 0 d (is_derive_const c x) D)|]. unfold minus, plus, opp, zero; simpl. ring. }
  eapply is_derive_eq; [exact (derive_mul_eq (fun t => c - f t) (fun t => c - f t) x _ _ (c - a) (c - a) (f_equal (fun y => c - y) Ea) (f_equal (fun y => c - y) Ea) K K)|]. req. ring.
Qed.

Section Error.
Variables (v e : config (S := R)) (fs : list mframe) (target : M4) (dr : V3) (wp wr : R) (ang : R -> R).
Hypothesis (Hr : forall f, In f fs -> rigid_frame f).
Hypothesis (Hang : forall t, 0 <= ang t <= PI /\ trace3 (m3mul (rotp target) (m3tr (rotp (pose (drive v e t) fs)))) = 1 + 2 * cos (ang t)).
Hypothesis (Hdr : ang 0 = 0 \/ eps6 <= ang 0 -> vnorm dr = ang 0 /\ axis_angle_to_matrix dr = m3mul (rotp target) (m3tr (rotp (pose v fs)))).
Hypothesis (Hreg : ang 0 = 0 \/ eps6 <= ang 0 < PI).
Let J := map (col_of v (pose v fs)) (mov [] fs).
Let dx := (vsub (trp target) (trp (pose v fs)), dr).
Definition pose_err (t : R) := wp * wp * vnorm2 (vsub (trp target) (trp (pose (drive v e t) fs))) + wr * wr * (ang t * ang t).

Lemma err_derive : is_derive pose_err 0 (- 2 * dot 6 (weigh (Some (row_weights wp wr)) dx)
    (jv (length (path_names fs)) (jac_w (Some (row_weights wp wr)) J) (fun j => nth j (map e (path_names fs)) 0))).
Proof.
  assert (E0 : pose (drive v e 0) fs = pose v fs) by (apply pose_ext; intros; apply drive_0).
  pose proof (pose_drive v e fs Hr) as D. set (u := fst (twist v e fs)) in *. set (w := snd (twist v e fs)) in *.
  assert (DA : is_derive (fun t => ang t * ang t) 0 (- 2 * vdot dr w)).
  { apply (angle_derive (rotp target) (fun t => rotp (pose (drive v e t) fs)) w dr ang).
    - rewrite E0. destruct D as ((H00 & H01 & H02 & H03) & (H10 & H11 & H12 & H13) & (H20 & H21 & H22 & H23) & _).
      unfold lin4 in H00, H01, H02, H10, H11, H12, H20, H21, H22. cbn [a00 a01 a02 a10 a11 a12 a20 a21 a22] in H00, H01, H02, H10, H11, H12, H20, H21, H22.
      refine (conj (conj H00 (conj H01 H02)) (conj (conj H10 (conj H11 H12)) (conj H20 (conj H21 H22)))).
    - exact Hang.
    - rewrite E0. apply Hdr. destruct Hreg as [A|A]; [left; exact A | right; apply A].
    - exact Hreg. }
  assert (DP : is_derive (fun t => vnorm2 (vsub (trp target) (trp (pose (drive v e t) fs)))) 0 (- 2 * vdot (fst dx) u)).
  { destruct D as ((_ & _ & _ & H0) & (_ & _ & _ & H1) & (_ & _ & _ & H2) & _). unfold lin4 in H0, H1, H2. cbn [a03 a13 a23] in H0, H1, H2.
    pose proof (derive_sq_gap (fun t => a03 (pose (drive v e t) fs)) 0 (a03 target) (a03 (pose v fs)) _ (f_equal a03 E0) H0) as K0.
    pose proof (derive_sq_gap (fun t => a13 (pose (drive v e t) fs)) 0 (a13 target) (a13 (pose v fs)) _ (f_equal a13 E0) H1) as K1.
    pose proof (derive_sq_gap (fun t => a23 (pose (drive v e t) fs)) 0 (a23 target) (a23 (pose v fs)) _ (f_equal a23 E0) H2) as K2.
    pose proof (is_derive_plus _ _ 0 _ _ (is_derive_plus _ _ 0 _ _ K0 K1) K2) as K.
    eapply is_derive_ext; [|eapply is_derive_eq; [exact K|]].
    - intros t. unfold vnorm2, vdot, vsub, trp. cbn [vx vy vz]. reflexivity.
    - unfold dx, vdot, vsub, trp, plus; simpl. ring. }
  pose proof (is_derive_plus _ _ 0 _ _ (is_derive_scal _ 0 (wp * wp) _ DP) (is_derive_scal _ 0 (wr * wr) _ DA)) as K.
  eapply is_derive_eq; [exact K|]. unfold dot. rewrite (rsum_ext 6 _ (fun i => weigh (Some (row_weights wp wr)) dx i * (row_weights wp wr i * six (twist v e fs) i))).
  - cbn [rsum]. unfold weigh, row_weights, six. cbn [Nat.ltb Nat.leb]. fold u w. unfold vdot. unfold plus, scal; simpl. unfold mult; simpl. ring.
  - intros i _. unfold J. rewrite (col_sum_path v e fs _ i Hr). reflexivity.
Qed.
End Error.

(** a function with a negative derivative goes down *)
Lemma derive_neg_down f (l : R) : is_derive f 0 l -> l < 0 -> exists dl, 0 < dl /\ forall t, 0 < t < dl -> f t < f 0.
Proof.
  intros D Hl. apply is_derive_Reals in D. destruct (D (- l / 2) ltac:(lra)) as (dl & H). exists dl. split; [apply cond_pos|]. intros t [T0 T1].
  specialize (H t ltac:(lra) ltac:(rewrite Rabs_pos_eq; lra)). rewrite Rplus_0_l in H. apply Rabs_def2 in H. destruct H as [H _].
  assert (Q : (f t - f 0) / t < 0) by lra. assert (E : f t - f 0 = (f t - f 0) / t * t) by (field; lra).
  assert ((f t - f 0) / t * t < 0) by nra. lra.
Qed.
