(** Poses and Jacobian columns depend continuously on the joint values. *)
From Coq Require Import Reals Lra String Bool Arith Lia List.
From Coquelicot Require Import Coquelicot.
From Verif Require Import Prelude ExtF Tree ChainModel SpecFK ChainProofs Lin Trig RotModel RotBasic ChainInst Deriv JacModel JacProofs IKKernel.
Import ListNotations.
Local Open Scope R_scope.

Definition near (d : R) (v w : config (S := R)) : Prop := forall n, Rabs (v n - w n) <= d.
Definition cont (f : config (S := R) -> R) (w : config (S := R)) : Prop := forall eps, 0 < eps -> exists d, 0 < d /\ forall v, near d v w -> Rabs (f v - f w) <= eps.
Lemma near_mono d e v w : d <= e -> near d v w -> near e v w.
Proof. intros H N n. specialize (N n). lra. Qed.
Lemma near_refl d v : 0 <= d -> near d v v.
Proof. intros H n. rewrite Rminus_eq_0, Rabs_R0. exact H. Qed.

Lemma cont_const c w : cont (fun _ => c) w.
Proof. intros eps He. exists 1. split; [lra|]. intros v _. rewrite Rminus_eq_0, Rabs_R0. lra. Qed.
Lemma cont_var n w : cont (fun v => v n) w.
Proof. intros eps He. exists eps. split; [exact He|]. intros v N. apply N. Qed.
Lemma cont_add f g w : cont f w -> cont g w -> cont (fun v => f v + g v) w.
Proof.
  intros F G eps He. destruct (F (eps / 2) ltac:(lra)) as (d1 & D1 & H1). destruct (G (eps / 2) ltac:(lra)) as (d2 & D2 & H2). exists (Rmin d1 d2). split; [apply Rmin_pos; assumption|].
  intros v N. specialize (H1 v (near_mono _ _ _ _ (Rmin_l _ _) N)). specialize (H2 v (near_mono _ _ _ _ (Rmin_r _ _) N)).
  replace (f v + g v - (f w + g w)) with ((f v - f w) + (g v - g w)) by ring. eapply Rle_trans; [apply Rabs_triang|]. lra.
Qed.
Lemma cont_mul f g w : cont f w -> cont g w -> cont (fun v => f v * g v) w.
Proof.
  intros F G eps He. pose proof (Rabs_pos (f w)) as P1. pose proof (Rabs_pos (g w)) as P2.
  assert (Q1 : 0 < eps / (2 * (Rabs (g w) + 1))) by (apply Rdiv_lt_0_compat; lra). assert (Q2 : 0 < eps / (2 * (Rabs (f w) + 1))) by (apply Rdiv_lt_0_compat; lra).
  destruct (F _ Q1) as (d1 & D1 & H1). destruct (G (Rmin 1 (eps / (2 * (Rabs (f w) + 1)))) ltac:(apply Rmin_pos; lra)) as (d2 & D2 & H2). exists (Rmin d1 d2). split; [apply Rmin_pos; assumption|].
  intros v N. specialize (H1 v (near_mono _ _ _ _ (Rmin_l _ _) N)). specialize (H2 v (near_mono _ _ _ _ (Rmin_r _ _) N)).
  pose proof (Rmin_l 1 (eps / (2 * (Rabs (f w) + 1)))) as M1. pose proof (Rmin_r 1 (eps / (2 * (Rabs (f w) + 1)))) as M2.
  replace (f v * g v - f w * g w) with ((f v - f w) * g v + f w * (g v - g w)) by ring. eapply Rle_trans; [apply Rabs_triang|]. rewrite !Rabs_mult.
  assert (B1 : Rabs (g v) <= Rabs (g w) + 1).
  { replace (g v) with ((g v - g w) + g w) by ring. eapply Rle_trans; [apply Rabs_triang|]. lra. }
  assert (A1 : Rabs (f v - f w) * Rabs (g v) <= eps / (2 * (Rabs (g w) + 1)) * (Rabs (g w) + 1)) by (apply Rmult_le_compat; try apply Rabs_pos; assumption).
  assert (A2 : Rabs (f w) * Rabs (g v - g w) <= (Rabs (f w) + 1) * (eps / (2 * (Rabs (f w) + 1)))) by (apply Rmult_le_compat; try apply Rabs_pos; lra).
  replace (eps / (2 * (Rabs (g w) + 1)) * (Rabs (g w) + 1)) with (eps / 2) in A1 by (field; lra). replace ((Rabs (f w) + 1) * (eps / (2 * (Rabs (f w) + 1)))) with (eps / 2) in A2 by (field; lra). lra.
Qed.
Lemma cont_sub f g w : cont f w -> cont g w -> cont (fun v => f v - g v) w.
Proof.
  intros F G. assert (H := cont_add f (fun v => -1 * g v) w F (cont_mul (fun _ => -1) g w (cont_const _ _) G)). intros eps He. destruct (H eps He) as (d & D & K). exists d. split; [exact D|].
  intros v N. specialize (K v N). replace (f v - g v - (f w - g w)) with (f v + -1 * g v - (f w + -1 * g w)) by ring. exact K.
Qed.
Lemma cont_comp (h : R -> R) f w : continuity_pt h (f w) -> cont f w -> cont (fun v => h (f v)) w.
Proof.
  intros C F eps He. destruct (C eps He) as (a & A & H). destruct (F (a / 2) ltac:(lra)) as (d & D & K). exists d. split; [exact D|]. intros v N. specialize (K v N).
  destruct (Req_dec (f v) (f w)) as [E|E]; [rewrite E, Rminus_eq_0, Rabs_R0; lra|]. left. apply (H (f v)). split; [split; [exact I | auto]|]. unfold dist; simpl; unfold R_dist. lra.
Qed.
Lemma cont_cos n w : cont (fun v => cos (v n)) w.
Proof. apply (cont_comp cos (fun v => v n)); [apply continuity_cos | apply cont_var]. Qed.
Lemma cont_sin n w : cont (fun v => sin (v n)) w.
Proof. apply (cont_comp sin (fun v => v n)); [apply continuity_sin | apply cont_var]. Qed.
Ltac contin := repeat (first [ assumption | apply cont_const | apply cont_var | apply cont_cos | apply cont_sin
  | match goal with |- cont (fun v => @?f v + @?g v) _ => apply (cont_add f g) | |- cont (fun v => @?f v - @?g v) _ => apply (cont_sub f g) | |- cont (fun v => @?f v * @?g v) _ => apply (cont_mul f g) end ]).

(** ** matrices, entry by entry *)
Definition contM (f : config (S := R) -> M4) (w : config (S := R)) : Prop :=
  (cont (fun v => a00 (f v)) w /\ cont (fun v => a01 (f v)) w /\ cont (fun v => a02 (f v)) w /\ cont (fun v => a03 (f v)) w) /\
  (cont (fun v => a10 (f v)) w /\ cont (fun v => a11 (f v)) w /\ cont (fun v => a12 (f v)) w /\ cont (fun v => a13 (f v)) w) /\
  (cont (fun v => a20 (f v)) w /\ cont (fun v => a21 (f v)) w /\ cont (fun v => a22 (f v)) w /\ cont (fun v => a23 (f v)) w) /\
  (cont (fun v => a30 (f v)) w /\ cont (fun v => a31 (f v)) w /\ cont (fun v => a32 (f v)) w /\ cont (fun v => a33 (f v)) w).
Ltac conj16 := refine (conj (conj _ (conj _ (conj _ _))) (conj (conj _ (conj _ (conj _ _))) (conj (conj _ (conj _ (conj _ _))) (conj _ (conj _ (conj _ _)))))).
Lemma contM_const A w : contM (fun _ => A) w.
Proof. unfold contM. conj16; apply cont_const. Qed.
Lemma contM_mul f g w : contM f w -> contM g w -> contM (fun v => m4mul (f v) (g v)) w.
Proof.
  intros ((H00 & H01 & H02 & H03) & (H10 & H11 & H12 & H13) & (H20 & H21 & H22 & H23) & (H30 & H31 & H32 & H33))
    ((G00 & G01 & G02 & G03) & (G10 & G11 & G12 & G13) & (G20 & G21 & G22 & G23) & (G30 & G31 & G32 & G33)).
  unfold contM, m4mul. cbn [a00 a01 a02 a03 a10 a11 a12 a13 a20 a21 a22 a23 a30 a31 a32 a33]. conj16; contin.
Qed.
Lemma contM_rel (f : mframe) w : contM (fun v => rel_pose mops v f) w.
Proof.
  unfold rel_pose. cbn [t_mul mops]. apply contM_mul; [apply contM_const|]. unfold joint_motion. destruct (j_type (f_joint f)).
  - apply contM_const.
  - cbn [t_rev mops]. unfold axis_and_angle_to_matrix_44, axis_and_angle_to_matrix_33. unfold contM.
    cbn [a00 a01 a02 a03 a10 a11 a12 a13 a20 a21 a22 a23 a30 a31 a32 a33 m00 m01 m02 m10 m11 m12 m20 m21 m22]. conj16; contin.
  - cbn [t_pris mops]. unfold axis_and_d_to_pris_matrix, contM. cbn [a00 a01 a02 a03 a10 a11 a12 a13 a20 a21 a22 a23 a30 a31 a32 a33]. conj16; contin.
Qed.
Lemma contM_pose (fs : list mframe) w : contM (fun v => pose v fs) w.
Proof.
  induction fs as [|f s IH]; [apply (contM_const I4)|]. assert (H := contM_mul _ _ w (contM_rel f w) IH).
  assert (E : forall v, m4mul (rel_pose mops v f) (pose v s) = pose v (f :: s)) by (intros; symmetry; apply pose_cons).
  unfold contM in *. destruct H as ((H00 & H01 & H02 & H03) & (H10 & H11 & H12 & H13) & (H20 & H21 & H22 & H23) & (H30 & H31 & H32 & H33)).
  assert (X : forall h : M4 -> R, cont (fun v => h (m4mul (rel_pose mops v f) (pose v s))) w -> cont (fun v => h (pose v (f :: s))) w).
  { intros h C eps He. destruct (C eps He) as (d & D & K). exists d. split; [exact D|]. intros v N. specialize (K v N). rewrite !E in K. exact K. }
  conj16; (match goal with |- cont (fun v => ?h (pose v _)) _ => apply (X h) end); assumption.
Qed.
Lemma cont_col (fs : list mframe) pg i w : cont (fun v => six (col_of v (pose v fs) pg) i) w.
Proof.
  destruct (contM_pose fs w) as ((H00 & H01 & H02 & H03) & (H10 & H11 & H12 & H13) & (H20 & H21 & H22 & H23) & _).
  destruct (contM_pose (fst pg ++ [snd pg]) w) as ((G00 & G01 & G02 & G03) & (G10 & G11 & G12 & G13) & (G20 & G21 & G22 & G23) & _).
  unfold col_of. destruct (jtype_eqb (j_type (f_joint (snd pg))) Revolute); unfold six, vcross, vsub, m3vec, rotp, trp, vzero; cbn [fst snd vx vy vz m00 m01 m02 m10 m11 m12 m20 m21 m22];
    (do 6 (destruct i as [|i]; [contin|])); apply cont_const.
Qed.
(** finitely many continuous functions together *)
Lemma cont_all {X} (l : list X) (f : X -> config (S := R) -> R) w : (forall x, In x l -> cont (f x) w) ->
  forall eps, 0 < eps -> exists d, 0 < d /\ forall v, near d v w -> forall x, In x l -> Rabs (f x v - f x w) <= eps.
Proof.
  induction l as [|x l IH]; intros H eps He; [exists 1; split; [lra | intros v _ x []]|].
  destruct (IH (fun y Hy => H y (or_intror Hy)) eps He) as (d1 & D1 & H1). destruct (H x (or_introl eq_refl) eps He) as (d2 & D2 & H2).
  exists (Rmin d1 d2). split; [apply Rmin_pos; assumption|]. intros v N y [<-|Hy]; [apply H2 | apply H1; [|exact Hy]]; eapply near_mono; [apply Rmin_r | exact N | apply Rmin_l | exact N].
Qed.
(** all columns and the twelve pose entries *)
Lemma path_continuous (fs : list mframe) w eps : 0 < eps -> exists d, 0 < d /\ forall v, near d v w ->
  (forall pg i, In pg (mov [] fs) -> Rabs (six (col_of v (pose v fs) pg) i - six (col_of w (pose w fs) pg) i) <= eps) /\
  (forall h, In h [m00; m01; m02; m10; m11; m12; m20; m21; m22] -> Rabs (h (rotp (pose v fs)) - h (rotp (pose w fs))) <= eps) /\
  (forall h, In h [vx; vy; vz] -> Rabs (h (trp (pose v fs)) - h (trp (pose w fs))) <= eps).
Proof.
  intros He. destruct (cont_all (list_prod (mov [] fs) (seq 0 6)) (fun x v => six (col_of v (pose v fs) (fst x)) (snd x)) w) with (eps := eps) as (d1 & D1 & H1); [intros; apply cont_col | exact He|].
  destruct (cont_all [m00; m01; m02; m10; m11; m12; m20; m21; m22] (fun h v => h (rotp (pose v fs))) w) with (eps := eps) as (d2 & D2 & H2); [|exact He|].
  { destruct (contM_pose fs w) as ((H00 & H01 & H02 & H03) & (H10 & H11 & H12 & H13) & (H20 & H21 & H22 & H23) & _).
    intros h Hh. simpl in Hh. unfold rotp. repeat (destruct Hh as [<-|Hh]; [cbn [m00 m01 m02 m10 m11 m12 m20 m21 m22]; assumption|]). contradiction. }
  destruct (cont_all [vx; vy; vz] (fun h v => h (trp (pose v fs))) w) with (eps := eps) as (d3 & D3 & H3); [|exact He|].
  { destruct (contM_pose fs w) as ((H00 & H01 & H02 & H03) & (H10 & H11 & H12 & H13) & (H20 & H21 & H22 & H23) & _).
    intros h Hh. simpl in Hh. unfold trp. repeat (destruct Hh as [<-|Hh]; [cbn [vx vy vz]; assumption|]). contradiction. }
  exists (Rmin (Rmin d1 d2) d3). split; [repeat apply Rmin_pos; assumption|]. intros v N3. assert (N := near_mono _ _ _ _ (Rmin_l _ _) N3). split; [|split].
  - intros pg i Hpg. destruct (lt_dec i 6) as [L|L].
    + apply (H1 v (near_mono _ _ _ _ (Rmin_l _ _) N) (pg, i)). apply in_prod; [exact Hpg | apply in_seq; lia].
    + unfold six. do 6 (destruct i as [|i]; [lia|]). rewrite Rminus_eq_0, Rabs_R0. lra.
  - intros h Hh. apply (H2 v (near_mono _ _ _ _ (Rmin_r _ _) N) h Hh).
  - intros h Hh. apply (H3 v (near_mono _ _ _ _ (Rmin_r _ _) N3) h Hh).
Qed.
