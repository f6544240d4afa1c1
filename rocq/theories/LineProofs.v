(** The line search on a serial chain: the errors it compares and the steps it returns. *)
From Coq Require Import Reals Lra String Bool Arith Lia List ZArith FunctionalExtensionality.
From Coquelicot Require Import Coquelicot.
From Verif Require Import Prelude ExtF Tree ChainModel SpecFK ChainProofs ChainTables TreeQueries Input Widths Lin Trig RotModel RotBasic QuatProofs AxisAngle ChainInst
  FKMore ChainClamp Examples SerialModel SerialProofs SerialMore Deriv JacModel JacProofs JacMore IKModel IKProofs IKMore IKLimits IKFinal IKKernel KernelProofs DeltaPose IKSolve SolveProofs
  SpecDescent PathDeriv AngleDeriv DescentProofs DescFinal LineModel.
Import ListNotations.
Local Open Scope string_scope.
Local Open Scope list_scope.
Local Open Scope R_scope.

(** ** norms *)
Lemma norm_six p d : fnorm (map Fin (map (six (p, d)) (seq 0 6))) = Fin (sqrt (vnorm2 p + vnorm2 d)).
Proof.
  cbn [seq map]. unfold six. cbn [fst snd]. unfold fnorm. cbn [map fmul fsum fold_right fadd fsqrt].
  match goal with |- context [Rltb ?a 0] => replace a with (vnorm2 p + vnorm2 d) by (unfold vnorm2, vdot; ring) end.
  unfold Rltb. destruct (Rlt_dec (vnorm2 p + vnorm2 d) 0) as [L|L]; [exfalso; pose proof (vnorm2_nonneg p); pose proof (vnorm2_nonneg d); lra | reflexivity].
Qed.
Lemma norm_not_less l e (u : R) : e <= u -> flt (Fin u) (fsub (Fin e) (fnorm l)) = false.
Proof.
  intros H. unfold fnorm. destruct (fsum (map (fun x : F => fmul x x) l)) as [x| | |]; cbn [fsqrt]; try reflexivity.
  destruct (Rltb x 0); [reflexivity|]. unfold fsub. cbn [fopp fadd flt]. apply Rltb_false. pose proof (sqrt_pos x). lra.
Qed.
Lemma line_err_not_less s target q e (u : R) : e <= u -> flt (Fin u) (fsub (Fin e) (line_err s target q)) = false.
Proof.
  intros H. unfold line_err. destruct (fin_row_of q) as [row|]; [|reflexivity]. destruct (Nat.eqb _ _); [|reflexivity].
  destruct (rbind _ _) as [ms|]; [|reflexivity]. destruct ms as [|m [|]]; try reflexivity. destruct (delta_pose m (trp target) (matrix_to_quaternion (rotp target))) as [dp dr]. apply norm_not_less. exact H.
Qed.

(** ** which power of the factor is returned *)
Lemma search_row s targets ls nr (n : nat) (q dq dx : list (list F)) rem i :
  length q = n -> length dq = n -> length dx = n -> (i < n)%nat ->
  let progress := fun j : nat => flt (Fin (ls_suff ls)) (fsub (fnorm (nth i dx [])) (line_err s (targets (i / nr)%nat) (step_row (Fin (ls_lr ls * ls_factor ls ^ j)) (nth i q []) (nth i dq [])))) = true in
  exists j, nth_error (line_search s targets ls nr q dq dx rem) i = Some (Fin (ls_lr ls * ls_factor ls ^ j)) /\ (j <= ls_iter ls)%nat /\
  (nth (i / nr) rem false = true -> (forall l, (l < j)%nat -> ~ progress l) /\ ((j < ls_iter ls)%nat -> progress j)).
Proof.
  intros L1 L2 L3 Hi progress.
  destruct (l46_line_search (fun i => line_err s (targets (i / nr)%nat)) ls nr n (fun i => nth i q []) (fun i => nth i dq []) (fun i => nth i dx []) rem) as (m & rows & E & L & Hm & H).
  destruct (H i Hi) as (row & j & Hrow & Hlr & Hj & N1 & N2 & N3). exists j.
  assert (V : forall l : list (list F), length l = n -> map (fun i => nth i l []) (seq 0 n) = l) by (intros l Hl; rewrite <- Hl; symmetry; exact (vec_of l [])).
  rewrite !V in E by assumption. unfold line_search. rewrite E. split; [rewrite nth_error_map, Hrow; cbn [option_map]; rewrite Hlr; reflexivity|]. split; [lia|]. intros Hr. split; [exact N1|].
  intros Hl. destruct (lt_dec j m) as [D|D]; [apply N2; exact D | apply N3; [lia | exact Hr]].
Qed.
Lemma line_length s targets ls nr q dq dx rem : length dq = length q -> length dx = length q -> length (line_search s targets ls nr q dq dx rem) = length q.
Proof.
  intros L2 L3. destruct (l46_line_search (fun i => line_err s (targets (i / nr)%nat)) ls nr (length q) (fun i => nth i q []) (fun i => nth i dq []) (fun i => nth i dx []) rem) as (m & rows & E & L & _).
  assert (V : forall l : list (list F), length l = length q -> map (fun i => nth i l []) (seq 0 (length q)) = l) by (intros l Hl; rewrite <- Hl; symmetry; exact (vec_of l [])).
  rewrite !V in E by congruence. unfold line_search. rewrite E, map_length. exact L.
Qed.

Lemma step_drive lr (v d : config (S := R)) l : step_row (Fin lr) (map Fin (map v l)) (map Fin (map d l)) = map Fin (map (drive v d lr) l).
Proof. induction l as [|x l IH]; [reflexivity|]. unfold step_row in *. cbn [map zip_with2]. rewrite IH. reflexivity. Qed.

(** ** the error of a row of the chain *)
Section Path.
Variables (root r : mframe) (fs : list mframe) (s : schain M4 V3).
Hypothesis (Hin : In r (preorder root)) (Hdj : distinct_joints root) (Hdf : distinct_frames root) (Hcl : clean_names root)
  (Hp : root_path r (r :: fs)) (Ht : serial_tables mops zax s r fs) (Hrig : rigid_tree root).

Lemma line_err_pose target v : is_rot (rotp target) -> exists dr,
  delta_pose (pose v fs) (trp target) (matrix_to_quaternion (rotp target)) = (vsub (trp target) (trp (pose v fs)), fin3 dr) /\
  line_err s target (map Fin (map v (path_names fs))) = Fin (sqrt (vnorm2 (vsub (trp target) (trp (pose v fs))) + vnorm2 dr)) /\
  (forall a, angle_between target (pose v fs) a -> a <= vnorm dr <= a + a ^ 5 / 960 /\ (a = 0 \/ eps6 <= a -> vnorm dr = a)).
Proof.
  intros Hr. destruct (m2q_spec _ Hr) as [N E].
  destruct (delta_spec (pose v fs) (trp target) _ (pose_rot root r fs Hin Hp Hrig v) N) as (dr & a & Hd & Ha & Htr & Hn & Hx & _). rewrite E in Htr. exists dr. split; [exact Hd|]. split.
  - unfold line_err. rewrite (proj2 (fin_row_of_some _ _) eq_refl), map_length, (path_chain_names r fs s Ht), Nat.eqb_refl.
    change (mkTh (length (path_names fs)) [map v (path_names fs)]) with (path_tensor fs [v]).
    destruct (serial_slots root r fs s [v] Hin Hdj Hdf Hcl Hp Ht) as (arr & Ha1 & Ha2 & _). rewrite Ha1. cbn [rbind]. rewrite Ha2. cbn [map]. rewrite Hd.
    rewrite <- norm_six. destruct dr. reflexivity.
  - intros b Hb. assert (Eb : b = a) by (eapply angle_unique; [exact Hb|split; [exact Ha|exact Htr]]). subst b. split; [exact Hn|]. intros Hc. apply Hx. exact Hc.
Qed.

(** ** the angle along a line of configurations *)
Lemma angle_line target v e ang : is_rot (rotp target) -> (forall t, angle_between target (pose (drive v e t) fs) (ang t)) -> ang 0 = 0 \/ eps6 <= ang 0 < PI ->
  exists l, is_derive (fun t : R => ang t * ang t) 0 l /\ (ang 0 = 0 -> l = 0).
Proof.
  intros Hr Hm Hw. destruct (row_step root r fs s target v 1 0 0 1 Hin Hdj Hdf Hcl Hp Ht Hrig Hr ltac:(lra) ltac:(lra)) as (dr & x & _ & _ & Ha).
  assert (E0 : pose (drive v e 0) fs = pose v fs) by (apply pose_ext; intros; apply drive_0). pose proof (Hm 0) as H0. rewrite E0 in H0.
  pose proof (err_derive v e fs target dr 0 1 ang (rigid_path root r fs Hrig Hin Hp) Hm (fun H => Ha _ H0 H) Hw) as D. eexists. split.
  - eapply is_derive_ext; [|exact D]. intros t. unfold pose_err. cbv beta. req. ring.
  - intros Z. destruct (Ha _ H0 (or_introl Z)) as [Hn _]. rewrite Z in Hn. apply vnorm_zero_iff in Hn. subst dr.
    unfold dot. rewrite (rsum_ext 6 _ (fun _ => 0)); [rewrite rsum_0; req; ring|]. intros i Hi. unfold weigh, row_weights, six, vzero. cbn [fst snd vx vy vz].
    do 6 (destruct i as [|i]; [cbn [Nat.ltb Nat.leb]; ring|]). lia.
Qed.
End Path.

Lemma derive_keeps_above f (l b : R) : is_derive f 0 l -> b < f 0 -> exists dl, 0 < dl /\ forall t, 0 < t < dl -> b < f t.
Proof.
  intros D H. assert (C : continuous f 0) by (apply ex_derive_continuous; exists l; exact D).
  specialize (C (fun y => b < y)). destruct C as (ep & Hep); [exists (mkposreal (f 0 - b) ltac:(lra)); intros y Hy; unfold ball in Hy; simpl in Hy; unfold AbsRing_ball, abs, minus, plus, opp in Hy; simpl in Hy; apply Rabs_def2 in Hy; lra|].
  exists ep. split; [apply cond_pos|]. intros t Ht. apply Hep. unfold ball; simpl. unfold AbsRing_ball, abs, minus, plus, opp; simpl. rewrite Ropp_0, Rplus_0_r, Rabs_pos_eq by lra. lra.
Qed.
Lemma powers_small (lr f dl : R) : 0 < lr -> 0 < f < 1 -> 0 < dl -> exists K, forall j, (K <= j)%nat -> 0 < lr * f ^ j < dl.
Proof.
  intros Hl Hf Hd. destruct (pow_lt_1_zero f ltac:(rewrite Rabs_pos_eq; lra) (dl / lr) ltac:(apply Rdiv_lt_0_compat; lra)) as (K & HK). exists K. intros j Hj. specialize (HK j Hj).
  assert (P : 0 < f ^ j) by (apply pow_lt; lra). rewrite Rabs_pos_eq in HK by lra. split; [apply Rmult_lt_0_compat; lra|].
  assert (lr * f ^ j < lr * (dl / lr)) by (apply Rmult_lt_compat_l; lra). replace (lr * (dl / lr)) with dl in * by (field; lra). lra.
Qed.
