(** The solver on a serial chain. *)
From Coq Require Import Reals Lra String Bool Arith Lia List ZArith.
From Verif Require Import Prelude ExtF Tree ChainModel SpecFK ChainProofs ChainTables TreeQueries Input Widths Lin Trig RotModel RotBasic QuatProofs AxisAngle ChainInst
  FKMore ChainClamp SerialModel SerialProofs SerialMore Deriv JacModel JacProofs JacMore IKModel IKProofs IKMore IKLimits IKKernel KernelProofs DeltaPose IKSolve FKFinal Examples.
Import ListNotations.
Local Open Scope nat_scope.
Local Open Scope string_scope.
Local Open Scope list_scope.

Lemma fin_row_of_some l row : fin_row_of l = Some row <-> l = map Fin row.
Proof.
  revert row. induction l as [|x l IH]; intros row; cbn [fin_row_of].
  - split; [intros H; destruct row; [reflexivity | discriminate H] | destruct row; [reflexivity | discriminate]].
  - assert (HX : forall X (a b : X), Some a = Some b -> a = b) by (intros; congruence). split.
    + destruct x as [x| | |]; try discriminate. destruct (fin_row_of l) as [r'|] eqn:E; [|discriminate]. intros H. apply HX in H. subst row. cbn [map]. rewrite (proj1 (IH r') eq_refl). reflexivity.
    + destruct row as [|y row]; [discriminate|]. cbn [map]. intros H. assert (E1 : x = Fin y) by congruence. assert (E2 : l = map Fin row) by congruence. subst x.
      rewrite (proj2 (IH row) E2). reflexivity.
Qed.
Lemma fin3_of_fin v : fin3_of (fin3 v) = Some v. Proof. destruct v. reflexivity. Qed.

Section Serial.
Variables (root r : mframe) (fs : list mframe) (s : schain M4 V3).
Hypothesis (Hin : In r (preorder root)) (Hdj : distinct_joints root) (Hdf : distinct_frames root) (Hcl : clean_names root)
  (Hp : root_path r (r :: fs)) (Ht : serial_tables mops zax s r fs) (Hrig : rigid_tree root).

Lemma row_config (row : list R) : length row = length (path_names fs) -> exists v : config (S := R), row = map v (path_names fs).
Proof.
  intros Hl. destruct (tensor_configs 0%R (sroot zax r fs) [row] (serial_moving zax r fs root Hin Hdj Hp)) as (vs & E & L).
  - intros q [<-|[]]. rewrite sroot_moving_names. exact Hl.
  - destruct vs as [|v [|]]; try discriminate L. exists v. unfold config_tensor in E. rewrite sroot_moving_names in E. apply (f_equal (@th_rows R)) in E. cbn [th_rows map] in E.
    assert (HX : forall X (a b : X), [a] = [b] -> a = b) by (intros; congruence). apply HX in E. exact E.
Qed.
Lemma pose_rot v : is_rot (rotp (pose v fs)).
Proof. apply (pose_rigid_in v fs root Hrig). intros f Hf. eapply sub_preorder; [exact Hin|]. apply (path_incl r _ Hp). right; exact Hf. Qed.
Lemma norm3 a b c : fnorm [Fin a; Fin b; Fin c] = Fin (vnorm (mkV3 a b c)).
Proof.
  unfold fnorm. cbn [map fmul fsum fold_right fadd fsqrt]. replace (a * a + (b * b + (c * c + 0)))%R with (vnorm2 (mkV3 a b c)) by (lin_simpl; ring).
  unfold Rltb. destruct (Rlt_dec _ 0) as [L|L]; [|reflexivity]. exfalso. pose proof (vnorm2_nonneg (mkV3 a b c)). lra.
Qed.
Variables (targets : nat -> M4) (reg lm : R) (w : option (nat -> R)).
Hypothesis (Hreg : (0 < reg)%R) (Hlm : (0 <= lm)%R) (Htg : forall p, is_rot (rotp (targets p))).

Lemma pik_row_eq target v : is_rot (rotp target) -> exists dr a dq,
  pik_row s target reg lm w (map v (path_names fs)) = Ok (dq, map (six (vsub (trp target) (trp (pose v fs)), dr)) (seq 0 6)) /\ length dq = length (path_names fs) /\
  (0 <= a <= PI)%R /\ trace3 (m3mul (rotp target) (m3tr (rotp (pose v fs)))) = (1 + 2 * cos a)%R /\ (a <= vnorm dr <= a + a ^ 5 / 960)%R.
Proof.
  intros Hr. destruct (m2q_spec _ Hr) as [N E]. destruct (delta_spec (pose v fs) (trp target) _ (pose_rot v) N) as (dr & a & Hd & Ha & Htr & Hn & _ & Hz).
  rewrite E in Htr, Hz. destruct (ik_step_eq (map (col_of v (pose v fs)) (mov [] fs)) (vsub (trp target) (trp (pose v fs)), dr) reg lm w Hreg Hlm) as (x & _ & Hs).
  exists dr, a. eexists. split; [|split; [|split; [exact Ha|split; [exact Htr| exact Hn]]]].
  - unfold pik_row. rewrite map_length. change (mkTh (length (path_names fs)) [map v (path_names fs)]) with (path_tensor fs [v]).
    rewrite (jacobian_tensor_eq root r fs s [v] Hin Hdj Hdf Hcl Hp Ht). cbn [rbind map]. rewrite Hd. rewrite fin3_of_fin. cbn [of_opt rbind]. rewrite Hs. reflexivity.
  - rewrite map_length, seq_length, map_length, <- (map_length snd), mov_snd. unfold path_names. rewrite map_length. reflexivity.
Qed.
Lemma pik_kern_fin p row : length row = length (path_names fs) -> exists v dr a dq,
  row = map v (path_names fs) /\ pik_kern s targets reg lm w p (map Fin row) = (map Fin dq, map Fin (map (six (vsub (trp (targets p)) (trp (pose v fs)), dr)) (seq 0 6))) /\
  length dq = length (path_names fs) /\
  (0 <= a <= PI)%R /\ trace3 (m3mul (rotp (targets p)) (m3tr (rotp (pose v fs)))) = (1 + 2 * cos a)%R /\ (a <= vnorm dr <= a + a ^ 5 / 960)%R.
Proof.
  intros Hl. destruct (row_config row Hl) as (v & ->). destruct (pik_row_eq (targets p) v (Htg p)) as (dr & a & dq & E & L & A & B & C).
  exists v, dr, a, dq. split; [reflexivity|]. split; [|auto 10].
  unfold pik_kern. rewrite (proj2 (fin_row_of_some _ _) eq_refl), map_length, (path_chain_names r fs s Ht), Nat.eqb_refl, E. reflexivity.
Qed.
Lemma pik_kern_nan p q : (forall row, q = map Fin row -> length row <> length (path_names fs)) -> pik_kern s targets reg lm w p q = (repeat NaN (length (path_names fs)), repeat NaN 6).
Proof.
  intros H. unfold pik_kern. rewrite (path_chain_names r fs s Ht). destruct (fin_row_of q) as [row|] eqn:E; [|reflexivity].
  apply fin_row_of_some in E. destruct (Nat.eqb_spec (length row) (length (path_names fs))) as [L|L]; [|reflexivity]. exfalso. exact (H row E L).
Qed.
Lemma pik_converged p q pt : flt (fnorm (firstn 3 (snd (pik_kern s targets reg lm w p q)))) pt = true ->
  exists row, q = map Fin row /\ length row = length (path_names fs).
Proof.
  intros H. destruct (fin_row_of q) as [row|] eqn:E.
  - apply fin_row_of_some in E. destruct (Nat.eq_dec (length row) (length (path_names fs))) as [L|L]; [exists row; auto|]. exfalso.
    rewrite pik_kern_nan in H; [cbn in H; discriminate H|]. intros row' E'. rewrite E in E'. assert (R : row = row').
    { assert (Some row = Some row') by (rewrite <- (proj2 (fin_row_of_some (map Fin row) row) eq_refl); apply fin_row_of_some; exact E'). congruence. }
    rewrite <- R. exact L.
  - exfalso. rewrite pik_kern_nan in H; [cbn in H; discriminate H|]. intros row' ->. rewrite (proj2 (fin_row_of_some _ row') eq_refl) in E. discriminate E.
Qed.
Lemma pik_errors p row : length row = length (path_names fs) -> exists v a x,
  row = map v (path_names fs) /\ fnorm (firstn 3 (snd (pik_kern s targets reg lm w p (map Fin row)))) = Fin (vnorm (vsub (trp (targets p)) (trp (pose v fs)))) /\
  fnorm (skipn 3 (snd (pik_kern s targets reg lm w p (map Fin row)))) = Fin x /\ (a <= x <= a + a ^ 5 / 960)%R /\
  (0 <= a <= PI)%R /\ trace3 (m3mul (rotp (targets p)) (m3tr (rotp (pose v fs)))) = (1 + 2 * cos a)%R.
Proof.
  intros Hl. destruct (pik_kern_fin p row Hl) as (v & dr & a & dq & E & K & _ & A & B & C). exists v, a, (vnorm dr). rewrite K. split; [exact E|].
  cbn [snd map seq six fst firstn skipn]. rewrite !norm3.
  split; [destruct (vsub (trp (targets p)) (trp (pose v fs))); reflexivity|]. split; [destruct dr; reflexivity|]. split; [exact C|]. split; [exact A|]. exact B.
Qed.
Lemma pik_step_fin p q : length q = length (path_names fs) -> (forall x, In x q -> isfinite x = true) ->
  length (fst (pik_kern s targets reg lm w p q)) = length (path_names fs) /\ (forall x, In x (fst (pik_kern s targets reg lm w p q)) -> isfinite x = true).
Proof.
  intros Hl Hf. assert (E : exists row, q = map Fin row).
  { clear Hl. induction q as [|x q IH]; [exists []; reflexivity|]. destruct IH as (row & ->); [intros y Hy; apply Hf; right; exact Hy|]. specialize (Hf x (or_introl eq_refl)).
    destruct x as [x| | |]; try discriminate Hf. exists (x :: row). reflexivity. }
  destruct E as (row & ->). rewrite map_length in Hl. destruct (pik_kern_fin p row Hl) as (v & dr & a & dq & _ & K & L & _). rewrite K. cbn [fst]. rewrite map_length. split; [exact L|].
  intros x Hx. apply in_map_iff in Hx. destruct Hx as (y & <- & _). reflexivity.
Qed.
(** the attributes taken from the chain *)
Lemma serial_joints : get_joints true (c_root (s_chain s)) = map f_joint (filter moving fs).
Proof.
  destruct Ht as (Hc & _). rewrite (ct_root _ _ _ (chain_root mops _ _ Hc)), get_joints_true, sroot_preorder. cbn [filter]. rewrite sroot_fixed. apply filter_moving_joints, stail_joints.
Qed.
Lemma serial_dof : length (get_joint_parameter_names true (c_root (s_chain s))) = length (path_names fs).
Proof.
  unfold get_joint_parameter_names. rewrite serial_joints. unfold path_names. rewrite !map_length. clear. induction fs as [|f l IH]; [reflexivity|]. cbn [filter].
  destruct (moving f) eqn:E; [|exact IH]. cbn [map filter andb]. assert (E2 : is_fixed (j_type (f_joint f)) = false) by (unfold moving in E; destruct (j_type (f_joint f)); [discriminate E | reflexivity | reflexivity]). rewrite E2. cbn [negb length]. f_equal. exact IH.
Qed.
Lemma serial_limits : c_low (s_chain s) = map (fun f => match j_lim (f_joint f) with None => NInf | Some (l, _) => l end) (filter moving fs) /\
  c_high (s_chain s) = map (fun f => match j_lim (f_joint f) with None => PInf | Some (_, h) => h end) (filter moving fs).
Proof.
  pose proof serial_joints as SJ. destruct Ht as (Hc & _). pose proof (chain_root mops _ _ Hc) as HC. rewrite (ct_root _ _ _ HC) in SJ.
  rewrite (ct_low _ _ _ HC), (ct_high _ _ _ HC). unfold get_joint_limits, get_joint_limits_of. cbn [fst snd]. rewrite SJ, !map_map. split; reflexivity.
Qed.
End Serial.

(** ** wrapping and the pose *)
Lemma pose_wrap v v' (fs : list mframe) : (forall f, In f fs -> rigid_frame f) ->
  (forall f, In f fs -> moving f = true -> exists n : Z, v' (j_name (f_joint f)) = (v (j_name (f_joint f)) + 2 * PI * IZR n)%R /\ (j_type (f_joint f) <> Revolute -> n = 0%Z)) ->
  pose v' fs = pose v fs.
Proof.
  intros Hr H. induction fs as [|f fs IH]; [reflexivity|]. rewrite !pose_cons. f_equal; [|apply IH; [intros g Hg; apply Hr; right; exact Hg | intros g Hg; apply H; right; exact Hg]].
  specialize (Hr f (or_introl eq_refl)). specialize (H f (or_introl eq_refl)).
  unfold rel_pose. f_equal. unfold joint_motion.
  destruct (j_type (f_joint f)) eqn:E; [reflexivity| |].
  - destruct H as (n & En & _); [unfold moving; rewrite E; reflexivity|]. rewrite En. replace (2 * PI * IZR n)%R with (2 * IZR n * PI)%R by ring.
    destruct Hr as (_ & _ & U). assert (U1 : unit3 (j_axis (f_joint f))) by (apply U; unfold moving; rewrite E; reflexivity). clear U. pose proof U1 as U. cbn [mops]. apply (l05_revolute_geometry _ U _ 0%R n).
  - destruct H as (n & En & E0); [unfold moving; rewrite E; reflexivity|]. rewrite E0 in En by discriminate. rewrite En. replace (v (j_name (f_joint f)) + 2 * PI * 0)%R with (v (j_name (f_joint f))) by ring. reflexivity.
Qed.
Lemma wrap_pose root (r : mframe) fs s o row : In r (preorder root) -> distinct_joints root -> root_path r (r :: fs) -> serial_tables mops zax s r fs -> rigid_tree root ->
  (forall f, In f fs -> j_type (f_joint f) = Revolute -> exists lo hi, j_lim (f_joint f) = Some (Fin lo, Fin hi)) -> length row = length (path_names fs) ->
  exists v v', wrap_row (pik_init s o) (map Fin row) = map Fin (map v' (path_names fs)) /\ row = map v (path_names fs) /\ pose v' fs = pose v fs.
Proof.
  intros Hin Hdj Hp Ht Hr Hl Hlen. destruct (row_config root r fs Hin Hdj Hp row Hlen) as (v & ->).
  assert (W : exists row', wrap_row (pik_init s o) (map Fin (map v (path_names fs))) = map Fin row' /\ length row' = length (path_names fs) /\
    forall j f, nth_error (filter moving fs) j = Some f -> exists n : Z, nth_error row' j = Some (v (j_name (f_joint f)) + 2 * PI * IZR n)%R /\ (j_type (f_joint f) <> Revolute -> n = 0%Z)).
  { unfold wrap_row, pik_init. cbn [ik_rev ik_low ik_high]. unfold rev_mask. rewrite (serial_joints r fs s Ht). destruct (serial_limits r fs s Ht) as [-> ->]. unfold path_names. clear Hlen.
    assert (Hl' : forall f, In f (filter moving fs) -> j_type (f_joint f) = Revolute -> exists lo hi, j_lim (f_joint f) = Some (Fin lo, Fin hi)) by (intros f Hf; apply filter_In in Hf; apply Hl, Hf).
    revert Hl'. generalize (filter moving fs) as l. clear. induction l as [|f l IH]; intros Hl.
    - exists []. split; [reflexivity|]. split; [reflexivity|]. intros [|j] f; discriminate.
    - destruct IH as (row' & E & L & N); [intros g Hg; apply Hl; right; exact Hg|]. specialize (Hl f (or_introl eq_refl)). cbn [map combine zip_with2 fst snd].
      assert (X : exists n : Z, wrap1 (jtype_eqb (j_type (f_joint f)) Revolute) (match j_lim (f_joint f) with None => NInf | Some (l, _) => l end)
        (match j_lim (f_joint f) with None => PInf | Some (_, h) => h end) (Fin (v (j_name (f_joint f)))) = Fin (v (j_name (f_joint f)) + 2 * PI * IZR n)%R /\ (j_type (f_joint f) <> Revolute -> n = 0%Z)).
      { destruct (j_type (f_joint f)); cbn [jtype_eqb]. 1, 3: exists 0%Z; split; [cbn [wrap1]; f_equal; ring | reflexivity].
        destruct Hl as (lo & hi & ->); [reflexivity|]. eexists. split; [apply wrap1_fin|]. intros C. exfalso. apply C. reflexivity. }
      destruct X as (n & X & Xn). exists ((v (j_name (f_joint f)) + 2 * PI * IZR n)%R :: row'). split; [cbn [map]; rewrite X, <- E; reflexivity|]. split; [cbn [length]; rewrite L; reflexivity|].
      intros [|j] g Hg; [|apply N; exact Hg]. assert (Eg : g = f) by (cbn in Hg; congruence). subst g. exists n. split; [reflexivity | exact Xn]. }
  destruct W as (row' & E & L & N). destruct (row_config root r fs Hin Hdj Hp row' L) as (v' & ->). exists v, v'. split; [exact E|]. split; [reflexivity|].
  apply pose_wrap; [exact (rigid_path root r fs Hr Hin Hp)|]. intros f Hf Hm. assert (Hfm : In f (filter moving fs)) by (apply filter_In; auto).
  destruct (In_nth_error _ _ Hfm) as (j & Hj). destruct (N j f Hj) as (n & Nn & Z). exists n. split; [|exact Z]. unfold path_names in Nn. rewrite !nth_error_map, Hj in Nn. cbn [option_map] in Nn.
  assert (HX : forall X (a b : X), Some a = Some b -> a = b) by (intros; congruence). apply HX in Nn. exact Nn.
Qed.
