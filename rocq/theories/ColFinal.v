(** Last steps of the proofs quoted in Properties_Col.v. *)
From Coq Require Import Reals Lra String Bool Arith Lia List ZArith.
From Verif Require Import Prelude ExtF Tree ChainModel SpecFK ChainProofs ChainTables TreeQueries Input Widths Lin Trig RotModel RotBasic QuatProofs AxisAngle ChainInst
  FKMore ChainClamp Examples SerialModel SerialProofs SerialMore Deriv JacModel JacProofs JacMore IKModel IKProofs IKMore IKLimits IKKernel KernelProofs DeltaPose IKSolve SolveProofs
  SpecDescent PathDeriv DescentProofs DescFinal SpecLocal LocalNorm LocalCont LocalErr LocalDeriv LocalStep LocalRun LocalTraj LocalStart LocalFinal SpecCol ColStep ColTraj.
Import ListNotations.
Local Open Scope string_scope.
Local Open Scope list_scope.
Local Open Scope R_scope.

Lemma pair_six (c u : V3 * V3) : vdot (fst c) (fst u) + vdot (snd c) (snd u) = rsum 6 (fun j => six c j * six u j).
Proof. cbn [rsum]. unfold six, vdot. ring. Qed.
Lemma independent_inverse J : independent J -> exists B : nat -> nat -> R, forall i k, (i < length J)%nat -> (k < length J)%nat -> rsum 6 (fun j => six (nth k J (vzero, vzero)) j * B j i) = if Nat.eqb k i then 1 else 0.
Proof.
  intros H. assert (A : forall m, exists U : nat -> V3 * V3, forall i, (i < m)%nat -> torques J (U i) = map (fun k => if Nat.eqb k i then 1 else 0) (seq 0 (length J))).
  { induction m as [|m (U & HU)]; [exists (fun _ => (vzero, vzero)); intros; lia|]. destruct (H (map (fun k => if Nat.eqb k m then 1 else 0) (seq 0 (length J)))) as (u & Hu); [rewrite map_length, seq_length; reflexivity|].
    exists (fun i => if Nat.eqb i m then u else U i). intros i Hi. destruct (Nat.eqb_spec i m) as [->|Hn]; [exact Hu | apply HU; lia]. }
  destruct (A (length J)) as (U & HU). exists (fun j i => six (U i) j). intros i k Hi Hk. rewrite <- pair_six. specialize (HU i Hi). apply (f_equal (fun l => nth k l 0)) in HU. unfold torques in HU.
  rewrite (nth_indep _ 0 ((fun c => vdot (fst c) (fst (U i)) + vdot (snd c) (snd (U i))) (vzero, vzero))) in HU by (rewrite map_length; exact Hk).
  rewrite (map_nth (fun c => vdot (fst c) (fst (U i)) + vdot (snd c) (snd (U i)))) in HU. rewrite HU.
  rewrite (nth_indep _ 0 ((fun k => if Nat.eqb k i then 1 else 0) 0%nat)) by (rewrite map_length, seq_length; exact Hk). rewrite (map_nth (fun k => if Nat.eqb k i then 1 else 0)), seq_nth by exact Hk. reflexivity.
Qed.
Lemma within_else root (r : mframe) fs row w delta : In r (preorder root) -> distinct_joints root -> root_path r (r :: fs) -> 0 <= delta -> row_within delta row (map w (path_names fs)) ->
  exists v : config (S := R), row = map v (path_names fs) /\ near delta v w /\ forall m, ~ In m (path_names fs) -> v m = w m.
Proof.
  intros Hin Hdj Hp Hd H. assert (L : length row = length (path_names fs)) by (rewrite <- (map_length w); clear - H; induction H; cbn [length]; congruence).
  destruct (row_config_else root r fs row w Hin Hdj Hp L) as (v & E & Ho). exists v. split; [exact E|]. split; [|exact Ho]. intros n. destruct (in_dec names_dec n (path_names fs)) as [I|I].
  - rewrite E in H. clear - H I. unfold row_within in H. induction (path_names fs) as [|a l IH]; [contradiction|]. cbn [map] in H. inversion H; subst. destruct I as [<-|I]; [assumption | apply IH; assumption].
  - rewrite (Ho n I), Rminus_diag_eq, Rabs_R0 by reflexivity. exact Hd.
Qed.

(** what the two theorems share *)
Section Core.
Variables (root r : mframe) (fs : list mframe) (s : schain M4 V3).
Hypothesis (Hin : In r (preorder root)) (Hdj : distinct_joints root) (Hdf : distinct_frames root) (Hcl : clean_names root)
  (Hp : root_path r (r :: fs)) (Ht : serial_tables mops zax s r fs) (Hrig : rigid_tree root).
Variables (reg lm wp wr lr : R) (w : config (S := R)).
Hypothesis (Hreg : 0 < reg) (Hlm : 0 <= lm) (Hwp : 0 < wp) (Hwr : 0 < wr) (Hlr : 0 < lr <= 1).
Hypothesis HJ : independent (map (col_of w (pose w fs)) (mov [] fs)).
Lemma col_core : exists delta dl rho c1 c2 b, 0 < delta /\ 0 < dl /\ 0 < rho < 1 /\ 0 < c1 /\ 0 < c2 /\ b <= dl / 2 /\ c2 * b <= 1 /\ c2 * b <= Rmin wp wr /\
  (forall vt, near (dl / 2) vt w -> forall v, near dl v w -> (forall m, ~ In m (path_names fs) -> v m = vt m) ->
    c1 * dist fs v vt <= werr wp wr (pose vt fs) (pose v fs) <= c2 * dist fs v vt /\
    exists d : config (S := R), pik_row s (pose vt fs) reg lm (Some (row_weights wp wr)) (map v (path_names fs)) = Ok (map d (path_names fs), map (six (comp_err (pose vt fs) (pose v fs))) (seq 0 6)) /\
    (forall m, ~ In m (path_names fs) -> d m = 0) /\ (werr wp wr (pose vt fs) (pose v fs) <= 1 -> dist fs (drive v d lr) vt <= rho * dist fs v vt)) /\
  (forall o v, near dl v w -> (all_joints off_limits fs (map w (path_names fs)) -> clamp_row (ik_low (pik_init s o)) (ik_high (pik_init s o)) (map Fin (map v (path_names fs))) = map Fin (map v (path_names fs))) /\
    (all_joints same_turn fs (map w (path_names fs)) -> wrap_row (pik_init s o) (map Fin (map v (path_names fs))) = map Fin (map v (path_names fs)))) /\
  (forall row rowt, row_within delta row (map w (path_names fs)) -> row_within delta rowt (map w (path_names fs)) ->
    exists v vt, row = map v (path_names fs) /\ rowt = map vt (path_names fs) /\ near (dl / 2) vt w /\ cstate fs b vt v).
Proof.
  set (n := length (path_names fs)). assert (EL : length (map (col_of w (pose w fs)) (mov [] fs)) = n) by (apply cols_len).
  destruct (independent_inverse _ HJ) as (B & HB). rewrite EL in HB.
  destruct (col_step root r fs s Hin Hdj Hdf Hcl Hp Ht Hrig reg lm wp wr lr w Hreg Hlm Hwp Hwr Hlr B HB) as (d0 & rho & c1 & c2 & D0 & Hrho & Hc1 & Hc2 & Hst).
  destruct (room_all (filter moving fs) w) as (dm & Dm & Hroom).
  set (dl := Rmin d0 dm). assert (Hdl : 0 < dl) by (unfold dl; apply Rmin_pos; assumption).
  assert (L2 : dl <= d0) by apply Rmin_l. assert (L3 : dl <= dm) by apply Rmin_r. clearbody dl.
  assert (W0 := Rmin_pos wp wr Hwp Hwr). set (b := Rmin (dl / 2) (Rmin (1 / c2) (Rmin wp wr / c2))).
  assert (P1 : 0 < 1 / c2) by (apply Rdiv_lt_0_compat; lra). assert (P2 : 0 < Rmin wp wr / c2) by (apply Rdiv_lt_0_compat; lra). assert (Hb : 0 < b) by (unfold b; repeat apply Rmin_pos; lra).
  assert (B1 : b <= dl / 2) by apply Rmin_l. assert (B2 : b <= 1 / c2) by (eapply Rle_trans; [apply Rmin_r | apply Rmin_l]). assert (B3 : b <= Rmin wp wr / c2) by (eapply Rle_trans; [apply Rmin_r | apply Rmin_r]). clearbody b.
  pose proof (pos_INR n) as Hn. set (delta := Rmin (dl / 2) (b / (2 * (INR n + 1)))). assert (P3 : 0 < b / (2 * (INR n + 1))) by (apply Rdiv_lt_0_compat; lra).
  assert (Hdelta : 0 < delta) by (unfold delta; apply Rmin_pos; lra). assert (G1 : delta <= dl / 2) by apply Rmin_l. assert (G2 : delta <= b / (2 * (INR n + 1))) by apply Rmin_r. clearbody delta.
  exists delta, dl, rho, c1, c2, b. split; [exact Hdelta|]. split; [exact Hdl|]. split; [exact Hrho|]. split; [exact Hc1|]. split; [exact Hc2|]. split; [exact B1|].
  split; [|split; [|split; [|split]]].
  - apply Rle_trans with (c2 * (1 / c2)); [apply Rmult_le_compat_l; lra | right; field; lra].
  - apply Rle_trans with (c2 * (Rmin wp wr / c2)); [apply Rmult_le_compat_l; lra | right; field; lra].
  - intros vt Hvt v Hv Ho. apply Hst; [eapply near_mono; [|exact Hvt]; lra | eapply near_mono; [exact L2 | exact Hv] | exact Ho].
  - intros o v Hv. destruct (Hroom v) as [R1 R2]; [intros m; specialize (Hv m); lra|]. destruct (serial_limits r fs s Ht) as [E1 E2]. unfold all_joints, path_names, wrap_row. cbn [pik_init ik_low ik_high ik_rev]. unfold rev_mask.
    rewrite E1, E2, (serial_joints r fs s Ht), (map_map f_joint). split; [exact R1 | exact R2].
  - intros row rowt H1 H2. assert (Z : 0 <= delta) by lra. destruct (within_else root r fs row w delta Hin Hdj Hp Z H1) as (v & Ev & Nv & Ov). destruct (within_else root r fs rowt w delta Hin Hdj Hp Z H2) as (vt & Et & Nt & Ot).
    exists v, vt. split; [exact Ev|]. split; [exact Et|]. split; [eapply near_mono; [exact G1 | exact Nt]|]. split; [intros m Hm; rewrite (Ov m Hm), (Ot m Hm); reflexivity|].
    eapply Rle_trans; [apply (near_dist fs v vt (2 * delta) ltac:(lra))|].
    + intros m. specialize (Nv m). specialize (Nt m). replace (v m - vt m) with ((v m - w m) + - (vt m - w m)) by ring. eapply Rle_trans; [apply Rabs_triang|]. rewrite Rabs_Ropp. lra.
    + fold n. apply Rle_trans with ((INR n + 1) * (2 * (b / (2 * (INR n + 1))))); [|right; field; lra]. apply Rmult_le_compat; lra.
Qed.
End Core.
Lemma found_row fs (v vt : config (S := R)) k b : cstate fs b vt v -> dist fs v vt <= k -> row_within k (map v (path_names fs)) (map vt (path_names fs)).
Proof. intros [Ho _] H. apply near_within. eapply near_mono; [exact H | apply dist_near; exact Ho]. Qed.
Lemma kappa_pos wp wr c1 c2 : 0 < wp -> 0 < wr -> 0 < c1 -> 0 < c2 -> 0 < kappa wp wr c1 c2.
Proof. intros H1 H2 H3 H4. eapply Rlt_le_trans; [|apply kappa_2; assumption]. apply Rdiv_lt_0_compat; lra. Qed.
Lemma target_pose (nan : R) is_nan (root r : mframe) c rn fs s (vt : config (S := R)) T : In r (preorder root) -> distinct_joints root -> distinct_frames root -> clean_names root -> root_path r (r :: fs) ->
  serial_init mops zax c (f_name (last (r :: fs) r)) rn = Ok s -> serial_tables mops zax s r fs -> serial_fk_end mops nan is_nan s (InTensor (T1 (map vt (path_names fs)))) = Ok [T] -> T = pose vt fs.
Proof.
  intros Hin Hdj Hdf Hcl Hp Hs Ht HT. pose proof (serial_pose nan is_nan root r c rn fs s vt Hin Hdj Hdf Hcl Hp Hs Ht) as FK. rewrite (path_chain_names r fs s Ht) in FK. rewrite FK in HT.
  assert (HX : forall X (a b : X), Ok a = Ok b -> a = b) by (intros; congruence). apply HX in HT. congruence.
Qed.
(** an arm in the plane with two joints and two links of length one, used in the example *)
Definition a_hand : mframe := Frame "hand" (mkLink (Some "hand") (Some (trans 1 0 0))) fixed_joint [].
Definition a_elbow : mframe := Frame "fore" (mkLink (Some "fore") None) (mkJoint (Some "elbow") (Some (trans 1 0 0)) Revolute zax lim1 None None) [a_hand].
Definition a_shoulder : mframe := Frame "upper" (mkLink (Some "upper") None) (mkJoint (Some "shoulder") None Revolute zax lim1 None None) [a_elbow].
Definition arm : mframe := Frame "base" (mkLink (Some "base") None) fixed_joint [a_shoulder].
Definition arm_path : list mframe := [a_shoulder; a_elbow; a_hand].
Lemma arm_distinct_joints : distinct_joints arm. Proof. unfold distinct_joints, moving_names; simpl. nodup. Qed.
Lemma arm_distinct_frames : distinct_frames arm. Proof. unfold distinct_frames; simpl. nodup. Qed.
Lemma arm_clean : clean_names arm. Proof. intros f H; simpl in H. repeat (destruct H as [<-|H]; [reflexivity|]). contradiction. Qed.
Lemma arm_rigid : rigid_tree arm.
Proof.
  intros f H; simpl in H. repeat (destruct H as [<-|H]; [split; [first [exact I | apply trans_rigid]|]; split; [first [exact I | apply trans_rigid]|]; intros Q; first [discriminate Q | exact zax_unit]|]). contradiction.
Qed.
Lemma arm_root_path : root_path arm (arm :: arm_path).
Proof. unfold arm_path. do 3 (eapply rp_child; [left; reflexivity|]). apply rp_here. Qed.
Lemma arm_rel : rel_pose mops (fun _ => 0) a_shoulder = I4 /\ rel_pose mops (fun _ => 0) a_elbow = trans 1 0 0 /\ rel_pose mops (fun _ => 0) a_hand = trans 1 0 0.
Proof.
  unfold rel_pose, joint_motion. cbn -[m4mul I4 axis_and_angle_to_matrix_44 zax trans]. rewrite rot44_0, !m4mul_1_l, !m4mul_1_r. auto.
Qed.
Lemma trans_mul a b : m4mul (trans a 0 0) (trans b 0 0) = trans (a + b) 0 0.
Proof. unfold trans. rewrite aff_mul, m3mul_1_l, m3vec_1. unfold vadd. cbn [vx vy vz]. f_equal. apply mkV3_eq; ring. Qed.
Lemma arm_cols : map (col_of (fun _ => 0) (pose (fun _ => 0) arm_path)) (mov [] arm_path) = [(mkV3 0 2 0, zax); (mkV3 0 1 0, zax)].
Proof.
  destruct arm_rel as (E1 & E2 & E3). change (mov [] arm_path) with [([], a_shoulder); ([a_shoulder], a_elbow)]. cbn [map]. unfold arm_path, col_of. cbn [fst snd app]. rewrite !pose_cons, pose_nil, E1, E2, E3, !m4mul_1_l, !m4mul_1_r, trans_mul.
  change (jtype_eqb (j_type (f_joint a_shoulder)) Revolute) with true. change (jtype_eqb (j_type (f_joint a_elbow)) Revolute) with true. cbv iota. change (j_axis (f_joint a_shoulder)) with zax. change (j_axis (f_joint a_elbow)) with zax.
  unfold trans. rewrite !rotp_aff, !trp_aff. change (rotp I4) with I3. change (trp I4) with vzero. rewrite !m3vec_1.
  assert (C : forall x y, vcross zax (vsub (mkV3 x 0 0) (mkV3 y 0 0)) = mkV3 0 (x - y) 0) by (intros; unfold vcross, vsub, zax; cbn [vx vy vz]; apply mkV3_eq; ring). change vzero with (mkV3 0 0 0). rewrite !C.
  replace (1 + 1 - 0) with 2 by ring. replace (1 + 1 - 1) with 1 by ring. reflexivity.
Qed.
Lemma arm_independent : independent (map (col_of (fun _ => 0) (pose (fun _ => 0) arm_path)) (mov [] arm_path)).
Proof.
  rewrite arm_cols. intros [|y1 [|y2 [|y3 y]]] L; try discriminate L. exists (mkV3 0 (y1 - y2) 0, mkV3 0 0 (2 * y2 - y1)). unfold torques. cbn [map fst snd].
  assert (H2 : forall a b c d : R, a = c -> b = d -> [a; b] = [c; d]) by (intros; congruence). apply H2; unfold vdot, zax; cbn [vx vy vz]; ring.
Qed.

Lemma l79_recovers : forall (nan : R) is_nan (root r : mframe) c rn p fs s row0 T0 J Ts reg lm wp wr lr,
  chain_init mops root = Ok c -> distinct_joints root -> distinct_frames root -> clean_names root -> rigid_tree root ->
  root_path root (p ++ [r]) -> ((rn = "" /\ r = root) \/ (rn <> "" /\ rn = f_name r)) -> root_path r (r :: fs) ->
  serial_init mops zax c (f_name (last (r :: fs) r)) rn = Ok s -> length row0 = length (filter moving fs) ->
  serial_fk_end mops nan is_nan s (InTensor (T1 row0)) = Ok [T0] -> jacobian s (InTensor (T1 row0)) None = Ok ([J], Ts) -> independent J ->
  0 < reg -> 0 <= lm -> 0 < wp -> 0 < wr -> 0 < lr <= 1 ->
  exists delta rho kappa, 0 < delta /\ 0 < rho < 1 /\ 0 < kappa /\
  forall targets o np q0 i t row rowt pt rt N,
  ik_lr o = Fin lr -> ik_ls o = None -> (0 < ik_nr o)%nat -> ik_ptol o = Fin pt -> ik_rtol o = Fin rt ->
  ik_noimp o = NoStop \/ ((ik_noimp o = StopAny \/ (ik_nr o = 1%nat /\ forall x, ik_noimp o = StopRatio x -> x < 1)) /\ kappa * rho ^ S (ik_patience o) < 1) ->
  ik_clamp o = false \/ all_joints off_limits fs row0 -> ik_enforce o = false \/ (forall f, In f fs -> moving f = true -> j_lim (f_joint f) = None) ->
  length q0 = (np * ik_nr o)%nat -> (i < np)%nat -> (t < ik_nr o)%nat -> nth_error q0 (i * ik_nr o + t) = Some (map Fin row) -> row_within delta row row0 ->
  row_within delta rowt row0 -> serial_fk_end mops nan is_nan s (InTensor (T1 rowt)) = Ok [targets i] -> rho ^ N < pt -> rho ^ N < rt -> (N <= ik_max o)%nat ->
  exists sol, solve_from (pik_kern s targets reg lm (Some (row_weights wp wr))) (pik_init s o) np q0 = Ok sol /\ nth_error (s_any sol) i = Some true /\
  (ik_stop_any o = false \/ ik_nr o = 1%nat -> exists e rowe, entry_at sol i t = Some e /\ e_conv e = true /\ e_q e = map Fin rowe /\ row_within (kappa * (pt + rt)) rowe rowt).
Proof.
  intros nan is_nan root r c rn p fs s row0 T0 J Ts reg lm wp wr lr Hc Hdj Hdf Hcl Hrt Hpr Hrn Hp Hs L0 HT0 HJT HJ Hreg Hlm Hwp Hwr Hlr.
  destruct (local_setup nan is_nan root r c rn p fs s row0 T0 J Ts Hc Hdj Hdf Hcl Hpr Hrn Hp Hs L0 HT0 HJT) as (Hin & Ht & w & -> & -> & ->).
  destruct (col_core root r fs s Hin Hdj Hdf Hcl Hp Ht Hrt reg lm wp wr lr w Hreg Hlm Hwp Hwr Hlr HJ) as (delta & dl & rho & c1 & c2 & b & D1 & D2 & Hrho & Hc1 & Hc2 & B1 & B2 & B3 & Hst & Hroom & Hstart).
  exists delta, rho, (kappa wp wr c1 c2). split; [exact D1|]. split; [exact Hrho|]. split; [apply kappa_pos; assumption|].
  intros targets o np q0 i t row rowt pt rt N Holr Hols Hnr Hpt Hrtol Hstop Hlim Henf Hlen Hi Htt Hrow Hw Hwt Htg N1 N2 Hmax.
  destruct (Hstart row rowt Hw Hwt) as (v0 & vt & -> & -> & Hvt & Hs0).
  assert (E0 : q0 = vec (np * ik_nr o) (fun i => nth i q0 [])) by (rewrite <- Hlen; apply vec_of). set (Q0 := fun i => nth i q0 []) in *.
  assert (Hv0 : Q0 (i * ik_nr o + t)%nat = map Fin (map v0 (path_names fs))) by (unfold Q0; apply nth_error_nth; exact Hrow).
  assert (Etg := target_pose nan is_nan root r c rn fs s vt (targets i) Hin Hdj Hdf Hcl Hp Hs Ht Htg).
  assert (Hcp : ik_clamp (pik_init s o) = false \/ free fs s dl w o).
  { destruct Hlim as [Q|Q]; [left; cbn [pik_init ik_clamp]; rewrite Q; reflexivity|]. right. intros v Hv. apply (Hroom o v Hv). exact Q. }
  assert (Hen : ik_enforce (pik_init s o) && has_finite_limits (pik_init s o) = false).
  { destruct Henf as [Q|Q]; [cbn [pik_init ik_enforce]; rewrite Q; reflexivity|]. apply no_limits with r fs; assumption. }
  destruct (col_plain r fs s Ht reg lm wp wr lr dl rho c1 c2 b w vt Hwp Hwr Hrho Hc1 Hc2 (Hst vt Hvt) Hvt B1 B2 B3 targets i Etg o np Q0 Hnr Holr Hols t Hi Htt v0 Hv0 Hs0 Hcp pt rt Hpt Hrtol N N1 N2 Hmax Hstop Hen) as (sol & Es & H1 & H2).
  exists sol. rewrite E0. split; [exact Es|]. split; [exact H1|]. intros Q. destruct (H2 Q) as (e & v & G1 & G2 & G3 & G4 & G5). exists e, (map v (path_names fs)). split; [exact G1|]. split; [exact G2|]. split; [exact G3|].
  apply found_row with b; assumption.
Qed.

Lemma l79_limits : forall (nan : R) is_nan (root r : mframe) c rn p fs s row0 T0 J Ts reg lm wp wr lr,
  chain_init mops root = Ok c -> distinct_joints root -> distinct_frames root -> clean_names root -> rigid_tree root ->
  root_path root (p ++ [r]) -> ((rn = "" /\ r = root) \/ (rn <> "" /\ rn = f_name r)) -> root_path r (r :: fs) ->
  serial_init mops zax c (f_name (last (r :: fs) r)) rn = Ok s -> length row0 = length (filter moving fs) ->
  serial_fk_end mops nan is_nan s (InTensor (T1 row0)) = Ok [T0] -> jacobian s (InTensor (T1 row0)) None = Ok ([J], Ts) -> independent J ->
  0 < reg -> 0 <= lm -> 0 < wp -> 0 < wr -> 0 < lr <= 1 -> all_joints off_limits fs row0 -> all_joints same_turn fs row0 ->
  exists delta rho kappa, 0 < delta /\ 0 < rho < 1 /\ 0 < kappa /\
  forall targets o np q0 i t row rowt pt rt N,
  ik_lr o = Fin lr -> ik_ls o = None -> (0 < ik_nr o)%nat -> ik_ptol o = Fin pt -> ik_rtol o = Fin rt ->
  ik_noimp o = NoStop \/ ((ik_noimp o = StopAny \/ (ik_nr o = 1%nat /\ forall x, ik_noimp o = StopRatio x -> x < 1)) /\ kappa * rho ^ S (ik_patience o) < 1) ->
  ik_stop_any o = false \/ ik_nr o = 1%nat ->
  ik_refine o = 0%nat \/ (kappa * rho ^ ik_refine o * (pt + rt) < pt /\ kappa * rho ^ ik_refine o * (pt + rt) < rt) ->
  length q0 = (np * ik_nr o)%nat -> (i < np)%nat -> (t < ik_nr o)%nat -> nth_error q0 (i * ik_nr o + t) = Some (map Fin row) -> row_within delta row row0 ->
  row_within delta rowt row0 -> serial_fk_end mops nan is_nan s (InTensor (T1 rowt)) = Ok [targets i] -> rho ^ N < pt -> rho ^ N < rt -> (N <= ik_max o)%nat ->
  exists sol e rowe, solve_from (pik_kern s targets reg lm (Some (row_weights wp wr))) (pik_init s o) np q0 = Ok sol /\ nth_error (s_any sol) i = Some true /\
  entry_at sol i t = Some e /\ e_conv e = true /\ e_q e = map Fin rowe /\ row_within (kappa * (pt + rt)) rowe rowt.
Proof.
  intros nan is_nan root r c rn p fs s row0 T0 J Ts reg lm wp wr lr Hc Hdj Hdf Hcl Hrt Hpr Hrn Hp Hs L0 HT0 HJT HJ Hreg Hlm Hwp Hwr Hlr Hoff Hturn.
  destruct (local_setup nan is_nan root r c rn p fs s row0 T0 J Ts Hc Hdj Hdf Hcl Hpr Hrn Hp Hs L0 HT0 HJT) as (Hin & Ht & w & -> & -> & ->).
  destruct (col_core root r fs s Hin Hdj Hdf Hcl Hp Ht Hrt reg lm wp wr lr w Hreg Hlm Hwp Hwr Hlr HJ) as (delta & dl & rho & c1 & c2 & b & D1 & D2 & Hrho & Hc1 & Hc2 & B1 & B2 & B3 & Hst & Hroom & Hstart).
  exists delta, rho, (kappa wp wr c1 c2). split; [exact D1|]. split; [exact Hrho|]. split; [apply kappa_pos; assumption|].
  intros targets o np q0 i t row rowt pt rt N Holr Hols Hnr Hpt Hrtol Hstop Hone Href Hlen Hi Htt Hrow Hw Hwt Htg N1 N2 Hmax.
  destruct (Hstart row rowt Hw Hwt) as (v0 & vt & -> & -> & Hvt & Hs0).
  assert (E0 : q0 = vec (np * ik_nr o) (fun i => nth i q0 [])) by (rewrite <- Hlen; apply vec_of). set (Q0 := fun i => nth i q0 []) in *.
  assert (Hv0 : Q0 (i * ik_nr o + t)%nat = map Fin (map v0 (path_names fs))) by (unfold Q0; apply nth_error_nth; exact Hrow).
  assert (Etg := target_pose nan is_nan root r c rn fs s vt (targets i) Hin Hdj Hdf Hcl Hp Hs Ht Htg).
  assert (Hf : free fs s dl w o) by (intros v Hv; apply (Hroom o v Hv); exact Hoff).
  assert (Hu : unturned fs s dl w o) by (intros v Hv; apply (Hroom o v Hv); exact Hturn).
  destruct (ik_enforce (pik_init s o) && has_finite_limits (pik_init s o)) eqn:Hen.
  - destruct (col_enforced r fs s Ht reg lm wp wr lr dl rho c1 c2 b w vt Hwp Hwr Hrho Hc1 Hc2 (Hst vt Hvt) Hvt B1 B2 B3 targets i Etg o np Q0 Hnr Holr Hols t Hi Htt v0 Hv0 Hs0 (or_intror Hf) pt rt Hpt Hrtol N N1 N2 Hmax Hstop Hen Hf Hu Hone Href) as (sol & Es & H1 & e & v & G1 & G2 & G3 & G4 & G5).
    exists sol, e, (map v (path_names fs)). rewrite E0. split; [exact Es|]. split; [exact H1|]. split; [exact G1|]. split; [exact G2|]. split; [exact G3|]. apply found_row with b; assumption.
  - destruct (col_plain r fs s Ht reg lm wp wr lr dl rho c1 c2 b w vt Hwp Hwr Hrho Hc1 Hc2 (Hst vt Hvt) Hvt B1 B2 B3 targets i Etg o np Q0 Hnr Holr Hols t Hi Htt v0 Hv0 Hs0 (or_intror Hf) pt rt Hpt Hrtol N N1 N2 Hmax Hstop Hen) as (sol & Es & H1 & H2).
    destruct (H2 Hone) as (e & v & G1 & G2 & G3 & G4 & G5). exists sol, e, (map v (path_names fs)). rewrite E0. split; [exact Es|]. split; [exact H1|]. split; [exact G1|]. split; [exact G2|]. split; [exact G3|]. apply found_row with b; assumption.
Qed.

Lemma l79_injective : forall (nan : R) is_nan (root r : mframe) c rn p fs s row0 T0 J Ts,
  chain_init mops root = Ok c -> distinct_joints root -> distinct_frames root -> clean_names root -> rigid_tree root ->
  root_path root (p ++ [r]) -> ((rn = "" /\ r = root) \/ (rn <> "" /\ rn = f_name r)) -> root_path r (r :: fs) ->
  serial_init mops zax c (f_name (last (r :: fs) r)) rn = Ok s -> length row0 = length (filter moving fs) ->
  serial_fk_end mops nan is_nan s (InTensor (T1 row0)) = Ok [T0] -> jacobian s (InTensor (T1 row0)) None = Ok ([J], Ts) -> independent J ->
  exists delta, 0 < delta /\ forall row1 row2 T, row_within delta row1 row0 -> row_within delta row2 row0 ->
  serial_fk_end mops nan is_nan s (InTensor (T1 row1)) = Ok [T] -> serial_fk_end mops nan is_nan s (InTensor (T1 row2)) = Ok [T] -> row1 = row2.
Proof.
  intros nan is_nan root r c rn p fs s row0 T0 J Ts Hc Hdj Hdf Hcl Hrt Hpr Hrn Hp Hs L0 HT0 HJT HJ.
  destruct (local_setup nan is_nan root r c rn p fs s row0 T0 J Ts Hc Hdj Hdf Hcl Hpr Hrn Hp Hs L0 HT0 HJT) as (Hin & Ht & w & -> & -> & ->).
  destruct (col_core root r fs s Hin Hdj Hdf Hcl Hp Ht Hrt 1 0 1 1 1 w ltac:(lra) ltac:(lra) ltac:(lra) ltac:(lra) ltac:(lra) HJ) as (delta & dl & rho & c1 & c2 & b & D1 & D2 & Hrho & Hc1 & Hc2 & B1 & B2 & B3 & Hst & Hroom & Hstart).
  exists delta. split; [exact D1|]. intros row1 row2 T W1 W2 F1 F2. destruct (Hstart row1 row2 W1 W2) as (v & vt & -> & -> & Hvt & Hs0).
  assert (E1 := target_pose nan is_nan root r c rn fs s v T Hin Hdj Hdf Hcl Hp Hs Ht F1). assert (E2 := target_pose nan is_nan root r c rn fs s vt T Hin Hdj Hdf Hcl Hp Hs Ht F2).
  destruct (Hst vt Hvt v (cstate_near fs dl b w vt Hvt B1 v Hs0) (proj1 Hs0)) as [[L _] _].
  assert (HD : dl / 2 <= dl) by lra. destruct (Hst vt Hvt vt (near_mono _ _ _ _ HD Hvt) (fun _ _ => eq_refl)) as [[_ U] _].
  rewrite <- E1, E2 in L. assert (Z : dist fs vt vt <= 0).
  { eapply Rle_trans; [apply (near_dist fs vt vt 0 (Rle_refl 0)); apply near_refl; lra | lra]. }
  assert (c2 * dist fs vt vt <= c2 * 0) by (apply Rmult_le_compat_l; lra). assert (DZ : dist fs v vt <= 0) by (apply Rmult_le_reg_l with c1; lra).
  apply map_ext_in. intros m _. pose proof (dist_near fs v vt (proj1 Hs0) m) as Q. pose proof (Rabs_pos (v m - vt m)). destruct (Req_dec (v m - vt m) 0) as [E|E]; [lra|]. apply Rabs_pos_lt in E. lra.
Qed.
