(** Last steps of the proofs quoted in Properties_Local.v. *)
From Coq Require Import Reals Lra String Bool Arith Lia List ZArith.
From Verif Require Import Prelude ExtF Tree ChainModel SpecFK ChainProofs ChainTables TreeQueries Input Widths Lin Trig RotModel RotBasic QuatProofs AxisAngle ChainInst
  FKMore ChainClamp Examples SerialModel SerialProofs SerialMore Deriv JacModel JacProofs JacMore IKModel IKProofs IKMore IKLimits IKKernel KernelProofs DeltaPose IKSolve SolveProofs
  SpecDescent PathDeriv DescentProofs DescFinal SpecLocal LocalNorm LocalCont LocalErr LocalDeriv LocalStep LocalRun LocalTraj LocalStart.
Import ListNotations.
Local Open Scope string_scope.
Local Open Scope list_scope.
Local Open Scope R_scope.

Lemma within_config root (r : mframe) fs row w delta : In r (preorder root) -> distinct_joints root -> root_path r (r :: fs) -> 0 <= delta -> row_within delta row (map w (path_names fs)) ->
  exists v : config (S := R), row = map v (path_names fs) /\ near delta v w.
Proof.
  intros Hin Hdj Hp Hd H. assert (L : length row = length (path_names fs)) by (rewrite <- (map_length w); clear - H; induction H; cbn [length]; congruence).
  destruct (row_config_else root r fs row w Hin Hdj Hp L) as (v & E & Ho). exists v. split; [exact E|]. intros n. destruct (in_dec names_dec n (path_names fs)) as [I|I].
  - rewrite E in H. clear - H I. unfold row_within in H. induction (path_names fs) as [|a l IH]; [contradiction|]. cbn [map] in H. inversion H; subst. destruct I as [<-|I]; [assumption | apply IH; assumption].
  - rewrite (Ho n I), Rminus_diag_eq, Rabs_R0 by reflexivity. exact Hd.
Qed.
Lemma near_within eps v w (fs : list mframe) : near eps v w -> row_within eps (map v (path_names fs)) (map w (path_names fs)).
Proof. intros H. unfold row_within. induction (path_names fs) as [|a l IH]; cbn [map]; [constructor|]. constructor; [apply H | exact IH]. Qed.

(** what the two theorems share *)
Section Core.
Variables (root r : mframe) (fs : list mframe) (s : schain M4 V3).
Hypothesis (Hin : In r (preorder root)) (Hdj : distinct_joints root) (Hdf : distinct_frames root) (Hcl : clean_names root)
  (Hp : root_path r (r :: fs)) (Ht : serial_tables mops zax s r fs) (Hrig : rigid_tree root).
Variables (reg lm wp wr lr eps : R) (w : config (S := R)).
Hypothesis (Hreg : 0 < reg) (Hlm : 0 <= lm) (Hwp : 0 < wp) (Hwr : 0 < wr) (Hlr : 0 < lr <= 1) (Heps : 0 < eps).
Hypothesis HJ : reaches (map (col_of w (pose w fs)) (mov [] fs)).

Lemma local_core : exists delta dl rho, 0 < delta /\ 0 < dl <= eps /\ 0 < rho < 1 /\
  (forall target v, is_rot (rotp target) -> closeR dl (rotp target) (rotp (pose w fs)) -> near dl v w ->
    let e := werr wp wr target (pose v fs) in
    exists d : config (S := R), pik_row s target reg lm (Some (row_weights wp wr)) (map v (path_names fs)) = Ok (map d (path_names fs), map (six (comp_err target (pose v fs))) (seq 0 6)) /\
    (e <= 1 -> (forall m, Rabs (d m) <= e / sqrt reg) /\ (near dl (drive v d lr) w -> werr wp wr target (pose (drive v d lr) fs) <= rho * e))) /\
  (forall o v, near dl v w -> (all_joints off_limits fs (map w (path_names fs)) -> clamp_row (ik_low (pik_init s o)) (ik_high (pik_init s o)) (map Fin (map v (path_names fs))) = map Fin (map v (path_names fs))) /\
    (all_joints same_turn fs (map w (path_names fs)) -> wrap_row (pik_init s o) (map Fin (map v (path_names fs))) = map Fin (map v (path_names fs)))) /\
  (forall targets i row, is_rot (rotp (targets i)) -> row_within delta row (map w (path_names fs)) -> pose_within delta (targets i) (pose w fs) ->
    closeR dl (rotp (targets i)) (rotp (pose w fs)) /\ exists v, row = map v (path_names fs) /\ state fs reg wp wr dl rho w targets i v /\ werr wp wr (targets i) (pose v fs) <= Rmin wp wr).
Proof.
  set (n := length (path_names fs)). assert (EL : length (map (col_of w (pose w fs)) (mov [] fs)) = n) by (apply cols_len).
  destruct (reaches_inverse _ HJ) as (B & HB). rewrite EL in HB.
  destruct (local_step root r fs s Hin Hdj Hdf Hcl Hp Ht Hrig reg lm wp wr lr w Hreg Hlm Hwp Hwr Hlr B HB) as (d0 & rho & D0 & Hrho & Hst).
  destruct (room_all (filter moving fs) w) as (dm & Dm & Hroom).
  set (dl := Rmin eps (Rmin d0 dm)). assert (Hdl : 0 < dl) by (unfold dl; repeat apply Rmin_pos; assumption).
  assert (L1 : dl <= eps) by apply Rmin_l. assert (L2 : dl <= d0) by (eapply Rle_trans; [apply Rmin_r | apply Rmin_l]). assert (L3 : dl <= dm) by (eapply Rle_trans; [apply Rmin_r | apply Rmin_r]). clearbody dl.
  pose proof (reach_pos reg rho Hreg Hrho) as RP. set (C := reach reg rho) in *.
  set (b := Rmin dl (Rmin 1 (Rmin (Rmin wp wr) (dl / (2 * C))))).
  assert (W0 := Rmin_pos wp wr Hwp Hwr). assert (C0 : 0 < dl / (2 * C)) by (apply Rdiv_lt_0_compat; lra). assert (Hb : 0 < b) by (unfold b; repeat apply Rmin_pos; lra).
  assert (B1 : b <= dl) by apply Rmin_l. assert (B2 : b <= 1) by (eapply Rle_trans; [apply Rmin_r | apply Rmin_l]). assert (B3 : b <= Rmin wp wr) by (eapply Rle_trans; [apply Rmin_r | eapply Rle_trans; [apply Rmin_r | apply Rmin_l]]).
  assert (B4 : b <= dl / (2 * C)) by (eapply Rle_trans; [apply Rmin_r | eapply Rle_trans; [apply Rmin_r | apply Rmin_r]]). clearbody b.
  destruct (start_small root r fs w wp wr b Hin Hp Hrig Hwp Hwr Hb) as (d2 & D2 & Hsm).
  exists (Rmin d2 (dl / 2)), dl, rho. split; [apply Rmin_pos; lra|]. split; [lra|]. split; [exact Hrho|]. split; [|split].
  - intros target v Hr Hc Hn e. destruct (Hst target v Hr (closeR_mono _ _ _ _ L2 Hc) (near_mono _ _ _ _ L2 Hn)) as (d & Hk & Hd). exists d. split; [exact Hk|]. intros He. destruct (Hd He) as [H1 H2]. split; [exact H1|].
    intros Hn'. apply H2. eapply near_mono; [exact L2 | exact Hn'].
  - intros o v Hn. destruct (Hroom v) as [R1 R2]; [intros m; specialize (Hn m); lra|]. destruct (serial_limits r fs s Ht) as [E1 E2]. unfold all_joints, path_names, wrap_row. cbn [pik_init ik_low ik_high ik_rev]. unfold rev_mask.
    rewrite E1, E2, (serial_joints r fs s Ht), (map_map f_joint). split; [exact R1 | exact R2].
  - intros targets i row Hr Hw Hpw. assert (Q1 := Rmin_l d2 (dl / 2)). assert (Q2 := Rmin_r d2 (dl / 2)).
    assert (Q3 : 0 <= Rmin d2 (dl / 2)) by (left; apply Rmin_pos; lra).
    destruct (within_config root r fs row w _ Hin Hdj Hp Q3 Hw) as (v & Ev & Hn).
    destruct (Hsm (targets i) v Hr (near_mono _ _ _ _ Q1 Hn)) as [S1 S2].
    { destruct Hpw as (P1 & a & P2 & P3). split; [lra|]. exists a. split; [exact P2 | lra]. }
    split; [eapply closeR_mono; [exact B1 | exact S2]|]. exists v. split; [exact Ev|]. split; [|lra]. split; [lra|]. eapply near_mono; [|exact Hn]. fold C.
    assert (C * werr wp wr (targets i) (pose v fs) <= C * (dl / (2 * C))) by (apply Rmult_le_compat_l; lra). replace (C * (dl / (2 * C))) with (dl / 2) in H by (field; lra). lra.
Qed.
End Core.

Lemma row0_config root (r : mframe) fs row0 : In r (preorder root) -> distinct_joints root -> root_path r (r :: fs) -> length row0 = length (filter moving fs) -> exists w : config (S := R), row0 = map w (path_names fs).
Proof. intros Hin Hdj Hp L. apply (row_config root r fs Hin Hdj Hp). unfold path_names. rewrite map_length. exact L. Qed.
Lemma pow_small rho N x y : 0 < rho < 1 -> 0 <= x <= y -> rho ^ N * x <= rho ^ N * y.
Proof. intros H1 H2. apply Rmult_le_compat_l; [left; apply pow_lt; lra | lra]. Qed.
Lemma no_limits (r : mframe) fs s o : serial_tables mops zax s r fs -> (forall f, In f fs -> moving f = true -> j_lim (f_joint f) = None) -> ik_enforce (pik_init s o) && has_finite_limits (pik_init s o) = false.
Proof.
  intros Ht H. destruct (serial_limits r fs s Ht) as [EL EH]. unfold has_finite_limits. cbn [pik_init ik_enforce ik_low ik_high]. rewrite EL, EH.
  assert (L : forall (g h : mframe -> F) l, (forall f, In f l -> g f = NInf /\ h f = PInf) -> existsb isfinite (map g l) || existsb isfinite (map h l) = false).
  { intros g h. induction l as [|f l IH]; intros Q; [reflexivity|]. destruct (Q f (or_introl eq_refl)) as [Q1 Q2]. cbn [map existsb]. rewrite Q1, Q2. cbn [isfinite orb]. apply IH. intros f' Hf'. apply Q. right; exact Hf'. }
  rewrite L, andb_false_r; [reflexivity|]. intros f Hf. apply filter_In in Hf. rewrite (H f) by apply Hf. split; reflexivity.
Qed.
(** the machine used in the examples: three slides that carry a wrist with three axes *)
Definition lim1 : option (F * F) := Some (Fin (-1), Fin 1).
Definition yax : V3 := mkV3 0 1 0.
Definition w_c : mframe := Frame "hand" (mkLink (Some "hand") None) (mkJoint (Some "c") None Revolute zax lim1 None None) [].
Definition w_b : mframe := Frame "fork" (mkLink (Some "fork") None) (mkJoint (Some "b") None Revolute yax lim1 None None) [w_c].
Definition w_a : mframe := Frame "roll" (mkLink (Some "roll") None) (mkJoint (Some "a") None Revolute xax lim1 None None) [w_b].
Definition w_z : mframe := Frame "up" (mkLink (Some "up") None) (mkJoint (Some "z") None Prismatic zax lim1 None None) [w_a].
Definition w_y : mframe := Frame "across" (mkLink (Some "across") None) (mkJoint (Some "y") None Prismatic yax lim1 None None) [w_z].
Definition w_x : mframe := Frame "along" (mkLink (Some "along") None) (mkJoint (Some "x") None Prismatic xax lim1 None None) [w_y].
Definition wrist : mframe := Frame "base" (mkLink (Some "base") None) fixed_joint [w_x].
Definition wrist_path : list mframe := [w_x; w_y; w_z; w_a; w_b; w_c].
Lemma yax_unit : unit3 yax. Proof. unfold yax. lin_simpl. ring. Qed.
Lemma wrist_distinct_joints : distinct_joints wrist. Proof. unfold distinct_joints, moving_names; simpl. nodup. Qed.
Lemma wrist_distinct_frames : distinct_frames wrist. Proof. unfold distinct_frames; simpl. nodup. Qed.
Lemma wrist_clean : clean_names wrist. Proof. intros f H; simpl in H. repeat (destruct H as [<-|H]; [reflexivity|]). contradiction. Qed.
Lemma wrist_rigid : rigid_tree wrist.
Proof.
  intros f H; simpl in H. repeat (destruct H as [<-|H]; [split; [exact I|]; split; [exact I|]; intros Q; first [discriminate Q | exact xax_unit | exact yax_unit | exact zax_unit]|]). contradiction.
Qed.
Lemma wrist_root_path : root_path wrist (wrist :: wrist_path).
Proof. unfold wrist_path. do 6 (eapply rp_child; [left; reflexivity|]). apply rp_here. Qed.
Lemma wrist_rel f : In f wrist_path -> rel_pose mops (fun _ => 0) f = I4.
Proof.
  assert (P0 : forall k, axis_and_d_to_pris_matrix k 0 = I4) by (intros k; rewrite pris_aff; unfold aff, vscale, I3, I4; cbn [m00 m01 m02 m10 m11 m12 m20 m21 m22 vx vy vz]; apply mkM4_eq; ring).
  intros H. simpl in H. unfold rel_pose, joint_motion.
  destruct H as [<-|[<-|[<-|[<-|[<-|[<-|[]]]]]]]; cbn -[m4mul I4 axis_and_d_to_pris_matrix axis_and_angle_to_matrix_44 xax yax zax]; rewrite ?P0, ?rot44_0, ?m4mul_1_l, ?m4mul_1_r; reflexivity.
Qed.
Lemma wrist_pose l : (forall f, In f l -> In f wrist_path) -> pose (fun _ => 0) l = I4.
Proof. induction l as [|f l IH]; intros H; [rewrite pose_nil; reflexivity|]. rewrite pose_cons, (wrist_rel f) by (apply H; left; reflexivity). rewrite IH by (intros; apply H; right; assumption). apply m4mul_1_l. Qed.
Lemma wrist_pose0 : pose (fun _ => 0) wrist_path = I4. Proof. apply wrist_pose. auto. Qed.
Lemma wrist_cols : map (col_of (fun _ => 0) (pose (fun _ => 0) wrist_path)) (mov [] wrist_path) = [(xax, vzero); (yax, vzero); (zax, vzero); (vzero, xax); (vzero, yax); (vzero, zax)].
Proof.
  rewrite wrist_pose0. change (mov [] wrist_path) with [([], w_x); ([w_x], w_y); ([w_x; w_y], w_z); ([w_x; w_y; w_z], w_a); ([w_x; w_y; w_z; w_a], w_b); ([w_x; w_y; w_z; w_a; w_b], w_c)]. cbn [map].
  assert (C : forall p g, (forall f, In f (p ++ [g]) -> In f wrist_path) -> col_of (fun _ => 0) I4 (p, g) = if jtype_eqb (j_type (f_joint g)) Revolute then (vzero, j_axis (f_joint g)) else (j_axis (f_joint g), vzero)).
  { intros p g H. unfold col_of. cbn [fst snd]. rewrite (wrist_pose _ H). change (rotp I4) with I3. rewrite m3vec_1. destruct (jtype_eqb _ _); [|reflexivity]. replace (vcross (j_axis (f_joint g)) (vsub (trp I4) (trp I4))) with vzero; [reflexivity|].
    unfold vcross, vsub, vzero. cbn [vx vy vz]. apply mkV3_eq; ring. }
  rewrite !C by (intros f Hf; unfold wrist_path; simpl in Hf |- *; tauto). reflexivity.
Qed.
Lemma wrist_reaches : reaches (map (col_of (fun _ => 0) (pose (fun _ => 0) wrist_path)) (mov [] wrist_path)).
Proof.
  rewrite wrist_cols. intros [a b]. exists [vx a; vy a; vz a; vx b; vy b; vz b]. split; [reflexivity|]. unfold combo. cbn [combine fold_right fst snd].
  assert (H2 : forall (x y x' y' : V3), x = x' -> y = y' -> (x, y) = (x', y')) by (intros; congruence). apply H2; [destruct a as [a1 a2 a3] | destruct b as [b1 b2 b3]]; unfold vadd, vscale, vzero, xax, yax, zax; cbn [vx vy vz]; apply mkV3_eq; ring.
Qed.
Lemma local_setup (nan : R) is_nan (root r : mframe) c rn p fs s row0 T0 J Ts :
  chain_init mops root = Ok c -> distinct_joints root -> distinct_frames root -> clean_names root ->
  root_path root (p ++ [r]) -> ((rn = "" /\ r = root) \/ (rn <> "" /\ rn = f_name r)) -> root_path r (r :: fs) ->
  serial_init mops zax c (f_name (last (r :: fs) r)) rn = Ok s -> length row0 = length (filter moving fs) ->
  serial_fk_end mops nan is_nan s (InTensor (T1 row0)) = Ok [T0] -> jacobian s (InTensor (T1 row0)) None = Ok ([J], Ts) ->
  In r (preorder root) /\ serial_tables mops zax s r fs /\ exists w : config (S := R), row0 = map w (path_names fs) /\ T0 = pose w fs /\ J = map (col_of w (pose w fs)) (mov [] fs).
Proof.
  intros Hc Hdj Hdf Hcl Hpr Hrn Hp Hs L0 HT0 HJT.
  assert (Hin : In r (preorder root)) by (eapply root_path_in; exact Hpr).
  assert (Hch : root_choice root r rn) by (destruct Hrn as [?|[? ?]]; [left | right]; auto).
  destruct (serial_ok mops zax root c rn r fs Hc Hdf Hcl Hch Hp) as (s' & Hs' & Ht). assert (Es : s' = s) by (rewrite Hs in Hs'; congruence). subst s'.
  destruct (row0_config root r fs row0 Hin Hdj Hp L0) as (w & ->).
  assert (HX : forall X (a b : X), Ok a = Ok b -> a = b) by (intros; congruence).
  pose proof (serial_pose nan is_nan root r c rn fs s w Hin Hdj Hdf Hcl Hp Hs Ht) as FK. rewrite (path_chain_names r fs s Ht) in FK. rewrite FK in HT0. apply HX in HT0. assert (ET : pose w fs = T0) by congruence. subst T0.
  unfold jacobian in HJT. cbn [jac_input rbind] in HJT. rewrite map_length in HJT. change (mkTh (length (path_names fs)) [map w (path_names fs)]) with (path_tensor fs [w]) in HJT.
  rewrite (jacobian_tensor_eq root r fs s [w] Hin Hdj Hdf Hcl Hp Ht) in HJT. apply HX in HJT. cbn [map] in HJT. assert (EJ : map (col_of w (pose w fs)) (mov [] fs) = J) by congruence. subst J.
  split; [exact Hin|]. split; [exact Ht|]. exists w. auto.
Qed.

Lemma l78_converges : forall (nan : R) is_nan (root r : mframe) c rn p fs s row0 T0 J Ts reg lm wp wr lr eps,
  chain_init mops root = Ok c -> distinct_joints root -> distinct_frames root -> clean_names root -> rigid_tree root ->
  root_path root (p ++ [r]) -> ((rn = "" /\ r = root) \/ (rn <> "" /\ rn = f_name r)) -> root_path r (r :: fs) ->
  serial_init mops zax c (f_name (last (r :: fs) r)) rn = Ok s -> length row0 = length (filter moving fs) ->
  serial_fk_end mops nan is_nan s (InTensor (T1 row0)) = Ok [T0] -> jacobian s (InTensor (T1 row0)) None = Ok ([J], Ts) -> reaches J ->
  0 < reg -> 0 <= lm -> 0 < wp -> 0 < wr -> 0 < lr <= 1 -> 0 < eps ->
  exists delta rho, 0 < delta /\ 0 < rho < 1 /\
  forall targets o np q0 i t row pt rt N,
  ik_lr o = Fin lr -> ik_ls o = None -> (0 < ik_nr o)%nat -> ik_ptol o = Fin pt -> ik_rtol o = Fin rt ->
  ik_noimp o = NoStop \/ ((ik_noimp o = StopAny \/ (ik_nr o = 1%nat /\ forall x, ik_noimp o = StopRatio x -> x < 1)) /\ rho ^ S (ik_patience o) * Rmax wp wr < Rmin wp wr) ->
  ik_clamp o = false \/ all_joints off_limits fs row0 -> ik_enforce o = false \/ (forall f, In f fs -> moving f = true -> j_lim (f_joint f) = None) ->
  length q0 = (np * ik_nr o)%nat -> (i < np)%nat -> (t < ik_nr o)%nat -> nth_error q0 (i * ik_nr o + t) = Some (map Fin row) -> row_within delta row row0 ->
  is_rigid (targets i) -> pose_within delta (targets i) T0 -> rho ^ N < pt -> rho ^ N < rt -> (N <= ik_max o)%nat ->
  exists sol, solve_from (pik_kern s targets reg lm (Some (row_weights wp wr))) (pik_init s o) np q0 = Ok sol /\ nth_error (s_any sol) i = Some true /\
  (ik_stop_any o = false \/ ik_nr o = 1%nat -> exists e rowe, entry_at sol i t = Some e /\ e_conv e = true /\ e_q e = map Fin rowe /\ row_within eps rowe row0).
Proof.
  intros nan is_nan root r c rn p fs s row0 T0 J Ts reg lm wp wr lr eps Hc Hdj Hdf Hcl Hrt Hpr Hrn Hp Hs L0 HT0 HJT HJ Hreg Hlm Hwp Hwr Hlr Heps.
  destruct (local_setup nan is_nan root r c rn p fs s row0 T0 J Ts Hc Hdj Hdf Hcl Hpr Hrn Hp Hs L0 HT0 HJT) as (Hin & Ht & w & -> & -> & ->).
  destruct (local_core root r fs s Hin Hdj Hdf Hcl Hp Ht Hrt reg lm wp wr lr eps w Hreg Hlm Hwp Hwr Hlr Heps HJ) as (delta & dl & rho & D1 & D2 & Hrho & Hst & Hroom & Hstart).
  exists delta, rho. split; [exact D1|]. split; [exact Hrho|].
  intros targets o np q0 i t row pt rt N Holr Hols Hnr Hpt Hrtol Hstop Hlim Henf Hlen Hi Htt Hrow Hw Htg Hpw N1 N2 Hmax.
  destruct (Hstart targets i row ltac:(apply Htg) Hw Hpw) as (Hcl2 & v0 & -> & Hs0 & He0).
  assert (E0 : q0 = vec (np * ik_nr o) (fun i => nth i q0 [])) by (rewrite <- Hlen; apply vec_of). set (Q0 := fun i => nth i q0 []) in *.
  assert (Hv0 : Q0 (i * ik_nr o + t)%nat = map Fin (map v0 (path_names fs))) by (unfold Q0; apply nth_error_nth; exact Hrow).
  assert (Hcp : ik_clamp (pik_init s o) = false \/ free fs s dl w o).
  { destruct Hlim as [Q|Q]; [left; cbn [pik_init ik_clamp]; rewrite Q; reflexivity|]. right. intros v Hv. apply (Hroom o v Hv). exact Q. }
  assert (Hen : ik_enforce (pik_init s o) && has_finite_limits (pik_init s o) = false).
  { destruct Henf as [Q|Q]; [cbn [pik_init ik_enforce]; rewrite Q; reflexivity|]. apply no_limits with r fs; assumption. }
  destruct (local_plain r fs s Ht reg lm wp wr lr dl rho w Hreg Hwp Hwr Hlr Hrho Hst targets i ltac:(apply Htg) Hcl2 o np Q0 Hnr Holr Hols t Hi Htt v0 Hv0 Hs0 Hcp pt rt Hpt Hrtol N He0 N1 N2 Hmax Hstop Hen) as (sol & Es & H1 & H2).
  exists sol. rewrite E0. split; [exact Es|]. split; [exact H1|]. intros Q. destruct (H2 Q) as (e & v & G1 & G2 & G3 & G4). exists e, (map v (path_names fs)). split; [exact G1|]. split; [exact G2|]. split; [exact G3|].
  apply near_within. eapply near_mono; [apply D2 | exact G4].
Qed.

Lemma l78_limits : forall (nan : R) is_nan (root r : mframe) c rn p fs s row0 T0 J Ts reg lm wp wr lr eps,
  chain_init mops root = Ok c -> distinct_joints root -> distinct_frames root -> clean_names root -> rigid_tree root ->
  root_path root (p ++ [r]) -> ((rn = "" /\ r = root) \/ (rn <> "" /\ rn = f_name r)) -> root_path r (r :: fs) ->
  serial_init mops zax c (f_name (last (r :: fs) r)) rn = Ok s -> length row0 = length (filter moving fs) ->
  serial_fk_end mops nan is_nan s (InTensor (T1 row0)) = Ok [T0] -> jacobian s (InTensor (T1 row0)) None = Ok ([J], Ts) -> reaches J ->
  0 < reg -> 0 <= lm -> 0 < wp -> 0 < wr -> 0 < lr <= 1 -> 0 < eps -> all_joints off_limits fs row0 -> all_joints same_turn fs row0 ->
  exists delta rho, 0 < delta /\ 0 < rho < 1 /\
  forall targets o np q0 i t row pt rt N,
  ik_lr o = Fin lr -> ik_ls o = None -> (0 < ik_nr o)%nat -> ik_ptol o = Fin pt -> ik_rtol o = Fin rt ->
  ik_noimp o = NoStop \/ ((ik_noimp o = StopAny \/ (ik_nr o = 1%nat /\ forall x, ik_noimp o = StopRatio x -> x < 1)) /\ rho ^ S (ik_patience o) * Rmax wp wr < Rmin wp wr) ->
  ik_stop_any o = false \/ ik_nr o = 1%nat ->
  ik_refine o = 0%nat \/ (rho ^ ik_refine o * (wp * pt + wr * rt) < wp * pt /\ rho ^ ik_refine o * (wp * pt + wr * rt) < wr * rt) ->
  length q0 = (np * ik_nr o)%nat -> (i < np)%nat -> (t < ik_nr o)%nat -> nth_error q0 (i * ik_nr o + t) = Some (map Fin row) -> row_within delta row row0 ->
  is_rigid (targets i) -> pose_within delta (targets i) T0 -> rho ^ N < pt -> rho ^ N < rt -> (N <= ik_max o)%nat ->
  exists sol e rowe, solve_from (pik_kern s targets reg lm (Some (row_weights wp wr))) (pik_init s o) np q0 = Ok sol /\ nth_error (s_any sol) i = Some true /\
  entry_at sol i t = Some e /\ e_conv e = true /\ e_q e = map Fin rowe /\ row_within eps rowe row0.
Proof.
  intros nan is_nan root r c rn p fs s row0 T0 J Ts reg lm wp wr lr eps Hc Hdj Hdf Hcl Hrt Hpr Hrn Hp Hs L0 HT0 HJT HJ Hreg Hlm Hwp Hwr Hlr Heps Hoff Hturn.
  destruct (local_setup nan is_nan root r c rn p fs s row0 T0 J Ts Hc Hdj Hdf Hcl Hpr Hrn Hp Hs L0 HT0 HJT) as (Hin & Ht & w & -> & -> & ->).
  destruct (local_core root r fs s Hin Hdj Hdf Hcl Hp Ht Hrt reg lm wp wr lr eps w Hreg Hlm Hwp Hwr Hlr Heps HJ) as (delta & dl & rho & D1 & D2 & Hrho & Hst & Hroom & Hstart).
  exists delta, rho. split; [exact D1|]. split; [exact Hrho|].
  intros targets o np q0 i t row pt rt N Holr Hols Hnr Hpt Hrtol Hstop Hone Href Hlen Hi Htt Hrow Hw Htg Hpw N1 N2 Hmax.
  destruct (Hstart targets i row ltac:(apply Htg) Hw Hpw) as (Hcl2 & v0 & -> & Hs0 & He0).
  assert (E0 : q0 = vec (np * ik_nr o) (fun i => nth i q0 [])) by (rewrite <- Hlen; apply vec_of). set (Q0 := fun i => nth i q0 []) in *.
  assert (Hv0 : Q0 (i * ik_nr o + t)%nat = map Fin (map v0 (path_names fs))) by (unfold Q0; apply nth_error_nth; exact Hrow).
  assert (Hf : free fs s dl w o) by (intros v Hv; apply (Hroom o v Hv); exact Hoff).
  assert (Hu : unturned fs s dl w o) by (intros v Hv; apply (Hroom o v Hv); exact Hturn).
  assert (FIN : forall rows v, near dl v w -> rows = map v (path_names fs) -> row_within eps rows (map w (path_names fs))) by (intros rows v Hv ->; apply near_within; eapply near_mono; [apply D2 | exact Hv]).
  destruct (ik_enforce (pik_init s o) && has_finite_limits (pik_init s o)) eqn:Hen.
  - destruct (local_enforced r fs s Ht reg lm wp wr lr dl rho w Hreg Hwp Hwr Hlr Hrho Hst targets i ltac:(apply Htg) Hcl2 o np Q0 Hnr Holr Hols t Hi Htt v0 Hv0 Hs0 (or_intror Hf) pt rt Hpt Hrtol N He0 N1 N2 Hmax Hstop Hen Hf Hu Hone Href) as (sol & Es & H1 & e & v & G1 & G2 & G3 & G4).
    exists sol, e, (map v (path_names fs)). rewrite E0. split; [exact Es|]. split; [exact H1|]. split; [exact G1|]. split; [exact G2|]. split; [exact G3|]. apply (FIN _ v G4 eq_refl).
  - destruct (local_plain r fs s Ht reg lm wp wr lr dl rho w Hreg Hwp Hwr Hlr Hrho Hst targets i ltac:(apply Htg) Hcl2 o np Q0 Hnr Holr Hols t Hi Htt v0 Hv0 Hs0 (or_intror Hf) pt rt Hpt Hrtol N He0 N1 N2 Hmax Hstop Hen) as (sol & Es & H1 & H2).
    destruct (H2 Hone) as (e & v & G1 & G2 & G3 & G4). exists sol, e, (map v (path_names fs)). rewrite E0. split; [exact Es|]. split; [exact H1|]. split; [exact G1|]. split; [exact G2|]. split; [exact G3|]. apply (FIN _ v G4 eq_refl).
Qed.
