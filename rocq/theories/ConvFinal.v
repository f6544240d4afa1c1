(** Last steps of the proofs quoted in Properties_Conv.v. *)
From Coq Require Import Reals Lra String Bool Arith Lia List ZArith.
From Verif Require Import Prelude ExtF Tree ChainModel SpecFK ChainProofs ChainTables TreeQueries Input Widths Lin Trig RotModel RotBasic QuatProofs AxisAngle ChainInst
  FKMore ChainClamp Examples SerialModel SerialProofs SerialMore Deriv JacModel JacProofs JacMore IKModel IKProofs IKMore IKLimits IKKernel KernelProofs DeltaPose IKSolve SolveProofs
  SpecDescent PathDeriv DescentProofs DescFinal SpecGantry GantryProofs GantryRun.
Import ListNotations.
Local Open Scope string_scope.
Local Open Scope list_scope.
Local Open Scope R_scope.

Lemma norm6 e : fnorm (map Fin (map (six (e, vzero)) (seq 0 6))) = Fin (vnorm e).
Proof.
  cbn [seq map]. unfold six. cbn [fst snd]. unfold vzero. cbn [vx vy vz]. unfold fnorm. cbn [map fmul fsum fold_right fadd fsqrt].
  match goal with |- context [Rltb ?a 0] => replace a with (vnorm2 e) by (unfold vnorm2, vdot; ring) end.
  unfold Rltb. destruct (Rlt_dec (vnorm2 e) 0) as [L|L]; [exfalso; pose proof (vnorm2_nonneg e); lra | reflexivity].
Qed.
Lemma norm6_pos e : pos_err (map Fin (map (six (e, vzero)) (seq 0 6))) = Fin (vnorm e).
Proof. unfold pos_err. cbn [seq map firstn]. unfold six. cbn [fst]. rewrite norm3. destruct e; reflexivity. Qed.
Lemma norm6_rot e : rot_err (map Fin (map (six (e, vzero)) (seq 0 6))) = Fin 0.
Proof.
  unfold rot_err. cbn [seq map skipn]. unfold six. cbn [snd]. rewrite norm3. f_equal. unfold vzero. cbn [vx vy vz]. unfold vnorm. replace (vnorm2 (mkV3 0 0 0)) with 0 by (unfold vnorm2, vdot; cbn [vx vy vz]; ring). apply sqrt_0.
Qed.
Lemma step_fin lr (v d : config (S := R)) l : step_row (Fin lr) (map Fin (map v l)) (map Fin (map d l)) = map Fin (map (drive v d lr) l).
Proof. induction l as [|x l IH]; [reflexivity|]. unfold step_row in *. cbn [map zip_with2]. rewrite IH. reflexivity. Qed.

Section Traj.
Variables (root r : mframe) (fs : list mframe) (s : schain M4 V3).
Hypothesis (Hin : In r (preorder root)) (Hdj : distinct_joints root) (Hdf : distinct_frames root) (Hcl : clean_names root)
  (Hp : root_path r (r :: fs)) (Ht : serial_tables mops zax s r fs) (Hrig : rigid_tree root).
Variables (targets : nat -> M4) (reg lm wp wr lr mu : R) (o : ik).
Hypothesis (Htg : forall i, is_rigid (targets i)) (Hor : forall i, rotp (targets i) = rotp (pose (fun _ => 0) fs)) (Hg : gantry fs) (Hsp : spread mu (slide_axes I3 fs)).
Hypothesis (Hmu : 0 < mu) (Hreg : 0 < reg) (Hlm : 0 <= lm) (Hwp : 0 < wp) (Hlr : 0 < lr <= 1).
Variables (np : nat) (Q0 : nat -> list F).
Let k := pik_init s o.
Let kern := pik_kern s targets reg lm (Some (row_weights wp wr)).
Hypothesis (Hnr : (0 < ik_nr o)%nat) (Holr : ik_lr o = Fin lr) (Hols : ik_ls o = None) (Hoc : ik_clamp k = false).
Hypothesis HQ0 : forall i, (i < np * ik_nr o)%nat -> exists row, Q0 i = map Fin row /\ length row = length (path_names fs).

Definition dist (i t j : nat) : R := match pos_err (Dj kern k np Q0 i t j) with Fin x => x | _ => 0 end.
Lemma kern_gantry i v : exists d, kern i (map Fin (map v (path_names fs))) = (map Fin (map d (path_names fs)), map Fin (map (six (vsub (trp (targets i)) (trp (pose v fs)), vzero)) (seq 0 6))) /\
  vnorm (vsub (trp (targets i)) (trp (pose (drive v d lr) fs))) <= rate lr mu reg lm wp (vnorm (vsub (trp (targets i)) (trp (pose v fs)))) * vnorm (vsub (trp (targets i)) (trp (pose v fs))).
Proof.
  destruct (gantry_step root r fs s (targets i) v reg lm wp wr lr mu Hin Hdj Hdf Hcl Hp Ht Hrig ltac:(apply Htg) (Hor i) Hg Hsp Hmu Hreg Hlm Hwp Hlr) as (d & E & B). exists d. split; [|exact B].
  unfold kern, pik_kern. rewrite (proj2 (fin_row_of_some _ _) eq_refl), map_length, (path_chain_names r fs s Ht), Nat.eqb_refl, E. reflexivity.
Qed.
Lemma traj i t j : (i < np)%nat -> (t < ik_nr o)%nat -> exists v, Qj kern k np Q0 j (i * ik_nr o + t) = map Fin (map v (path_names fs)) /\
  dist i t j = vnorm (vsub (trp (targets i)) (trp (pose v fs))) /\ pos_err (Dj kern k np Q0 i t j) = Fin (dist i t j) /\ rot_err (Dj kern k np Q0 i t j) = Fin 0 /\ ej kern k np Q0 i t j = Fin (dist i t j) /\
  dist i t (S j) <= rate lr mu reg lm wp (dist i t j) * dist i t j.
Proof.
  intros Hi Htt.
  assert (A : forall j v, Qj kern k np Q0 j (i * ik_nr o + t) = map Fin (map v (path_names fs)) ->
    dist i t j = vnorm (vsub (trp (targets i)) (trp (pose v fs))) /\ pos_err (Dj kern k np Q0 i t j) = Fin (dist i t j) /\ rot_err (Dj kern k np Q0 i t j) = Fin 0 /\ ej kern k np Q0 i t j = Fin (dist i t j)).
  { intros l v E. destruct (kern_gantry i v) as (d & K & _). assert (ED : Dj kern k np Q0 i t l = map Fin (map (six (vsub (trp (targets i)) (trp (pose v fs)), vzero)) (seq 0 6))).
    { unfold Dj. change (ik_nr k) with (ik_nr o). rewrite E, K. reflexivity. }
    unfold dist, ej. rewrite ED, norm6_pos, norm6_rot, norm6. auto. }
  assert (B : forall l v, Qj kern k np Q0 l (i * ik_nr o + t) = map Fin (map v (path_names fs)) -> forall d dx, kern i (map Fin (map v (path_names fs))) = (map Fin (map d (path_names fs)), dx) ->
    Qj kern k np Q0 (S l) (i * ik_nr o + t) = map Fin (map (drive v d lr) (path_names fs))).
  { intros l v E d dx K. unfold Qj in *. cbn [IKProofs.iter fbody f_q]. unfold clampq, lrs. rewrite Hoc. change (ik_ls k) with (ik_ls o). change (ik_lr k) with (ik_lr o). change (ik_nr k) with (ik_nr o). rewrite Hols, Holr.
    rewrite E. rewrite Nat.div_add_l, (Nat.div_small t (ik_nr o) Htt), Nat.add_0_r by lia. rewrite K. cbn [fst]. apply step_fin. }
  assert (C : forall l, exists v, Qj kern k np Q0 l (i * ik_nr o + t) = map Fin (map v (path_names fs))).
  { induction l as [|l (v & E)].
    - destruct (HQ0 (i * ik_nr o + t)) as (row & E & L); [nia|]. destruct (row_config root r fs Hin Hdj Hp row L) as (v & ->). exists v. exact E.
    - destruct (kern_gantry i v) as (d & K & _). eexists. eapply B; eassumption. }
  destruct (C j) as (v & E). exists v. split; [exact E|]. destruct (A j v E) as (A1 & A2 & A3 & A4). split; [exact A1|]. split; [exact A2|]. split; [exact A3|]. split; [exact A4|].
  destruct (kern_gantry i v) as (d & K & Bd). destruct (A (S j) _ (B j v E d _ K)) as (-> & _). rewrite A1. exact Bd.
Qed.
Lemma dist_nonneg i t j : (i < np)%nat -> (t < ik_nr o)%nat -> 0 <= dist i t j.
Proof. intros Hi Htt. destruct (traj i t j Hi Htt) as (v & _ & -> & _). apply vnorm_nonneg. Qed.
Lemma dist_down i t j : (i < np)%nat -> (t < ik_nr o)%nat -> (0 < dist i t j -> dist i t (S j) < dist i t j) /\ (dist i t j = 0 -> dist i t (S j) = 0).
Proof.
  intros Hi Htt. destruct (traj i t j Hi Htt) as (v & _ & _ & _ & _ & _ & B). pose proof (dist_nonneg i t (S j) Hi Htt) as N.
  pose proof (rate_bounds lr mu reg lm wp (dist i t j) Hlr Hmu Hreg Hlm Hwp) as RB. split; intros H.
  - assert (rate lr mu reg lm wp (dist i t j) * dist i t j < 1 * dist i t j) by (apply Rmult_lt_compat_r; lra). lra.
  - rewrite H, Rmult_0_r in B. lra.
Qed.
Lemma dist_geo i t j : (i < np)%nat -> (t < ik_nr o)%nat -> dist i t j <= rate lr mu reg lm wp (dist i t 0) ^ j * dist i t 0 /\ dist i t j <= dist i t 0.
Proof.
  intros Hi Htt. pose proof (rate_bounds lr mu reg lm wp (dist i t 0) Hlr Hmu Hreg Hlm Hwp) as RB. induction j as [|j [IH1 IH2]]; [cbn [pow]; lra|].
  destruct (traj i t j Hi Htt) as (v & _ & _ & _ & _ & _ & B). pose proof (dist_nonneg i t j Hi Htt) as N. destruct (dist_down i t j Hi Htt) as [D Z].
  pose proof (rate_mono lr mu reg lm wp (dist i t 0) (dist i t j) ltac:(lra) Hmu Hreg Hlm Hwp (conj N IH2)) as M. split.
  - cbn [pow]. apply Rle_trans with (rate lr mu reg lm wp (dist i t 0) * dist i t j).
    + eapply Rle_trans; [exact B|]. apply Rmult_le_compat_r; assumption.
    + rewrite Rmult_assoc. apply Rmult_le_compat_l; lra.
  - destruct (Rle_lt_or_eq_dec 0 (dist i t j) N) as [L|L]; [specialize (D L); lra | rewrite (Z (eq_sym L)), L; exact IH2].
Qed.
End Traj.

Lemma unlimited_off (r : mframe) fs s o : serial_tables mops zax s r fs ->
  (forall f, In f fs -> moving f = true -> j_lim (f_joint f) = None) \/ (ik_clamp o = false /\ ik_enforce o = false) ->
  ik_clamp (pik_init s o) = false /\ ik_enforce (pik_init s o) && has_finite_limits (pik_init s o) = false.
Proof.
  intros Ht [H|[H1 H2]].
  - destruct (serial_limits r fs s Ht) as [EL EH].
    assert (L : existsb isfinite (c_low (s_chain s)) = false /\ existsb isfinite (c_high (s_chain s)) = false).
    { rewrite EL, EH. clear - H. assert (H' : forall f, In f (filter moving fs) -> j_lim (f_joint f) = None) by (intros f Hf; apply filter_In in Hf; apply H; apply Hf).
      induction (filter moving fs) as [|f l IH]; [split; reflexivity|]. cbn [map existsb]. rewrite (H' f (or_introl eq_refl)). cbn [isfinite orb]. apply IH. intros g Hg. apply H'. right; exact Hg. }
    destruct L as [L1 L2]. unfold has_finite_limits. cbn [pik_init ik_clamp ik_enforce ik_low ik_high]. rewrite L1, L2. split; apply andb_false_r.
  - cbn [pik_init ik_clamp ik_enforce]. rewrite H1, H2. split; reflexivity.
Qed.

(** ** three independent directions are enough *)
Lemma total_ge zs y z : In z zs -> vdot z y ^ 2 <= fold_right (fun z acc => vdot z y ^ 2 + acc) 0 zs.
Proof.
  assert (P : forall l, 0 <= fold_right (fun z acc => vdot z y ^ 2 + acc) 0 l) by (induction l as [|a l IH]; cbn [fold_right]; [lra | pose proof (pow2_ge_0 (vdot a y)); lra]).
  induction zs as [|a zs IH]; intros []; cbn [fold_right].
  - subst a. pose proof (P zs). lra.
  - specialize (IH H). pose proof (pow2_ge_0 (vdot a y)). lra.
Qed.
Lemma cramer a b c y : vscale (vdot a (vcross b c)) y = vadd (vscale (vdot a y) (vcross b c)) (vadd (vscale (vdot b y) (vcross c a)) (vscale (vdot c y) (vcross a b))).
Proof. unfold vscale, vdot, vcross, vadd. cbn [vx vy vz]. apply mkV3_eq; ring. Qed.
Lemma norm2_three u v w : vnorm2 (vadd u (vadd v w)) <= 3 * (vnorm2 u + vnorm2 v + vnorm2 w).
Proof.
  assert (Q : forall x y z : R, (x + (y + z)) * (x + (y + z)) <= 3 * (x * x + y * y + z * z)).
  { intros x y z. pose proof (Rle_0_sqr (x - y)). pose proof (Rle_0_sqr (x - z)). pose proof (Rle_0_sqr (y - z)). unfold Rsqr in *. lra. }
  unfold vnorm2, vdot, vadd. cbn [vx vy vz]. pose proof (Q (vx u) (vx v) (vx w)). pose proof (Q (vy u) (vy v) (vy w)). pose proof (Q (vz u) (vz v) (vz w)). lra.
Qed.
Lemma norm2_scale k v : vnorm2 (vscale k v) = k ^ 2 * vnorm2 v.
Proof. unfold vnorm2, vdot, vscale. cbn [vx vy vz]. ring. Qed.

(** a machine with three slides, the second mounted on a plate turned a quarter about z so that its own x direction is the machine's y *)
Definition slide_hand : mframe := Frame "hand" (mkLink (Some "hand") (Some (trans 0 0 1))) fixed_joint [].
Definition slide_z : mframe := Frame "up" (mkLink (Some "column") None) (mkJoint (Some "z") None Prismatic zax None None None) [slide_hand].
Definition quarter : M4 := aff (mkM3 0 (-1) 0 1 0 0 0 0 1) vzero.
Definition slide_y : mframe := Frame "across" (mkLink (Some "beam") None) (mkJoint (Some "y") (Some quarter) Prismatic xax None None None) [slide_z].
Definition slide_x : mframe := Frame "along" (mkLink (Some "rail") None) (mkJoint (Some "x") None Prismatic xax None None None) [slide_y].
Definition slides : mframe := Frame "base" (mkLink (Some "base") None) fixed_joint [slide_x].
Definition slides_path : list mframe := [slide_x; slide_y; slide_z; slide_hand].
Lemma quarter_rigid : is_rigid quarter.
Proof. apply is_rigid_aff. split; [apply mkM3_eq; cbn; ring | unfold det3; cbn; ring]. Qed.
Lemma slides_distinct_joints : distinct_joints slides. Proof. unfold distinct_joints, moving_names; simpl. nodup. Qed.
Lemma slides_distinct_frames : distinct_frames slides. Proof. unfold distinct_frames; simpl. nodup. Qed.
Lemma slides_clean : clean_names slides. Proof. intros f H; simpl in H. repeat (destruct H as [<-|H]; [reflexivity|]). contradiction. Qed.
Lemma slides_rigid : rigid_tree slides.
Proof.
  intros f H; simpl in H. repeat (destruct H as [<-|H]; [repeat split; simpl; auto using trans_rigid, zax_unit, xax_unit, quarter_rigid; try apply trans_rigid; try apply quarter_rigid; try discriminate|]). contradiction.
Qed.
Lemma slides_root_path : root_path slides (slides :: slides_path).
Proof. unfold slides_path. do 4 (eapply rp_child; [left; reflexivity|]). apply rp_here. Qed.
Lemma slides_gantry : gantry slides_path.
Proof. intros f H. simpl in H. repeat (destruct H as [<-|H]; [discriminate|]). contradiction. Qed.
Lemma slides_rel : forall f, In f slides_path -> rel_pose mops (fun _ => 0) f = (if String.eqb (f_name f) "across" then quarter else if String.eqb (f_name f) "hand" then trans 0 0 1 else I4).
Proof.
  assert (P0 : forall k, axis_and_d_to_pris_matrix k 0 = I4) by (intros k; rewrite pris_aff; unfold aff, vscale, I3, I4; cbn [m00 m01 m02 m10 m11 m12 m20 m21 m22 vx vy vz]; apply mkM4_eq; ring).
  intros f H. simpl in H. unfold rel_pose, joint_motion.
  destruct H as [<-|[<-|[<-|[<-|[]]]]]; cbn -[m4mul I4 axis_and_d_to_pris_matrix trans quarter xax zax]; rewrite ?P0, ?m4mul_1_l, ?m4mul_1_r; reflexivity.
Qed.
Lemma slides_axes : slide_axes I3 slides_path = [xax; mkV3 0 1 0; zax].
Proof.
  unfold slides_path. cbn [slide_axes]. rewrite !slides_rel by (unfold slides_path; simpl; auto 8). cbn -[m3mul rotp m3vec I3 I4 quarter trans xax zax].
  change (rotp I4) with I3. unfold quarter. rewrite rotp_aff, !m3mul_1_l, !m3mul_1_r, m3vec_1. assert (H3 : forall a b c a' b' c' : V3, a = a' -> b = b' -> c = c' -> [a; b; c] = [a'; b'; c']) by (intros; congruence).
  apply H3; unfold m3vec, xax, zax; cbn [m00 m01 m02 m10 m11 m12 m20 m21 m22 vx vy vz]; apply mkV3_eq; ring.
Qed.
Lemma slides_spread : spread 1 (slide_axes I3 slides_path).
Proof. rewrite slides_axes. intros y. cbn [fold_right]. unfold vnorm2, vdot, xax, zax. cbn [vx vy vz]. right. ring. Qed.
Lemma slides_pose0 : pose (fun _ => 0) slides_path = aff (mkM3 0 (-1) 0 1 0 0 0 0 1) (mkV3 0 0 1).
Proof.
  unfold slides_path. rewrite !pose_cons, pose_nil, !slides_rel by (unfold slides_path; simpl; auto 8). cbn -[m4mul I4 quarter trans]. rewrite !m4mul_1_l, !m4mul_1_r. unfold quarter, trans. rewrite aff_mul, m3mul_1_r. f_equal.
  unfold m3vec, vadd, vzero. cbn [m00 m01 m02 m10 m11 m12 m20 m21 m22 vx vy vz]. apply mkV3_eq; ring.
Qed.

(** a straight arm with three parallel turning joints *)
Definition snake_hand : mframe := Frame "hand" (mkLink (Some "hand") (Some (trans 1 0 0))) fixed_joint [].
Definition snake3 : mframe := Frame "c" (mkLink (Some "c") None) (mkJoint (Some "j3") (Some (trans 1 0 0)) Revolute zax None None None) [snake_hand].
Definition snake2 : mframe := Frame "b" (mkLink (Some "b") None) (mkJoint (Some "j2") (Some (trans 1 0 0)) Revolute zax None None None) [snake3].
Definition snake1 : mframe := Frame "a" (mkLink (Some "a") None) (mkJoint (Some "j1") None Revolute zax None None None) [snake2].
Definition snake : mframe := Frame "base" (mkLink (Some "base") None) fixed_joint [snake1].
Definition snake_path : list mframe := [snake1; snake2; snake3; snake_hand].
Lemma snake_distinct_joints : distinct_joints snake. Proof. unfold distinct_joints, moving_names; simpl. nodup. Qed.
Lemma snake_distinct_frames : distinct_frames snake. Proof. unfold distinct_frames; simpl. nodup. Qed.
Lemma snake_clean : clean_names snake. Proof. intros f H; simpl in H. repeat (destruct H as [<-|H]; [reflexivity|]). contradiction. Qed.
Lemma snake_rigid : rigid_tree snake.
Proof.
  intros f H; simpl in H. repeat (destruct H as [<-|H]; [repeat split; simpl; auto using trans_rigid, zax_unit; try apply trans_rigid; try discriminate|]). contradiction.
Qed.
Lemma snake_root_path : root_path snake (snake :: snake_path).
Proof. unfold snake_path. do 4 (eapply rp_child; [left; reflexivity|]). apply rp_here. Qed.
Definition zturn (q x : R) : M4 := aff (axis_and_angle_to_matrix_33 zax q) (mkV3 x 0 0).
Lemma snake_rel v f : In f snake_path -> rel_pose mops v f =
  (if String.eqb (f_name f) "a" then zturn (v (Some "j1")) 0 else if String.eqb (f_name f) "b" then zturn (v (Some "j2")) 1 else if String.eqb (f_name f) "c" then zturn (v (Some "j3")) 1 else trans 1 0 0).
Proof.
  intros H. simpl in H. unfold rel_pose, joint_motion, zturn.
  assert (TM : forall q, m4mul (trans 1 0 0) (axis_and_angle_to_matrix_44 zax q) = aff (axis_and_angle_to_matrix_33 zax q) (mkV3 1 0 0)).
  { intros q. unfold trans. rewrite rot44_aff, aff_mul, m3mul_1_l. f_equal. unfold m3vec, vadd, vzero, I3. cbn [m00 m01 m02 m10 m11 m12 m20 m21 m22 vx vy vz]. apply mkV3_eq; ring. }
  destruct H as [<-|[<-|[<-|[<-|[]]]]]; cbn -[m4mul I4 axis_and_angle_to_matrix_44 axis_and_angle_to_matrix_33 trans xax zax aff]; rewrite ?m4mul_1_l, ?m4mul_1_r, ?TM; try reflexivity.
Qed.
Lemma snake_poses v : pose v [snake1] = zturn (v (Some "j1")) 0 /\ pose v [snake1; snake2] = m4mul (zturn (v (Some "j1")) 0) (zturn (v (Some "j2")) 1) /\
  pose v [snake1; snake2; snake3] = m4mul (zturn (v (Some "j1")) 0) (m4mul (zturn (v (Some "j2")) 1) (zturn (v (Some "j3")) 1)) /\
  pose v snake_path = m4mul (zturn (v (Some "j1")) 0) (m4mul (zturn (v (Some "j2")) 1) (m4mul (zturn (v (Some "j3")) 1) (trans 1 0 0))).
Proof.
  unfold snake_path. rewrite !pose_cons, pose_nil, !m4mul_1_r, !snake_rel by (unfold snake_path; simpl; auto 8). cbn -[m4mul zturn trans]. auto.
Qed.
Lemma zturn_eq q x : zturn q x = aff (mkM3 (cos q) (- sin q) 0 (sin q) (cos q) 0 0 0 1) (mkV3 x 0 0).
Proof. unfold zturn. rewrite rot33_zax. reflexivity. Qed.
Lemma zturn_0 x : zturn 0 x = trans x 0 0.
Proof. rewrite zturn_eq, cos_0, sin_0, Ropp_0. reflexivity. Qed.
Lemma trans_mul x y : m4mul (trans x 0 0) (trans y 0 0) = trans (x + y) 0 0.
Proof. unfold trans. rewrite aff_mul, m3mul_1_l. f_equal. unfold m3vec, vadd, I3. cbn [m00 m01 m02 m10 m11 m12 m20 m21 m22 vx vy vz]. apply mkV3_eq; ring. Qed.
Definition rest : config (S := R) := fun _ => 0.
Lemma snake_rest : pose rest [snake1] = trans 0 0 0 /\ pose rest [snake1; snake2] = trans 1 0 0 /\ pose rest [snake1; snake2; snake3] = trans 2 0 0 /\ pose rest snake_path = trans 3 0 0.
Proof.
  destruct (snake_poses rest) as (-> & -> & -> & ->). unfold rest. rewrite !zturn_0, !trans_mul.
  replace (0 + 1) with 1 by ring. replace (0 + (1 + 1)) with 2 by ring. replace (0 + (1 + (1 + 1))) with 3 by ring. auto.
Qed.
Lemma snake_cols : map (col_of rest (pose rest snake_path)) (mov [] snake_path) = [(mkV3 0 3 0, zax); (mkV3 0 2 0, zax); (mkV3 0 1 0, zax)].
Proof.
  unfold snake_path at 2. cbn [mov map]. change (moving snake1) with true. change (moving snake2) with true. change (moving snake3) with true. change (moving snake_hand) with false. cbn [map app].
  destruct snake_rest as (E1 & E2 & E3 & E4). unfold col_of. cbn [fst snd app]. rewrite E1, E2, E3, E4.
  change (j_type (f_joint snake1)) with Revolute. change (j_type (f_joint snake2)) with Revolute. change (j_type (f_joint snake3)) with Revolute. cbn [jtype_eqb].
  change (j_axis (f_joint snake1)) with zax. change (j_axis (f_joint snake2)) with zax. change (j_axis (f_joint snake3)) with zax. unfold trans. rewrite !rotp_aff, !trp_aff, !m3vec_1.
  unfold vcross, vsub, zax. cbn [vx vy vz]. assert (HX : forall a b c d : V3, a = c -> b = d -> (a, b) = (c, d)) by (intros; congruence).
  assert (H3 : forall a b c a' b' c' : V3 * V3, a = a' -> b = b' -> c = c' -> [a; b; c] = [a'; b'; c']) by (intros; congruence). apply H3; apply HX; apply mkV3_eq; ring.
Qed.
(** bending the elbows brings the hand back along the arm *)
Definition bent : config (S := R) := fun n => if oseqb n (Some "j2") then - (2 * (PI / 3)) else PI / 3.
Lemma snake_bent : pose bent snake_path = trans 2 0 0.
Proof.
  destruct (snake_poses bent) as (_ & _ & _ & ->). change (bent (Some "j1")) with (PI / 3). change (bent (Some "j2")) with (- (2 * (PI / 3))). change (bent (Some "j3")) with (PI / 3). rewrite !zturn_eq, cos_neg, sin_neg.
  rewrite cos_PI3, sin_PI3. replace (2 * (PI / 3)) with (PI - PI / 3) by field. rewrite Rtrigo_facts.cos_pi_minus, Rtrigo_facts.sin_pi_minus, cos_PI3, sin_PI3.
  assert (S3 : sqrt 3 * sqrt 3 = 3) by (apply sqrt_sqrt; lra). set (s := sqrt 3) in *. assert (S4 : s * s * s = 3 * s) by (rewrite S3; ring). unfold trans. rewrite !aff_mul. f_equal.
  - unfold m3mul, I3. cbn [m00 m01 m02 m10 m11 m12 m20 m21 m22]. apply mkM3_eq; lra.
  - unfold m3vec, vadd, I3. cbn [m00 m01 m02 m10 m11 m12 m20 m21 m22 vx vy vz]. apply mkV3_eq; lra.
Qed.
Lemma snake_stuck s reg lm wp wr : serial_tables mops zax s snake snake_path -> 0 < reg -> 0 <= lm ->
  pik_row s (trans 2 0 0) reg lm (Some (row_weights wp wr)) [0; 0; 0] = Ok ([0; 0; 0], map (six (mkV3 (-1) 0 0, vzero)) (seq 0 6)).
Proof.
  intros Ht Hreg Hlm. assert (Hin : In snake (preorder snake)) by (rewrite preorder_unfold; left; reflexivity).
  destruct (row_step snake snake snake_path s (trans 2 0 0) rest reg lm wp wr Hin snake_distinct_joints snake_distinct_frames snake_clean snake_root_path Ht snake_rigid ltac:(apply trans_rigid) Hreg Hlm) as (dr & x & Hx & Hk & Ha).
  cbn zeta in Hx, Hk. destruct snake_rest as (_ & _ & _ & E4). rewrite snake_cols in Hx, Hk. rewrite E4 in Hx, Hk.
  assert (A0 : angle_between (trans 2 0 0) (pose rest snake_path) 0).
  { split; [pose proof PI_RGT_0; lra|]. rewrite E4. unfold trans. rewrite !rotp_aff, cos_0. unfold trace3, m3mul, m3tr, I3. cbn [m00 m01 m02 m10 m11 m12 m20 m21 m22]. ring. }
  destruct (Ha 0 A0 (or_introl eq_refl)) as [D0 _]. apply vnorm_zero_eq in D0. subst dr.
  assert (EV : vsub (trp (trans 2 0 0)) (trp (trans 3 0 0)) = mkV3 (-1) 0 0) by (unfold trans; rewrite !trp_aff; unfold vsub; cbn [vx vy vz]; apply mkV3_eq; ring).
  rewrite EV in Hx, Hk. change (length (path_names snake_path)) with 3%nat in Hx, Hk. change (map rest (path_names snake_path)) with [0; 0; 0] in Hk. rewrite Hk. clear Hk Ha A0.
  set (A := jac_w (Some (row_weights wp wr)) [(mkV3 0 3 0, zax); (mkV3 0 2 0, zax); (mkV3 0 1 0, zax)]) in *. set (d := weigh (Some (row_weights wp wr)) (mkV3 (-1) 0 0, vzero)) in *.
  pose proof (damping_pos reg lm d Hreg Hlm) as HK. set (K := damping reg lm d) in *.
  assert (J0 : forall j, (j < 3)%nat -> jt 6 A (fun i => d i / K) j = 0).
  { intros j Hj. unfold jt, A, d, jac_w, weigh, row_weights, vzero, zax. do 3 (destruct j as [|j]; [cbn [rsum Nat.eqb Nat.ltb Nat.leb nth six fst snd vx vy vz]; field; lra|]). lia. }
  assert (EX : forall i, (i < 6)%nat -> x i = d i / K).
  { apply (pd_unique 6 (gram 3 A K) d x (fun i => d i / K)); [apply gram_pd; exact HK | exact Hx|]. intros i Hi. rewrite gram_vec by exact Hi.
    unfold jv. rewrite (rsum_ext 3 _ (fun _ => 0)) by (intros j Hj; rewrite J0 by exact Hj; ring). rewrite rsum_0. field. lra. }
  assert (JX : forall j, (j < 3)%nat -> jt 6 A x j = 0).
  { intros j Hj. rewrite <- (J0 j Hj). unfold jt. apply rsum_ext. intros i Hi. rewrite (EX i Hi). reflexivity. }
  cbn [seq map]. rewrite !JX by lia. reflexivity.
Qed.


Lemma l75_gantry : forall (nan : R) is_nan (root r : mframe) c rn p fs targets reg lm wp wr lr mu o np pt rt,
  chain_init mops root = Ok c -> distinct_joints root -> distinct_frames root -> clean_names root -> rigid_tree root ->
  root_path root (p ++ [r]) -> ((rn = "" /\ r = root) \/ (rn <> "" /\ rn = f_name r)) -> root_path r (r :: fs) ->
  gantry fs -> spread mu (slide_axes I3 fs) -> (forall i, is_rigid (targets i)) -> (forall i, rotp (targets i) = rotp (pose (fun _ => 0) fs)) ->
  0 < mu -> 0 < reg -> 0 <= lm -> 0 < wp -> 0 < lr <= 1 -> ik_lr o = Fin lr -> ik_ls o = None -> (0 < ik_nr o)%nat ->
  ik_ptol o = Fin pt -> ik_rtol o = Fin rt -> 0 < rt -> (forall x, ik_noimp o = StopRatio x -> x < 1) ->
  (forall f, In f fs -> moving f = true -> j_lim (f_joint f) = None) \/ (ik_clamp o = false /\ ik_enforce o = false) ->
  exists s, serial_init mops zax c (f_name (last (r :: fs) r)) rn = Ok s /\
  forall q0, length q0 = (np * ik_nr o)%nat -> (forall q, In q q0 -> exists row, q = map Fin row /\ length row = length (c_names (s_chain s))) ->
  exists sol, solve_from (pik_kern s targets reg lm (Some (row_weights wp wr))) (pik_init s o) np q0 = Ok sol /\
  forall i t row T0 N, (i < np)%nat -> (t < ik_nr o)%nat -> nth_error q0 (i * ik_nr o + t) = Some (map Fin row) -> serial_fk_end mops nan is_nan s (InTensor (T1 row)) = Ok [T0] ->
  let e0 := vnorm (vsub (trp (targets i)) (trp T0)) in
  rate lr mu reg lm wp e0 ^ N * e0 < pt -> (N <= ik_max o)%nat ->
  nth_error (s_any sol) i = Some true /\
  (ik_stop_any o = false -> ik_noimp o = NoStop -> exists e, entry_at sol i t = Some e /\ e_conv e = true).
Proof.
  intros nan is_nan root r c rn p fs targets reg lm wp wr lr mu o np pt rt Hc Hdj Hdf Hcl Hrt Hpr Hrn Hp Hg Hsp Htg Hor Hmu Hreg Hlm Hwp Hlr Holr Hols Hnr Hpt Hrtol Hrt0 Hratio Hlim.
  assert (Hin : In r (preorder root)) by (eapply root_path_in; exact Hpr).
  assert (Hch : root_choice root r rn) by (destruct Hrn as [?|[? ?]]; [left | right]; auto).
  destruct (serial_ok mops zax root c rn r fs Hc Hdf Hcl Hch Hp) as (s & Hs & Ht). exists s. split; [exact Hs|]. intros q0 Hl Hq. rewrite (path_chain_names r fs s Ht) in Hq.
  destruct (unlimited_off r fs s o Ht Hlim) as [Hoc Hen].
  set (kern := pik_kern s targets reg lm (Some (row_weights wp wr))). set (k := pik_init s o).
  assert (Hls : forall f, ik_ls k = Some f -> forall q dq dx rem, length dq = length q -> length dx = length q -> length (f q dq dx rem) = length q) by (intros f Hf; change (ik_ls k) with (ik_ls o) in Hf; congruence).
  assert (E0 : q0 = vec (np * ik_nr k) (fun i => nth i q0 [])) by (change (ik_nr k) with (ik_nr o); rewrite <- Hl; apply vec_of).
  set (Q0 := fun i => nth i q0 []) in *.
  assert (HQ0 : forall i, (i < np * ik_nr o)%nat -> exists row, Q0 i = map Fin row /\ length row = length (path_names fs)) by (intros i Hi; apply Hq; apply nth_In; lia).
  destruct (solve_eq kern k np Hnr Hls Q0) as (m0 & _ & _ & _ & Es0). fold k in Hen. rewrite Hen in Es0. rewrite <- E0 in Es0. eexists. split; [exact Es0|].
  intros i t row T0 N Hi Htt Hrow Hfk e0 Hsmall Hmax.
  pose proof (traj root r fs s Hin Hdj Hdf Hcl Hp Ht Hrt targets reg lm wp wr lr mu o Htg Hor Hg Hsp Hmu Hreg Hlm Hwp Hlr np Q0 Hnr Holr Hols Hoc HQ0) as TR.
  pose proof (dist_nonneg root r fs s Hin Hdj Hdf Hcl Hp Ht Hrt targets reg lm wp wr lr mu o Htg Hor Hg Hsp Hmu Hreg Hlm Hwp Hlr np Q0 Hnr Holr Hols Hoc HQ0) as DN.
  pose proof (dist_down root r fs s Hin Hdj Hdf Hcl Hp Ht Hrt targets reg lm wp wr lr mu o Htg Hor Hg Hsp Hmu Hreg Hlm Hwp Hlr np Q0 Hnr Holr Hols Hoc HQ0) as DD.
  pose proof (dist_geo root r fs s Hin Hdj Hdf Hcl Hp Ht Hrt targets reg lm wp wr lr mu o Htg Hor Hg Hsp Hmu Hreg Hlm Hwp Hlr np Q0 Hnr Holr Hols Hoc HQ0) as DG.
  fold kern k in TR. set (D := dist s targets reg lm wp wr o np Q0) in *.
  assert (EE : D i t 0%nat = e0).
  { destruct (TR i t 0%nat Hi Htt) as (v & Ev & Ed & _). rewrite Ed. unfold e0. change (Qj kern k np Q0 0 (i * ik_nr o + t)) with (nth (i * ik_nr o + t) q0 []) in Ev.
    rewrite (nth_error_nth q0 _ [] Hrow) in Ev. assert (Er : row = map v (path_names fs)).
    { assert (HX : Some row = Some (map v (path_names fs))) by (rewrite <- (proj2 (fin_row_of_some (map Fin row) row) eq_refl); apply fin_row_of_some; exact Ev). congruence. }
    subst row. rewrite <- (path_chain_names r fs s Ht) in Hfk. rewrite (serial_pose nan is_nan root r c rn fs s v Hin Hdj Hdf Hcl Hp Hs Ht) in Hfk.
    assert (HX : forall X (a b : X), Ok [a] = Ok [b] -> a = b) by (intros; congruence). apply HX in Hfk. subst T0. reflexivity. }
  destruct (DG i t N Hi Htt) as [G _]. rewrite EE in G. assert (GN : D i t N < pt) by lra. assert (Hpt0 : 0 < pt) by (pose proof (DN i t N Hi Htt); lra).
  destruct (run_converges kern k np Q0 pt rt Hnr Hpt Hrtol Hrt0 Hpt0 Hratio i Hi (D i)) with (t := t) (N := N) as (sol & Es & H1 & H2); auto.
  - intros r0 j Hr0. destruct (TR i r0 j Hi Hr0) as (v & _ & _ & P1 & P2 & P3 & _). pose proof (DN i r0 j Hi Hr0). pose proof (DD i r0 j Hi Hr0). auto.
  - rewrite <- E0 in Es. rewrite Es0 in Es. assert (HX : forall X (a b : X), Ok a = Ok b -> a = b) by (intros; congruence). apply HX in Es. rewrite Es. split; [exact H1 | exact H2].
Qed.

Lemma l75_enough : (forall zs a b c, In a zs -> In b zs -> In c zs -> vdot a (vcross b c) <> 0 -> exists mu, 0 < mu /\ spread mu zs) /\
  (forall lr mu reg lm wp e pt, 0 < lr <= 1 -> 0 < mu -> 0 < reg -> 0 <= lm -> 0 < wp -> 0 <= e -> 0 < pt -> exists N, rate lr mu reg lm wp e ^ N * e < pt).
Proof.
  split.
  - intros zs a b c Ha Hb Hc HD. set (D := vdot a (vcross b c)) in *. set (n := vnorm2 (vcross b c) + vnorm2 (vcross c a) + vnorm2 (vcross a b)).
    assert (D2 : 0 < D ^ 2) by (rewrite <- Rsqr_pow2; apply Rlt_0_sqr; exact HD). pose proof (vnorm2_nonneg (vcross b c)) as N1. pose proof (vnorm2_nonneg (vcross c a)) as N2. pose proof (vnorm2_nonneg (vcross a b)) as N3.
    assert (B : forall y, D ^ 2 * vnorm2 y <= 3 * n * fold_right (fun z acc => vdot z y ^ 2 + acc) 0 zs).
    { intros y. rewrite <- norm2_scale. unfold D. rewrite cramer. eapply Rle_trans; [apply norm2_three|]. rewrite !norm2_scale. set (T := fold_right (fun z acc => vdot z y ^ 2 + acc) 0 zs).
      pose proof (Rmult_le_compat_r _ _ _ N1 (total_ge zs y a Ha)). pose proof (Rmult_le_compat_r _ _ _ N2 (total_ge zs y b Hb)). pose proof (Rmult_le_compat_r _ _ _ N3 (total_ge zs y c Hc)). fold T in H, H0, H1. unfold n. lra. }
    assert (Hn : 0 < n).
    { destruct (Rle_lt_or_eq_dec 0 n ltac:(unfold n; lra)) as [L|L]; [exact L|]. exfalso. specialize (B (mkV3 1 0 0)). rewrite <- L in B. unfold vnorm2, vdot in B. cbn [vx vy vz] in B. lra. }
    exists (D ^ 2 / (3 * n)). split; [apply Rdiv_lt_0_compat; lra|]. intros y. specialize (B y). apply Rmult_le_reg_l with (3 * n); [lra|].
    replace (3 * n * (D ^ 2 / (3 * n) * vnorm2 y)) with (D ^ 2 * vnorm2 y) by (field; lra). exact B.
  - intros lr mu reg lm wp e pt Hlr Hmu Hreg Hlm Hwp He Hpt. pose proof (rate_bounds lr mu reg lm wp e Hlr Hmu Hreg Hlm Hwp) as RB.
    destruct (pow_lt_1_zero (rate lr mu reg lm wp e) ltac:(rewrite Rabs_pos_eq; lra) (pt / (e + 1)) ltac:(apply Rdiv_lt_0_compat; lra)) as (N & HN). exists N. specialize (HN N (le_n N)).
    rewrite Rabs_pos_eq in HN by (apply pow_le; lra). set (x := rate lr mu reg lm wp e ^ N) in *. assert (0 <= x) by (apply pow_le; lra).
    assert (x * (e + 1) < pt / (e + 1) * (e + 1)) by (apply Rmult_lt_compat_r; lra). replace (pt / (e + 1) * (e + 1)) with pt in * by (field; lra). lra.
Qed.

Lemma l75_turning_refuted : exists c s, chain_init mops snake = Ok c /\ serial_init mops zax c "hand" "" = Ok s /\
  (exists row, serial_fk_end mops 0 (fun _ => false) s (InTensor (T1 row)) = Ok [trans 2 0 0]) /\
  forall o lr pt reg lm wp wr, ik_lr o = Fin lr -> ik_ls o = None -> (0 < ik_nr o)%nat -> ik_ptol o = Fin pt -> pt <= 1 -> 0 < reg -> 0 <= lm ->
  exists sol, solve_from (pik_kern s (fun _ => trans 2 0 0) reg lm (Some (row_weights wp wr))) (pik_init s o) 1 (repeat [Fin 0; Fin 0; Fin 0] (ik_nr o)) = Ok sol /\
  nth_error (s_any sol) 0 = Some false /\ forall t, (t < ik_nr o)%nat -> exists e, entry_at sol 0 t = Some e /\ e_q e = [Fin 0; Fin 0; Fin 0] /\ e_conv e = false.
Proof.
  destruct (chain_init_ok mops snake) as (c & Hc & _). assert (Hin : In snake (preorder snake)) by (rewrite preorder_unfold; left; reflexivity).
  destruct (serial_ok mops zax snake c "" snake snake_path Hc snake_distinct_frames snake_clean (or_introl (conj eq_refl eq_refl)) snake_root_path) as (s & Hs & Ht).
  exists c, s. split; [exact Hc|]. split; [exact Hs|]. split.
  { exists (map bent (path_names snake_path)). rewrite <- (path_chain_names snake snake_path s Ht), <- snake_bent.
    apply (serial_pose 0 (fun _ => false) snake snake c "" snake_path s bent Hin snake_distinct_joints snake_distinct_frames snake_clean snake_root_path Hs Ht). }
  intros o lr pt reg lm wp wr Holr Hols Hnr Hpt Hpt1 Hreg Hlm.
  destruct (unlimited_off snake snake_path s o Ht) as [Hoc Hen].
  { left. intros f Hf _. simpl in Hf. repeat (destruct Hf as [<-|Hf]; [reflexivity|]). contradiction. }
  set (kern := pik_kern s (fun _ => trans 2 0 0) reg lm (Some (row_weights wp wr))). set (k := pik_init s o) in *. set (z := [Fin 0; Fin 0; Fin 0]).
  assert (Hls : forall f, ik_ls k = Some f -> forall q dq dx rem, length dq = length q -> length dx = length q -> length (f q dq dx rem) = length q) by (intros f Hf; change (ik_ls k) with (ik_ls o) in Hf; congruence).
  assert (E0 : repeat z (ik_nr o) = vec (1 * ik_nr k) (fun i => nth i (repeat z (ik_nr o)) [])).
  { replace (1 * ik_nr k)%nat with (length (repeat z (ik_nr o))); [apply vec_of | rewrite repeat_length; change (ik_nr k) with (ik_nr o); lia]. }
  set (Q0 := fun i => nth i (repeat z (ik_nr o)) []) in *.
  assert (K0 : kern 0%nat z = (z, map Fin (map (six (mkV3 (-1) 0 0, vzero)) (seq 0 6)))).
  { unfold kern, pik_kern, z. change [Fin 0; Fin 0; Fin 0] with (map Fin [0; 0; 0]). rewrite (proj2 (fin_row_of_some _ _) eq_refl), (path_chain_names snake snake_path s Ht).
    change (Nat.eqb (length [0; 0; 0]) (length (path_names snake_path))) with true. cbn iota. rewrite (snake_stuck s reg lm wp wr Ht Hreg Hlm). reflexivity. }
  assert (QJ : forall j t, (t < ik_nr o)%nat -> Qj kern k 1 Q0 j (0 * ik_nr o + t) = z).
  { intros j t Htt. cbn [Nat.mul Nat.add]. induction j as [|j IH].
    - unfold Qj. cbn [IKProofs.iter finit f_q]. unfold Q0. apply nth_error_nth. apply nth_error_repeat. exact Htt.
    - unfold Qj in *. cbn [IKProofs.iter fbody f_q]. unfold clampq, lrs. rewrite Hoc. change (ik_ls k) with (ik_ls o). change (ik_lr k) with (ik_lr o). change (ik_nr k) with (ik_nr o). rewrite Hols, Holr.
      rewrite IH, (Nat.div_small t (ik_nr o) Htt), K0. cbn [fst]. unfold z, step_row. cbn [zip_with2 fadd fmul]. replace (0 + lr * 0) with 0 by ring. reflexivity. }
  assert (DJ : forall j t, (t < ik_nr o)%nat -> Dj kern k 1 Q0 0 t j = map Fin (map (six (mkV3 (-1) 0 0, vzero)) (seq 0 6))).
  { intros j t Htt. unfold Dj. change (ik_nr k) with (ik_nr o). rewrite QJ by exact Htt. rewrite K0. reflexivity. }
  assert (NO : forall j t, (t < ik_nr o)%nat -> ok (ik_ptol k) (ik_rtol k) (Dj kern k 1 Q0 0 t j) = false).
  { intros j t Htt. rewrite DJ by exact Htt. unfold ok, pok. rewrite norm6_pos. change (ik_ptol k) with (ik_ptol o). rewrite Hpt. cbn [flt].
    assert (EN : vnorm (mkV3 (-1) 0 0) = 1) by (unfold vnorm, vnorm2, vdot; cbn [vx vy vz]; replace (-1 * -1 + 0 * 0 + 0 * 0) with 1 by ring; apply sqrt_1).
    rewrite EN. assert (ER : Rltb 1 pt = false) by (apply Rltb_false; lra). rewrite ER. reflexivity. }
  destruct (solve_eq kern k 1 Hnr Hls Q0) as (m & _ & _ & _ & Es). rewrite Hen in Es. rewrite <- E0 in Es. eexists. split; [exact Es|].
  assert (EN : forall t, (t < ik_nr o)%nat -> exists e, entry_at (final kern k 1 (IKProofs.iter kern k 1 m (finit k Q0))) 0 t = Some e /\ e_q e = z /\ e_conv e = false).
  { intros t Htt. eexists. split; [apply final_entry; [lia | exact Htt]|]. destruct (stored_consistent kern k 1 Q0 m 0 t) as (j & _ & H1 & _ & _ & H2 & _). cbn zeta in H1, H2. rewrite H1, H2, NO by exact Htt.
    split; [apply (QJ j t Htt) | reflexivity]. }
  split; [|exact EN]. destruct (final_any kern k 1 Q0 m 0 ltac:(lia)) as (b & Hb & Hiff). rewrite Hb. f_equal. destruct b; [|reflexivity]. exfalso. destruct (proj1 Hiff eq_refl) as (t & e & He & Hv).
  assert (Htt : (t < ik_nr o)%nat).
  { unfold entry_at in He. unfold final in He. cbn [mk_sol s_entries] in He. unfold tab in He. rewrite vec_nth in He by lia. destruct (lt_dec t (ik_nr k)) as [L|L]; [exact L|]. rewrite vec_none in He by lia. discriminate He. }
  destruct (EN t Htt) as (e' & He' & _ & Hc'). rewrite He in He'. assert (HX : Some e = Some e' -> e = e') by congruence. rewrite (HX He') in Hv. congruence.
Qed.
