(** C80: rounding errors of the pose error of the solver, and what the convergence flag then means. *)
From Coq Require Import ZArith Reals Lra Psatz String Bool Arith Lia List Permutation.
From Flocq Require Import Core.
From Verif Require Import Prelude ExtF Tree ChainModel SpecFK ChainProofs Input Lin Trig RotModel RotBasic QuatProofs AxisAngle DeltaPose ChainInst Examples SerialModel SerialProofs SerialMore Deriv
  JacModel JacProofs JacMore MathModel IKModel IKProofs IKMore IKFinal SpecRound RoundNorm RoundModel RoundProofs RoundChain RoundFloat RoundFinal RoundJacModel SpecRoundJac RoundJacProofs RoundJacChain RJacFinal
  RoundErrModel SpecRoundErr RoundErrQuat RoundErrAngle.
From Verif Require Import RErrFinal.
Import ListNotations.
Local Open Scope string_scope.
Local Open Scope list_scope.
Local Open Scope R_scope.


(** C80.  The angle between two orientations exists and is unique. *)
Theorem C80_turn : forall A B, is_rot A -> is_rot B -> exists a, turn A B a /\ forall b, turn A B b -> b = a.
Proof. exact l80_turn. Qed.
Print Assumptions C80_turn.

(** a quarter turn about the z axis *)
Example C80_turn_ex : turn I3 (mkM3 0 (-1) 0 1 0 0 0 0 1) (PI / 2).
Proof. split; [pose proof PI_RGT_0; lra|]. rewrite cos_PI2. unfold trace3, m3mul, m3tr, I3. cbn [m00 m01 m02 m10 m11 m12 m20 m21 m22]. ring. Qed.

(** C80.  The quaternion computed from a matrix whose entries are within [b] of those of a rotation is within [5.1 b + 23 u] of a unit quaternion of that rotation,
    whichever of the four formulas is used. *)
Theorem C80_quaternion : forall u rnd b A B, rounding u rnd -> u <= / 10000 -> 0 <= b <= / 100 -> is_rot B ->
  m3le (m3abs (m3sub A B)) (mkM3 b b b b b b b b b) ->
  exists q, qnorm2 q = 1 /\ quaternion_to_matrix q = B /\ let p := fl_m2q rnd A in
    sqrt ((qw p - qw q) * (qw p - qw q) + (qx p - qx q) * (qx p - qx q) + (qy p - qy q) * (qy p - qy q) + (qz p - qz q) * (qz p - qz q)) <= 51 / 10 * b + 23 * u.
Proof. exact l80_quaternion. Qed.
Print Assumptions C80_quaternion.

Example C80_quaternion_ex : exists q, qnorm2 q = 1 /\ quaternion_to_matrix q = I3 /\ Rabs (qw (fl_m2q rnd32 I3) - qw q) <= / 100000.
Proof.
  assert (E : m3le (m3abs (m3sub I3 I3)) (mkM3 0 0 0 0 0 0 0 0 0)).
  { unfold m3le, m3abs, m3sub, m3add, m3opp. cbn [m00 m01 m02 m10 m11 m12 m20 m21 m22]. rewrite !Rplus_opp_r, !Rabs_R0. repeat split; apply Rle_refl. }
  destruct (C80_quaternion u32 rnd32 0 I3 I3 rnd32_rounding ltac:(unfold u32; lra) ltac:(lra) is_rot_I E) as (q & H1 & H2 & H3). exists q. split; [exact H1|]. split; [exact H2|]. cbv zeta in H3.
  set (p := fl_m2q rnd32 I3) in *. apply Rle_trans with (51 / 10 * 0 + 23 * u32); [|unfold u32; lra]. eapply Rle_trans; [|exact H3]. rewrite <- (sqrt_Rsqr_abs (qw p - qw q)). apply sqrt_le_1_alt. unfold Rsqr.
  pose proof (Rle_0_sqr (qx p - qx q)). pose proof (Rle_0_sqr (qy p - qy q)). pose proof (Rle_0_sqr (qz p - qz q)). unfold Rsqr in *. lra.
Qed.

(** C80.  The computed pose error against the true one: the lengths of its two halves, rounded or not, are close to the true distance of the
    positions and to the true angle of the orientations. *)
Theorem C80_errors : forall u t e rnd fsin fatan2 sp sn x y M' M P T' T Q a, rounding u rnd -> half_within t fsin fatan2 -> (forall i, s_full (sp i)) -> s_full3 sn ->
  u <= e -> 0 <= t <= e -> e <= / 100000 -> close x M' M P -> close y T' T Q -> (x - 1) + (y - 1) <= / 120 -> turn (rotp M) (rotp T) a ->
  let d := vnorm (vsub (trp T) (trp M)) in let dx := fl_pose_error rnd fsin fatan2 sp sn M' T' in
  let bp := (x - 1) * P + (y - 1) * Q in let br := (x - 1) + (y - 1) in
  (forall N, N = fl_norm rnd sn (fst dx) \/ N = vnorm (fst dx) -> Rabs (N - d) <= bp + 53 / 10 * e * (d + bp)) /\
  (forall N, N = fl_norm rnd sn (snd dx) \/ N = vnorm (snd dx) -> Rabs (N - a) <= 13 * br + 142 * e + (6 * br + 87 * e + 2 / 10 ^ 24) * a).
Proof. exact l80_errors. Qed.
Print Assumptions C80_errors.

(** in exact arithmetic with exact poses, away from the small-angle branch nothing is off: the terms left are zero but for the series of that branch *)
Example C80_errors_ex : forall M T a, is_rigid M -> is_rigid T -> turn (rotp M) (rotp T) a ->
  let dx := fl_pose_error (fun x => x) sin atan2 (fun _ => s_left) s_left3 M T in
  vnorm (fst dx) = vnorm (vsub (trp T) (trp M)) /\ Rabs (vnorm (snd dx) - a) <= 2 / 10 ^ 24 * a.
Proof.
  intros M T a HM HT Ta dx. assert (Z1 : forall x, Rabs (x - x) = 0) by (intros x; rewrite Rminus_diag_eq by reflexivity; apply Rabs_R0).
  assert (R0 : rounding 0 (fun x => x)) by (split; [reflexivity|]; intros x; rewrite Z1; lra).
  assert (H0 : half_within 0 sin atan2) by (split; intros; rewrite Z1; lra).
  destruct (C80_errors 0 0 0 (fun x => x) sin atan2 (fun _ => s_left) s_left3 1 1 M M (vnorm (trp M)) T T (vnorm (trp T)) a R0 H0 (fun _ => s_left_full 0%nat 0%nat) (Permutation_refl _)
    (Rle_refl _) ltac:(lra) ltac:(lra) (close_refl M _ HM (Rle_refl _)) (close_refl T _ HT (Rle_refl _)) ltac:(lra) Ta) as [K1 K2]. fold dx in K1, K2.
  specialize (K1 _ (or_intror eq_refl)). specialize (K2 _ (or_intror eq_refl)). split.
  - match type of K1 with Rabs (?p - ?q) <= ?r => replace r with 0 in K1 by ring; destruct (Req_dec p q) as [E|E]; [exact E|] end. exfalso.
    match type of E with ?p <> ?q => assert (H : p - q <> 0) by lra; pose proof (Rabs_pos_lt _ H) end. lra.
  - eapply Rle_trans; [exact K2|]. right. ring.
Qed.

(** C80.  For a serial chain of [n] frames in floating point, a target stored up to rounding, and every batch of configurations: the two errors
    that the solver compares with its tolerances are off by at most a small multiple of the unit roundoff, hence so is the meaning of its flag. *)
Theorem C80_chain : forall u t e rnd fcos fsin fatan2 st sv sc sp sn (root' root r : mframe) c rn p fs (T' T : M4),
  rounding u rnd -> trig_within t fcos fsin -> half_within t fsin fatan2 -> (forall i j, s_full (st i j)) -> (forall i, s_full3 (sv i)) -> (forall i, s_full2 (sc i)) ->
  (forall i, s_full (sp i)) -> s_full3 sn -> u <= e -> 0 <= t <= e -> e <= / 100000 -> close_tree e (1 + 3 * e) root' root -> close (1 + 3 * e) T' T (vnorm (trp T)) ->
  distinct_joints root -> distinct_frames root -> clean_names root -> chain_init (fl_ops rnd fcos fsin st) root' = Ok c ->
  root_path root (p ++ [r]) -> ((rn = "" /\ r = root) \/ (rn <> "" /\ rn = f_name r)) -> root_path r (r :: fs) ->
  let n := INR (length (r :: fs)) in (210 * n + 3) * e <= / 120 ->
  exists s, serial_init (fl_ops rnd fcos fsin st) zax c (f_name (last (r :: fs) r)) rn = Ok s /\ c_names (s_chain s) = path_names fs /\
  forall vs, exists Js Ts,
    jacobian_with (fl_ops rnd fcos fsin st) (fl_jops rnd sv sc) s (mkTh (length (path_names fs)) (map (fun v => map v (path_names fs)) vs)) = Ok (Js, Ts) /\
    Forall2 (fun M' v => forall a, turn (rotp (pose v fs)) (rotp T) a ->
      let d := vnorm (vsub (trp T) (trp (pose v fs))) in let dx := fl_pose_error rnd fsin fatan2 sp sn M' T' in
      let bp := 220 * n * e * path_reach v fs + 10 * e * vnorm (trp T) in let br := 3000 * n * e + (1400 * n * e + 2 / 10 ^ 24) * a in
      Rabs (fl_norm rnd sn (fst dx) - d) <= bp /\ Rabs (fl_norm rnd sn (snd dx) - a) <= br /\
      forall ptol rtol, (fl_converged rnd sn ptol rtol dx = true -> d < ptol + bp /\ a < rtol + br) /\ (d + bp < ptol -> a + br < rtol -> fl_converged rnd sn ptol rtol dx = true)) Ts vs.
Proof. exact l80_chain. Qed.
Print Assumptions C80_chain.

(** an arm in float32: if the flag is set with tolerance 1/100, the true errors are below 11/1000 *)
Example C80_chain_ex : forall q, exists c s J M',
  let O := fl_ops rnd32 (fun q => rnd32 (cos q)) (fun q => rnd32 (sin q)) (fun _ _ => s_left) in let T := aff I3 (mkV3 2 0 0) in
  chain_init O (round_tree rnd32 ex_jac_arm) = Ok c /\ serial_init O zax c "tool" "" = Ok s /\
  jacobian_with O (fl_jops rnd32 (fun _ => s_left3) (fun _ => s_left2)) s (mkTh 1 [[q]]) = Ok ([J], [M']) /\
  let dx := fl_pose_error rnd32 (fun q => rnd32 (sin q)) (fun y x => rnd32 (atan2 y x)) (fun _ => s_left) s_left3 M' (round_m4 rnd32 T) in
  let M := pose (fun _ => q) [ex_jac_hinge; ex_jac_tool] in
  fl_converged rnd32 s_left3 (/ 100) (/ 100) dx = true -> vnorm (vsub (trp T) (trp M)) < 11 / 1000 /\ exists a, turn (rotp M) (rotp T) a /\ a < 11 / 1000.
Proof.
  intros q. set (O := fl_ops _ _ _ _). destruct (chain_init_ok O (round_tree rnd32 ex_jac_arm)) as (c & Hc & _).
  pose proof (round_tree_close u32 rnd32 rnd32_rounding ex_jac_arm ex_jac_rigid) as Hct. set (T := aff I3 (mkV3 2 0 0)).
  assert (RT : is_rigid T) by (unfold T; apply is_rigid_aff, is_rot_I).
  pose proof (round_m4_close u32 rnd32 T rnd32_rounding RT) as HT.
  assert (Hp : root_path ex_jac_arm (ex_jac_arm :: [ex_jac_hinge; ex_jac_tool])).
  { eapply rp_child; [left; reflexivity|]. eapply rp_child; [left; reflexivity|]. apply rp_here. }
  assert (U0 : 0 <= u32 <= u32) by (unfold u32; lra).
  destruct (C80_chain u32 u32 u32 rnd32 (fun q => rnd32 (cos q)) (fun q => rnd32 (sin q)) (fun y x => rnd32 (atan2 y x)) (fun _ _ => s_left) (fun _ => s_left3) (fun _ => s_left2) (fun _ => s_left) s_left3
    (round_tree rnd32 ex_jac_arm) ex_jac_arm ex_jac_arm c "" [] [ex_jac_hinge; ex_jac_tool] (round_m4 rnd32 T) T
    rnd32_rounding ex_trig32 ex_half32 s_left_full (fun _ => Permutation_refl _) (fun _ => Permutation_refl _) (fun _ => s_left_full 0%nat 0%nat) (Permutation_refl _) (Rle_refl _) U0 ltac:(unfold u32; lra) Hct HT
    ex_jac_dj ex_jac_df ex_jac_cl Hc (rp_here _) (or_introl (conj eq_refl eq_refl)) Hp) as (s & H1 & _ & H3).
  { cbn [length]. replace (INR 3) with 3 by (simpl; ring). unfold u32. lra. }
  destruct (H3 [fun _ => q]) as (Js & Ts & K1 & K2). change (path_names [ex_jac_hinge; ex_jac_tool]) with [Some "j"] in K1. cbn [map length] in K1.
  inversion K2 as [|M' ? Ts' ? HM HN]; subst. inversion HN; subst.
  assert (HJ : exists J, Js = [J]).
  { pose proof (jacobian_rows _ _ _ _ _ _ K1) as E1. destruct Js as [|J [|J2 Js]]; cbn [length] in E1; [discriminate| |discriminate]. eauto. }
  destruct HJ as (J & ->). exists c, s, J, M'. split; [exact Hc|]. split; [exact H1|]. split; [exact K1|]. intros dx M Hf.
  assert (RM : is_rot (rotp M)).
  { apply (fun H : is_rigid M => proj2 H). unfold M. apply (pose_rigid_in _ _ ex_jac_arm ex_jac_rigid). intros f [<-|[<-|[]]]; [right; left; reflexivity | right; right; left; reflexivity]. }
  destruct (turn_ex (rotp M) (rotp T) RM (proj2 RT)) as (a & Ta). pose proof (HM a Ta) as (_ & _ & F). destruct (F (/ 100) (/ 100)) as [F1 _]. destruct (F1 Hf) as [D A].
  assert (N1 : vnorm (mkV3 (/ 3) 0 0) <= 1) by (apply vnorm_le_sqr; [lra|]; unfold vnorm2, vdot; cbn [vx vy vz]; lra).
  assert (N2 : vnorm (mkV3 2 0 0) <= 2) by (apply vnorm_le_sqr; [lra|]; unfold vnorm2, vdot; cbn [vx vy vz]; lra).
  pose proof (vnorm_nonneg (mkV3 (/ 3) 0 0)). pose proof (vnorm_nonneg (mkV3 2 0 0)).
  cbn [length] in D, A. replace (INR 3) with 3 in D, A by (simpl; ring). replace (10 ^ 24) with 1000000000000000000000000 in A by (cbn [pow]; ring). split.
  - fold M in D. eapply Rlt_le_trans; [exact D|]. unfold path_reach. cbn [fold_right]. unfold reach, ex_jac_hinge, ex_jac_tool. cbn [f_link f_joint l_off j_off j_type]. unfold T. rewrite !trp_aff.
    assert (220 * 3 * u32 * (0 + vnorm (mkV3 (/ 3) 0 0) + 0 + (vnorm (mkV3 2 0 0) + 0 + 0 + 0)) <= 220 * 3 * u32 * 3) by (apply Rmult_le_compat_l; [unfold u32; lra | lra]).
    assert (10 * u32 * vnorm (mkV3 2 0 0) <= 10 * u32 * 2) by (apply Rmult_le_compat_l; [unfold u32; lra | lra]). unfold u32 in *. lra.
  - exists a. split; [exact Ta|]. destruct Ta as [Ha _]. pose proof PI_up as PU. unfold u32 in A. lra.
Qed.

(** C80.  What a run of the solver in floating point reports: for every entry of the solution the two stored errors are those of the true pose of the stored
    configuration, up to rounding, and an entry marked converged is within the tolerances up to rounding.  Any step and any line search; the error of
    configuration and target is the one computed from the rounded pose.  Simplification: the solver takes the norm of the six rounded numbers without rounding. *)
Theorem C80_solver : forall u t e rnd fcos fsin fatan2 st sv sc sp sn (root' root r : mframe) c rn p fs kern k np q0 (tgt' tgt : nat -> M4) ptol rtol,
  rounding u rnd -> trig_within t fcos fsin -> half_within t fsin fatan2 -> (forall i j, s_full (st i j)) -> (forall i, s_full3 (sv i)) -> (forall i, s_full2 (sc i)) ->
  (forall i, s_full (sp i)) -> s_full3 sn -> u <= e -> 0 <= t <= e -> e <= / 100000 -> close_tree e (1 + 3 * e) root' root ->
  (forall i, (i < np)%nat -> close (1 + 3 * e) (tgt' i) (tgt i) (vnorm (trp (tgt i)))) ->
  distinct_joints root -> distinct_frames root -> clean_names root -> chain_init (fl_ops rnd fcos fsin st) root' = Ok c ->
  root_path root (p ++ [r]) -> ((rn = "" /\ r = root) \/ (rn <> "" /\ rn = f_name r)) -> root_path r (r :: fs) ->
  let n := INR (length (r :: fs)) in (210 * n + 3) * e <= / 120 ->
  (0 < ik_nr k)%nat -> length q0 = (np * ik_nr k)%nat -> ik_ptol k = Fin ptol -> ik_rtol k = Fin rtol ->
  (forall f, ik_ls k = Some f -> forall q dq dx rem, length dq = length q -> length dx = length q -> length (f q dq dx rem) = length q) ->
  exists s, serial_init (fl_ops rnd fcos fsin st) zax c (f_name (last (r :: fs) r)) rn = Ok s /\
  ((forall i v J M', (i < np)%nat ->
      jacobian_with (fl_ops rnd fcos fsin st) (fl_jops rnd sv sc) s (mkTh (length (path_names fs)) [map v (path_names fs)]) = Ok ([J], [M']) ->
      snd (kern i (map (fun j => Fin (v j)) (path_names fs))) = six (fl_pose_error rnd fsin fatan2 sp sn M' (tgt' i))) ->
   exists sol, solve_from kern k np q0 = Ok sol /\
   forall i b, (i < np)%nat -> (b < ik_nr k)%nat -> exists en, entry_at sol i b = Some en /\
     forall v a, e_q en = map (fun j => Fin (v j)) (path_names fs) -> turn (rotp (pose v fs)) (rotp (tgt i)) a ->
     let d := vnorm (vsub (trp (tgt i)) (trp (pose v fs))) in
     let bp := 220 * n * e * path_reach v fs + 10 * e * vnorm (trp (tgt i)) in let br := 3000 * n * e + (1400 * n * e + 2 / 10 ^ 24) * a in
     exists ep er, e_pos en = Fin ep /\ e_rot en = Fin er /\ Rabs (ep - d) <= bp /\ Rabs (er - a) <= br /\
       (e_conv en = true -> d < ptol + bp /\ a < rtol + br) /\ (d + bp < ptol -> a + br < rtol -> e_conv en = true)).
Proof. exact l80_solver. Qed.
Print Assumptions C80_solver.

(** the premise about the error is met by the kernel that computes it from the rounded pose *)
Example C80_solver_ex : forall O jo s names sp sn (tgt' : nat -> M4), exists kern : nat -> list F -> list F * list F, forall i v J M',
  jacobian_with O jo s (mkTh (length names) [map v names]) = Ok ([J], [M']) ->
  snd (kern i (map (fun j : option string => Fin (v j)) names)) = six (fl_pose_error rnd32 (fun q => rnd32 (sin q)) (fun y x => rnd32 (atan2 y x)) sp sn M' (tgt' i)).
Proof.
  intros O jo s names sp sn tgt'.
  exists (fun i q => (q, match jacobian_with O jo s (mkTh (length names) [map (fun x => match x with Fin y => y | _ => 0 end) q]) with
    | Ok ([J], [M']) => six (fl_pose_error rnd32 (fun q => rnd32 (sin q)) (fun y x => rnd32 (atan2 y x)) sp sn M' (tgt' i)) | _ => [] end)).
  intros i v J M' H. cbn [snd]. rewrite map_map. match goal with |- context [map ?f names] => change f with v end. rewrite H. reflexivity.
Qed.

(** C80.  No tolerance excludes rounding: with an offset of one third of a metre, stored in float32, the target that is the stored pose gets the flag with every
    positive tolerance although the true distance is not zero. *)
Theorem C80_zero_refuted : exists M T, is_rigid M /\ is_rigid T /\ 0 < vnorm (vsub (trp T) (trp M)) /\
  forall ptol rtol, 0 < ptol -> 0 < rtol ->
    fl_converged rnd32 s_left3 ptol rtol (fl_pose_error rnd32 (fun q => rnd32 (sin q)) (fun y x => rnd32 (atan2 y x)) (fun _ => s_left) s_left3 (round_m4 rnd32 M) (round_m4 rnd32 T)) = true.
Proof. exact l80_zero_refuted. Qed.
Print Assumptions C80_zero_refuted.
