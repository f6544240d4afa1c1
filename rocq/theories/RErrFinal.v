(** Last steps of the proofs quoted in Properties_RErr.v. *)
From Coq Require Import ZArith Reals Lra Psatz String Bool Arith Lia List Permutation.
From Flocq Require Import Core.
From Verif Require Import Prelude ExtF Tree ChainModel SpecFK ChainProofs Input Lin Trig RotModel RotBasic QuatProofs AxisAngle DeltaPose ChainInst Examples SerialModel SerialProofs SerialMore Deriv
  JacModel JacProofs JacMore MathModel IKModel IKProofs IKMore IKFinal SpecRound RoundNorm RoundModel RoundProofs RoundChain RoundFloat RoundFinal RoundJacModel SpecRoundJac RoundJacProofs RoundJacChain RJacFinal
  RoundErrModel SpecRoundErr RoundErrQuat RoundErrAngle.
Import ListNotations.
Local Open Scope string_scope.
Local Open Scope list_scope.
Local Open Scope R_scope.

Lemma turn_ex A B : is_rot A -> is_rot B -> exists a, turn A B a.
Proof.
  intros HA HB. assert (HR : is_rot (m3mul B (m3tr A))) by (apply is_rot_mul; [exact HB | apply is_rot_tr, HA]).
  destruct (m2q_spec _ HR) as [N E]. set (q := standardize_quaternion (matrix_to_quaternion (m3mul B (m3tr A)))).
  assert (Nq : qnorm2 q = 1) by (unfold q; rewrite standardize_norm; exact N). assert (W : 0 <= qw q) by apply standardize_nonneg.
  destruct (q2aa_spec q Nq W) as (_ & _ & a & _ & _ & _ & Ha & Tr & _). exists a. split; [exact Ha|]. rewrite <- Tr. unfold q. rewrite standardize_q2m, E by lra. reflexivity.
Qed.
Lemma turn_unique A B a b : turn A B a -> turn A B b -> a = b.
Proof. intros [H1 H2] [H3 H4]. apply cos_inj; lra. Qed.

(** the six entries of the pose error as the solver stacks them *)
Definition six (dx : V3 * V3) : list F := map Fin [vx (fst dx); vy (fst dx); vz (fst dx); vx (snd dx); vy (snd dx); vz (snd dx)].
Lemma fnorm_vec3 x y z : IKModel.fnorm (map Fin [x; y; z]) = Fin (vnorm (mkV3 x y z)).
Proof.
  unfold IKModel.fnorm. cbn [map ExtF.fmul fsum fold_right ExtF.fadd fsqrt]. assert (E : x * x + (y * y + (z * z + 0)) = vnorm2 (mkV3 x y z)) by (unfold vnorm2, vdot; cbn [vx vy vz]; ring).
  rewrite E. pose proof (vnorm2_nonneg (mkV3 x y z)) as N. replace (Rltb (vnorm2 (mkV3 x y z)) 0) with false by (symmetry; apply Rltb_false; exact N). reflexivity.
Qed.
Lemma fnorm_six dx : IKModel.fnorm (firstn 3 (six dx)) = Fin (vnorm (fst dx)) /\ IKModel.fnorm (skipn 3 (six dx)) = Fin (vnorm (snd dx)).
Proof.
  unfold six. cbn [map firstn skipn]. destruct dx as [[a b c] [d f g]]. cbn [fst snd vx vy vz]. split; [apply (fnorm_vec3 a b c) | apply (fnorm_vec3 d f g)].
Qed.

Lemma rounding_weaken u e rnd : rounding u rnd -> u <= e -> rounding e rnd.
Proof. intros Hr Hu. split; [apply Hr|]. intros x. eapply Rle_trans; [apply Hr|]. apply Rmult_le_compat_r; [apply Rabs_pos | exact Hu]. Qed.

(** the poses beside the Jacobian, up to the factor of the path *)
Lemma jac_pose_rounded : forall u t e rnd fcos fsin st sv sc (root' root r : mframe) c rn p fs,
  rounding u rnd -> trig_within t fcos fsin -> (forall i j, s_full (st i j)) -> (forall i, s_full3 (sv i)) -> (forall i, s_full2 (sc i)) ->
  u <= e -> t <= e -> e <= / 100 -> close_tree e (1 + 3 * e) root' root ->
  distinct_joints root -> distinct_frames root -> clean_names root -> chain_init (fl_ops rnd fcos fsin st) root' = Ok c ->
  root_path root (p ++ [r]) -> ((rn = "" /\ r = root) \/ (rn <> "" /\ rn = f_name r)) -> root_path r (r :: fs) ->
  let n := INR (length (r :: fs)) in 105 * n * e <= 1 / 2 ->
  exists s, serial_init (fl_ops rnd fcos fsin st) zax c (f_name (last (r :: fs) r)) rn = Ok s /\ c_names (s_chain s) = path_names fs /\
  forall vs, exists Js Ts,
    jacobian_with (fl_ops rnd fcos fsin st) (fl_jops rnd sv sc) s (mkTh (length (path_names fs)) (map (fun v => map v (path_names fs)) vs)) = Ok (Js, Ts) /\
    length Js = length vs /\ Forall2 (fun T v => close (1 + 210 * n * e) T (pose v fs) (path_reach v fs)) Ts vs.
Proof.
  intros u t e rnd fcos fsin st sv sc root' root r c rn p fs Hr Ht Hst Hsv Hsc Hu Hte He Hct Hdj Hdf Hcl Hi Hpr Hrn Hp n Hb.
  assert (He0 : 0 <= e) by (pose proof (u_nonneg u rnd Hr); lra).
  assert (Hg : 0 <= (1 + e) ^ 4 - 1) by (pose proof (pow_R1_Rle (1 + e) 4 ltac:(lra)); lra).
  assert (Hgv : 0 <= (1 + e) ^ 3 - 1) by (pose proof (pow_R1_Rle (1 + e) 3 ltac:(lra)); lra).
  assert (Hh : 0 <= (1 + e) ^ 2 - 1) by (pose proof (pow_R1_Rle (1 + e) 2 ltac:(lra)); lra).
  pose proof (rounding_weaken u e rnd Hr Hu) as Hr'.
  assert (Hf : path_factor ((1 + e) ^ 4 - 1) (1 + 3 * e) (1 + 60 * e) (S (length fs)) <= 1 + 210 * n * e).
  { apply factor_bound; [exact He0|exact He|lia|exact Hb]. }
  assert (J : forall vs, exists s Js Ts, serial_init (fl_ops rnd fcos fsin st) zax c (f_name (last (r :: fs) r)) rn = Ok s /\ c_names (s_chain s) = path_names fs /\
    jacobian_with (fl_ops rnd fcos fsin st) (fl_jops rnd sv sc) s (mkTh (length (path_names fs)) (map (fun v => map v (path_names fs)) vs)) = Ok (Js, Ts) /\
    length Js = length vs /\ Forall2 (fun T v => close (1 + 210 * n * e) T (pose v fs) (path_reach v fs)) Ts vs).
  { intros vs. destruct (l73_jacobian (fl_ops rnd fcos fsin st) (fl_jops rnd sv sc) ((1 + e) ^ 4 - 1) e (1 + 3 * e) (1 + 60 * e) ((1 + e) ^ 3 - 1) e ((1 + e) ^ 2 - 1)
      root' root r c rn p fs vs Hg ltac:(lra) ltac:(lra) He0 Hgv He0 Hh (fl_matmul_rounded e rnd Hr' st Hst) eq_refl
      (fl_motions u t e e rnd fcos fsin Hr Ht Hu Hte (Rle_refl e) He st) (fl_jops_rounded e rnd Hr' sv sc Hsv Hsc)
      Hct Hdj Hdf Hcl Hi Hpr Hrn Hp) as (s & Js & Ts & H1 & H2 & H3 & H4 & H5).
    exists s, Js, Ts. split; [exact H1|]. split; [exact H2|]. split; [exact H3|]. split; [eapply f2_len; exact H5|].
    eapply forall2_weaken; [|exact H4]. cbv beta. intros T v HT. eapply close_weaken; [exact HT | exact Hf | apply Rle_refl]. }
  destruct (J []) as (s & _ & _ & H1 & H2 & _). exists s. split; [exact H1|]. split; [exact H2|]. intros vs. destruct (J vs) as (s2 & Js & Ts & K1 & K2 & K3 & K4 & K5).
  assert (s2 = s) by congruence. subst s2. exists Js, Ts. auto.
Qed.

Section Row.
Variables (u t e : R) (rnd fsin : R -> R) (fatan2 : R -> R -> R) (sp : nat -> stree) (sn : stree).
Hypothesis (Hr : rounding u rnd) (Hh : half_within t fsin fatan2) (Hsp : forall i, s_full (sp i)) (Hsn : s_full3 sn).
Hypothesis (Hu : u <= e) (Ht : 0 <= t <= e) (He : e <= / 100000).
Lemma errors_close x y M' M P T' T Q a : close x M' M P -> close y T' T Q -> (x - 1) + (y - 1) <= / 120 -> turn (rotp M) (rotp T) a ->
  let d := vnorm (vsub (trp T) (trp M)) in let dx := fl_pose_error rnd fsin fatan2 sp sn M' T' in
  let bp := (x - 1) * P + (y - 1) * Q in let br := (x - 1) + (y - 1) in
  (forall N, N = fl_norm rnd sn (fst dx) \/ N = vnorm (fst dx) -> Rabs (N - d) <= bp + 53 / 10 * e * (d + bp)) /\
  (forall N, N = fl_norm rnd sn (snd dx) \/ N = vnorm (snd dx) -> Rabs (N - a) <= 13 * br + 142 * e + (6 * br + 87 * e + 2 / 10 ^ 24) * a).
Proof.
  intros CM CT Hb Ta d dx bp br. pose proof (close_ge1 _ _ _ _ CM) as x1. pose proof (close_ge1 _ _ _ _ CT) as y1.
  pose proof CM as (_ & (_ & RM) & _ & PM & _). pose proof CT as (_ & (_ & RT) & _ & PT & _). split.
  - intros N HN. pose proof (position_close u t e rnd sn Hr Hsn Hu Ht He _ _ _ _ _ _ PM PT N HN) as K. unfold bp. fold d in K. rewrite (Rplus_assoc d) in K. exact K.
  - apply (rotation_close u t e rnd fsin fatan2 sn Hr Hh Hsn Hu Ht He sp Hsp (rotp M') (rotp M) (rotp T') (rotp T) (x - 1) (y - 1) a RM RT (close_entries _ _ _ _ CM) (close_entries _ _ _ _ CT)); try lra. exact Ta.
Qed.
Lemma row_close n M' M P T' T a : 1 <= n -> (210 * n + 3) * e <= / 120 -> close (1 + 210 * n * e) M' M P -> close (1 + 3 * e) T' T (vnorm (trp T)) -> turn (rotp M) (rotp T) a ->
  let d := vnorm (vsub (trp T) (trp M)) in let dx := fl_pose_error rnd fsin fatan2 sp sn M' T' in
  (forall N, N = fl_norm rnd sn (fst dx) \/ N = vnorm (fst dx) -> Rabs (N - d) <= 220 * n * e * P + 10 * e * vnorm (trp T)) /\
  (forall N, N = fl_norm rnd sn (snd dx) \/ N = vnorm (snd dx) -> Rabs (N - a) <= 3000 * n * e + (1400 * n * e + 2 / 10 ^ 24) * a).
Proof.
  intros Hn Hb CM CT Ta d dx. destruct (errors_close _ _ _ _ _ _ _ _ _ CM CT ltac:(lra) Ta) as [K1 K2]. fold d dx in K1, K2.
  assert (E0 : 0 <= e) by (pose proof (u_nonneg u rnd Hr); lra). pose proof (close_P _ _ _ _ CM) as P0. pose proof (vnorm_nonneg (trp T)) as T0. pose proof CM as (_ & _ & _ & _ & PM). destruct Ta as [Ha _].
  assert (ne : e <= n * e) by (rewrite <- (Rmult_1_l e) at 1; apply Rmult_le_compat_r; assumption).
  assert (nb : 210 * n * e <= / 120) by lra.
  split; intros N HN; [specialize (K1 N HN) | specialize (K2 N HN)].
  - eapply Rle_trans; [exact K1|]. set (tau := vnorm (trp T)) in *.
    replace (1 + 210 * n * e - 1) with (210 * n * e) by ring. replace (1 + 3 * e - 1) with (3 * e) by ring.
    assert (dd : d <= P + tau). { unfold d, tau. pose proof (vnorm_triangle (trp T) (vopp (trp M))) as V. rewrite vnorm_opp in V. replace (vadd (trp T) (vopp (trp M))) with (vsub (trp T) (trp M)) in V by (unfold vadd, vopp, vsub; cbn [vx vy vz]; apply mkV3_eq; ring). lra. }
    set (ep := e * P). set (et := e * tau). assert (eP0 : 0 <= ep) by (apply Rmult_le_pos; lra). assert (et0 : 0 <= et) by (apply Rmult_le_pos; lra).
    assert (nep : ep <= n * ep). { rewrite <- (Rmult_1_l ep) at 1. apply Rmult_le_compat_r; assumption. }
    assert (A1 : 210 * n * e * P <= / 120 * P) by (apply Rmult_le_compat_r; lra). assert (A2 : 3 * e * tau <= 3 / 100000 * tau) by (apply Rmult_le_compat_r; lra).
    assert (A3 : d + (210 * n * e * P + 3 * e * tau) <= 101 / 100 * P + 10001 / 10000 * tau) by lra.
    assert (A4 : 53 / 10 * e * (d + (210 * n * e * P + 3 * e * tau)) <= 53 / 10 * e * (101 / 100 * P + 10001 / 10000 * tau)) by (apply Rmult_le_compat_l; lra).
    eapply Rle_trans; [apply Rplus_le_compat_l, A4|].
    replace (210 * n * e * P + 3 * e * tau + 53 / 10 * e * (101 / 100 * P + 10001 / 10000 * tau)) with (210 * (n * ep) + 3 * et + 53 / 10 * (101 / 100 * ep + 10001 / 10000 * et)) by (unfold ep, et; ring).
    replace (220 * n * e * P + 10 * e * tau) with (220 * (n * ep) + 10 * et) by (unfold ep, et; ring). lra.
  - eapply Rle_trans; [exact K2|]. replace (1 + 210 * n * e - 1 + (1 + 3 * e - 1)) with (210 * (n * e) + 3 * e) by ring. apply Rplus_le_compat; [lra|]. apply Rmult_le_compat_r; lra.
Qed.
End Row.

(** ** float32 *)
Lemma ex_half32 : half_within u32 (fun q => rnd32 (sin q)) (fun y x => rnd32 (atan2 y x)).
Proof.
  split.
  - intros x Hx. pose proof (proj2 rnd32_rounding (sin x)) as H. rewrite (Rabs_pos_eq (sin x)) in H; [exact H|]. apply sin_ge_0; pose proof PI2_3_2 as P; unfold PI2 in P; lra.
  - intros y x Hy Hx. pose proof (proj2 rnd32_rounding (atan2 y x)) as H. rewrite (Rabs_pos_eq (atan2 y x)) in H; [exact H|]. apply atan2_nonneg, Hy.
Qed.
Lemma rnd32_nat k : (Z.abs k < 16777216)%Z -> rnd32 (IZR k) = IZR k.
Proof.
  intros H. unfold rnd32. apply round_generic; [apply valid_rnd_N|]. apply generic_format_FLX. exists (Float radix2 k 0); [|exact H]. unfold F2R. cbn [Fnum Fexp bpow]. ring.
Qed.
Lemma m2q_ident : fl_m2q rnd32 I3 = mkQ 1 0 0 0.
Proof.
  assert (Z0 : rnd32 0 = 0) by (apply (rnd32_nat 0); reflexivity). assert (Z2 : rnd32 2 = 2) by (apply (rnd32_nat 2); reflexivity).
  assert (Z1 : rnd32 1 = 1) by (apply (rnd32_nat 1); reflexivity). assert (Z3 : rnd32 3 = 3) by (apply (rnd32_nat 3); reflexivity). assert (Z4 : rnd32 4 = 4) by (apply (rnd32_nat 4); reflexivity).
  assert (ZM : rnd32 (-1) = -1) by (apply (rnd32_nat (-1)); reflexivity).
  assert (D0 : fl_diag rnd32 I3 0 = 4).
  { unfold fl_diag, fadd, I3. cbn [m00 m11 m22]. replace (1 + 1) with 2 by ring. rewrite Z2. replace (2 + 1) with 3 by ring. rewrite Z3. replace (3 + 1) with 4 by ring. exact Z4. }
  assert (D1 : fl_diag rnd32 I3 1 = 0).
  { unfold fl_diag, fadd, fsub, I3. cbn [m00 m11 m22]. replace (1 + 1) with 2 by ring. rewrite Z2. replace (2 - 1) with 1 by ring. rewrite Z1. replace (1 - 1) with 0 by ring. exact Z0. }
  assert (D2 : fl_diag rnd32 I3 2 = 0).
  { unfold fl_diag, fadd, fsub, I3. cbn [m00 m11 m22]. replace (1 - 1) with 0 by ring. rewrite Z0. replace (0 + 1) with 1 by ring. rewrite Z1. replace (1 - 1) with 0 by ring. exact Z0. }
  assert (D3 : fl_diag rnd32 I3 3 = 0).
  { unfold fl_diag, fadd, fsub, I3. cbn [m00 m11 m22]. replace (1 - 1) with 0 by ring. rewrite Z0. replace (0 - 1) with (-1) by ring. rewrite ZM. replace (-1 + 1) with 0 by ring. exact Z0. }
  assert (A0 : fl_q_abs rnd32 I3 0 = 2).
  { unfold fl_q_abs. rewrite D0. rewrite Rmax_left by lra. replace 4 with (2 * 2) by ring. rewrite sqrt_square by lra. exact Z2. }
  assert (AZ : forall i, fl_diag rnd32 I3 i = 0 -> fl_q_abs rnd32 I3 i = 0).
  { intros i Hi. unfold fl_q_abs. rewrite Hi, Rmax_left, sqrt_0 by lra. exact Z0. }
  pose proof (AZ _ D1) as A1. pose proof (AZ _ D2) as A2. pose proof (AZ _ D3) as A3.
  assert (AM : argmax4 (fl_q_abs rnd32 I3) = 0%nat).
  { unfold argmax4. rewrite A0, A1, A2, A3. unfold Rltb. repeat (destruct (Rlt_dec _ _); try lra; try reflexivity). }
  unfold fl_m2q. rewrite AM, A0. unfold fl_by_rijk. rewrite A0.
  assert (T : rnd32 (1 / 10) <= 2).
  { pose proof (proj2 rnd32_rounding (1 / 10)) as H. rewrite (Rabs_pos_eq (1 / 10)) in H by lra. pose proof (Rle_abs (rnd32 (1 / 10) - 1 / 10)). pose proof u32_small. unfold u32 in *. lra. }
  rewrite Rmax_left by exact T. unfold fmul, fsub, I3. cbn [qw qx qy qz m21 m12 m02 m20 m10 m01]. replace (2 * 2) with 4 by ring. rewrite Z4. replace (0 - 0) with 0 by ring. rewrite Z0.
  replace (4 / 4) with 1 by field. replace (0 / 4) with 0 by field. rewrite Z0, Z1. reflexivity.
Qed.
Lemma same_pose_zero p fsin fatan2 : fatan2 0 1 = 0 ->
  fl_pose_error rnd32 fsin fatan2 (fun _ => s_left) s_left3 (aff I3 p) (aff I3 p) = (vzero, vzero).
Proof.
  intros Hat. assert (Z0 : rnd32 0 = 0) by (apply (rnd32_nat 0); reflexivity). assert (Z1 : rnd32 1 = 1) by (apply (rnd32_nat 1); reflexivity).
  unfold fl_pose_error, fl_delta_pose. rewrite rotp_aff, trp_aff, m2q_ident.
  assert (EM : fl_multiply rnd32 (fun _ => s_left) (mkQ 1 0 0 0) (quaternion_invert (mkQ 1 0 0 0)) = mkQ 1 0 0 0).
  { unfold fl_multiply, fl_raw_multiply, quaternion_invert, s_left. cbn [s_eval qw qx qy qz]. unfold fadd. cbv beta iota.
    repeat (rewrite Rmult_1_r || rewrite Rmult_0_r || rewrite Rmult_0_l || rewrite Ropp_0 || rewrite Rplus_0_r || rewrite Rplus_0_l || rewrite Z0 || rewrite Z1).
    unfold standardize_quaternion. cbn [qw]. replace (Rltb 1 0) with false by (symmetry; apply Rltb_false; lra). reflexivity. }
  rewrite EM.
  assert (EN : fl_norm rnd32 s_left3 (qvec (mkQ 1 0 0 0)) = 0).
  { unfold fl_norm, s_left3, qvec. cbn [s_eval qx qy qz vcomp vx vy vz]. unfold fadd. repeat (rewrite Rmult_0_l || rewrite Rplus_0_r || rewrite Z0 || rewrite sqrt_0). reflexivity. }
  unfold fl_axis_angle. rewrite EN. cbn [qw qx qy qz]. rewrite Hat. unfold fl_divisor, fmul. rewrite Rmult_0_r, Z0.
  unfold fl_vsub, fsub, vzero. replace (vx p - vx p) with 0 by ring. replace (vy p - vy p) with 0 by ring. replace (vz p - vz p) with 0 by ring. rewrite Z0.
  set (s := if Rltb _ _ then _ else _). unfold Rdiv. rewrite !Rmult_0_l, Z0. reflexivity.
Qed.

Lemma l80_turn : forall A B, is_rot A -> is_rot B -> exists a, turn A B a /\ forall b, turn A B b -> b = a.
Proof. intros A B HA HB. destruct (turn_ex A B HA HB) as (a & H). exists a. split; [exact H|]. intros b Hb. exact (turn_unique A B b a Hb H). Qed.

Lemma l80_quaternion : forall u rnd b A B, rounding u rnd -> u <= / 10000 -> 0 <= b <= / 100 -> is_rot B ->
  m3le (m3abs (m3sub A B)) (mkM3 b b b b b b b b b) ->
  exists q, qnorm2 q = 1 /\ quaternion_to_matrix q = B /\ let p := fl_m2q rnd A in
    sqrt ((qw p - qw q) * (qw p - qw q) + (qx p - qx q) * (qx p - qx q) + (qy p - qy q) * (qy p - qy q) + (qz p - qz q) * (qz p - qz q)) <= 51 / 10 * b + 23 * u.
Proof. intros u rnd b A B Hr Hu Hb HB HA. destruct (m2q_close u rnd Hr Hu b A B Hb HB HA) as (q & H1 & H2 & H3). exists q. split; [exact H1|]. split; [exact H2 | exact H3]. Qed.

Lemma l80_errors : forall u t e rnd fsin fatan2 sp sn x y M' M P T' T Q a, rounding u rnd -> half_within t fsin fatan2 -> (forall i, s_full (sp i)) -> s_full3 sn ->
  u <= e -> 0 <= t <= e -> e <= / 100000 -> close x M' M P -> close y T' T Q -> (x - 1) + (y - 1) <= / 120 -> turn (rotp M) (rotp T) a ->
  let d := vnorm (vsub (trp T) (trp M)) in let dx := fl_pose_error rnd fsin fatan2 sp sn M' T' in
  let bp := (x - 1) * P + (y - 1) * Q in let br := (x - 1) + (y - 1) in
  (forall N, N = fl_norm rnd sn (fst dx) \/ N = vnorm (fst dx) -> Rabs (N - d) <= bp + 53 / 10 * e * (d + bp)) /\
  (forall N, N = fl_norm rnd sn (snd dx) \/ N = vnorm (snd dx) -> Rabs (N - a) <= 13 * br + 142 * e + (6 * br + 87 * e + 2 / 10 ^ 24) * a).
Proof. intros u t e rnd fsin fatan2 sp sn x y M' M P T' T Q a Hr Hh Hsp Hsn Hu Ht He. exact (errors_close u t e rnd fsin fatan2 sp sn Hr Hh Hsp Hsn Hu Ht He x y M' M P T' T Q a). Qed.

Lemma l80_chain : forall u t e rnd fcos fsin fatan2 st sv sc sp sn (root' root r : mframe) c rn p fs (T' T : M4),
  rounding u rnd -> trig_within t fcos fsin -> half_within t fsin fatan2 -> (forall i j, s_full (st i j)) -> (forall i, s_full3 (sv i)) -> (forall i, s_full2 (sc i)) ->
  (forall i, s_full (sp i)) -> s_full3 sn -> u <= e -> 0 <= t <= e -> e <= / 100000 -> close_tree e (1 + 3 * e) root' root -> close (1 + 3 * e) T' T (vnorm (trp T)) ->
  distinct_joints root -> distinct_frames root -> clean_names root -> chain_init (fl_ops rnd fcos fsin st) root' = Ok c ->
  root_path root (p ++ [r]) -> ((rn = "" /\ r = root) \/ (rn <> "" /\ rn = f_name r)) -> root_path r (r :: fs) ->
  let n := INR (length (r :: fs)) in (210 * n + 3) * e <= / 120 ->
  exists s, serial_init (fl_ops rnd fcos fsin st) zax c (f_name (last (r :: fs) r)) rn = Ok s /\ c_names (s_chain s) = path_names fs /\
  forall vs, exists Js Ts,
    jacobian_with (fl_ops rnd fcos fsin st) (fl_jops rnd sv sc) s (mkTh (length (path_names fs)) (map (fun v => map v (path_names fs)) vs)) = Ok (Js, Ts) /\
    Forall2 (fun M' v => forall a, turn (rotp (pose v fs)) (rotp T) a ->
      let d := vnorm (vsub (trp T) (trp (pose v fs))) in let dx := fl_pose_error rnd fsin fatan2 sp sn M' T' in
      let bp := 220 * n * e * path_reach v fs + 10 * e * vnorm (trp T) in let br := 3000 * n * e + (1400 * n * e + 2 / 10 ^ 24) * a in
      Rabs (fl_norm rnd sn (fst dx) - d) <= bp /\ Rabs (fl_norm rnd sn (snd dx) - a) <= br /\
      forall ptol rtol, (fl_converged rnd sn ptol rtol dx = true -> d < ptol + bp /\ a < rtol + br) /\ (d + bp < ptol -> a + br < rtol -> fl_converged rnd sn ptol rtol dx = true)) Ts vs.
Proof.
  intros u t e rnd fcos fsin fatan2 st sv sc sp sn root' root r c rn p fs T' T Hr Htr Hh Hst Hsv Hsc Hsp Hsn Hu Ht He Hct HT Hdj Hdf Hcl Hi Hpr Hrn Hp n Hb.
  assert (E0 : 0 <= e) by (pose proof (u_nonneg u rnd Hr); lra).
  assert (Hn : 1 <= n) by (unfold n; cbn [length]; rewrite S_INR; pose proof (pos_INR (length fs)); lra).
  destruct (jac_pose_rounded u t e rnd fcos fsin st sv sc root' root r c rn p fs Hr Htr Hst Hsv Hsc Hu ltac:(lra) ltac:(lra) Hct Hdj Hdf Hcl Hi Hpr Hrn Hp) as (s & H1 & H2 & H3); [fold n; lra|]. fold n in H3.
  exists s. split; [exact H1|]. split; [exact H2|]. intros vs. destruct (H3 vs) as (Js & Ts & K1 & _ & K2). exists Js, Ts. split; [exact K1|].
  eapply forall2_weaken; [|exact K2]. cbv beta. intros M' v HM a Ta d dx bp br.
  destruct (row_close u t e rnd fsin fatan2 sp sn Hr Hh Hsp Hsn Hu Ht He n M' (pose v fs) (path_reach v fs) T' T a Hn Hb HM HT Ta) as [P1 P2].
  specialize (P1 _ (or_introl eq_refl)). specialize (P2 _ (or_introl eq_refl)). fold d dx bp in P1. fold dx br in P2. split; [exact P1|]. split; [exact P2|].
  intros ptol rtol. apply abs_inv in P1. apply abs_inv in P2. unfold fl_converged. split.
  - intros H. apply andb_prop in H. destruct H as [F1 F2]. apply Rltb_true in F1. apply Rltb_true in F2. lra.
  - intros L1 L2. apply andb_true_intro. split; apply Rltb_true; lra.
Qed.

Lemma l80_solver : forall u t e rnd fcos fsin fatan2 st sv sc sp sn (root' root r : mframe) c rn p fs kern k np q0 (tgt' tgt : nat -> M4) ptol rtol,
  rounding u rnd -> trig_within t fcos fsin -> half_within t fsin fatan2 -> (forall i j, s_full (st i j)) -> (forall i, s_full3 (sv i)) -> (forall i, s_full2 (sc i)) ->
  (forall i, s_full (sp i)) -> s_full3 sn -> u <= e -> 0 <= t <= e -> e <= / 100000 -> close_tree e (1 + 3 * e) root' root ->
  (forall i, (i < np)%nat -> close (1 + 3 * e) (tgt' i) (tgt i) (vnorm (trp (tgt i)))) ->
  distinct_joints root -> distinct_frames root -> clean_names root -> chain_init (fl_ops rnd fcos fsin st) root' = Ok c ->
  root_path root (p ++ [r]) -> ((rn = "" /\ r = root) \/ (rn <> "" /\ rn = f_name r)) -> root_path r (r :: fs) ->
  let n := INR (length (r :: fs)) in (210 * n + 3) * e <= / 120 ->
  (0 < ik_nr k)%nat -> length q0 = (np * ik_nr k)%nat -> ik_ptol k = Fin ptol -> ik_rtol k = Fin rtol ->
  (forall f, ik_ls k = Some f -> forall q dq dx rem, length dq = length q -> length dx = length q -> length (f q dq dx rem) = length q) ->
  exists s, serial_init (fl_ops rnd fcos fsin st) zax c (f_name (last (r :: fs) r)) rn = Ok s /\
  ((forall i v J M', (i < np)%nat ->
      jacobian_with (fl_ops rnd fcos fsin st) (fl_jops rnd sv sc) s (mkTh (length (path_names fs)) [map v (path_names fs)]) = Ok ([J], [M']) ->
      snd (kern i (map (fun j => Fin (v j)) (path_names fs))) = six (fl_pose_error rnd fsin fatan2 sp sn M' (tgt' i))) ->
   exists sol, solve_from kern k np q0 = Ok sol /\
   forall i b, (i < np)%nat -> (b < ik_nr k)%nat -> exists en, entry_at sol i b = Some en /\
     forall v a, e_q en = map (fun j => Fin (v j)) (path_names fs) -> turn (rotp (pose v fs)) (rotp (tgt i)) a ->
     let d := vnorm (vsub (trp (tgt i)) (trp (pose v fs))) in
     let bp := 220 * n * e * path_reach v fs + 10 * e * vnorm (trp (tgt i)) in let br := 3000 * n * e + (1400 * n * e + 2 / 10 ^ 24) * a in
     exists ep er, e_pos en = Fin ep /\ e_rot en = Fin er /\ Rabs (ep - d) <= bp /\ Rabs (er - a) <= br /\
       (e_conv en = true -> d < ptol + bp /\ a < rtol + br) /\ (d + bp < ptol -> a + br < rtol -> e_conv en = true)).
Proof.
  intros u t e rnd fcos fsin fatan2 st sv sc sp sn root' root r c rn p fs kern k np q0 tgt' tgt ptol rtol Hr Htr Hh Hst Hsv Hsc Hsp Hsn Hu Ht He Hct HT Hdj Hdf Hcl Hi Hpr Hrn Hp n Hb Hnr Hq0 Hpt Hrt Hls.
  assert (E0 : 0 <= e) by (pose proof (u_nonneg u rnd Hr); lra).
  assert (Hn : 1 <= n) by (unfold n; cbn [length]; rewrite S_INR; pose proof (pos_INR (length fs)); lra).
  destruct (jac_pose_rounded u t e rnd fcos fsin st sv sc root' root r c rn p fs Hr Htr Hst Hsv Hsc Hu ltac:(lra) ltac:(lra) Hct Hdj Hdf Hcl Hi Hpr Hrn Hp) as (s & H1 & _ & H3); [fold n; lra|]. fold n in H3.
  exists s. split; [exact H1|]. intros Hk. destruct (l39_solve kern k np q0 Hnr Hq0 Hls) as (sol & Hsol & Hen & _). exists sol. split; [exact Hsol|].
  intros i b Hi' Hb'. destruct (Hen i b Hi' Hb') as (en & He1 & He2 & He3 & He4). exists en. split; [exact He1|]. intros v a Hq Ta d bp br.
  destruct (H3 [v]) as (Js & Ts & K1 & KL & K2). cbn [map length] in K1, KL. inversion K2 as [|M' ? Ts' ? HM HN]; subst. inversion HN; subst.
  assert (HJ : exists J, Js = [J]) by (destruct Js as [|J [|J2 Js]]; cbn [length] in KL; [discriminate| |discriminate]; eauto).
  destruct HJ as (J & ->). specialize (Hk i v J M' Hi' K1). rewrite Hq, Hk in He2, He3. destruct (fnorm_six (fl_pose_error rnd fsin fatan2 sp sn M' (tgt' i))) as [N1 N2]. rewrite N1 in He2. rewrite N2 in He3.
  destruct (row_close u t e rnd fsin fatan2 sp sn Hr Hh Hsp Hsn Hu Ht He n M' (pose v fs) (path_reach v fs) (tgt' i) (tgt i) a Hn Hb HM (HT i Hi') Ta) as [P1 P2].
  specialize (P1 _ (or_intror eq_refl)). specialize (P2 _ (or_intror eq_refl)). fold d bp in P1. fold br in P2.
  eexists. eexists. split; [exact He2|]. split; [exact He3|]. split; [exact P1|]. split; [exact P2|]. rewrite He2, He3, Hpt, Hrt in He4. cbn [flt] in He4. rewrite !Rltb_true in He4.
  apply abs_inv in P1. apply abs_inv in P2. split.
  - intros H. apply He4 in H. lra.
  - intros L1 L2. apply He4. lra.
Qed.

Lemma l80_zero_refuted : exists M T, is_rigid M /\ is_rigid T /\ 0 < vnorm (vsub (trp T) (trp M)) /\
  forall ptol rtol, 0 < ptol -> 0 < rtol ->
    fl_converged rnd32 s_left3 ptol rtol (fl_pose_error rnd32 (fun q => rnd32 (sin q)) (fun y x => rnd32 (atan2 y x)) (fun _ => s_left) s_left3 (round_m4 rnd32 M) (round_m4 rnd32 T)) = true.
Proof.
  assert (Z0 : rnd32 0 = 0) by (apply (rnd32_nat 0); reflexivity). assert (Z1 : rnd32 1 = 1) by (apply (rnd32_nat 1); reflexivity).
  pose proof l70_float32 as (_ & _ & RI & R3). set (h := rnd32 (/ 3)) in *.
  exists (aff I3 (mkV3 (/ 3) 0 0)), (aff I3 (mkV3 h 0 0)). split; [apply is_rigid_aff, is_rot_I|]. split; [apply is_rigid_aff, is_rot_I|].
  assert (E : forall x, rnd32 x = h -> round_m4 rnd32 (aff I3 (mkV3 x 0 0)) = aff I3 (mkV3 h 0 0)).
  { intros x Hx. unfold round_m4, aff, I3. cbn [a00 a01 a02 a03 a10 a11 a12 a13 a20 a21 a22 a23 a30 a31 a32 a33 m00 m01 m02 m10 m11 m12 m20 m21 m22 vx vy vz]. rewrite ?Z0, ?Z1, ?Hx. reflexivity. }
  split.
  - rewrite !trp_aff. unfold vsub. cbn [vx vy vz]. pose proof (vnorm_nonneg (mkV3 (h - / 3) (0 - 0) (0 - 0))) as N. destruct (Req_dec (vnorm (mkV3 (h - / 3) (0 - 0) (0 - 0))) 0) as [Q|Q]; [|lra].
    exfalso. apply vnorm_zero_iff in Q. apply (f_equal vx) in Q. cbn [vx vzero] in Q. apply R3. lra.
  - intros ptol rtol Hp Hr. rewrite (E (/ 3) eq_refl), (E h (RI _)). rewrite same_pose_zero.
    + unfold fl_converged. cbn [fst snd]. assert (N : fl_norm rnd32 s_left3 vzero = 0).
      { unfold fl_norm, s_left3, vzero. cbn [s_eval vcomp vx vy vz]. unfold fadd. repeat (rewrite Rmult_0_l || rewrite Rplus_0_r || rewrite Z0 || rewrite sqrt_0). reflexivity. }
      rewrite N. apply andb_true_intro. split; apply Rltb_true; assumption.
    + replace (atan2 0 1) with 0; [exact Z0|]. unfold atan2. replace (Rltb 0 1) with true by (symmetry; apply Rltb_true; lra). replace (0 / 1) with 0 by field. symmetry. apply atan_0.
Qed.
