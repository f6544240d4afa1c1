(** Last steps of the proofs quoted in Properties_Line.v. *)
From Coq Require Import Reals Lra String Bool Arith Lia List ZArith FunctionalExtensionality.
From Coquelicot Require Import Coquelicot.
From Verif Require Import Prelude ExtF Tree ChainModel SpecFK ChainProofs ChainTables TreeQueries Input Widths Lin Trig RotModel RotBasic QuatProofs AxisAngle ChainInst
  FKMore ChainClamp Examples SerialModel SerialProofs SerialMore Deriv JacModel JacProofs JacMore IKModel IKProofs IKMore IKLimits IKKernel KernelProofs DeltaPose IKSolve SolveProofs
  SpecDescent PathDeriv AngleDeriv DescentProofs DescFinal SpecGantry GantryProofs GantryRun ConvFinal LineModel LineProofs LineGantry.
Import ListNotations.
Local Open Scope string_scope.
Local Open Scope list_scope.
Local Open Scope R_scope.

Lemma small_stretch a n : 0 <= a -> a <= n <= a + a ^ 5 / 960 -> (a = 0 \/ eps6 <= a -> n = a) -> n * n <= 2 * (a * a).
Proof.
  intros Ha Hn Hx. destruct (Rle_lt_dec eps6 a) as [L|L].
  - rewrite (Hx (or_intror L)). nra.
  - assert (E1 : a <= 1) by (unfold eps6 in L; lra). assert (a ^ 4 <= 1) by (replace 1 with (1 ^ 4) by ring; apply pow_incr; lra). assert (P : 0 <= a ^ 4) by (apply pow_le; exact Ha).
    assert (a ^ 5 <= a) by (replace (a ^ 5) with (a * a ^ 4) by ring; nra). assert (B : n <= a * (961 / 960)) by lra.
    assert (n * n <= a * (961 / 960) * (a * (961 / 960))) by (apply Rmult_le_compat; lra). nra.
Qed.
Lemma zip_pair {X} (v e : X -> R) (t : R) l : zip_with (fun x d => x + t * d) (map v l) (map e l) = map (fun y => v y + t * e y) l.
Proof. induction l as [|x l IH]; cbn [map zip_with]; [reflexivity|]. rewrite IH. reflexivity. Qed.

Lemma l77_finds : forall (nan : R) is_nan (root r : mframe) c rn p fs targets reg lm w lr f,
  chain_init mops root = Ok c -> distinct_joints root -> distinct_frames root -> clean_names root -> rigid_tree root ->
  root_path root (p ++ [r]) -> ((rn = "" /\ r = root) \/ (rn <> "" /\ rn = f_name r)) -> root_path r (r :: fs) ->
  (forall i, is_rigid (targets i)) -> 0 < reg -> 0 <= lm -> 0 < lr -> 0 < f < 1 ->
  exists s, serial_init mops zax c (f_name (last (r :: fs) r)) rn = Ok s /\
  forall i row T0 a dq dx, length row = length (c_names (s_chain s)) -> serial_fk_end mops nan is_nan s (InTensor (T1 row)) = Ok [T0] -> angle_between (targets i) T0 a -> (a = 0 \/ eps6 < a < PI) ->
  pik_row s (targets i) reg lm (Some (row_weights w w)) row = Ok (dq, dx) -> (exists x, In x dq /\ x <> 0) ->
  exists K, forall iter np nr t q dqs dxs rem, (K < iter)%nat -> (i < np)%nat -> (t < nr)%nat -> length q = (np * nr)%nat -> length dqs = (np * nr)%nat -> length dxs = (np * nr)%nat ->
  nth_error q (i * nr + t) = Some (map Fin row) -> nth_error dqs (i * nr + t) = Some (map Fin dq) -> nth_error dxs (i * nr + t) = Some (map Fin dx) -> nth_error rem i = Some true ->
  exists j Tn an, (j <= K)%nat /\ nth_error (line_search s targets (mkLS lr f iter 0) nr q dqs dxs rem) (i * nr + t) = Some (Fin (lr * f ^ j)) /\
    serial_fk_end mops nan is_nan s (InTensor (T1 (zip_with (fun x d => x + lr * f ^ j * d) row dq))) = Ok [Tn] /\ angle_between (targets i) Tn an /\
    vnorm (vsub (trp (targets i)) (trp Tn)) ^ 2 + an ^ 2 < vnorm (vsub (trp (targets i)) (trp T0)) ^ 2 + a ^ 2.
Proof.
  intros nan is_nan root r c rn p fs targets reg lm w lr f Hc Hdj Hdf Hcl Hrt Hpr Hrn Hp Htg Hreg Hlm Hlr Hf.
  assert (Hin : In r (preorder root)) by (eapply root_path_in; exact Hpr).
  assert (Hch : root_choice root r rn) by (destruct Hrn as [?|[? ?]]; [left | right]; auto).
  destruct (serial_ok mops zax root c rn r fs Hc Hdf Hcl Hch Hp) as (s & Hs & Ht). exists s. split; [exact Hs|].
  intros i row T0 a dq dx Hl HT0 Ha0 Hwin Hk Hnz.
  destruct (l74_descent nan is_nan root r c rn p fs (targets i) reg lm w w Hc Hdj Hdf Hcl Hrt Hpr Hrn Hp (Htg i) Hreg Hlm) as (s' & Hs' & H74).
  assert (s' = s) by (rewrite Hs in Hs'; congruence). subst s'. clear Hs'.
  destruct (H74 row Hl) as (dq' & dx' & Hk' & Hmv & Hdesc). rewrite Hk in Hk'. assert (HP : forall X Y (x y : X) (u v : Y), Ok (x, u) = Ok (y, v) -> x = y /\ u = v) by (intros; split; congruence).
  destruct (HP _ _ _ _ _ _ Hk') as [Eq Ex]. subst dq' dx'. clear Hk'.
  assert (En := path_chain_names r fs s Ht). rewrite En in Hl. destruct (row_config root r fs Hin Hdj Hp row Hl) as (v & ->). assert (Rt : is_rot (rotp (targets i))) by apply Htg.
  assert (FK : forall u : config (S := R), serial_fk_end mops nan is_nan s (InTensor (T1 (map u (path_names fs)))) = Ok [pose u fs]).
  { intros u. rewrite <- En. apply (serial_pose nan is_nan root r c rn fs s u); assumption. }
  rewrite FK in HT0. assert (HX : forall X (y z : X), Ok [y] = Ok [z] -> y = z) by (intros; congruence). apply HX in HT0. subst T0.
  destruct (row_step root r fs s (targets i) v reg lm w w Hin Hdj Hdf Hcl Hp Ht Hrt Rt Hreg Hlm) as (dr & x & _ & Hk2 & Ha). cbn zeta in Hk2. rewrite Hk in Hk2. destruct (HP _ _ _ _ _ _ Hk2) as [Edq Edx].
  assert (Hwin' : a = 0 \/ eps6 <= a < PI) by (destruct Hwin; [left; assumption | right; lra]).
  destruct (Ha a Ha0 ltac:(destruct Hwin; [left; assumption | right; lra])) as [Nd _].
  assert (Ldq : length dq = length (path_names fs)) by (rewrite Edq, map_length, seq_length; reflexivity).
  destruct (row_config root r fs Hin Hdj Hp dq Ldq) as (e & Ee).
  destruct (Hmv dq ltac:(rewrite Ldq, map_length; reflexivity)) as (T & ang & Hm). destruct (Hdesc _ a (FK v) Ha0 Hwin') as [Hd _]. destruct (Hd T ang Hm) as [(g & Dg & Gg) _]. clear Hd Hdesc Hmv.
  assert (ZD : forall t, zip_with (fun x0 d0 => x0 + t * d0) (map v (path_names fs)) dq = map (drive v e t) (path_names fs)) by (intros t; rewrite Ee, zip_pair; reflexivity).
  assert (ET : forall t, T t = pose (drive v e t) fs) by (intros t; destruct Hm as [_ Hm]; destruct (Hm t) as [E _]; rewrite ZD, FK in E; symmetry; apply HX; exact E).
  assert (Hm2 : forall t, angle_between (targets i) (pose (drive v e t) fs) (ang t)) by (intros t; rewrite <- ET; apply Hm).
  assert (E0 : pose (drive v e 0) fs = pose v fs) by (apply pose_ext; intros; apply drive_0).
  assert (EA : ang 0 = a) by (eapply angle_unique; [apply Hm2|rewrite E0; exact Ha0]).
  assert (G0 : 0 < g).
  { destruct Hnz as (y & Hy & Ny). destruct (In_nth dq y 0 Hy) as (j & Hj & Ej).
    assert (P : 0 < rsum (length dq) (fun j => nth j dq 0 ^ 2)) by (apply (rsum_pos _ _ j); [intros l _; apply pow2_ge_0 | exact Hj |]; rewrite Ej; apply pow2_gt_0; exact Ny).
    assert (0 < reg * rsum (length dq) (fun j => nth j dq 0 ^ 2)) by (apply Rmult_lt_0_compat; assumption). lra. }
  assert (W0 : w <> 0).
  { intros ->. assert (Z : is_derive (true_error 0 0 (targets i) T ang) 0 0) by (eapply is_derive_ext; [|exact (is_derive_const 0 0)]; intros t; unfold true_error; req; ring).
    apply is_derive_unique in Dg. apply is_derive_unique in Z. lra. }
  assert (W2 : 0 < w ^ 2) by (apply pow2_gt_0; exact W0).
  set (P := fun t : R => vnorm2 (vsub (trp (targets i)) (trp (pose (drive v e t) fs)))).
  set (A2 := fun t : R => ang t * ang t).
  assert (D1 : is_derive (fun t : R => P t + A2 t) 0 (- 2 * g / w ^ 2)).
  { eapply is_derive_eq; [eapply is_derive_ext; [|exact (is_derive_scal _ 0 (/ w ^ 2) _ Dg)]|].
    - intros t. unfold true_error, P, A2. rewrite ET, vnorm_sq. req. field. exact W0.
    - req. field. exact W0. }
  destruct (angle_line root r fs s Hin Hdj Hdf Hcl Hp Ht Hrt (targets i) v e ang Rt Hm2 ltac:(rewrite EA; exact Hwin')) as (l & Dl & Hl0). fold A2 in Dl.
  assert (Dn : - 2 * g / w ^ 2 < 0) by (apply Rmult_lt_reg_r with (w ^ 2); [exact W2|]; unfold Rdiv; rewrite Rmult_assoc, Rinv_l by lra; lra).
  assert (P0 : P 0 = vnorm2 (vsub (trp (targets i)) (trp (pose v fs)))) by (unfold P; rewrite E0; reflexivity).
  assert (A0 : A2 0 = a * a) by (unfold A2; rewrite EA; reflexivity).
  assert (NV : forall u, vnorm2 u = vnorm u * vnorm u) by (intros u; rewrite <- vnorm_sq; ring).
  (* for a while the computed error is below the one at the start *)
  assert (LOW : exists dl, 0 < dl /\ forall t, 0 < t < dl -> forall n, ang t <= n <= ang t + ang t ^ 5 / 960 -> (ang t = 0 \/ eps6 <= ang t -> n = ang t) -> P t + n * n < P 0 + A2 0).
  { destruct Hwin as [Z|Z].
    - rewrite Hl0 in Dl by (rewrite EA; exact Z).
      assert (D2 : is_derive (fun t : R => (P t + A2 t) + A2 t) 0 (- 2 * g / w ^ 2)) by (eapply is_derive_eq; [exact (is_derive_plus _ _ 0 _ _ D1 Dl)|]; exact (Rplus_0_r _)).
      destruct (derive_neg_down _ _ D2 Dn) as (dl & Hdl & Hlt). exists dl. split; [exact Hdl|]. intros t Htt n Hn1 Hn2. specialize (Hlt t Htt). cbv beta in Hlt. rewrite A0, Z in *.
      pose proof (small_stretch (ang t) n (proj1 (proj1 (Hm2 t))) Hn1 Hn2) as B. unfold A2 in Hlt. lra.
    - destruct (derive_neg_down _ _ D1 Dn) as (d1 & Hd1 & Hlt). pose proof eps6_pos as He.
      destruct (derive_keeps_above _ _ (eps6 * eps6) Dl) as (d2 & Hd2 & Hab); [rewrite A0; nra|].
      exists (Rmin d1 d2). split; [apply Rmin_pos; assumption|]. intros t Htt n Hn1 Hn2. pose proof (Rmin_l d1 d2). pose proof (Rmin_r d1 d2).
      specialize (Hlt t ltac:(lra)). specialize (Hab t ltac:(lra)). cbv beta in Hlt. unfold A2 in Hab. destruct (Hm2 t) as [[B1 B2] _].
      assert (eps6 <= ang t) by (destruct (Rle_lt_dec eps6 (ang t)) as [L|L]; [exact L | exfalso; nra]). rewrite (Hn2 (or_intror H1)). unfold A2 in *. exact Hlt. }
  destruct LOW as (dl & Hdl & LOW). destruct (powers_small lr f dl Hlr Hf Hdl) as (K & HK). exists K.
  intros iter np nr t q dqs dxs rem Hit Hi Htn L1 L2 L3 N1 N2 N3 N4.
  assert (Hii : (i * nr + t < np * nr)%nat) by nia.
  destruct (search_row s targets (mkLS lr f iter 0) nr (np * nr) q dqs dxs rem (i * nr + t) L1 L2 L3 Hii) as (j & Hj1 & Hj2 & Hj3).
  assert (Edn : ((i * nr + t) / nr = i)%nat) by (rewrite Nat.div_add_l, (Nat.div_small t nr Htn), Nat.add_0_r by lia; reflexivity).
  rewrite Edn in Hj3. destruct (Hj3 (nth_error_nth rem i false N4)) as [Hno Hyes]. clear Hj3.
  rewrite (nth_error_nth _ _ [] N1), (nth_error_nth _ _ [] N2), (nth_error_nth _ _ [] N3) in Hno, Hyes. cbn [ls_lr ls_factor ls_iter ls_suff] in *.
  rewrite Edx, norm_six in Hno, Hyes. rewrite Ee in Hno, Hyes.
  assert (PR : forall j, flt (Fin 0) (fsub (Fin (sqrt (vnorm2 (vsub (trp (targets i)) (trp (pose v fs))) + vnorm2 dr))) (line_err s (targets i) (step_row (Fin (lr * f ^ j)) (map Fin (map v (path_names fs))) (map Fin (map e (path_names fs)))))) = true <->
    exists n, P (lr * f ^ j) + n * n < P 0 + A2 0 /\ ang (lr * f ^ j) <= n <= ang (lr * f ^ j) + ang (lr * f ^ j) ^ 5 / 960 /\ (ang (lr * f ^ j) = 0 \/ eps6 <= ang (lr * f ^ j) -> n = ang (lr * f ^ j)) /\
      line_err s (targets i) (step_row (Fin (lr * f ^ j)) (map Fin (map v (path_names fs))) (map Fin (map e (path_names fs)))) = Fin (sqrt (P (lr * f ^ j) + n * n))).
  { intros l'. rewrite step_drive. destruct (line_err_pose root r fs s Hin Hdj Hdf Hcl Hp Ht Hrt (targets i) (drive v e (lr * f ^ l')) Rt) as (dr' & _ & El & Hb). rewrite El. destruct (Hb _ (Hm2 (lr * f ^ l'))) as [Hb1 Hb2].
    unfold fsub. cbn [fopp fadd flt]. rewrite Rltb_true. rewrite (NV dr), Nd, <- P0, <- A0. change (vnorm2 (vsub (trp (targets i)) (trp (pose (drive v e (lr * f ^ l')) fs)))) with (P (lr * f ^ l')). rewrite (NV dr').
    assert (Q1 : 0 <= P (lr * f ^ l') + vnorm dr' * vnorm dr') by (pose proof (vnorm2_nonneg (vsub (trp (targets i)) (trp (pose (drive v e (lr * f ^ l')) fs)))) as Q; fold (P (lr * f ^ l')) in Q; pose proof (Rle_0_sqr (vnorm dr')) as Q'; unfold Rsqr in Q'; lra).
    assert (Q2 : 0 <= P 0 + A2 0) by (rewrite P0, A0; pose proof (vnorm2_nonneg (vsub (trp (targets i)) (trp (pose v fs)))) as Q; pose proof (Rle_0_sqr a) as Q'; unfold Rsqr in Q'; lra).
    split.
    - intros Hlt. exists (vnorm dr'). split; [|split; [exact Hb1|split; [exact Hb2|reflexivity]]]. apply sqrt_lt_0_alt. lra.
    - intros (n & Hlt & _ & _ & En2). assert (sqrt (P (lr * f ^ l') + vnorm dr' * vnorm dr') = sqrt (P (lr * f ^ l') + n * n)) by congruence.
      assert (sqrt (P (lr * f ^ l') + n * n) < sqrt (P 0 + A2 0)); [|lra]. apply sqrt_lt_1_alt. split; [|exact Hlt]. unfold P at 1. pose proof (vnorm2_nonneg (vsub (trp (targets i)) (trp (pose (drive v e (lr * f ^ l')) fs)))). pose proof (Rle_0_sqr n) as Q'; unfold Rsqr in Q'. lra. }
  assert (GO : forall j, (K <= j)%nat -> flt (Fin 0) (fsub (Fin (sqrt (vnorm2 (vsub (trp (targets i)) (trp (pose v fs))) + vnorm2 dr))) (line_err s (targets i) (step_row (Fin (lr * f ^ j)) (map Fin (map v (path_names fs))) (map Fin (map e (path_names fs)))))) = true).
  { intros l' Hl'. apply PR. destruct (line_err_pose root r fs s Hin Hdj Hdf Hcl Hp Ht Hrt (targets i) (drive v e (lr * f ^ l')) Rt) as (dr' & _ & El & Hb). destruct (Hb _ (Hm2 (lr * f ^ l'))) as [Hb1 Hb2].
    exists (vnorm dr'). split; [apply (LOW _ (HK l' Hl') _ Hb1 Hb2)|]. split; [exact Hb1|]. split; [exact Hb2|]. rewrite step_drive, El. rewrite (NV dr'). reflexivity. }
  assert (JK : (j <= K)%nat) by (destruct (le_lt_dec j K) as [L|L]; [exact L | exfalso; exact (Hno K L (GO K (le_n K)))]).
  exists j, (pose (drive v e (lr * f ^ j)) fs), (ang (lr * f ^ j)). split; [exact JK|]. split; [exact Hj1|]. split; [rewrite ZD; apply FK|]. split; [apply Hm2|].
  specialize (Hyes ltac:(lia)). apply PR in Hyes. destruct Hyes as (n & Hlt & [Hn1 _] & _). rewrite !vnorm_sq. change (vnorm2 (vsub (trp (targets i)) (trp (pose (drive v e (lr * f ^ j)) fs)))) with (P (lr * f ^ j)).
  rewrite <- P0. pose proof (proj1 (proj1 (Hm2 (lr * f ^ j)))) as B0. replace (a ^ 2) with (A2 0) by (rewrite A0; ring).
  assert (ang (lr * f ^ j) * ang (lr * f ^ j) <= n * n) by (apply Rmult_le_compat; assumption). replace (ang (lr * f ^ j) ^ 2) with (ang (lr * f ^ j) * ang (lr * f ^ j)) by ring. lra.
Qed.

Lemma l77_threshold : forall s targets ls nr np q dqs dxs rem i t dx e, (i < np)%nat -> (t < nr)%nat -> length q = (np * nr)%nat -> length dqs = (np * nr)%nat -> length dxs = (np * nr)%nat ->
  nth_error dxs (i * nr + t) = Some dx -> fnorm dx = Fin e -> e <= ls_suff ls -> nth_error rem i = Some true ->
  nth_error (line_search s targets ls nr q dqs dxs rem) (i * nr + t) = Some (Fin (ls_lr ls * ls_factor ls ^ ls_iter ls)).
Proof.
  intros s targets ls nr np q dqs dxs rem i t dx e Hi Ht L1 L2 L3 Hdx Hn He Hr. assert (Hii : (i * nr + t < np * nr)%nat) by nia.
  destruct (search_row s targets ls nr (np * nr) q dqs dxs rem (i * nr + t) L1 L2 L3 Hii) as (j & H1 & H2 & H3). rewrite H1. f_equal. f_equal. f_equal. f_equal.
  assert (Edn : ((i * nr + t) / nr = i)%nat) by (rewrite Nat.div_add_l, (Nat.div_small t nr Ht), Nat.add_0_r by lia; reflexivity).
  rewrite Edn in H3. destruct (H3 (nth_error_nth rem i false Hr)) as [_ Hy]. rewrite (nth_error_nth _ _ [] Hdx), Hn in Hy.
  destruct (Nat.eq_dec j (ls_iter ls)) as [E|NE]; [exact E|]. exfalso. specialize (Hy ltac:(lia)). rewrite line_err_not_less in Hy by exact He. discriminate Hy.
Qed.

Lemma l77_gantry : forall (nan : R) is_nan (root r : mframe) c rn p fs targets reg lm wp wr mu ls np pt rt,
  chain_init mops root = Ok c -> distinct_joints root -> distinct_frames root -> clean_names root -> rigid_tree root ->
  root_path root (p ++ [r]) -> ((rn = "" /\ r = root) \/ (rn <> "" /\ rn = f_name r)) -> root_path r (r :: fs) ->
  gantry fs -> spread mu (slide_axes I3 fs) -> (forall i, is_rigid (targets i)) -> (forall i, rotp (targets i) = rotp (pose (fun _ => 0) fs)) ->
  0 < mu -> 0 < reg -> 0 <= lm -> 0 < wp -> 0 < ls_lr ls <= 1 -> 0 < ls_factor ls <= 1 -> 0 < rt ->
  exists s, serial_init mops zax c (f_name (last (r :: fs) r)) rn = Ok s /\
  forall o, ik_ls o = Some (line_search s targets ls (ik_nr o)) -> (0 < ik_nr o)%nat ->
  ik_ptol o = Fin pt -> ik_rtol o = Fin rt -> (forall x, ik_noimp o = StopRatio x -> x < 1) ->
  (forall f, In f fs -> moving f = true -> j_lim (f_joint f) = None) \/ (ik_clamp o = false /\ ik_enforce o = false) ->
  forall q0, length q0 = (np * ik_nr o)%nat -> (forall q, In q q0 -> exists row, q = map Fin row /\ length row = length (c_names (s_chain s))) ->
  exists sol, solve_from (pik_kern s targets reg lm (Some (row_weights wp wr))) (pik_init s o) np q0 = Ok sol /\
  forall i t row T0 N, (i < np)%nat -> (t < ik_nr o)%nat -> nth_error q0 (i * ik_nr o + t) = Some (map Fin row) -> serial_fk_end mops nan is_nan s (InTensor (T1 row)) = Ok [T0] ->
  let e0 := vnorm (vsub (trp (targets i)) (trp T0)) in
  rate (ls_lr ls * ls_factor ls ^ ls_iter ls) mu reg lm wp e0 ^ N * e0 < pt -> (N <= ik_max o)%nat -> nth_error (s_any sol) i = Some true /\
  (ik_stop_any o = false -> ik_noimp o = NoStop -> exists e, entry_at sol i t = Some e /\ e_conv e = true).
Proof.
  intros nan is_nan root r c rn p fs targets reg lm wp wr mu ls np pt rt Hc Hdj Hdf Hcl Hrt Hpr Hrn Hp Hg Hsp Htg Hor Hmu Hreg Hlm Hwp Hll Hlf Hrt0.
  assert (Hin : In r (preorder root)) by (eapply root_path_in; exact Hpr).
  assert (Hch : root_choice root r rn) by (destruct Hrn as [?|[? ?]]; [left | right]; auto).
  destruct (serial_ok mops zax root c rn r fs Hc Hdf Hcl Hch Hp) as (s & Hs & Ht). exists s. split; [exact Hs|]. intros o Hols Hnr Hpt Hrtol Hratio Hlim q0 Hl Hq. rewrite (path_chain_names r fs s Ht) in Hq.
  destruct (unlimited_off r fs s o Ht Hlim) as [Hoc Hen].
  set (kern := pik_kern s targets reg lm (Some (row_weights wp wr))). set (k := pik_init s o).
  assert (Hls : forall f, ik_ls k = Some f -> forall q dq dx rem, length dq = length q -> length dx = length q -> length (f q dq dx rem) = length q).
  { intros f Hf q dq dx rem E1 E2. change (ik_ls k) with (ik_ls o) in Hf. rewrite Hols in Hf. assert (HX : forall X (a b : X), Some a = Some b -> a = b) by (intros; congruence). apply HX in Hf. subst f. apply line_length; assumption. }
  assert (E0 : q0 = vec (np * ik_nr k) (fun i => nth i q0 [])) by (change (ik_nr k) with (ik_nr o); rewrite <- Hl; apply vec_of).
  set (Q0 := fun i => nth i q0 []) in *.
  assert (HQ0 : forall i, (i < np * ik_nr o)%nat -> exists row, Q0 i = map Fin row /\ length row = length (path_names fs)) by (intros i Hi; apply Hq; apply nth_In; lia).
  destruct (solve_eq kern k np Hnr Hls Q0) as (m0 & _ & _ & _ & Es0). fold k in Hen. rewrite Hen in Es0. rewrite <- E0 in Es0. eexists. split; [exact Es0|].
  intros i t row T0 N Hi Htt Hrow Hfk e0 Hsmall Hmax.
  pose proof (ltraj root r fs s Hin Hdj Hdf Hcl Hp Ht Hrt targets reg lm wp wr mu o ls Htg Hor Hg Hsp Hmu Hreg Hlm Hwp Hll Hlf np Q0 Hnr Hols Hoc HQ0) as TR.
  pose proof (ldist_nonneg root r fs s Hin Hdj Hdf Hcl Hp Ht Hrt targets reg lm wp wr mu o ls Htg Hor Hg Hsp Hmu Hreg Hlm Hwp Hll Hlf np Q0 Hnr Hols Hoc HQ0) as DN.
  pose proof (ldist_down root r fs s Hin Hdj Hdf Hcl Hp Ht Hrt targets reg lm wp wr mu o ls Htg Hor Hg Hsp Hmu Hreg Hlm Hwp Hll Hlf np Q0 Hnr Hols Hoc HQ0) as DD.
  pose proof (ldist_geo root r fs s Hin Hdj Hdf Hcl Hp Ht Hrt targets reg lm wp wr mu o ls Htg Hor Hg Hsp Hmu Hreg Hlm Hwp Hll Hlf np Q0 Hnr Hols Hoc HQ0) as DG.
  fold kern k in TR. set (D := ldist s targets reg lm wp wr o np Q0) in *.
  assert (EE : D i t 0%nat = e0).
  { destruct (TR i t 0%nat Hi Htt) as (v & l & Ev & Ed & _). rewrite Ed. unfold e0. change (Qj kern k np Q0 0 (i * ik_nr o + t)) with (nth (i * ik_nr o + t) q0 []) in Ev.
    rewrite (nth_error_nth q0 _ [] Hrow) in Ev. assert (Er : row = map v (path_names fs)).
    { assert (HX : Some row = Some (map v (path_names fs))) by (rewrite <- (proj2 (fin_row_of_some (map Fin row) row) eq_refl); apply fin_row_of_some; exact Ev). congruence. }
    subst row. rewrite <- (path_chain_names r fs s Ht) in Hfk. rewrite (serial_pose nan is_nan root r c rn fs s v Hin Hdj Hdf Hcl Hp Hs Ht) in Hfk.
    assert (HX : forall X (a b : X), Ok [a] = Ok [b] -> a = b) by (intros; congruence). apply HX in Hfk. subst T0. reflexivity. }
  destruct (DG i t N Hi Htt) as [G _]. rewrite EE in G. unfold least in G. assert (GN : D i t N < pt) by lra. assert (Hpt0 : 0 < pt) by (pose proof (DN i t N Hi Htt); lra).
  destruct (run_converges kern k np Q0 pt rt Hnr Hpt Hrtol Hrt0 Hpt0 Hratio i Hi (D i)) with (t := t) (N := N) as (sol & Es & H1 & H2); auto.
  - intros r0 j Hr0. destruct (TR i r0 j Hi Hr0) as (v & l & _ & _ & P1 & P2 & P3 & _). pose proof (DN i r0 j Hi Hr0). pose proof (DD i r0 j Hi Hr0). auto.
  - rewrite <- E0 in Es. rewrite Es0 in Es. assert (HX : forall X (a b : X), Ok a = Ok b -> a = b) by (intros; congruence). apply HX in Es. rewrite Es. split; [exact H1 | exact H2].
Qed.

Lemma l77_default_refuted : exists c s target, chain_init mops slides = Ok c /\ serial_init mops zax c "hand" "" = Ok s /\ is_rigid target /\
  forall nr, (0 < nr)%nat ->
  let o := fun search => mkIK 0 nr (Fin (1/1000)) (Fin (1/100)) 50 (Fin 1) search false StopAny 2 true 10 false [] [] [] in
  let run := fun search => solve_from (pik_kern s (fun _ => target) (1/1000000000) (1/10) (Some (row_weights 1 1))) (pik_init s (o search)) 1 (repeat [Fin 0; Fin 0; Fin 0] nr) in
  (exists sol, run None = Ok sol /\ nth_error (s_any sol) 0 = Some true) /\
  (exists sol, run (Some (line_search s (fun _ => target) (mkLS 1 (1/2) 5 (1/100)) nr)) = Ok sol /\ nth_error (s_any sol) 0 = Some false).
Proof.
  destruct (chain_init_ok mops slides) as (c & Hc & _). assert (Hin : In slides (preorder slides)) by (rewrite preorder_unfold; left; reflexivity).
  destruct (serial_ok mops zax slides c "" slides slides_path Hc slides_distinct_frames slides_clean (or_introl (conj eq_refl eq_refl)) slides_root_path) as (s & Hs & Ht).
  set (target := aff (mkM3 0 (-1) 0 1 0 0 0 0 1) (mkV3 0 (1/100) 1)). assert (Rt : is_rigid target) by (apply is_rigid_aff; apply quarter_rigid).
  exists c, s, target. split; [exact Hc|]. split; [exact Hs|]. split; [exact Rt|]. intros nr Hnr o run.
  assert (En : c_names (s_chain s) = [Some "x"; Some "y"; Some "z"]) by (rewrite (path_chain_names _ _ _ Ht); reflexivity).
  assert (Hor : forall i : nat, rotp target = rotp (pose (fun _ => 0) slides_path)) by (intros _; rewrite slides_pose0; unfold target; rewrite !rotp_aff; reflexivity).
  assert (Hfree : forall f, In f slides_path -> moving f = true -> j_lim (f_joint f) = None) by (intros f Hf _; simpl in Hf; repeat (destruct Hf as [<-|Hf]; [reflexivity|]); contradiction).
  assert (Hrows : forall q, In q (repeat [Fin 0; Fin 0; Fin 0] nr) -> exists row, q = map Fin row /\ length row = length (c_names (s_chain s))) by (intros q Hq; apply repeat_spec in Hq; subst q; exists [0; 0; 0]; rewrite En; split; reflexivity).
  assert (FK := serial_pose 0 (fun _ => false) slides slides c "" slides_path s (fun _ => 0) Hin slides_distinct_joints slides_distinct_frames slides_clean slides_root_path Hs Ht). rewrite En in FK. cbn [map] in FK.
  assert (E1 : vnorm (vsub (trp target) (trp (pose (fun _ => 0) slides_path))) = 1/100).
  { rewrite slides_pose0. unfold target. rewrite !trp_aff. unfold vnorm, vnorm2, vdot, vsub. cbn [vx vy vz]. match goal with |- sqrt ?x = _ => replace x with (1/100 * (1/100)) by field end. apply sqrt_square. lra. }
  split.
  - destruct (l75_gantry 0 (fun _ => false) slides slides c "" [] slides_path (fun _ => target) (1/1000000000) (1/10) 1 1 1 1 (o None) 1 (1/1000) (1/100) Hc slides_distinct_joints slides_distinct_frames slides_clean slides_rigid
      (rp_here _) (or_introl (conj eq_refl eq_refl)) slides_root_path slides_gantry slides_spread (fun _ => Rt) Hor) as (s' & Hs' & H); try lra; try reflexivity; try exact Hnr.
    { intros x Hx. discriminate Hx. }
    { left. exact Hfree. }
    assert (s' = s) by (assert (HX : forall X (a b : X), Ok a = Ok b -> a = b) by (intros; congruence); apply HX; exact (eq_trans (eq_sym Hs') Hs)). subst s'.
    destruct (H (repeat [Fin 0; Fin 0; Fin 0] nr)) as (sol & Es & Hsol); [rewrite repeat_length; cbn [o ik_nr]; lia | exact Hrows|]. exists sol. split; [exact Es|].
    destruct (Hsol 0%nat 0%nat [0; 0; 0] _ 1%nat ltac:(lia) Hnr (nth_error_repeat _ Hnr) FK) as [HA _]; [| cbn [o ik_max]; lia | exact HA].
    rewrite E1. unfold rate. cbn [pow]. lra.
  - set (ls := mkLS 1 (1/2) 5 (1/100)). set (oo := o (Some (line_search s (fun _ => target) ls nr))). set (k := pik_init s oo) in *. set (kern := pik_kern s (fun _ => target) (1/1000000000) (1/10) (Some (row_weights 1 1))) in *.
    destruct (unlimited_off slides slides_path s oo Ht (or_introl Hfree)) as [Hoc Hen]. fold k in Hoc, Hen.
    assert (Hls : forall f, ik_ls k = Some f -> forall q dq dx rem, length dq = length q -> length dx = length q -> length (f q dq dx rem) = length q).
    { intros f Hf q dq dx rem L1 L2. change (ik_ls k) with (Some (line_search s (fun _ => target) ls nr)) in Hf. assert (HX : forall X (a b : X), Some a = Some b -> a = b) by (intros; congruence). apply HX in Hf. subst f. apply line_length; assumption. }
    set (z := [Fin 0; Fin 0; Fin 0]) in *.
    assert (E0 : repeat z nr = vec (1 * ik_nr k) (fun i => nth i (repeat z nr) [])).
    { replace (1 * ik_nr k)%nat with (length (repeat z nr)); [apply vec_of | rewrite repeat_length; change (ik_nr k) with nr; lia]. }
    set (Q0 := fun i => nth i (repeat z nr) []) in *.
    assert (HQ0 : forall i, (i < 1 * ik_nr oo)%nat -> exists row, Q0 i = map Fin row /\ length row = length (path_names slides_path)).
    { intros i Hi. change (ik_nr oo) with nr in Hi. destruct (Hrows (Q0 i)) as (row & R1 & R2); [apply nth_In; rewrite repeat_length; lia|]. exists row. split; [exact R1|]. rewrite R2, (path_chain_names _ _ _ Ht). reflexivity. }
    assert (Hll : 0 < ls_lr ls <= 1) by (cbn [ls ls_lr]; lra). assert (Hlf : 0 < ls_factor ls <= 1) by (cbn [ls ls_factor]; lra).
    pose proof (ltraj slides slides slides_path s Hin slides_distinct_joints slides_distinct_frames slides_clean slides_root_path Ht slides_rigid (fun _ => target) (1/1000000000) (1/10) 1 1 1 oo ls (fun _ => Rt) Hor slides_gantry slides_spread ltac:(lra) ltac:(lra) ltac:(lra) ltac:(lra) Hll Hlf 1%nat Q0 Hnr eq_refl Hoc HQ0) as TR.
    pose proof (ldist_nonneg slides slides slides_path s Hin slides_distinct_joints slides_distinct_frames slides_clean slides_root_path Ht slides_rigid (fun _ => target) (1/1000000000) (1/10) 1 1 1 oo ls (fun _ => Rt) Hor slides_gantry slides_spread ltac:(lra) ltac:(lra) ltac:(lra) ltac:(lra) Hll Hlf 1%nat Q0 Hnr eq_refl Hoc HQ0) as DN.
    pose proof (ldist_down slides slides slides_path s Hin slides_distinct_joints slides_distinct_frames slides_clean slides_root_path Ht slides_rigid (fun _ => target) (1/1000000000) (1/10) 1 1 1 oo ls (fun _ => Rt) Hor slides_gantry slides_spread ltac:(lra) ltac:(lra) ltac:(lra) ltac:(lra) Hll Hlf 1%nat Q0 Hnr eq_refl Hoc HQ0) as DD.
    fold kern k in TR. set (D := ldist s (fun _ => target) (1/1000000000) (1/10) 1 1 oo 1 Q0) in *. change (ik_nr oo) with nr in *.
    assert (HE : forall t j, (t < ik_nr k)%nat -> pos_err (Dj kern k 1 Q0 0 t j) = Fin (D 0%nat t j) /\ rot_err (Dj kern k 1 Q0 0 t j) = Fin 0 /\ ej kern k 1 Q0 0 t j = Fin (D 0%nat t j) /\ 0 <= D 0%nat t j /\
      (0 < D 0%nat t j -> D 0%nat t (S j) < D 0%nat t j) /\ (D 0%nat t j = 0 -> D 0%nat t (S j) = 0)).
    { intros t j Htt. change (ik_nr k) with nr in Htt. destruct (TR 0%nat t j ltac:(lia) Htt) as (v & l & _ & _ & P1 & P2 & P3 & _). pose proof (DN 0%nat t j ltac:(lia) Htt). pose proof (DD 0%nat t j ltac:(lia) Htt). auto. }
    assert (S0 : forall t, (t < nr)%nat -> D 0%nat t 0%nat = 1/100).
    { intros t Htt. destruct (TR 0%nat t 0%nat ltac:(lia) Htt) as (v & l & Ev & Ed & _). rewrite Ed, <- E1. f_equal. f_equal. f_equal. cbn [Nat.mul Nat.add] in Ev. unfold Qj in Ev. cbn [IKProofs.iter finit f_q] in Ev. unfold Q0 in Ev.
      rewrite (nth_error_nth _ _ [] (nth_error_repeat z Htt)) in Ev. change (path_names slides_path) with [Some "x"; Some "y"; Some "z"] in Ev. unfold z in Ev. cbn [map] in Ev.
      assert (H3 : forall a b c a' b' c' : R, [Fin a; Fin b; Fin c] = [Fin a'; Fin b'; Fin c'] -> a = a' /\ b = b' /\ c = c') by (intros; split; [|split]; congruence). destruct (H3 _ _ _ _ _ _ Ev) as (X1 & X2 & X3).
      assert (FKv := serial_pose 0 (fun _ => false) slides slides c "" slides_path s v Hin slides_distinct_joints slides_distinct_frames slides_clean slides_root_path Hs Ht). rewrite En in FKv. cbn [map] in FKv. rewrite <- X1, <- X2, <- X3, FK in FKv.
      assert (HX : forall X (a b : X), Ok [a] = Ok [b] -> a = b) by (intros; congruence). apply HX in FKv. symmetry. exact FKv. }
    assert (SH : forall t j, (t < nr)%nat -> D 0%nat t j <= 1/100) by (intros t j Htt; rewrite <- (S0 t Htt); apply (E_down kern k 1 Q0 0 (D 0%nat) HE t 0 j Htt); lia).
    assert (LE : least ls = 1/32) by (unfold least, ls; cbn [ls_lr ls_factor ls_iter pow]; lra).
    assert (PW : forall j, (j <= 50)%nat -> 1/1000 < (31/32) ^ j * (1/100)).
    { intros j Hj. assert (B : (31/32) ^ 50 <= (31/32) ^ j).
      { replace 50%nat with (j + (50 - j))%nat by lia. rewrite pow_add. assert (0 < (31/32) ^ j) by (apply pow_lt; lra). assert ((31/32) ^ (50 - j) <= 1) by (replace 1 with (1 ^ (50 - j)) by apply pow1; apply pow_incr; lra).
        assert ((31/32) ^ j * (31/32) ^ (50 - j) <= (31/32) ^ j * 1) by (apply Rmult_le_compat_l; lra). lra. }
      assert (C : 1/10 < (31/32) ^ 50); [|lra]. replace 50%nat with (10 * 5)%nat by reflexivity. rewrite pow_mult. assert (7/10 < (31/32) ^ 10) by (cbn [pow]; lra).
      apply Rlt_le_trans with ((7/10) ^ 5); [cbn [pow]; lra|]. apply pow_incr. lra. }
    assert (LOW : forall j, (j <= 50)%nat -> (forall t, (t < nr)%nat -> (31/32) ^ j * (1/100) <= D 0%nat t j) /\ f_R (IKProofs.iter kern k 1 j (finit k Q0)) 0%nat = true).
    { induction j as [j IH] using lt_wf_ind. intros Hj.
      assert (HR : f_R (IKProofs.iter kern k 1 j (finit k Q0)) 0%nat = true).
      { destruct (f_R (IKProofs.iter kern k 1 j (finit k Q0)) 0%nat) eqn:ER; [reflexivity|]. exfalso.
        destruct (dropped_converged kern k 1 Q0 (1/1000) (1/100) Hnr eq_refl eq_refl ltac:(lra) ltac:(lra) (fun x Hx => ltac:(discriminate Hx)) 0%nat ltac:(lia) (D 0%nat) HE j ER) as (l & t & Hl & Htt & Hsm).
        destruct (IH l Hl ltac:(lia)) as [IL _]. specialize (IL t Htt). pose proof (PW l ltac:(lia)). lra. }
      split; [|exact HR]. intros t Htt. destruct j as [|j]; [cbn [pow]; rewrite (S0 t Htt); lra|]. destruct (IH j ltac:(lia) ltac:(lia)) as [IL _]. specialize (IL t Htt).
      destruct (TR 0%nat t j ltac:(lia) Htt) as (v & l & _ & _ & _ & _ & _ & _ & _ & [LB _] & LL). rewrite (LL HR (SH t j Htt)), LE in LB. cbn [pow]. lra. }
    destruct (solve_eq kern k 1 Hnr Hls Q0) as (m & Hm & _ & _ & Es). rewrite Hen in Es. rewrite <- E0 in Es. eexists. split; [exact Es|].
    assert (NO : forall j t, (j <= 50)%nat -> (t < nr)%nat -> ok (ik_ptol k) (ik_rtol k) (Dj kern k 1 Q0 0 t j) = false).
    { intros j t Hj Htt. apply not_true_iff_false. intros Ho. apply (ok_small kern k 1 Q0 (1/1000) (1/100) eq_refl eq_refl ltac:(lra) 0%nat (D 0%nat) HE t j Htt) in Ho. destruct (LOW j Hj) as [L _]. specialize (L t Htt). pose proof (PW j Hj). lra. }
    destruct (final_any kern k 1 Q0 m 0 ltac:(lia)) as (b & Hb & Hiff). rewrite Hb. f_equal. destruct b; [|reflexivity]. exfalso. destruct (proj1 Hiff eq_refl) as (t & e & He & Hv).
    assert (Htt : (t < nr)%nat).
    { unfold entry_at in He. unfold final in He. cbn [mk_sol s_entries] in He. unfold tab in He. rewrite vec_nth in He by lia. destruct (lt_dec t (ik_nr k)) as [L|L]; [exact L|]. rewrite vec_none in He by lia. discriminate He. }
    rewrite final_entry in He by (lia || exact Htt). destruct (stored_consistent kern k 1 Q0 m 0 t) as (j & Hj & _ & _ & _ & H2 & _). cbn zeta in H2.
    assert (HX : forall X (a b : X), Some a = Some b -> a = b) by (intros; congruence). apply HX in He. rewrite <- He, H2 in Hv. change (ik_max k) with 50%nat in Hm. rewrite NO in Hv by (lia || exact Htt). discriminate Hv.
Qed.

Lemma l77_weights_refuted : forall reg lm ls, 0 < reg -> 0 <= lm -> 0 < ls_lr ls <= 1 -> 0 < ls_factor ls <= 1 -> 0 <= ls_suff ls ->
  exists c s target dq dx T0 Te a ae T ang dl, chain_init mops arm = Ok c /\ serial_init mops zax c "hand" "" = Ok s /\ is_rigid target /\
  pik_row s target reg lm (Some (row_weights 2 1)) [0] = Ok (dq, dx) /\
  (moves 0 (fun _ => false) s target [0] dq T ang /\ 0 < dl /\ forall t, 0 < t < dl -> true_error 2 1 target T ang t < true_error 2 1 target T ang 0) /\
  let l := ls_lr ls * ls_factor ls ^ ls_iter ls in
  line_search s (fun _ => target) ls 1 [[Fin 0]] [map Fin dq] [map Fin dx] [true] = [Fin l] /\
  serial_fk_end mops 0 (fun _ => false) s (InTensor (T1 [0])) = Ok [T0] /\ angle_between target T0 a /\
  serial_fk_end mops 0 (fun _ => false) s (InTensor (T1 (map (fun d => l * d) dq))) = Ok [Te] /\ angle_between target Te ae /\
  vnorm (vsub (trp target) (trp T0)) ^ 2 + a ^ 2 < vnorm (vsub (trp target) (trp Te)) ^ 2 + ae ^ 2.
Proof.
  intros reg lm ls Hreg Hlm Hll Hlf Hsf. pose proof PI2_3_2 as HP2. unfold PI2 in HP2. pose proof PI_RGT_0 as HPI.
  destruct (chain_init_ok mops arm) as (c & Hc & _).
  assert (Hin : In arm (preorder arm)) by (rewrite preorder_unfold; left; reflexivity).
  set (fs := [arm_turn; arm_hand]) in *. set (v := fun _ : option string => 0%R).
  set (target := aff (axis_and_angle_to_matrix_33 zax (- (2))) (mkV3 1 1 0)).
  assert (Rt : is_rigid target) by (apply is_rigid_aff; apply rot33_rot; apply zax_unit).
  destruct (l74_descent 0 (fun _ => false) arm arm c "" [] fs target reg lm 2 1 Hc arm_distinct_joints arm_distinct_frames arm_clean arm_rigid (rp_here _) (or_introl (conj eq_refl eq_refl)) arm_path Rt Hreg Hlm) as (s & Hs & H74).
  destruct (serial_ok mops zax arm c "" arm fs Hc arm_distinct_frames arm_clean (or_introl (conj eq_refl eq_refl)) arm_path) as (s' & Hs' & Ht).
  assert (s' = s) by (rewrite Hs in Hs'; congruence). subst s'. clear Hs'. change (f_name (last (arm :: fs) arm)) with "hand" in Hs.
  assert (En := path_chain_names arm fs s Ht). change (path_names fs) with [Some "j"] in En.
  destruct (H74 [0] ltac:(rewrite En; reflexivity)) as (dq & dx & Hk & Hmv & Hdesc).
  assert (EP : forall q : config (S := R), pose q fs = aff (mkM3 (cos (q (Some "j"))) (- sin (q (Some "j"))) 0 (sin (q (Some "j"))) (cos (q (Some "j"))) 0 0 0 1) (mkV3 (cos (q (Some "j"))) (sin (q (Some "j"))) 0)).
  { intros q. unfold fs. rewrite arm_pose, rot33_zax. f_equal. unfold m3vec. cbn [m00 m01 m02 m10 m11 m12 m20 m21 m22 vx vy vz]. apply mkV3_eq; ring. }
  assert (P0 : pose v fs = aff I3 (mkV3 1 0 0)) by (rewrite EP; unfold v; rewrite cos_0, sin_0, Ropp_0; reflexivity).
  assert (FK : forall q : config (S := R), serial_fk_end mops 0 (fun _ => false) s (InTensor (T1 (map q [Some "j"]))) = Ok [pose q fs]).
  { intros q. assert (E := serial_pose 0 (fun _ => false) arm arm c "" fs s q Hin arm_distinct_joints arm_distinct_frames arm_clean arm_path Hs Ht). rewrite En in E. exact E. }
  (* the angle at joint value q is 2 + q *)
  assert (ANG : forall q : config (S := R), 0 <= q (Some "j") <= 2/5 -> angle_between target (pose q fs) (2 + q (Some "j"))).
  { intros q Hq. split; [lra|]. rewrite EP. unfold target. rewrite !rotp_aff, rot33_zax. set (y := q (Some "j")) in *. unfold trace3, m3mul, m3tr. cbn [m00 m01 m02 m10 m11 m12 m20 m21 m22].
    rewrite cos_neg, sin_neg, cos_plus. ring. }
  assert (DIST : forall q : config (S := R), vnorm2 (vsub (trp target) (trp (pose q fs))) = 3 - 2 * cos (q (Some "j")) - 2 * sin (q (Some "j"))).
  { intros q. rewrite EP. unfold target. rewrite !trp_aff. set (y := q (Some "j")). unfold vnorm2, vdot, vsub. cbn [vx vy vz]. pose proof (sin2_cos2 y) as SC. unfold Rsqr in SC. lra. }
  assert (A0 : angle_between target (pose v fs) 2) by (replace 2 with (2 + v (Some "j")) by (unfold v; ring); apply ANG; unfold v; lra).
  destruct (row_step arm arm fs s target v reg lm 2 1 Hin arm_distinct_joints arm_distinct_frames arm_clean arm_path Ht arm_rigid ltac:(apply Rt) Hreg Hlm) as (dr & x & Hx & Hk2 & Ha).
  cbn zeta in Hx, Hk2. unfold fs in Hx, Hk2. rewrite (arm_cols v eq_refl) in Hx, Hk2. fold fs in Hx, Hk2. change (path_names fs) with [Some "j"] in Hx, Hk2. cbn [length map seq] in Hx, Hk2. change (v (Some "j")) with 0 in Hk2.
  rewrite Hk in Hk2. assert (HP : forall X Y (a b : X) (p q : Y), Ok (a, p) = Ok (b, q) -> a = b /\ p = q) by (intros; split; congruence). destruct (HP _ _ _ _ _ _ Hk2) as [Edq Edx]. clear Hk2.
  pose proof eps6_pos as HE6. assert (W2 : eps6 <= 2) by (unfold eps6; lra).
  destruct (Ha 2 A0 (or_intror W2)) as [N1 N2].
  assert (V5 : dr = mkV3 0 0 (-(2))).
  { destruct (axis_decomp dr) as (kx & Uk & Ek). rewrite N1 in Ek. rewrite Ek, (aa_matrix_exact kx 2 Uk) in N2 by (left; rewrite Rabs_pos_eq; lra). rewrite P0 in N2. unfold target in N2. rewrite !rotp_aff in N2.
    apply (f_equal axial) in N2. change (m3tr I3) with I3 in N2. rewrite m3mul_1_r, !axial_rot33, sin_neg in N2.
    assert (S2 : 0 < sin 2) by (apply sin_gt_0; lra).
    assert (K1 := f_equal vx N2). assert (K2 := f_equal vy N2). assert (K3 := f_equal vz N2). unfold vscale, zax in K1, K2, K3. cbn [vx vy vz] in K1, K2, K3.
    assert (Z1 : vx kx = 0) by (apply Rmult_eq_reg_l with (2 * sin 2); lra). assert (Z2 : vy kx = 0) by (apply Rmult_eq_reg_l with (2 * sin 2); lra). assert (Z3 : vz kx = -1) by (apply Rmult_eq_reg_l with (2 * sin 2); lra).
    rewrite Ek. unfold vscale. rewrite Z1, Z2, Z3. apply mkV3_eq; ring. }
  subst dr. rewrite P0 in Hx, Edx. unfold target in Hx, Edx. rewrite !trp_aff in Hx, Edx. fold target in Hx, Edx.
  assert (EV : vsub (mkV3 1 1 0) (mkV3 1 0 0) = mkV3 0 1 0) by (unfold vsub; cbn [vx vy vz]; apply mkV3_eq; ring). rewrite EV in Hx, Edx.
  set (d := weigh (Some (row_weights 2 1)) (mkV3 0 1 0, mkV3 0 0 (-(2)))) in *. pose proof (damping_pos reg lm d Hreg Hlm) as HK. set (K := damping reg lm d) in *.
  set (y := jt 6 (jac_w (Some (row_weights 2 1)) [(mkV3 0 1 0, zax)]) x 0%nat) in *.
  assert (EY : (5 + K) * y = 2).
  { pose proof (Hx 1%nat ltac:(lia)) as H1. pose proof (Hx 5%nat ltac:(lia)) as H5. unfold y. clear - H1 H5.
    unfold d, gram, jt, jac_w, weigh, row_weights, vzero, zax in *. cbn [rsum length Nat.eqb Nat.ltb Nat.leb nth six fst snd vx vy vz] in *. lra. }
  assert (Y0 : 0 < y < 2/5).
  { split; [destruct (Rle_lt_dec y 0) as [L|L]; [exfalso; nra | exact L]|]. destruct (Rle_lt_dec (2/5) y) as [L|L]; [exfalso; nra | exact L]. }
  assert (Nz : exists z, In z dq /\ z <> 0) by (exists y; rewrite Edq; split; [left; reflexivity | lra]).
  destruct (Hmv dq ltac:(rewrite Edq; reflexivity)) as (T & ang & Hm). destruct (Hdesc (pose v fs) 2 (FK v) A0 ltac:(right; lra)) as [Hd _]. destruct (Hd T ang Hm) as [_ Hdown]. destruct (Hdown Nz) as (dl & Hdl & Hlt).
  set (l := ls_lr ls * ls_factor ls ^ ls_iter ls). set (w := fun t : R => fun _ : option string => t * y).
  assert (UP : forall t, 0 < t <= 1 -> 5 < vnorm2 (vsub (trp target) (trp (pose (w t) fs))) + (2 + t * y) * (2 + t * y)).
  { intros t Htt. rewrite DIST. unfold w. set (u := t * y). assert (U0 : 0 < u) by (apply Rmult_lt_0_compat; lra). pose proof (COS_bound u). assert (sin u < u) by (apply sin_lt_x; exact U0). nra. }
  assert (WR : forall t, 0 < t <= 1 -> 0 <= t * y <= 2/5) by (intros t Htt; assert (t * y <= 1 * y) by (apply Rmult_le_compat_r; lra); assert (0 < t * y) by (apply Rmult_lt_0_compat; lra); lra).
  assert (S5 : fnorm (map Fin dx) = Fin (sqrt 5)) by (rewrite Edx; etransitivity; [exact (norm_six (mkV3 0 1 0) (mkV3 0 0 (-(2))))|]; f_equal; f_equal; unfold vnorm2, vdot; cbn [vx vy vz]; ring).
  destruct (powers_between ls (ls_iter ls) Hll Hlf (le_n _)) as [PB1 PB2]. fold l in PB1, PB2.
  exists c, s, target, dq, dx, (pose v fs), (pose (w l) fs), 2, (2 + l * y), T, ang, dl. split; [exact Hc|]. split; [exact Hs|]. split; [exact Rt|]. split; [exact Hk|]. split; [split; [exact Hm|split; [exact Hdl|exact Hlt]]|].
  assert (L1 : 0 < l <= 1) by (unfold least in PB1; fold l in PB1; lra).
  split; [|split; [exact (FK v)|split; [exact A0|split; [|split]]]].
  - assert (LL : length (line_search s (fun _ => target) ls 1 [[Fin 0]] [map Fin dq] [map Fin dx] [true]) = 1%nat) by (apply line_length; reflexivity).
    destruct (search_row s (fun _ => target) ls 1 1 [[Fin 0]] [map Fin dq] [map Fin dx] [true] 0 eq_refl eq_refl eq_refl ltac:(lia)) as (j & J1 & J2 & J3).
    destruct (line_search s (fun _ => target) ls 1 [[Fin 0]] [map Fin dq] [map Fin dx] [true]) as [|g [|]]; try discriminate LL. cbn [nth_error] in J1. assert (HX : forall X (a b : X), Some a = Some b -> a = b) by (intros; congruence). apply HX in J1. subst g.
    f_equal. f_equal. unfold l. f_equal. f_equal. destruct (Nat.eq_dec j (ls_iter ls)) as [E|NE]; [exact E|]. exfalso. destruct (J3 eq_refl) as [_ Hy]. specialize (Hy ltac:(lia)). cbn [nth] in Hy. rewrite S5, Edq in Hy.
    destruct (powers_between ls j Hll Hlf J2) as [Q1 Q2]. set (t := ls_lr ls * ls_factor ls ^ j) in *. change [Fin 0] with (map Fin (map v [Some "j"])) in Hy. change (map Fin [y]) with (map Fin (map (fun _ : option string => y) [Some "j"])) in Hy. rewrite step_drive in Hy.
    assert (ED : map (drive v (fun _ => y) t) [Some "j"] = map (w t) [Some "j"]) by (cbn [map]; unfold drive, v, w; f_equal; ring). rewrite ED in Hy.
    destruct (line_err_pose arm arm fs s Hin arm_distinct_joints arm_distinct_frames arm_clean arm_path Ht arm_rigid target (w t) ltac:(apply Rt)) as (dr' & _ & EL & Hb). change (path_names fs) with [Some "j"] in EL. rewrite EL in Hy.
    assert (T1 : 0 < t <= 1) by (unfold t in *; lra).
    destruct (Hb _ (ANG (w t) (WR t T1))) as [[B1 _] _]. unfold fsub in Hy. cbn [fopp fadd flt] in Hy. apply Rltb_true in Hy. specialize (UP t T1). change (w t (Some "j")) with (t * y) in B1.
    assert (B2 : (2 + t * y) * (2 + t * y) <= vnorm2 dr') by (rewrite <- vnorm_sq; pose proof (WR t T1); replace (vnorm dr' ^ 2) with (vnorm dr' * vnorm dr') by ring; apply Rmult_le_compat; lra).
    assert (sqrt 5 <= sqrt (vnorm2 (vsub (trp target) (trp (pose (w t) fs))) + vnorm2 dr')) by (apply sqrt_le_1_alt; lra). lra.
  - rewrite Edq. cbn [map]. exact (FK (w l)).
  - exact (ANG (w l) (WR l L1)).
  - rewrite !vnorm_sq. specialize (UP l L1). rewrite (DIST v). unfold v. rewrite cos_0, sin_0. replace ((2 + l * y) ^ 2) with ((2 + l * y) * (2 + l * y)) by ring. lra.
Qed.
