(** Last steps of the proofs quoted in Properties_IKK.v. *)
From Coq Require Import Reals Lra String Bool Arith Lia List ZArith FunctionalExtensionality.
From Verif Require Import Prelude ExtF Tree ChainModel SpecFK ChainProofs ChainTables TreeQueries Input Widths Lin Trig RotModel RotBasic QuatProofs AxisAngle ChainInst
  FKMore ChainClamp Examples SerialModel SerialProofs SerialMore Deriv JacModel JacProofs JacMore IKModel IKProofs IKMore IKLimits Properties_IK IKKernel KernelProofs DeltaPose IKSolve SolveProofs.
Import ListNotations.
Local Open Scope nat_scope.
Local Open Scope string_scope.
Local Open Scope list_scope.


Lemma l49_pose_error : forall m tp tq, is_rigid m -> qnorm2 tq = 1%R ->
  let D := m3mul (quaternion_to_matrix tq) (m3tr (rotp m)) in
  exists v a, delta_pose m tp tq = (vsub tp (trp m), fin3 v) /\
    (0 <= a <= PI)%R /\ (trace3 D = 1 + 2 * cos a)%R /\ (a <= vnorm v <= a + a ^ 5 / 960)%R /\
    (a = 0%R \/ (eps6 <= a)%R -> vnorm v = a /\ axis_angle_to_matrix v = D) /\
    (v = vzero <-> rotp m = quaternion_to_matrix tq) /\
    (vsub tp (trp m) = vzero /\ v = vzero <-> m = aff (quaternion_to_matrix tq) tp).
Proof.
  intros m tp tq [Ha Hm] Hq D. destruct (delta_spec m tp tq Hm Hq) as (v & a & H1 & H2 & H3 & H4 & H5 & H6). exists v, a. unfold D.
  split; [exact H1|]. split; [exact H2|]. split; [exact H3|]. split; [exact H4|]. split; [exact H5|]. split; [exact H6|]. rewrite H6. split.
  - intros [E1 E2]. rewrite <- (aff_eta m Ha), E2. f_equal. destruct tp as [x y z]. destruct (trp m) as [x' y' z']. unfold vsub, vzero in E1. cbn [Lin.vx Lin.vy Lin.vz] in E1.
    assert (A1 : (x - x' = 0)%R) by exact (f_equal Lin.vx E1). assert (A2 : (y - y' = 0)%R) by exact (f_equal Lin.vy E1). assert (A3 : (z - z' = 0)%R) by exact (f_equal Lin.vz E1).
    replace x' with x by lra. replace y' with y by lra. replace z' with z by lra. reflexivity.
  - intros ->. rewrite trp_aff, rotp_aff. split; [|reflexivity]. destruct tp. unfold vsub, vzero. cbn [Lin.vx Lin.vy Lin.vz]. apply mkV3_eq; ring.
Qed.

Lemma l44_damped_least_squares : forall J dx reg lm w, (0 < reg)%R -> (0 <= lm)%R ->
  let n := length J in
  let W := match w with Some W => W | None => fun _ => 1%R end in
  let A := fun i j => (W i * six (nth j J (vzero, vzero)) i)%R in
  let d := fun i => (W i * six dx i)%R in
  let K := (reg + lm * rsum 6 (fun i => d i ^ 2))%R in
  let err := fun z => rsum 6 (fun i => (rsum n (fun j => A i j * z j) - d i) ^ 2)%R in
  let obj := fun z => (err z + K * rsum n (fun j => z j ^ 2))%R in
  exists dq, ik_step J dx reg lm w = Ok dq /\ length dq = n /\
    let q := fun j => nth j dq 0%R in
    (forall z, (obj q <= obj z)%R) /\
    (forall z, (obj z <= obj q)%R -> forall j, j < n -> z j = q j) /\
    ((forall j, j < n -> q j = 0%R) <-> (forall j, j < n -> rsum 6 (fun i => A i j * d i)%R = 0%R)) /\
    ((exists j, j < n /\ q j <> 0%R) -> forall t, (0 < t <= 2)%R -> (err (fun j => t * q j)%R < err (fun _ => 0%R))%R).
Proof.
  intros J dx reg lm w Hr Hl n W A d K err obj. destruct (ik_step_eq J dx reg lm w Hr Hl) as (x & Hx & E).
  assert (EA : A = jac_w w J) by (apply functional_extensionality; intros i; apply functional_extensionality; intros j; unfold A, W, jac_w, weigh; destruct w; ring).
  assert (Ed : d = weigh w dx) by (apply functional_extensionality; intros i; unfold d, W, weigh; destruct w; ring).
  assert (EK : K = damping reg lm (weigh w dx)).
  { unfold K, damping. rewrite Ed. f_equal. unfold Rltb. destruct (Rlt_dec 0 lm) as [L|L]; [|replace lm with 0%R by lra; ring]. f_equal. apply rsum_ext. intros; ring. }
  rewrite <- EK, <- EA, <- Ed in Hx. rewrite <- EA in E. assert (HK : (0 < K)%R) by (rewrite EK; apply damping_pos; assumption).
  exists (map (jt 6 A x) (seq 0 n)). split; [exact E|]. split; [rewrite map_length; apply seq_length|]. intros q.
  assert (Eq : forall j, j < n -> q j = jt 6 A x j).
  { intros j Hj. unfold q. rewrite (nth_indep _ 0%R (jt 6 A x 0)) by (rewrite map_length, seq_length; exact Hj). rewrite map_nth, seq_nth by exact Hj. reflexivity. }
  assert (Ez : forall z z', (forall j, j < n -> z j = z' j) -> err z = err z').
  { intros z z' H. unfold err. apply rsum_ext. intros i _. do 2 f_equal. apply rsum_ext. intros j Hj. rewrite H by exact Hj. reflexivity. }
  assert (Eo : forall z, obj z = KernelProofs.obj 6 n A d K z) by reflexivity.
  assert (Eoq : obj q = KernelProofs.obj 6 n A d K (jt 6 A x)).
  { change (obj q = obj (jt 6 A x)). unfold obj. rewrite (Ez q (jt 6 A x) Eq). f_equal. f_equal. apply rsum_ext. intros j Hj. rewrite Eq by exact Hj. reflexivity. }
  split; [intros z; rewrite Eoq; exact (obj_min 6 n A d K HK x Hx z)|].
  split; [intros z Hz j Hj; rewrite Eq by exact Hj; rewrite Eoq in Hz; exact (obj_unique 6 n A d K HK x Hx z Hz j Hj)|].
  split.
  - rewrite <- (step_zero_iff 6 n A d K HK x Hx). split; intros H j Hj; [rewrite <- Eq by exact Hj | rewrite Eq by exact Hj]; apply H, Hj.
  - intros (j & Hj & Hq) t Ht.
    assert (P1 : err (fun j => t * q j)%R = (t ^ 2 * dot 6 (jv n A q) (jv n A q) - 2 * t * dot 6 d (jv n A q) + rsum 6 (fun i => d i ^ 2))%R).
    { unfold err, dot. rewrite (rsum_ext 6 _ (fun i => (t ^ 2 * (jv n A q i * jv n A q i) + (- (2 * t)) * (d i * jv n A q i)) + d i ^ 2)%R).
      - rewrite !rsum_plus, !rsum_scal. ring.
      - intros i _. replace (rsum n (fun j => A i j * (t * q j))%R) with (t * jv n A q i)%R; [ring|]. unfold jv. rewrite <- rsum_scal. apply rsum_ext. intros; ring. }
    assert (P2 : err (fun _ => 0%R) = rsum 6 (fun i => d i ^ 2)%R).
    { unfold err. apply rsum_ext. intros i _. replace (rsum n (fun j => A i j * 0)%R) with 0%R; [ring|]. rewrite (rsum_ext n _ (fun _ => 0%R)) by (intros; ring). rewrite rsum_0. reflexivity. }
    assert (P3 : dot 6 d (jv n A q) = (dot 6 (jv n A q) (jv n A q) + K * dot n q q)%R).
    { assert (EJ : jv n A q = jv n A (jt 6 A x)) by (apply functional_extensionality; intros i; unfold jv; apply rsum_ext; intros l Hl2; rewrite Eq by exact Hl2; reflexivity).
      assert (ED : dot n q q = dot n (jt 6 A x) (jt 6 A x)) by (unfold dot; apply rsum_ext; intros l Hl2; rewrite Eq by exact Hl2; reflexivity).
      rewrite EJ, ED. exact (step_descends 6 n A d K x Hx). }
    assert (P4 : (0 < dot n q q)%R).
    { unfold dot. apply (rsum_pos n (fun i => q i * q i)%R j); [intros; apply Rle_0_sqr | exact Hj | apply Rlt_0_sqr in Hq; exact Hq]. }
    pose proof (dot_self_nonneg 6 (jv n A q)) as P5. rewrite P1, P2, P3. assert (0 < K * dot n q q)%R by (apply Rmult_lt_0_compat; assumption).
    assert (0 < t * (K * dot n q q))%R by (apply Rmult_lt_0_compat; lra). assert (0 <= t * (2 - t) * dot 6 (jv n A q) (jv n A q))%R by (apply Rmult_le_pos; [apply Rmult_le_pos; lra | exact P5]). nra.
Qed.

Lemma l45_few_joints_refuted : (exists J : jac, length J < 6) /\ forall J dx reg lm w, length J < 6 -> (0 < reg)%R -> (0 <= lm)%R ->
  exists dq, ik_step J dx reg lm w = Ok dq /\ length dq = length J /\ forall svd, ik_step_svd svd J dx reg lm w = Err RuntimeError.
Proof.
  split; [exists []; cbn; lia|]. intros J dx reg lm w Hn Hr Hl. destruct (ik_step_eq J dx reg lm w Hr Hl) as (x & _ & E). eexists. split; [exact E|].
  split; [rewrite map_length; apply seq_length|]. intros svd. unfold ik_step_svd. destruct (svd (jac_w w J) (length J)) as [[U D] Vh].
  rewrite Nat.min_r by lia. replace (Nat.eqb (length J) 6) with false by (symmetry; apply Nat.eqb_neq; lia). reflexivity.
Qed.

Lemma l43_same_pose : forall (nan : R) is_nan (root r : mframe) c rn p fs o,
  chain_init mops root = Ok c -> distinct_joints root -> distinct_frames root -> clean_names root -> rigid_tree root ->
  root_path root (p ++ [r]) -> ((rn = "" /\ r = root) \/ (rn <> "" /\ rn = f_name r)) -> root_path r (r :: fs) ->
  (forall f, In f fs -> j_type (f_joint f) = Revolute -> exists lo hi, j_lim (f_joint f) = Some (Fin lo, Fin hi)) ->
  exists s, serial_init mops zax c (f_name (last (r :: fs) r)) rn = Ok s /\
  forall row, length row = length (c_names (s_chain s)) -> exists row' T, wrap_row (pik_init s o) (map Fin row) = map Fin row' /\
    serial_fk_end mops nan is_nan s (InTensor (T1 row)) = Ok [T] /\ serial_fk_end mops nan is_nan s (InTensor (T1 row')) = Ok [T].
Proof.
  intros nan is_nan root r c rn p fs o Hc Hdj Hdf Hcl Hrt Hpr Hrn Hp Hlim.
  assert (Hin : In r (preorder root)) by (eapply root_path_in; exact Hpr).
  assert (Hch : root_choice root r rn) by (destruct Hrn as [?|[? ?]]; [left | right]; auto).
  destruct (serial_ok mops zax root c rn r fs Hc Hdf Hcl Hch Hp) as (s & Hs & Ht). exists s. split; [exact Hs|]. intros row Hl. rewrite (path_chain_names r fs s Ht) in Hl.
  destruct (wrap_pose root r fs s o row Hin Hdj Hp Ht Hrt Hlim Hl) as (v & v' & E1 & E2 & E3).
  exists (map v' (path_names fs)), (pose v fs). split; [exact E1|]. subst row. rewrite <- (path_chain_names r fs s Ht).
  split; [|rewrite <- E3]; apply (serial_pose nan is_nan root r c rn fs s); assumption.
Qed.

Lemma l39_end_to_end : forall (nan : R) is_nan (root r : mframe) c rn p fs targets reg lm w o np pt rt,
  chain_init mops root = Ok c -> distinct_joints root -> distinct_frames root -> clean_names root -> rigid_tree root ->
  root_path root (p ++ [r]) -> ((rn = "" /\ r = root) \/ (rn <> "" /\ rn = f_name r)) -> root_path r (r :: fs) ->
  (0 < reg)%R -> (0 <= lm)%R -> (forall i, is_rigid (targets i)) -> ik_ptol o = Fin pt -> ik_rtol o = Fin rt -> 0 < ik_nr o ->
  (forall f, ik_ls o = Some f -> forall q dq dx rem, length dq = length q -> length dx = length q -> length (f q dq dx rem) = length q) ->
  exists s, serial_init mops zax c (f_name (last (r :: fs) r)) rn = Ok s /\
  forall q0, length q0 = np * ik_nr o ->
  exists sol, solve_from (pik_kern s targets reg lm w) (pik_init s o) np q0 = Ok sol /\
  forall i t, i < np -> t < ik_nr o -> exists e, entry_at sol i t = Some e /\
    (e_conv e = true -> exists row, e_q e = map Fin row /\ length row = length (c_names (s_chain s))) /\
    (forall row, e_q e = map Fin row -> length row = length (c_names (s_chain s)) ->
      exists T a, serial_fk_end mops nan is_nan s (InTensor (T1 row)) = Ok [T] /\ e_pos e = Fin (vnorm (vsub (trp (targets i)) (trp T))) /\
        (0 <= a <= PI)%R /\ (trace3 (m3mul (rotp (targets i)) (m3tr (rotp T))) = 1 + 2 * cos a)%R /\
        (e_conv e = true -> (vnorm (vsub (trp (targets i)) (trp T)) < pt)%R /\ (a < rt)%R) /\
        ((vnorm (vsub (trp (targets i)) (trp T)) < pt)%R -> (a + a ^ 5 / 960 < rt)%R -> e_conv e = true)).
Proof.
  intros nan is_nan root r c rn p fs targets reg lm w o np pt rt Hc Hdj Hdf Hcl Hrt Hpr Hrn Hp Hreg Hlm Htg Hpt Hrtol Hnr Hls.
  assert (Hin : In r (preorder root)) by (eapply root_path_in; exact Hpr).
  assert (Hch : root_choice root r rn) by (destruct Hrn as [?|[? ?]]; [left | right]; auto).
  destruct (serial_ok mops zax root c rn r fs Hc Hdf Hcl Hch Hp) as (s & Hs & Ht). exists s. split; [exact Hs|]. intros q0 Hq0.
  destruct (C39_solve (pik_kern s targets reg lm w) (pik_init s o) np q0 Hnr Hq0 Hls) as (sol & Es & H & _). exists sol. split; [exact Es|].
  intros i t Hi Ht2. destruct (H i t Hi Ht2) as (e & He & P & Q & C). exists e. split; [exact He|]. cbn [pik_init ik_ptol ik_rtol] in C. rewrite Hpt, Hrtol in C.
  assert (Htg' : forall i, is_rot (rotp (targets i))) by (intros; apply Htg). rewrite (path_chain_names r fs s Ht). split.
  - intros HC. apply C in HC. destruct HC as [HC _]. rewrite P in HC. eapply pik_converged; eassumption.
  - intros row Er Hl. destruct (pik_errors root r fs s Hin Hdj Hdf Hcl Hp Ht Hrt targets reg lm w Hreg Hlm Htg' i row Hl) as (v & a & x & -> & E1 & E2 & E3 & E4 & E5).
    rewrite Er in P, Q. rewrite E1 in P. rewrite E2 in Q. exists (pose v fs), a.
    split; [rewrite <- (path_chain_names r fs s Ht); apply (serial_pose nan is_nan root r c rn fs s); assumption|]. split; [exact P|]. split; [exact E4|]. split; [exact E5|].
    rewrite P, Q in C. cbn [flt] in C. rewrite !Rltb_true in C. split; [intros HC; apply C in HC; lra|]. intros B1 B2. apply C. lra.
Qed.

Lemma l42_chain_limits : forall (root r : mframe) c rn p fs targets reg lm w o np,
  chain_init mops root = Ok c -> distinct_joints root -> distinct_frames root -> clean_names root -> rigid_tree root ->
  root_path root (p ++ [r]) -> ((rn = "" /\ r = root) \/ (rn <> "" /\ rn = f_name r)) -> root_path r (r :: fs) ->
  (forall f, In f fs -> moving f = true -> exists lo hi, j_lim (f_joint f) = Some (Fin lo, Fin hi) /\ (lo <= hi)%R) -> (exists f, In f fs /\ moving f = true) ->
  (0 < reg)%R -> (0 <= lm)%R -> (forall i, is_rigid (targets i)) -> 0 < ik_nr o -> isfinite (ik_lr o) = true -> ik_enforce o = true ->
  (forall f, ik_ls o = Some f -> forall q dq dx rem, length dq = length q -> length dx = length q -> length (f q dq dx rem) = length q /\ (forall x, In x (f q dq dx rem) -> isfinite x = true)) ->
  exists s, serial_init mops zax c (f_name (last (r :: fs) r)) rn = Ok s /\
  forall q0, length q0 = np * ik_nr o -> (forall q, In q q0 -> length q = length (c_names (s_chain s)) /\ (forall x, In x q -> isfinite x = true)) ->
  exists sol, solve_from (pik_kern s targets reg lm w) (pik_init s o) np q0 = Ok sol /\
  forall i t, i < np -> t < ik_nr o -> exists e row, entry_at sol i t = Some e /\ e_q e = map Fin row /\ length row = length (filter moving fs) /\
    forall j f x, nth_error (filter moving fs) j = Some f -> nth_error row j = Some x -> exists lo hi, j_lim (f_joint f) = Some (Fin lo, Fin hi) /\ (lo <= x <= hi)%R.
Proof.
  intros root r c rn p fs targets reg lm w o np Hc Hdj Hdf Hcl Hrt Hpr Hrn Hp Hlim (f0 & Hf0 & Hm0) Hreg Hlm Htg Hnr Hlr Hen Hls.
  assert (Hin : In r (preorder root)) by (eapply root_path_in; exact Hpr).
  assert (Hch : root_choice root r rn) by (destruct Hrn as [?|[? ?]]; [left | right]; auto).
  destruct (serial_ok mops zax root c rn r fs Hc Hdf Hcl Hch Hp) as (s & Hs & Ht). exists s. split; [exact Hs|]. intros q0 Hq0 Hq.
  rewrite (path_chain_names r fs s Ht) in Hq. assert (Htg' : forall i, is_rot (rotp (targets i))) by (intros; apply Htg).
  destruct (serial_limits r fs s Ht) as [EL EH]. pose proof (serial_dof r fs s Ht) as ED.
  assert (Hlim' : forall f, In f (filter moving fs) -> exists lo hi, j_lim (f_joint f) = Some (Fin lo, Fin hi) /\ (lo <= hi)%R) by (intros f Hf; apply filter_In in Hf; apply Hlim; apply Hf).
  assert (NL : forall j x, nth_error (c_low (s_chain s)) j = Some x -> exists f lo hi, nth_error (filter moving fs) j = Some f /\ j_lim (f_joint f) = Some (Fin lo, Fin hi) /\ (lo <= hi)%R /\ x = Fin lo /\ nth_error (c_high (s_chain s)) j = Some (Fin hi)).
  { intros j x Hx. rewrite EL in Hx. rewrite EH. rewrite nth_error_map in *. destruct (nth_error (filter moving fs) j) as [f|] eqn:Ef; [|discriminate]. cbn [option_map] in *.
    destruct (Hlim' f (nth_error_In _ _ Ef)) as (lo & hi & El & Hle). rewrite El in *. assert (HX : forall X (a b : X), Some a = Some b -> a = b) by (intros; congruence). apply HX in Hx. subst x.
    exists f, lo, hi. auto. }
  assert (Len : length (c_low (s_chain s)) = length (path_names fs) /\ length (c_high (s_chain s)) = length (path_names fs) /\ length (rev_mask s) = length (path_names fs)).
  { rewrite EL, EH. unfold rev_mask. rewrite (serial_joints r fs s Ht). unfold path_names. rewrite !map_length. auto. }
  destruct Len as (N1 & N2 & N3).
  destruct (C42_limits_finite (pik_kern s targets reg lm w) (pik_init s o) np q0) as (sol & Es & H); cbn [pik_init ik_nr ik_dof ik_ls ik_lr ik_low ik_high ik_rev ik_enforce]; rewrite ?ED; auto.
  - intros i q. apply (pik_step_fin root r fs s Hin Hdj Hdf Hcl Hp Ht Hrt targets reg lm w Hreg Hlm Htg').
  - intros j lo hi H1 H2. destruct (NL j lo H1) as (f & lo' & hi' & _ & _ & Hle & -> & H3). rewrite H2 in H3. assert (HX : forall X (a b : X), Some a = Some b -> a = b) by (intros; congruence). apply HX in H3. subst hi.
    split; [cbn [fle]; apply Rleb_true; exact Hle|]. split; [discriminate|]. split; [discriminate|]. auto.
  - assert (I0 : In f0 (filter moving fs)) by (apply filter_In; auto). destruct (In_nth_error _ _ I0) as (j & Hj).
    destruct (Hlim' f0 I0) as (lo & hi & El & _). exists (Fin lo). split; [|reflexivity]. apply in_or_app. left. rewrite EL. apply in_map_iff. exists f0. rewrite El. auto.
  - exists sol. split; [exact Es|]. intros i t Hi Ht2. destruct (H i t Hi Ht2) as (e & He & Le & Hx). cbn [pik_init ik_dof ik_low ik_high] in *. rewrite ED in Le.
    assert (Er : exists row, e_q e = map Fin row).
    { assert (G : forall l : list F, (forall j x, nth_error l j = Some x -> exists y, x = Fin y) -> exists row, l = map Fin row).
      { intros l. induction l as [|x l IH]; intros G; [exists []; reflexivity|]. destruct (G 0 x eq_refl) as (y & ->). destruct IH as (row & ->); [intros j x Hj; apply (G (Datatypes.S j)); exact Hj|].
        exists (y :: row). reflexivity. }
      apply G. intros j x Hj. destruct (Hx j x Hj) as (_ & _ & y & _ & _ & E & _). eauto. }
    destruct Er as (row & Er). exists e, row. split; [exact He|]. split; [exact Er|]. split; [rewrite Er, map_length in Le; unfold path_names in Le; rewrite map_length in Le; exact Le|].
    intros j f x Hf Hj. destruct (Hx j (Fin x)) as (lo & hi & y & H1 & H2 & E & F1 & F2); [rewrite Er; apply map_nth_error; exact Hj|].
    destruct (NL j lo H1) as (f' & lo' & hi' & Hf' & El & _ & -> & H3). rewrite Hf in Hf'. rewrite H2 in H3.
    assert (HX : forall X (a b : X), Some a = Some b -> a = b) by (intros; congruence). apply HX in Hf'. apply HX in H3. subst f' hi. exists lo', hi'. split; [exact El|].
    cbn [fle] in F1, F2. apply Rleb_true in F1. apply Rleb_true in F2. lra.
Qed.
