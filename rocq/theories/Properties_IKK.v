(** C39, C42, C43 for a serial chain; C44, C45, C49: the step kernels and the pose error. *)
From Coq Require Import Reals Lra String Bool Arith Lia List ZArith FunctionalExtensionality.
From Verif Require Import Prelude ExtF Tree ChainModel SpecFK ChainProofs ChainTables TreeQueries Input Widths Lin Trig RotModel RotBasic QuatProofs AxisAngle ChainInst
  FKMore ChainClamp Examples SerialModel SerialProofs SerialMore Deriv JacModel JacProofs JacMore IKModel IKProofs IKMore IKLimits Properties_IK IKKernel KernelProofs DeltaPose IKSolve SolveProofs.
From Verif Require Import IKKFinal.
Import ListNotations.
Local Open Scope nat_scope.
Local Open Scope string_scope.
Local Open Scope list_scope.


(** C49.  [v], [a]: the rotation part and the angle of the rotation between pose and target.  The rotation part is as long as that angle (up to
    a^5/960, and exactly outside the small-angle window, where it is an axis-angle vector of that rotation), and the error is zero exactly if
    the pose is the target. *)
Theorem C49_pose_error : forall m tp tq, is_rigid m -> qnorm2 tq = 1%R ->
  let D := m3mul (quaternion_to_matrix tq) (m3tr (rotp m)) in
  exists v a, delta_pose m tp tq = (vsub tp (trp m), fin3 v) /\
    (0 <= a <= PI)%R /\ (trace3 D = 1 + 2 * cos a)%R /\ (a <= vnorm v <= a + a ^ 5 / 960)%R /\
    (a = 0%R \/ (eps6 <= a)%R -> vnorm v = a /\ axis_angle_to_matrix v = D) /\
    (v = vzero <-> rotp m = quaternion_to_matrix tq) /\
    (vsub tp (trp m) = vzero /\ v = vzero <-> m = aff (quaternion_to_matrix tq) tp).
Proof. exact l49_pose_error. Qed.
Print Assumptions C49_pose_error.

(** half a turn about z from the identity: the rotation part has length pi *)
Example C49_example : exists v, delta_pose I4 (mkV3 1 2 3) (mkQ 0 0 0 1) = (mkV3 1 2 3, fin3 v) /\ vnorm v = PI.
Proof.
  destruct (C49_pose_error I4 (mkV3 1 2 3) (mkQ 0 0 0 1) is_rigid_I ltac:(unfold qnorm2; cbn [qw qx qy qz]; ring)) as (v & a & H1 & H2 & H3 & _ & H5 & _).
  exists v. split; [rewrite H1; f_equal; unfold vsub, trp, I4; cbn [Lin.vx Lin.vy Lin.vz a03 a13 a23]; apply mkV3_eq; ring|].
  assert (C : cos a = (-1)%R).
  { assert (E : trace3 (m3mul (quaternion_to_matrix (mkQ 0 0 0 1)) (m3tr (rotp I4))) = (-1)%R) by (unfold trace3, quaternion_to_matrix, m3mul, m3tr, rotp, I4, qnorm2; lin_simpl; cbn [qw qx qy qz]; field). rewrite E in H3. lra. }
  assert (A : a = PI).
  { destruct (Req_dec a PI) as [E|N]; [exact E|]. exfalso. pose proof (cos_decreasing_1 a PI). rewrite cos_PI in *. pose proof PI_RGT_0. lra. }
  subst a. apply H5. right. pose proof PI2_3_2. unfold PI2 in *. unfold eps6. lra.
Qed.

(** C44.  [W] the weights of the six rows (ones when the weights are equal), [A] the weighted Jacobian, [d] the weighted error, [K] the damping:
    the step never fails, is the only minimiser of the damped least-squares objective, is zero exactly if A^T d = 0, and moving along it
    by any factor in (0, 2] brings the linearised error down unless it is zero. *)
Theorem C44_damped_least_squares : forall J dx reg lm w, (0 < reg)%R -> (0 <= lm)%R ->
  let n := length J in
  let W := match w with Some W => W | None => fun _ => 1%R end in
  let A := fun i j => (W i * six (nth j J (vzero, vzero)) i)%R in
  let d := fun i => (W i * six dx i)%R in
  let K := (reg + lm * rsum 6 (fun i => d i ^ 2))%R in
  let err := fun z => rsum 6 (fun i => (rsum n (fun j => A i j * z j) - d i) ^ 2)%R in
  let obj := fun z => (err z + K * rsum n (fun j => z j ^ 2))%R in
  exists dq, ik_step J dx reg lm w = Ok dq /\ length dq = n /\
    let q := fun j => nth j dq 0%R in
    (forall z, (obj q <= obj z)%R) /\
    (forall z, (obj z <= obj q)%R -> forall j, j < n -> z j = q j) /\
    ((forall j, j < n -> q j = 0%R) <-> (forall j, j < n -> rsum 6 (fun i => A i j * d i)%R = 0%R)) /\
    ((exists j, j < n /\ q j <> 0%R) -> forall t, (0 < t <= 2)%R -> (err (fun j => t * q j)%R < err (fun _ => 0%R))%R).
Proof. exact l44_damped_least_squares. Qed.
Print Assumptions C44_damped_least_squares.

(** one prismatic joint along x, a unit error along x, regularisation 1 *)
Example C44_example : ik_step [(mkV3 1 0 0, vzero)] (mkV3 1 0 0, vzero) 1 0 None = Ok [(1 / 2)%R].
Proof.
  destruct (ik_step_eq [(mkV3 1 0 0, vzero)] (mkV3 1 0 0, vzero) 1 0 None ltac:(lra) ltac:(lra)) as (x & Hx & E). rewrite E. cbn [length seq map]. do 2 f_equal.
  pose proof (Hx 0 ltac:(lia)) as H0. unfold gram, damping, jt, jac_w, weigh, vzero in *. cbn [rsum length Nat.eqb nth six fst snd Lin.vx Lin.vy Lin.vz] in *.
  replace (Rltb 0 0) with false in H0 by (symmetry; apply Rltb_false; lra). lra.
Qed.

(** C45: six or more joints and any valid decomposition. *)
Theorem C45_svd_step : forall svd J dx reg lm w U D Vh, (0 < reg)%R -> (0 <= lm)%R -> 6 <= length J ->
  svd (jac_w w J) (length J) = (U, D, Vh) -> is_svd 6 (length J) (jac_w w J) U D Vh ->
  ik_step_svd svd J dx reg lm w = ik_step J dx reg lm w.
Proof. exact ik_step_svd_eq. Qed.
Print Assumptions C45_svd_step.

(** C45 fails for fewer than six joints: whatever the decomposition, the SVD step raises where the direct step succeeds. *)
Theorem C45_few_joints_refuted : (exists J : jac, length J < 6) /\ forall J dx reg lm w, length J < 6 -> (0 < reg)%R -> (0 <= lm)%R ->
  exists dq, ik_step J dx reg lm w = Ok dq /\ length dq = length J /\ forall svd, ik_step_svd svd J dx reg lm w = Err RuntimeError.
Proof. exact l45_few_joints_refuted. Qed.
Print Assumptions C45_few_joints_refuted.

(** the Jacobian [I] with the decomposition [I I I] *)
Example C45_example : let e := fun i j => if Nat.eqb i j then 1%R else 0%R in
  let J := map (fun j => (mkV3 (e 0 j) (e 1 j) (e 2 j), mkV3 (e 3 j) (e 4 j) (e 5 j))) (seq 0 6) in
  exists dq, ik_step J (mkV3 2 0 0, vzero) 1 0 None = Ok dq /\ nth_error dq 0 = Some 1%R /\ ik_step_svd (fun _ _ => (e, fun _ => 1%R, e)) J (mkV3 2 0 0, vzero) 1 0 None = Ok dq.
Proof.
  intros e J. destruct (ik_step_eq J (mkV3 2 0 0, vzero) 1 0 None ltac:(lra) ltac:(lra)) as (x & Hx & E). eexists. split; [exact E|]. split.
  - pose proof (Hx 0 ltac:(lia)) as H0. unfold e, J, gram, damping, jt, jac_w, weigh, vzero in *. cbn [map seq rsum length Nat.eqb nth nth_error six fst snd Lin.vx Lin.vy Lin.vz] in *.
    replace (Rltb 0 0) with false in H0 by (symmetry; apply Rltb_false; lra). f_equal. unfold e in *. cbn [Nat.eqb] in *. lra.
  - rewrite (C45_svd_step _ J _ 1 0 None e (fun _ => 1%R) e); [exact E | lra | lra | cbn; lia | reflexivity|].
    change (length J) with 6. unfold is_svd. cbn [Nat.min]. split; [|split; [|split]].
    1, 2, 3: intros k l Hk Hl; do 6 (destruct k as [|k]; [do 6 (destruct l as [|l]; [unfold e; cbn [rsum Nat.eqb]; ring|]); lia|]); lia.
    intros k l Hk Hl; do 6 (destruct k as [|k]; [do 6 (destruct l as [|l]; [unfold J, e, jac_w, weigh; cbn [map seq rsum Nat.eqb nth six fst snd vx vy vz]; ring|]); lia|]); lia.
Qed.

(** C43: on a serial chain whose revolute joints have finite limits, wrapping a configuration does not move the end effector. *)
Theorem C43_same_pose : forall (nan : R) is_nan (root r : mframe) c rn p fs o,
  chain_init mops root = Ok c -> distinct_joints root -> distinct_frames root -> clean_names root -> rigid_tree root ->
  root_path root (p ++ [r]) -> ((rn = "" /\ r = root) \/ (rn <> "" /\ rn = f_name r)) -> root_path r (r :: fs) ->
  (forall f, In f fs -> j_type (f_joint f) = Revolute -> exists lo hi, j_lim (f_joint f) = Some (Fin lo, Fin hi)) ->
  exists s, serial_init mops zax c (f_name (last (r :: fs) r)) rn = Ok s /\
  forall row, length row = length (c_names (s_chain s)) -> exists row' T, wrap_row (pik_init s o) (map Fin row) = map Fin row' /\
    serial_fk_end mops nan is_nan s (InTensor (T1 row)) = Ok [T] /\ serial_fk_end mops nan is_nan s (InTensor (T1 row')) = Ok [T].
Proof. exact l43_same_pose. Qed.
Print Assumptions C43_same_pose.

(** C39 for a serial chain, rigid targets [targets p], positive regularisation and non-negative damping.  A converged entry is finite and its
    pose [T] under the chain's own forward kinematics is within the position tolerance of the target and turned from it by an angle [a] below
    the rotation tolerance; conversely an entry whose pose is that close (with a + a^5/960 below the tolerance) is marked converged. *)
Theorem C39_end_to_end : forall (nan : R) is_nan (root r : mframe) c rn p fs targets reg lm w o np pt rt,
  chain_init mops root = Ok c -> distinct_joints root -> distinct_frames root -> clean_names root -> rigid_tree root ->
  root_path root (p ++ [r]) -> ((rn = "" /\ r = root) \/ (rn <> "" /\ rn = f_name r)) -> root_path r (r :: fs) ->
  (0 < reg)%R -> (0 <= lm)%R -> (forall i, is_rigid (targets i)) -> ik_ptol o = Fin pt -> ik_rtol o = Fin rt -> 0 < ik_nr o ->
  (forall f, ik_ls o = Some f -> forall q dq dx rem, length dq = length q -> length dx = length q -> length (f q dq dx rem) = length q) ->
  exists s, serial_init mops zax c (f_name (last (r :: fs) r)) rn = Ok s /\
  forall q0, length q0 = np * ik_nr o ->
  exists sol, solve_from (pik_kern s targets reg lm w) (pik_init s o) np q0 = Ok sol /\
  forall i t, i < np -> t < ik_nr o -> exists e, entry_at sol i t = Some e /\
    (e_conv e = true -> exists row, e_q e = map Fin row /\ length row = length (c_names (s_chain s))) /\
    (forall row, e_q e = map Fin row -> length row = length (c_names (s_chain s)) ->
      exists T a, serial_fk_end mops nan is_nan s (InTensor (T1 row)) = Ok [T] /\ e_pos e = Fin (vnorm (vsub (trp (targets i)) (trp T))) /\
        (0 <= a <= PI)%R /\ (trace3 (m3mul (rotp (targets i)) (m3tr (rotp T))) = 1 + 2 * cos a)%R /\
        (e_conv e = true -> (vnorm (vsub (trp (targets i)) (trp T)) < pt)%R /\ (a < rt)%R) /\
        ((vnorm (vsub (trp (targets i)) (trp T)) < pt)%R -> (a + a ^ 5 / 960 < rt)%R -> e_conv e = true)).
Proof. exact l39_end_to_end. Qed.
Print Assumptions C39_end_to_end.

(** C42 for a serial chain all of whose joints have finite limits: with limit enforcement (and no line search, or one with finite steps) every
    returned configuration is finite and within the limits, converged or not. *)
Theorem C42_chain_limits : forall (root r : mframe) c rn p fs targets reg lm w o np,
  chain_init mops root = Ok c -> distinct_joints root -> distinct_frames root -> clean_names root -> rigid_tree root ->
  root_path root (p ++ [r]) -> ((rn = "" /\ r = root) \/ (rn <> "" /\ rn = f_name r)) -> root_path r (r :: fs) ->
  (forall f, In f fs -> moving f = true -> exists lo hi, j_lim (f_joint f) = Some (Fin lo, Fin hi) /\ (lo <= hi)%R) -> (exists f, In f fs /\ moving f = true) ->
  (0 < reg)%R -> (0 <= lm)%R -> (forall i, is_rigid (targets i)) -> 0 < ik_nr o -> isfinite (ik_lr o) = true -> ik_enforce o = true ->
  (forall f, ik_ls o = Some f -> forall q dq dx rem, length dq = length q -> length dx = length q -> length (f q dq dx rem) = length q /\ (forall x, In x (f q dq dx rem) -> isfinite x = true)) ->
  exists s, serial_init mops zax c (f_name (last (r :: fs) r)) rn = Ok s /\
  forall q0, length q0 = np * ik_nr o -> (forall q, In q q0 -> length q = length (c_names (s_chain s)) /\ (forall x, In x q -> isfinite x = true)) ->
  exists sol, solve_from (pik_kern s targets reg lm w) (pik_init s o) np q0 = Ok sol /\
  forall i t, i < np -> t < ik_nr o -> exists e row, entry_at sol i t = Some e /\ e_q e = map Fin row /\ length row = length (filter moving fs) /\
    forall j f x, nth_error (filter moving fs) j = Some f -> nth_error row j = Some x -> exists lo hi, j_lim (f_joint f) = Some (Fin lo, Fin hi) /\ (lo <= x <= hi)%R.
Proof. exact l42_chain_limits. Qed.
Print Assumptions C42_chain_limits.

(** the example robot with the pose of a configuration as target: the zeroth iteration already meets any positive tolerance *)
Example C39_chain_example : forall pt rt, (0 < pt)%R -> (0 < rt)%R -> exists c s T sol e, chain_init mops ex_robot = Ok c /\ serial_init mops zax c "hand" "" = Ok s /\
  serial_fk_end mops 0%R (fun _ => false) s (InTensor (T1 [(PI / 2)%R; 5%R])) = Ok [T] /\
  solve_from (pik_kern s (fun _ => T) 1 0 None) (pik_init s (mkIK 0 1 (Fin pt) (Fin rt) 0 (Fin 1) None false NoStop 0 false 0 false [] [] [])) 1 [[Fin (PI / 2)%R; Fin 5%R]] = Ok sol /\
  entry_at sol 0 0 = Some e /\ e_q e = [Fin (PI / 2)%R; Fin 5%R] /\ e_conv e = true.
Proof.
  intros pt rt Hpt Hrtol. destruct ex_chain as (c & Hc). exists c. set (o := mkIK 0 1 (Fin pt) (Fin rt) 0 (Fin 1) None false NoStop 0 false 0 false [] [] []).
  assert (Hin : In ex_robot (preorder ex_robot)) by (rewrite preorder_unfold; left; reflexivity).
  destruct (serial_ok mops zax ex_robot c "" ex_robot [ex_shoulder; ex_elbow; ex_hand] Hc ex_distinct_frames ex_clean (or_introl (conj eq_refl eq_refl)) ex_path_hand) as (s & Hs & Ht).
  assert (En : c_names (s_chain s) = [Some "j1"; Some "j2"]) by (rewrite (path_chain_names _ _ _ Ht); reflexivity).
  set (T := pose ex_config [ex_shoulder; ex_elbow; ex_hand]).
  assert (HT : is_rigid T) by (apply (pose_rigid_in ex_config _ ex_robot ex_rigid); intros f Hf; apply (path_incl ex_robot _ ex_path_hand); right; exact Hf).
  assert (FK : serial_fk_end mops 0%R (fun _ => false) s (InTensor (T1 [(PI / 2)%R; 5%R])) = Ok [T]).
  { pose proof (serial_pose 0%R (fun _ => false) ex_robot ex_robot c "" [ex_shoulder; ex_elbow; ex_hand] s ex_config Hin ex_distinct_joints ex_distinct_frames ex_clean ex_path_hand Hs Ht) as E. rewrite En in E. exact E. }
  destruct (C39_end_to_end 0%R (fun _ => false) ex_robot ex_robot c "" [] [ex_shoulder; ex_elbow; ex_hand] (fun _ => T) 1 0 None o 1 pt rt Hc ex_distinct_joints ex_distinct_frames ex_clean ex_rigid
    (rp_here ex_robot) (or_introl (conj eq_refl eq_refl)) ex_path_hand ltac:(lra) ltac:(lra) (fun _ => HT) eq_refl eq_refl ltac:(cbn; lia) ltac:(discriminate)) as (s' & Hs' & H).
  assert (HX : forall X (a b : X), Ok a = Ok b -> a = b) by (intros; congruence). change (f_name (last [ex_robot; ex_shoulder; ex_elbow; ex_hand] ex_robot)) with "hand" in *. rewrite Hs in Hs'. apply HX in Hs'. subst s'.
  destruct (H [[Fin (PI / 2)%R; Fin 5%R]] eq_refl) as (sol & Es & He). destruct (He 0 0 ltac:(lia) ltac:(cbn; lia)) as (e & E1 & _ & E3).
  exists s, T, sol, e. split; [exact Hc|]. split; [exact Hs|]. split; [exact FK|]. split; [exact Es|]. split; [exact E1|].
  assert (Eq : e_q e = [Fin (PI / 2)%R; Fin 5%R]).
  { destruct (solve_eq (pik_kern s (fun _ => T) 1 0 None) (pik_init s o) 1 ltac:(cbn; lia) ltac:(discriminate) (fun _ => [Fin (PI / 2)%R; Fin 5%R])) as (m & Hm & _ & _ & E).
    change (m <= 0) in Hm. assert (m = 0) by lia. subst m. change (vec (1 * ik_nr (pik_init s o)) (fun _ => [Fin (PI / 2)%R; Fin 5%R])) with [[Fin (PI / 2)%R; Fin 5%R]] in E.
    rewrite Es in E. change (ik_enforce (pik_init s o)) with false in E. cbn [andb] in E. apply HX in E. subst sol. rewrite final_entry in E1 by (cbn; lia).
    assert (HY : forall X (a b : X), Some a = Some b -> a = b) by (intros; congruence). apply HY in E1. rewrite <- E1. reflexivity. }
  split; [exact Eq|]. destruct (E3 [(PI / 2)%R; 5%R] Eq ltac:(rewrite En; reflexivity)) as (T' & a & F1 & _ & A1 & A2 & _ & A3).
  rewrite FK in F1. apply HX in F1. assert (T' = T) by congruence. subst T'.
  replace (vsub (trp T) (trp T)) with vzero in A3 by (destruct (trp T); unfold vsub, vzero; cbn [Lin.vx Lin.vy Lin.vz]; symmetry; apply mkV3_eq; ring).
  replace (vnorm vzero) with 0%R in A3 by (symmetry; apply vnorm_zero_iff; reflexivity). apply A3; [exact Hpt|].
  destruct HT as [_ HR]. replace (m3mul (rotp T) (m3tr (rotp T))) with I3 in A2 by (symmetry; apply HR).
  assert (a = 0%R); [|subst a; replace (0 + 0 ^ 5 / 960)%R with 0%R by field; exact Hrtol]. assert (C : cos a = 1%R) by (unfold trace3, I3 in A2; cbn [m00 m11 m22] in A2; lra).
  destruct (Req_dec a 0) as [Z|Z]; [exact Z|]. exfalso. pose proof (cos_decreasing_1 0 a). rewrite cos_0 in *. lra.
Qed.

(** the example robot meets the hypotheses of C42_chain_limits and C43_same_pose: after enforcement j1 is in [-1, 1] and j2 in [0, 2] *)
Example C42_chain_example : exists c s sol e x y, chain_init mops ex_robot = Ok c /\ serial_init mops zax c "hand" "" = Ok s /\
  solve_from (pik_kern s (fun _ => I4) 1 0 None) (pik_init s (mkIK 0 1 (Fin 1) (Fin 1) 10 (Fin 1) None false NoStop 0 true 5 false [] [] [])) 1 [[Fin 7%R; Fin 9%R]] = Ok sol /\
  entry_at sol 0 0 = Some e /\ e_q e = [Fin x; Fin y] /\ (-1 <= x <= 1)%R /\ (0 <= y <= 2)%R.
Proof.
  destruct ex_chain as (c & Hc). exists c.
  assert (Hin : In ex_robot (preorder ex_robot)) by (rewrite preorder_unfold; left; reflexivity).
  destruct (serial_ok mops zax ex_robot c "" ex_robot [ex_shoulder; ex_elbow; ex_hand] Hc ex_distinct_frames ex_clean (or_introl (conj eq_refl eq_refl)) ex_path_hand) as (s & Hs & Ht).
  assert (En : c_names (s_chain s) = [Some "j1"; Some "j2"]) by (rewrite (path_chain_names _ _ _ Ht); reflexivity).
  set (o := mkIK 0 1 (Fin 1) (Fin 1) 10 (Fin 1) None false NoStop 0 true 5 false [] [] []).
  destruct (C42_chain_limits ex_robot ex_robot c "" [] [ex_shoulder; ex_elbow; ex_hand] (fun _ => I4) 1 0 None o 1 Hc ex_distinct_joints ex_distinct_frames ex_clean ex_rigid
    (rp_here ex_robot) (or_introl (conj eq_refl eq_refl)) ex_path_hand) as (s' & Hs' & H).
  - intros f [<-|[<-|[<-|[]]]] Hm; [exists (-1)%R, 1%R | exists 0%R, 2%R | discriminate Hm]; (split; [reflexivity | lra]).
  - exists ex_shoulder. split; [left; reflexivity | reflexivity].
  - lra.
  - lra.
  - intros _. apply is_rigid_I.
  - cbn. lia.
  - reflexivity.
  - reflexivity.
  - discriminate.
  - assert (HX : forall X (a b : X), Ok a = Ok b -> a = b) by (intros; congruence). change (f_name (last [ex_robot; ex_shoulder; ex_elbow; ex_hand] ex_robot)) with "hand" in *. rewrite Hs in Hs'. apply HX in Hs'. subst s'.
    destruct (H [[Fin 7%R; Fin 9%R]] eq_refl) as (sol & Es & He).
    + intros q [<-|[]]. rewrite En. split; [reflexivity|]. intros x [<-|[<-|[]]]; reflexivity.
    + destruct (He 0 0 ltac:(lia) ltac:(cbn; lia)) as (e & row & E1 & E2 & L & B). destruct row as [|x [|y [|z row]]]; try discriminate L.
      exists s, sol, e, x, y. split; [exact Hc|]. split; [exact Hs|]. split; [exact Es|]. split; [exact E1|]. split; [exact E2|].
      assert (HY : forall a b c d : R, Some (Fin a, Fin b) = Some (Fin c, Fin d) -> a = c /\ b = d) by (intros; split; congruence).
      destruct (B 0 ex_shoulder x eq_refl eq_refl) as (lo & hi & El & Bx). apply HY in El. destruct (B 1 ex_elbow y eq_refl eq_refl) as (lo' & hi' & El' & By). apply HY in El'. lra.
Qed.
