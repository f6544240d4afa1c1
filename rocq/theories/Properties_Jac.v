(** C14 - C16: the Jacobian and the analytical backward pass. *)
From Coq Require Import Reals Lra String Bool Arith Lia List Permutation Sorted.
From Coquelicot Require Import Coquelicot.
From Verif Require Import Prelude ExtF Tree ChainModel SpecFK ChainProofs ChainTables TreeQueries Input Widths Lin Trig RotModel RotBasic ChainInst
  ChainClamp Examples SerialModel SerialProofs SerialMore Deriv JacModel JacProofs JacMore BackProofs.
From Verif Require Import JacFinal.
Import ListNotations.
Local Open Scope nat_scope.
Local Open Scope string_scope.
Local Open Scope list_scope.


(** C14.  [E v] is the pose the serial chain's own forward kinematics reports for configuration [v]; for every row of the batch and every
    joint [n] of the chain, the column (linear, angular) gives the derivative of all 16 entries of that pose with respect to the value of [n]:
    position derivative [lin], rotation derivative [hat ang * R], bottom row zero ([is_jacobian], Deriv.v and JacMore.v). *)
Theorem C14_jacobian_is_derivative : forall (nan : R) is_nan (root r : mframe) c rn p fs vs,
  chain_init mops root = Ok c -> distinct_joints root -> distinct_frames root -> clean_names root -> rigid_tree root ->
  root_path root (p ++ [r]) -> ((rn = "" /\ r = root) \/ (rn <> "" /\ rn = f_name r)) -> root_path r (r :: fs) ->
  exists s E Js, serial_init mops zax c (f_name (last (r :: fs) r)) rn = Ok s /\
    (forall v, serial_fk_end mops nan is_nan s (InTensor (T1 (map v (c_names (s_chain s))))) = Ok [E v]) /\
    jacobian s (InTensor (T2 (length (c_names (s_chain s))) (map (fun v => map v (c_names (s_chain s))) vs))) None = Ok (Js, map E vs) /\
    length Js = length vs /\
    forall b v J, nth_error vs b = Some v -> nth_error Js b = Some J -> is_jacobian E (c_names (s_chain s)) v J.
Proof. exact l14_jacobian_is_derivative. Qed.
Print Assumptions C14_jacobian_is_derivative.

(** C14: a vector, or a nested list or numpy array, gives the same result as the tensor with those rows. *)
Theorem C14_input_forms : forall (s : schain M4 V3) t row n rows,
  jacobian s (InList (T2 n rows)) t = jacobian s (InTensor (T2 n rows)) t /\
  jacobian s (InNumpy (T2 n rows)) t = jacobian s (InTensor (T2 n rows)) t /\
  jacobian s (InTensor (T1 row)) t = jacobian s (InTensor (T2 (length row) [row])) t /\
  jacobian s (InList (T1 row)) t = jacobian s (InTensor (T2 (length row) [row])) t /\
  jacobian s (InNumpy (T1 row)) t = jacobian s (InTensor (T2 (length row) [row])) t.
Proof. exact l14_input_forms. Qed.
Print Assumptions C14_input_forms.

(** C14: the docstring offers dictionaries, which forward kinematics accepts; the Jacobian refuses them. *)
Theorem C14_dict_refuted : exists (root : mframe) c s d T, chain_init mops root = Ok c /\ serial_init mops zax c "hand" "" = Ok s /\
  serial_fk_end mops 0%R (fun _ => false) s (InDict d) = Ok [T] /\ jacobian s (InDict d) None = Err RuntimeError.
Proof. exact l14_dict_refuted. Qed.
Print Assumptions C14_dict_refuted.

(** the hand of the example robot at j1 = pi/2, j2 = 5: the shoulder turns it about z, the elbow slides it along the tilted axis *)
Example C14_example : exists c s T, chain_init mops ex_robot = Ok c /\ serial_init mops zax c "hand" "" = Ok s /\
  jacobian s (InList (T1 [(PI / 2)%R; 5%R])) None =
    Ok ([[(mkV3 (-4) 0 0, mkV3 0 0 1); (mkV3 0 (3/5) (4/5), mkV3 0 0 0)]], [T]) /\ trp T = mkV3 0 6 5.
Proof.
  destruct ex_chain as (c & Hc). pose (fs := [ex_shoulder; ex_elbow; ex_hand]).
  assert (Hp : root_path ex_robot (ex_robot :: fs)) by exact ex_path_hand.
  assert (Hin : In ex_robot (preorder ex_robot)) by (left; reflexivity).
  destruct (serial_ok mops zax ex_robot c "" ex_robot fs Hc ex_distinct_frames ex_clean) as (s & Hs & Ht); [left; auto | exact Hp |].
  exists c, s, (pose ex_config fs). split; [exact Hc|]. split; [exact Hs|].
  assert (Ehand : trp (pose ex_config fs) = mkV3 0 6 5).
  { rewrite <- ex_hand_pose. change [ex_robot; ex_shoulder; ex_elbow; ex_hand] with (ex_robot :: fs). rewrite (pose_cons _ ex_robot).
    unfold rel_pose at 1, joint_motion, ex_robot. cbn -[m4mul I4 path_pose]. rewrite !m4mul_1_l. reflexivity. }
  split; [|exact Ehand].
  etransitivity; [exact (jacobian_tensor_eq ex_robot ex_robot fs s [ex_config] Hin ex_distinct_joints ex_distinct_frames ex_clean Hp Ht)|].
  cbn [map]. unfold fs. rewrite ex_cols. change [ex_shoulder; ex_elbow; ex_hand] with fs. rewrite Ehand.
  assert (H3 : vcross (mkV3 0 0 1) (vsub (mkV3 0 6 5) (mkV3 0 2 0)) = mkV3 (-4) 0 0) by (lin_simpl; apply mkV3_eq; ring).
  rewrite H3. reflexivity.
Qed.

(** C15.  One tool per row, or one tool for all rows; [tools] is the tool of each row.  The Jacobian is that of the tool pose [E v * m], and
    the returned pose is that product. *)
Theorem C15_jacobian_with_tool : forall (nan : R) is_nan (root r : mframe) c rn p fs vs t tools,
  chain_init mops root = Ok c -> distinct_joints root -> distinct_frames root -> clean_names root -> rigid_tree root ->
  root_path root (p ++ [r]) -> ((rn = "" /\ r = root) \/ (rn <> "" /\ rn = f_name r)) -> root_path r (r :: fs) ->
  (t = ToolT tools \/ exists m, t = ToolT [m] /\ tools = repeat m (length vs)) -> length tools = length vs -> (forall m, In m tools -> affine m) ->
  exists s E Js Ts, serial_init mops zax c (f_name (last (r :: fs) r)) rn = Ok s /\
    (forall v, serial_fk_end mops nan is_nan s (InTensor (T1 (map v (c_names (s_chain s))))) = Ok [E v]) /\
    calc_jacobian s (InTensor (T2 (length (c_names (s_chain s))) (map (fun v => map v (c_names (s_chain s))) vs))) (Some t) = Ok (Js, Ts) /\
    length Js = length vs /\ length Ts = length vs /\
    forall b v m, nth_error vs b = Some v -> nth_error tools b = Some m ->
      nth_error Ts b = Some (m4mul (E v) m) /\
      exists J, nth_error Js b = Some J /\ is_jacobian (fun v => m4mul (E v) m) (c_names (s_chain s)) v J.
Proof. exact l15_jacobian_with_tool. Qed.
Print Assumptions C15_jacobian_with_tool.

(** C15: offset positions act as pure translations of the end effector. *)
Theorem C15_positions : forall (s : schain M4 V3) i ps, jacobian s i (Some (ToolPos ps)) = jacobian s i (Some (ToolT (map (fun p => aff I3 p) ps))).
Proof. exact l15_positions. Qed.
Print Assumptions C15_positions.

(** C15 fails for one configuration and several tools: the product of poses broadcasts, the correction does not. *)
Theorem C15_several_tools_refuted : exists (root : mframe) c s i tools X, chain_init mops root = Ok c /\
  serial_init mops zax c "hand" "" = Ok s /\ jacobian s i None = Ok X /\ (forall m, In m tools -> is_rigid m) /\
  jacobian s i (Some (ToolT tools)) = Err RuntimeError.
Proof. exact l15_several_tools_refuted. Qed.
Print Assumptions C15_several_tools_refuted.

(** a tool point one unit along the hand's first axis, given as a position: the shoulder now moves it by 5 *)
Example C15_example : exists c s T, chain_init mops ex_robot = Ok c /\ serial_init mops zax c "hand" "" = Ok s /\
  jacobian s (InList (T1 [(PI / 2)%R; 5%R])) (Some (ToolPos [mkV3 1 0 0])) =
    Ok ([[(mkV3 (-5) 0 0, mkV3 0 0 1); (mkV3 0 (3/5) (4/5), mkV3 0 0 0)]], [T]) /\ trp T = mkV3 0 7 5.
Proof.
  destruct ex_chain as (c & Hc). pose (fs := [ex_shoulder; ex_elbow; ex_hand]).
  assert (Hp : root_path ex_robot (ex_robot :: fs)) by exact ex_path_hand.
  assert (Hin : In ex_robot (preorder ex_robot)) by (left; reflexivity).
  destruct (serial_ok mops zax ex_robot c "" ex_robot fs Hc ex_distinct_frames ex_clean) as (s & Hs & Ht); [left; auto | exact Hp |].
  exists c, s, (m4mul (pose ex_config fs) (aff I3 (mkV3 1 0 0))). split; [exact Hc|]. split; [exact Hs|].
  assert (Ehand : trp (m4mul (pose ex_config fs) (aff I3 (mkV3 1 0 0))) = mkV3 0 7 5) by (unfold fs; rewrite ex_hand_aff, aff_mul, trp_aff; lin_simpl; apply mkV3_eq; ring).
  split; [|exact Ehand].
  etransitivity; [exact (jacobian_tool_eq ex_robot ex_robot fs s [ex_config] Hin ex_distinct_joints ex_distinct_frames ex_clean Hp Ht
    (InList (T1 [(PI / 2)%R; 5%R])) (ToolPos [mkV3 1 0 0]) [aff I3 (mkV3 1 0 0)] eq_refl eq_refl)|].
  cbn [zip_with]. unfold fs. rewrite ex_cols. change [ex_shoulder; ex_elbow; ex_hand] with fs. rewrite Ehand.
  assert (H3 : vcross (mkV3 0 0 1) (vsub (mkV3 0 7 5) (mkV3 0 2 0)) = mkV3 (-5) 0 0) by (lin_simpl; apply mkV3_eq; ring).
  rewrite H3. reflexivity.
Qed.

(** C16.  [W v i] is the pose the forward pass stores in slot [i].  For a batch of configurations [vs] and upstream gradients [Gs] (one matrix
    per frame and row, all 16 entries), entry [j] of row [b] of the result is the derivative of the sum of products of gradient and pose entries
    with respect to the value of joint [j], all other joints fixed. *)
Theorem C16_backward_is_vjp : forall (root : mframe) c, chain_init mops root = Ok c -> distinct_joints root -> rigid_tree root ->
  exists W : config (S := R) -> nat -> M4,
    (forall vs, forward_kinematics_tensor mops c (config_tensor root vs) = Ok (map (fun i => Some (map (fun v => W v i) vs)) (seq 0 (size root)))) /\
    forall (vs : list (config (S := R))) (Gs : list (nat -> M4)), length Gs = length vs ->
    exists g, backward c (length vs) (map (fun i => map (fun v => W v i) vs) (seq 0 (size root))) (map (fun i => map (fun G => G i) Gs) (seq 0 (size root))) = Ok g /\
      length g = length vs /\
      forall b v G row, nth_error vs b = Some v -> nth_error Gs b = Some G -> nth_error g b = Some row ->
        length row = length (c_names c) /\
        forall j n x, nth_error (c_names c) j = Some n -> nth_error row j = Some x ->
          is_derive (fun q => rsum (map (fun i => frob (G i) (W (upd v n q) i)) (seq 0 (size root)))) (v n) x.
Proof. exact l16_backward_is_vjp. Qed.
Print Assumptions C16_backward_is_vjp.

(** C16: the ancestor mask used by the backward pass.  Entry (joint of [g], frame [f]) is true exactly if [g] lies on the path to [f]. *)
Theorem C16_ancestor_mask : forall (root : mframe) c fs f g, chain_init mops root = Ok c -> distinct_joints root -> distinct_frames root ->
  clean_names root -> root_path root (fs ++ [f]) -> In g (preorder root) -> moving g = true ->
  exists i j row, dget String.eqb (f_name f) (c_f2i c) = Some i /\ nth_error (c_names c) j = Some (j_name (f_joint g)) /\
    nth_error (c_mask c) j = Some row /\ length row = size root /\
    (nth_error row i = Some true <-> In g (fs ++ [f])) /\ (nth_error row i = Some false <-> ~ In g (fs ++ [f])).
Proof. exact l16_ancestor_mask. Qed.
Print Assumptions C16_ancestor_mask.

(** one revolute joint at angle 0 and a gradient on the entry sin: the result is cos 0 *)
Example C16_example : exists c g, chain_init mops (Frame "a" (mkLink None None) (mkJoint (Some "j") None Revolute zax None None None) []) = Ok c /\
  forward_kinematics_tensor mops c (mkTh 1 [[0%R]]) = Ok [Some [I4]] /\
  backward c 1 [[I4]] [[mkM4 0 0 0 0 1 0 0 0 0 0 0 0 0 0 0 0]] = Ok [[g]] /\ g = 1%R.
Proof.
  set (a := Frame "a" _ _ []). destruct (chain_init_ok mops a) as (c & Hc & HC).
  assert (Hdj : distinct_joints a) by (repeat constructor; auto).
  assert (Hrt : rigid_tree a) by (intros f [<-|[]]; repeat split; simpl; auto using zax_unit).
  assert (Hw : wpose a c (fun _ => 0%R) 0 = I4).
  { unfold wpose. destruct (par_spec a c HC 0 _ (items_root a)) as [-> _]. cbn -[path_pose]. change (fr a 0) with a. rewrite pose_cons, pose_nil, m4mul_1_r.
    unfold rel_pose, joint_motion, a. cbn -[m4mul I4 axis_and_angle_to_matrix_44]. rewrite !m4mul_1_l, rot44_aff.
    unfold axis_and_angle_to_matrix_33, zax. cbn [vx vy vz]. rewrite cos_0, sin_0. unfold aff, vzero. lin_simpl. apply mkM4_eq; ring. }
  pose proof (fk_tensor_poses a c HC Hdj [fun _ => 0%R]) as H1. change (seq 0 (size a)) with [0] in H1. cbn [map] in H1. rewrite Hw in H1.
  pose proof (backward_eq a c HC Hdj [fun _ => 0%R] [fun _ => mkM4 0 0 0 0 1 0 0 0 0 0 0 0 0 0 0 0] eq_refl) as H2.
  change (seq 0 (size a)) with [0] in H2. cbn [map length zip_with] in H2. rewrite Hw in H2.
  destruct (dof_tables_list a c HC Hdj) as (_ & _ & Hb & En). rewrite (ct_names _ _ _ HC) in En.
  destruct (c_dof_frame c) as [|d [|d' l]] eqn:Ed; try discriminate En. destruct (Hb d (or_introl eq_refl)) as [Hd _]. cbn in Hd. assert (d = 0) by lia. subst d.
  exists c. eexists. split; [exact Hc|]. split; [exact H1|]. split; [rewrite H2; reflexivity|].
  unfold grad_of, dpose, mask_of. change (seq 0 (size a)) with [0]. cbn [map rsum].
  destruct (par_spec a c HC 0 _ (items_root a)) as [E0 _]. cbn in E0. rewrite E0, Hw. cbn [existsb Nat.eqb orb]. change (fr a 0) with a.
  change (j_type (f_joint a)) with Revolute. change (j_axis (f_joint a)) with zax. cbn [geo].
  change (rotp I4) with I3. change (trp I4) with vzero. rewrite m3mul_1_r.
  assert (Hz : m3vec I3 zax = zax) by (unfold zax; lin_simpl; apply mkV3_eq; ring). rewrite Hz.
  unfold frob, lin4, hatm, zax. cbn [a00 a01 a02 a03 a10 a11 a12 a13 a20 a21 a22 a23 a30 a31 a32 a33 m00 m01 m02 m10 m11 m12 m20 m21 m22 vx vy vz]. ring.
Qed.
