(** C01 - C10, C17, C18, C57, C58: forward kinematics and the chain API. *)
From Coq Require Import Reals Lra String Bool Arith Lia List Permutation Sorted.
From Verif Require Import Prelude ExtF Tree ChainModel SpecFK ChainProofs ChainTables Lin Trig RotModel RotBasic ChainInst
  FKMore TreeQueries Input ChainClamp Widths Examples FKFindings.
From Verif Require Import FKFinal.
Import ListNotations.
Local Open Scope nat_scope.
Local Open Scope string_scope.
Local Open Scope list_scope.


(** C01.  Every tensor of the right width is the tensor of some configurations. *)
Theorem C01_tensor_is_configs : forall (root : mframe) (rows : list (list R)),
  distinct_joints root -> (forall r, In r rows -> length r = length (moving_names root)) ->
  exists vs, mkTh (length (moving_names root)) rows = config_tensor root vs /\ length vs = length rows.
Proof. exact (tensor_configs 0%R). Qed.
Print Assumptions C01_tensor_is_configs.

(** C01, tensor interface: one filled slot per frame, holding the ordered product along the root path. *)
Theorem C01_fk_tensor_is_path_product : forall (root : mframe) c vs,
  distinct_joints root -> chain_init mops root = Ok c ->
  exists arr, forward_kinematics_tensor mops c (config_tensor root vs) = Ok arr /\
    length arr = size root /\ (forall i, i < size root -> exists w, nth_error arr i = Some (Some w)) /\
    forall fs f, root_path root (fs ++ [f]) ->
      exists i, i < size root /\ dget Nat.eqb i (c_i2f c) = Some (strip_nl (f_name f)) /\
        nth_error arr i = Some (Some (map (fun v => path_pose mops v (fs ++ [f])) vs)).
Proof. exact (fun root c vs => fk_tensor_spec mops root c vs mlaws). Qed.
Print Assumptions C01_fk_tensor_is_path_product.

(** C01, named interface: one entry per frame. *)
Theorem C01_fk_is_path_product : forall (root : mframe) c vs,
  distinct_joints root -> distinct_frames root -> clean_names root -> chain_init mops root = Ok c ->
  exists d, forward_kinematics mops c (config_tensor root vs) None = Ok d /\
    map fst d = map f_name (preorder root) /\
    forall fs f, root_path root (fs ++ [f]) ->
      dget String.eqb (f_name f) d = Some (map (fun v => path_pose mops v (fs ++ [f])) vs).
Proof. exact (fun root c vs => fk_all_spec mops root c vs mlaws). Qed.
Print Assumptions C01_fk_is_path_product.

(** C01, with a selection of frames. *)
Theorem C01_fk_of_selected_frames : forall (root : mframe) c vs ns,
  distinct_joints root -> distinct_frames root -> clean_names root -> chain_init mops root = Ok c ->
  (forall n, In n ns -> In n (map f_name (preorder root))) ->
  exists idxs d, get_frame_indices c ns = Ok idxs /\
    forward_kinematics mops c (config_tensor root vs) (Some idxs) = Ok d /\
    (forall n, In n (map fst d) <-> In n ns) /\ (NoDup ns -> map fst d = ns) /\
    forall fs f, root_path root (fs ++ [f]) -> In (f_name f) ns ->
      dget String.eqb (f_name f) d = Some (map (fun v => path_pose mops v (fs ++ [f])) vs).
Proof. exact (fun root c vs ns => fk_names_spec mops root c vs ns mlaws). Qed.
Print Assumptions C01_fk_of_selected_frames.

(** building a chain never fails *)
Theorem C01_chain_always_builds : forall root : mframe, exists c, chain_init mops root = Ok c.
Proof. exact (fun root => match chain_init_ok mops root with ex_intro _ c (conj H _) => ex_intro _ c H end). Qed.
Print Assumptions C01_chain_always_builds.

Example C01_example : exists c d, chain_init mops ex_robot = Ok c /\
  forward_kinematics mops c (config_tensor ex_robot [ex_config]) None = Ok d /\
  exists M, dget String.eqb "hand" d = Some [M] /\ trp M = mkV3 0 6 5.
Proof.
  destruct ex_chain as [c Hc].
  destruct (C01_fk_is_path_product ex_robot c [ex_config] ex_distinct_joints ex_distinct_frames ex_clean Hc) as (d & Hd & _ & H).
  exists c, d. split; [exact Hc|]. split; [exact Hd|].
  specialize (H _ _ ex_path_hand). eexists. split; [exact H|]. exact ex_hand_pose.
Qed.

(** C02: row b of a batch result is the result of row b alone, for every chain value and every width. *)
Theorem C02_batch_rows_independent : forall (c : chain M4 V3) n rows b r arr,
  nth_error rows b = Some r -> forward_kinematics_tensor mops c (mkTh n rows) = Ok arr ->
  exists arr1, forward_kinematics_tensor mops c (mkTh n [r]) = Ok arr1 /\ length arr1 = length arr /\
    forall i w, nth_error arr i = Some (Some w) ->
      nth_error arr1 i = Some (Some (match nth_error w b with Some M => [M] | None => [] end)).
Proof.
  exact (fun c n rows b r arr Hb H =>
    ex_intro _ (map (option_map (sel b)) arr)
      (conj (fk_row mops c n rows b r arr Hb H)
        (conj (map_length _ _) (fun i w Hi => nth_error_map_some (option_map (sel b)) _ _ _ Hi)))).
Qed.
Print Assumptions C02_batch_rows_independent.

(** C02, for a tree: evaluating a batch equals evaluating the configurations one at a time. *)
Theorem C02_batch_is_rowwise : forall (root : mframe) c vs b v fs f,
  distinct_joints root -> distinct_frames root -> clean_names root -> chain_init mops root = Ok c ->
  nth_error vs b = Some v -> root_path root (fs ++ [f]) ->
  exists d d1 ws w, forward_kinematics mops c (config_tensor root vs) None = Ok d /\
    forward_kinematics mops c (config_tensor root [v]) None = Ok d1 /\
    dget String.eqb (f_name f) d = Some ws /\ dget String.eqb (f_name f) d1 = Some [w] /\
    length ws = length vs /\ nth_error ws b = Some w.
Proof. exact l02_batch_is_rowwise. Qed.
Print Assumptions C02_batch_is_rowwise.

(** C03: every reported matrix is rigid. *)
Theorem C03_fk_rigid : forall (root : mframe) c vs,
  rigid_tree root -> distinct_joints root -> distinct_frames root -> clean_names root -> chain_init mops root = Ok c ->
  exists d, forward_kinematics mops c (config_tensor root vs) None = Ok d /\
    forall f, In f (preorder root) -> exists ws, dget String.eqb (f_name f) d = Some ws /\
      length ws = length vs /\ forall M, In M ws -> is_rigid M.
Proof. exact l03_fk_rigid. Qed.
Print Assumptions C03_fk_rigid.
(** C03: joints made by the constructor have unit axes (unless the given axis is zero). *)
Theorem C03_joint_axis_unit : forall name off ty axis lim vlim elim j,
  joint_init name off ty axis lim vlim elim = Ok j -> axis <> Some vzero -> unit3 (j_axis j).
Proof. exact joint_init_unit. Qed.
Print Assumptions C03_joint_axis_unit.
Example C03_example : rigid_tree ex_robot /\ distinct_joints ex_robot /\ distinct_frames ex_robot /\ clean_names ex_robot.
Proof. exact (conj ex_rigid (conj ex_distinct_joints (conj ex_distinct_frames ex_clean))). Qed.

(** C04 *)
Theorem C04_joint_moves_exactly_its_subtree : forall (root : mframe) c (g : mframe) v v',
  rigid_tree root -> distinct_joints root -> distinct_frames root -> clean_names root ->
  chain_init mops root = Ok c -> In g (preorder root) -> moving g = true ->
  (forall n, n <> j_name (f_joint g) -> v n = v' n) ->
  exists d d', forward_kinematics mops c (config_tensor root [v]) None = Ok d /\
    forward_kinematics mops c (config_tensor root [v']) None = Ok d' /\
    (forall f, In f (preorder root) -> ~ In f (preorder g) ->
       dget String.eqb (f_name f) d = dget String.eqb (f_name f) d') /\
    exists M, is_rigid M /\ forall f, In f (preorder g) ->
       exists X, dget String.eqb (f_name f) d = Some [X] /\ dget String.eqb (f_name f) d' = Some [m4mul M X].
Proof. exact joint_moves_subtree. Qed.
Print Assumptions C04_joint_moves_exactly_its_subtree.
Example C04_example : In ex_elbow (preorder ex_robot) /\ moving ex_elbow = true /\ ~ In ex_head (preorder ex_elbow).
Proof. split; [simpl; auto|]. split; [reflexivity|]. simpl. intros [H|[H|[]]]; discriminate. Qed.

(** C05 *)
Theorem C05_revolute_geometry : forall k, unit3 k -> forall a b (z : Z),
  axis_and_angle_to_matrix_44 k 0 = I4 /\
  m4mul (axis_and_angle_to_matrix_44 k a) (axis_and_angle_to_matrix_44 k b) = axis_and_angle_to_matrix_44 k (a + b) /\
  axis_and_angle_to_matrix_44 k (a + 2 * IZR z * PI) = axis_and_angle_to_matrix_44 k a /\
  m3vec (rotp (axis_and_angle_to_matrix_44 k a)) k = k /\ trp (axis_and_angle_to_matrix_44 k a) = vzero /\
  (* a vector orthogonal to the axis turns by the angle, right-handed *)
  (forall u, vdot k u = 0%R -> m3vec (rotp (axis_and_angle_to_matrix_44 k a)) u
      = vadd (vscale (cos a) u) (vscale (sin a) (vcross k u))).
Proof. exact l05_revolute_geometry. Qed.
Print Assumptions C05_revolute_geometry.
Theorem C05_prismatic_geometry : forall k a b,
  axis_and_d_to_pris_matrix k 0 = I4 /\
  m4mul (axis_and_d_to_pris_matrix k a) (axis_and_d_to_pris_matrix k b) = axis_and_d_to_pris_matrix k (a + b) /\
  rotp (axis_and_d_to_pris_matrix k a) = I3 /\ trp (axis_and_d_to_pris_matrix k a) = vscale a k.
Proof. exact l05_prismatic_geometry. Qed.
Print Assumptions C05_prismatic_geometry.
(** C05: [Frame.get_transform] is the same joint transform that forward kinematics uses *)
Theorem C05_get_transform : forall (f : mframe) (vs : list config),
  map (m4mul (or_one mops (l_off (f_link f)))) (frame_get_transform f (map (fun c : config => c (j_name (f_joint f))) vs))
  = map (fun c => rel_pose mops c f) vs.
Proof. exact (fun f vs => get_transform_rel f vs _ eq_refl). Qed.
Print Assumptions C05_get_transform.
Example C05_example : unit3 tax. Proof. exact tax_unit. Qed.

(** C06 *)
Theorem C06_frame_indexing : forall (root : mframe) c, distinct_frames root -> clean_names root ->
  chain_init mops root = Ok c ->
  c_nf c = size root /\
  (forall n i, dget String.eqb n (c_f2i c) = Some i <-> dget Nat.eqb i (c_i2f c) = Some n) /\
  (forall i, i < size root <-> exists n, dget Nat.eqb i (c_i2f c) = Some n) /\
  (forall n, In n (map f_name (preorder root)) <-> exists i, dget String.eqb n (c_f2i c) = Some i) /\
  (forall fs f, root_path root (fs ++ [f]) ->
     exists i is, dget String.eqb (f_name f) (c_f2i c) = Some i /\
       nth_error (c_parents c) i = Some (is ++ [i]) /\
       map (fun k => dget Nat.eqb k (c_i2f c)) (is ++ [i]) = map (fun g => Some (f_name g)) (fs ++ [f]) /\
       StronglySorted lt (is ++ [i])).
Proof. exact (frame_index_spec mops). Qed.
Print Assumptions C06_frame_indexing.
Example C06_example : distinct_frames ex_robot /\ clean_names ex_robot /\ size ex_robot = 5.
Proof. exact (conj ex_distinct_frames (conj ex_clean eq_refl)). Qed.

(** C07 *)
Theorem C07_columns : forall (root : mframe) c, distinct_joints root -> chain_init mops root = Ok c ->
  c_names c = moving_names root /\ NoDup (c_names c) /\
  forall f, In f (preorder root) -> moving f = true ->
    exists j i, nth_error (c_names c) j = Some (j_name (f_joint f)) /\
      nth_error (c_axes c) j = Some (j_axis (f_joint f)) /\
      nth_error (c_low c) j = Some (match j_lim (f_joint f) with Some (l, _) => l | None => NInf end) /\
      nth_error (c_high c) j = Some (match j_lim (f_joint f) with Some (_, h) => h | None => PInf end) /\
      dget Nat.eqb i (c_i2f c) = Some (strip_nl (f_name f)) /\
      nth_error (c_jidx c) i = Some (Some j) /\
      nth_error (c_dof_frame c) j = Some i /\
      nth_error (c_dof_rev c) j = Some (jtype_eqb (j_type (f_joint f)) Revolute).
Proof. exact (column_spec mops). Qed.
Print Assumptions C07_columns.
Example C07_example : distinct_joints ex_robot /\ moving_names ex_robot = [Some "j1"; Some "j2"; Some "j3"].
Proof. exact (conj ex_distinct_joints eq_refl). Qed.
(** C07 fails for repeated joint names: one of two columns has no effect, and a joint turns about the other's axis *)
Theorem C07_repeated_names_refuted : exists root c, chain_init mops root = Ok c /\
  length (moving_names root) = 2 /\ length (c_names c) = 2 /\
  (forall q0 q1 q1', forward_kinematics_tensor mops c (mkTh 2 [[q0; q1]]) =
                     forward_kinematics_tensor mops c (mkTh 2 [[q0; q1']])) /\
  exists f q0 q1 arr, root_path root [root; f] /\ j_axis (f_joint f) = zax /\
    forward_kinematics_tensor mops c (mkTh 2 [[q0; q1]]) = Ok arr /\
    nth_error arr 1 = Some (Some [axis_and_angle_to_matrix_44 xax q0]) /\
    path_pose mops (fun _ => q0) [root; f] <> axis_and_angle_to_matrix_44 xax q0.
Proof. exact repeated_names. Qed.
Print Assumptions C07_repeated_names_refuted.

(** C08: the default gives exactly the moving joints, in depth-first order *)
Theorem C08_get_joints_default : forall root : mframe,
  get_joints true root = map f_joint (filter moving (preorder root)) /\
  get_joint_parameter_names true root = map (fun f => j_name (f_joint f)) (filter moving (preorder root)).
Proof. exact (fun root => conj (get_joints_true root) (joint_names_spec root)). Qed.
Print Assumptions C08_get_joints_default.
(** what exclude_fixed=False really returns: moving joints strictly below the root *)
Theorem C08_get_joints_all_actual : forall root : mframe,
  get_joints false root = map f_joint (filter moving (flat_map preorder (f_children root))).
Proof. exact get_joints_false. Qed.
Print Assumptions C08_get_joints_all_actual.
Theorem C08_get_joints_all_refuted : exists root : mframe, get_joints false root <> map f_joint (preorder root) /\
  (exists f, In f (preorder root) /\ moving f = true /\ ~ In (f_joint f) (get_joints false root)) /\
  (exists f, In f (preorder root) /\ moving f = false /\ ~ In (f_joint f) (get_joints false root)).
Proof. exact joints_incomplete. Qed.
Print Assumptions C08_get_joints_all_refuted.

(** C09: dictionaries of numbers and of batched values give the same result as the tensor *)
Theorem C09_dict_numbers : forall (T A S : Type) (O : Ops T A S) (nan : S) (is_nan : S -> bool)
  (root : frame T A) c (v : config) d idxs,
  distinct_joints root -> chain_init O root = Ok c -> d <> [] ->
  NoDup (map fst d) -> (forall k, In k (map fst d) <-> In k (moving_names root)) ->
  (forall k x, In (k, x) d -> x = DS (v k) /\ is_nan (v k) = false) ->
  fk_any nan is_nan O c (InDict d) idxs = forward_kinematics O c (config_tensor root [v]) idxs.
Proof. exact (fun T A S => @fk_dict_numbers T A S). Qed.
Print Assumptions C09_dict_numbers.
Theorem C09_dict_batch : forall (T A S : Type) (O : Ops T A S) (nan : S) (is_nan : S -> bool)
  (root : frame T A) c (vs : list config) d idxs,
  distinct_joints root -> chain_init O root = Ok c -> d <> [] ->
  NoDup (map fst d) -> (forall k, In k (map fst d) <-> In k (moving_names root)) ->
  (forall k x, In (k, x) d -> x = DV (map (fun v => v k) vs) /\ (forall v, In v vs -> is_nan (v k) = false)) ->
  fk_any nan is_nan O c (InDict d) idxs = forward_kinematics O c (config_tensor root vs) idxs.
Proof. exact (fun T A S => @fk_dict_batch T A S). Qed.
Print Assumptions C09_dict_batch.
Theorem C09_vector_forms : forall (T A S : Type) (O : Ops T A S) (nan : S) (is_nan : S -> bool) (c : chain T A) l idxs,
  fk_any nan is_nan O c (InList (T1 l)) idxs = fk_any nan is_nan O c (InTensor (T2 (length l) [l])) idxs /\
  fk_any nan is_nan O c (InNumpy (T1 l)) idxs = fk_any nan is_nan O c (InTensor (T2 (length l) [l])) idxs /\
  fk_any nan is_nan O c (InTensor (T1 l)) idxs = fk_any nan is_nan O c (InTensor (T2 (length l) [l])) idxs.
Proof. exact (fun T A S O nan is_nan c l idxs => conj eq_refl (conj eq_refl eq_refl)). Qed.
Print Assumptions C09_vector_forms.
(** an unknown joint name is rejected *)
Theorem C09_unknown_rejected : forall (S : Type) (nan : S) (is_nan : S -> bool) names d,
  (exists k, In k (map fst d) /\ ~ In k names) ->
  (forall k v, In (k, v) d -> fits (match first_batch d with Some b => b | None => 1 end) v) ->
  ensure_dict nan is_nan names d = Err ValueError.
Proof. exact (fun S => @ensure_dict_unknown S). Qed.
Print Assumptions C09_unknown_rejected.
(** a missing joint is rejected *)
Theorem C09_missing_rejected : forall (S : Type) (nan : S) (is_nan : S -> bool) names d, is_nan nan = true ->
  NoDup names -> NoDup (map fst d) -> d <> [] ->
  (forall k, In k (map fst d) -> In k names) ->
  (exists k, In k names /\ ~ In k (map fst d)) ->
  let B := match first_batch d with Some b => b | None => 1 end in
  B <> 0 -> (forall k v, In (k, v) d -> fits B v) ->
  exists e, ensure_dict nan is_nan names d = Err e /\ (e = ValueError \/ e = TypeError) /\
    ((forall k, In k names -> k <> None) -> e = ValueError).
Proof. exact (fun S => @ensure_dict_missing S). Qed.
Print Assumptions C09_missing_rejected.
Theorem C09_zero_fill_refuted : exists names (d : dict (option string) (dval F)),
  NoDup names /\ (forall k, In k (map fst d) -> In k names) /\
  ensure_dict NaN isnan names d <> Ok (T1 [Fin 1; Fin 0]) /\
  names = [Some "j1"; Some "j2"] /\ d = [(Some "j1", DS (Fin 1))] /\
  ensure_dict NaN isnan names d = Err ValueError.
Proof. exact no_zero_fill. Qed.
Print Assumptions C09_zero_fill_refuted.
(** a complete dictionary, keys in another order than the joints *)
Example C09_example : ensure_dict NaN isnan [Some "j1"; Some "j2"; Some "j3"]
  [(Some "j3", DV [Fin 3; Fin 6]); (Some "j1", DS (Fin 1)); (Some "j2", DV [Fin 2; Fin 5])]
  = Ok (T2 3 [[Fin 1; Fin 2; Fin 3]; [Fin 1; Fin 5; Fin 6]]).
Proof. reflexivity. Qed.

(** C10 *)
Theorem C10_clamp : forall (root : mframe) c row, chain_init mops root = Ok c -> ordered_limits root ->
  length row = length (moving_names root) -> (forall x, In x row -> x <> NaN) ->
  exists row', clamp c (InTensor (T1 row)) = Ok (T1 row') /\ within root row' /\
    (within root row -> row' = row) /\
    clamp c (InTensor (T1 row')) = Ok (T1 row') /\
    (forall j f x, nth_error (filter moving (preorder root)) j = Some f -> nth_error row j = Some x ->
       (j_lim (f_joint f) = None -> nth_error row' j = Some x) /\
       (fle (lim_lo f) x = true -> fle x (lim_hi f) = true -> nth_error row' j = Some x) /\
       (flt x (lim_lo f) = true -> nth_error row' j = Some (lim_lo f)) /\
       (flt (lim_hi f) x = true -> nth_error row' j = Some (lim_hi f))).
Proof. exact l10_clamp. Qed.
Print Assumptions C10_clamp.
(** C10, batches: each row is clamped on its own *)
Theorem C10_clamp_batch : forall (root : mframe) c rows, chain_init mops root = Ok c -> ordered_limits root ->
  (forall r, In r rows -> length r = length (moving_names root) /\ forall x, In x r -> x <> NaN) ->
  exists w rows', clamp c (InTensor (T2 (length (moving_names root)) rows)) = Ok (T2 w rows') /\
    Forall2 (fun r r' => clamp c (InTensor (T1 r)) = Ok (T1 r') /\ within root r') rows rows'.
Proof. exact l10_clamp_batch. Qed.
Print Assumptions C10_clamp_batch.
Example C10_example : ordered_limits ex_robot.
Proof.
  intros f l h H Hm E; simpl in H.
  repeat (destruct H as [<-|H]; [simpl in *; try discriminate; inversion E; subst; simpl; apply Rleb_true; lra|]). contradiction.
Qed.

(** C17 *)
Theorem C17_printed_tree : forall root : mframe, Lines (with_depth 0 root) (print_tree root) /\
  map snd (with_depth 0 root) = preorder root /\
  (forall k g, In (k, g) (with_depth 0 root) -> exists fs, root_path root (fs ++ [g]) /\ k = length fs).
Proof. exact (fun root => conj (print_tree_lines root) (conj (with_depth_snd root 0) (with_depth_path root 0))). Qed.
Print Assumptions C17_printed_tree.
Theorem C17_line_count : forall root : mframe, (forall f, In f (preorder root) -> no_nl f) ->
  count_occ BinNat.N.eq_dec (print_tree root) nl = size root.
Proof. exact l17_line_count. Qed.
Print Assumptions C17_line_count.
Example C17_example : print_tree ex_robot =
  (of_str "base" ++ [nl]) ++ (t_tee ++ of_str "shoulder" ++ [nl]) ++
  (t_branch ++ t_last ++ of_str "elbow" ++ [nl]) ++ (t_branch ++ t_space ++ t_last ++ of_str "hand" ++ [nl]) ++
  (t_last ++ of_str "head" ++ [nl]).
Proof. reflexivity. Qed.

(** C18 *)
Theorem C18_joints_and_child_links : forall root : mframe,
  Permutation (get_joints_and_child_links root)
    (map (fun g => (f_joint g, map f_link (preorder g))) (filter moving (preorder root))).
Proof. exact l18_joints_and_child_links. Qed.
Print Assumptions C18_joints_and_child_links.
(** and the order: a joint comes after the joints below it *)
Theorem C18_order : forall root : mframe,
  get_joints_and_child_links root = map (fun g => (f_joint g, map f_link (preorder g))) (filter moving (postorder root)).
Proof. exact child_links_spec. Qed.
Print Assumptions C18_order.
Example C18_example : map (fun p => (j_name (fst p), map l_name (snd p))) (get_joints_and_child_links ex_robot) =
  [(Some "j2", [Some "fore"; Some "hand"]); (Some "j1", [Some "upper"; Some "fore"; Some "hand"]); (Some "j3", [Some "head"])].
Proof. reflexivity. Qed.

(** C57: joint tensors of the wrong width are rejected... *)
Theorem C57_wrong_width_rejected : forall (root : mframe) c w rows, chain_init mops root = Ok c ->
  moving_names root <> [] -> rows <> [] -> (forall r, In r rows -> length r = w) ->
  w <> length (moving_names root) -> w <> 1 ->
  forward_kinematics_tensor mops c (mkTh w rows) = Err (if Nat.eqb w 0 then UnboundLocalError else RuntimeError).
Proof. exact (fk_bad_width mops). Qed.
Print Assumptions C57_wrong_width_rejected.
(** ...except a single column, which is given to all joints *)
Theorem C57_one_column_refuted : exists (root : mframe) c q arr, chain_init mops root = Ok c /\
  length (moving_names root) = 3 /\ forward_kinematics_tensor mops c (mkTh 1 [[q]]) = Ok arr /\
  forward_kinematics_tensor mops c (mkTh 3 [[q; q; q]]) = Ok arr.
Proof. exact l57_one_column_refuted. Qed.
Print Assumptions C57_one_column_refuted.

(** C58: searches return the first match in depth-first order, lists follow that order without repetition *)
Theorem C58_find : forall (root : mframe),
  (forall n, find_frame n root = find (fun f => String.eqb (f_name f) n) (preorder root)) /\
  (forall n, find_joint n root = option_map f_joint (find (fun f => oseqb (j_name (f_joint f)) n) (preorder root))) /\
  (forall n, find_link n root = option_map f_link (find (fun f => oseqb (l_name (f_link f)) n) (preorder root))) /\
  get_links root = map f_link (preorder root) /\
  get_joint_limits root = (map lim_lo (filter moving (preorder root)), map lim_hi (filter moving (preorder root))).
Proof.
  exact (fun root => conj (fun n => find_frame_spec n root) (conj (fun n => find_joint_spec n root)
    (conj (fun n => find_link_spec n root) (conj (get_links_spec root) (limits_spec root j_lim))))).
Qed.
Print Assumptions C58_find.
Theorem C58_name_lists : forall (root : mframe),
  NoDup (get_frame_names false root) /\ (forall n, In n (get_frame_names false root) <-> In n (map f_name (preorder root))) /\
  NoDup (get_link_names root) /\
  (forall n, In n (get_link_names root) <-> In n (map (fun f => l_name (f_link f)) (preorder root))) /\
  (distinct_frames root -> get_frame_names false root = map f_name (preorder root)).
Proof. exact l58_name_lists. Qed.
Print Assumptions C58_name_lists.
Example C58_example : find_frame "elbow" ex_robot = Some ex_elbow /\ find_frame "nobody" ex_robot = None.
Proof. split; reflexivity. Qed.
