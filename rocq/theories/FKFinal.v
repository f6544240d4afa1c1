(** Last steps of the proofs quoted in Properties_FK.v. *)
From Coq Require Import Reals Lra String Bool Arith Lia List Permutation Sorted.
From Verif Require Import Prelude ExtF Tree ChainModel SpecFK ChainProofs ChainTables Lin Trig RotModel RotBasic ChainInst
  FKMore TreeQueries Input ChainClamp Widths Examples FKFindings.
Import ListNotations.
Local Open Scope nat_scope.
Local Open Scope string_scope.
Local Open Scope list_scope.

Lemma l02_batch_is_rowwise : forall (root : mframe) c vs b v fs f,
  distinct_joints root -> distinct_frames root -> clean_names root -> chain_init mops root = Ok c ->
  nth_error vs b = Some v -> root_path root (fs ++ [f]) ->
  exists d d1 ws w, forward_kinematics mops c (config_tensor root vs) None = Ok d /\
    forward_kinematics mops c (config_tensor root [v]) None = Ok d1 /\
    dget String.eqb (f_name f) d = Some ws /\ dget String.eqb (f_name f) d1 = Some [w] /\
    length ws = length vs /\ nth_error ws b = Some w.
Proof.
  intros root c vs b v fs f Hj Hf Hc Hi Hb Hp.
  destruct (fk_all_spec mops root c vs mlaws Hj Hf Hc Hi) as (d & Hd & _ & H).
  destruct (fk_all_spec mops root c [v] mlaws Hj Hf Hc Hi) as (d1 & Hd1 & _ & H1).
  exists d, d1, (map (fun v => path_pose mops v (fs ++ [f])) vs), (path_pose mops v (fs ++ [f])).
  split; [exact Hd|]. split; [exact Hd1|]. split; [exact (H fs f Hp)|]. split; [exact (H1 fs f Hp)|].
  split; [apply map_length|]. rewrite nth_error_map, Hb. reflexivity.
Qed.

Lemma l03_fk_rigid : forall (root : mframe) c vs,
  rigid_tree root -> distinct_joints root -> distinct_frames root -> clean_names root -> chain_init mops root = Ok c ->
  exists d, forward_kinematics mops c (config_tensor root vs) None = Ok d /\
    forall f, In f (preorder root) -> exists ws, dget String.eqb (f_name f) d = Some ws /\
      length ws = length vs /\ forall M, In M ws -> is_rigid M.
Proof.
  intros root c vs Hr Hj Hf Hc Hi.
  destruct (fk_all_spec mops root c vs mlaws Hj Hf Hc Hi) as (d & Hd & _ & H).
  exists d. split; [exact Hd|]. intros f Hin. destruct (preorder_path root f Hin) as [fs Hp].
  eexists. split; [apply (H fs f Hp)|]. split; [apply map_length|].
  intros M HM. apply in_map_iff in HM as (v & <- & _). eapply pose_rigid; eauto.
Qed.

Lemma l05_revolute_geometry : forall k, unit3 k -> forall a b (z : Z),
  axis_and_angle_to_matrix_44 k 0 = I4 /\
  m4mul (axis_and_angle_to_matrix_44 k a) (axis_and_angle_to_matrix_44 k b) = axis_and_angle_to_matrix_44 k (a + b) /\
  axis_and_angle_to_matrix_44 k (a + 2 * IZR z * PI) = axis_and_angle_to_matrix_44 k a /\
  m3vec (rotp (axis_and_angle_to_matrix_44 k a)) k = k /\ trp (axis_and_angle_to_matrix_44 k a) = vzero /\
  (* a vector orthogonal to the axis turns by the angle, right-handed *)
  (forall u, vdot k u = 0%R -> m3vec (rotp (axis_and_angle_to_matrix_44 k a)) u
      = vadd (vscale (cos a) u) (vscale (sin a) (vcross k u))).
Proof.
  intros k Hk a b z. split; [apply rot44_0|]. split; [apply rot44_add, Hk|]. split; [apply rot44_2pi_Z|].
  rewrite rot44_aff, rotp_aff, trp_aff. split; [apply rot33_axis, Hk|]. split; [reflexivity|].
  intros u Hu. rewrite rot33_vec, Hu by exact Hk. rewrite Rmult_0_r, vscale_0, vadd_0_r. reflexivity.
Qed.

Lemma l05_prismatic_geometry : forall k a b,
  axis_and_d_to_pris_matrix k 0 = I4 /\
  m4mul (axis_and_d_to_pris_matrix k a) (axis_and_d_to_pris_matrix k b) = axis_and_d_to_pris_matrix k (a + b) /\
  rotp (axis_and_d_to_pris_matrix k a) = I3 /\ trp (axis_and_d_to_pris_matrix k a) = vscale a k.
Proof.
  intros k a b. split; [apply pris_0|]. split; [apply pris_add|]. rewrite pris_aff, rotp_aff, trp_aff. auto.
Qed.

Lemma l10_clamp : forall (root : mframe) c row, chain_init mops root = Ok c -> ordered_limits root ->
  length row = length (moving_names root) -> (forall x, In x row -> x <> NaN) ->
  exists row', clamp c (InTensor (T1 row)) = Ok (T1 row') /\ within root row' /\
    (within root row -> row' = row) /\
    clamp c (InTensor (T1 row')) = Ok (T1 row') /\
    (forall j f x, nth_error (filter moving (preorder root)) j = Some f -> nth_error row j = Some x ->
       (j_lim (f_joint f) = None -> nth_error row' j = Some x) /\
       (fle (lim_lo f) x = true -> fle x (lim_hi f) = true -> nth_error row' j = Some x) /\
       (flt x (lim_lo f) = true -> nth_error row' j = Some (lim_lo f)) /\
       (flt (lim_hi f) x = true -> nth_error row' j = Some (lim_hi f))).
Proof.
  intros root c row Hc Ho Hl Hn. destruct (clamp_row_spec mops root c row Hc Ho Hl Hn) as (r & H1 & H2 & H3 & H4 & H5).
  exists r. rewrite !(clamp_vec mops root c) by exact Hc. rewrite H1, H4. auto.
Qed.

Lemma l10_clamp_batch : forall (root : mframe) c rows, chain_init mops root = Ok c -> ordered_limits root ->
  (forall r, In r rows -> length r = length (moving_names root) /\ forall x, In x r -> x <> NaN) ->
  exists w rows', clamp c (InTensor (T2 (length (moving_names root)) rows)) = Ok (T2 w rows') /\
    Forall2 (fun r r' => clamp c (InTensor (T1 r)) = Ok (T1 r') /\ within root r') rows rows'.
Proof.
  intros root c rows Hc Ho H. unfold clamp at 1. cbn [ensure_tensor rbind].
  assert (HE : exists rows', rmap (clamp_row (c_low c) (c_high c)) rows = Ok rows' /\
    Forall2 (fun r r' => clamp c (InTensor (T1 r)) = Ok (T1 r') /\ within root r') rows rows').
  { induction rows as [|r rows IH]; [exists []; split; [reflexivity | constructor]|].
    destruct (H r (or_introl eq_refl)) as [Hl Hn].
    destruct (clamp_row_spec mops root c r Hc Ho Hl Hn) as (r' & H1 & H2 & _).
    destruct IH as (rows' & E & HF); [intros; apply H; right; assumption|].
    exists (r' :: rows'). simpl. rewrite H1. cbn [rbind]. rewrite E. split; [reflexivity|].
    constructor; [|exact HF]. rewrite (clamp_vec mops root c) by exact Hc. rewrite H1. auto. }
  destruct HE as (rows' & E & HF). rewrite E. cbn [rbind]. eauto.
Qed.

Lemma l17_line_count : forall root : mframe, (forall f, In f (preorder root) -> no_nl f) ->
  count_occ BinNat.N.eq_dec (print_tree root) nl = size root.
Proof.
  intros root H. rewrite (count_nl_lines _ _ (print_tree_lines root)).
  - rewrite <- (map_length snd), with_depth_snd. apply preorder_length.
  - intros p Hp. apply H. rewrite <- (with_depth_snd root 0). apply in_map, Hp.
Qed.

Lemma l18_joints_and_child_links : forall root : mframe,
  Permutation (get_joints_and_child_links root)
    (map (fun g => (f_joint g, map f_link (preorder g))) (filter moving (preorder root))).
Proof.
  intros root. rewrite child_links_spec. apply Permutation_map, Permutation_filter', postorder_perm.
Qed.

Lemma l57_one_column_refuted : exists (root : mframe) c q arr, chain_init mops root = Ok c /\
  length (moving_names root) = 3 /\ forward_kinematics_tensor mops c (mkTh 1 [[q]]) = Ok arr /\
  forward_kinematics_tensor mops c (mkTh 3 [[q; q; q]]) = Ok arr.
Proof.
  destruct ex_chain as [c Hc]. exists ex_robot, c, 1%R.
  destruct (fk_tensor_spec mops ex_robot c [fun _ => 1%R] mlaws ex_distinct_joints Hc) as (arr & H & _).
  exists arr. split; [exact Hc|]. split; [reflexivity|].
  pose proof (fk_one_column mops ex_robot c [[1%R]] Hc) as E.
  simpl in E. rewrite E; [split; exact H | discriminate |]. intros r [<-|[]]; reflexivity.
Qed.

Lemma l58_name_lists : forall (root : mframe),
  NoDup (get_frame_names false root) /\ (forall n, In n (get_frame_names false root) <-> In n (map f_name (preorder root))) /\
  NoDup (get_link_names root) /\
  (forall n, In n (get_link_names root) <-> In n (map (fun f => l_name (f_link f)) (preorder root))) /\
  (distinct_frames root -> get_frame_names false root = map f_name (preorder root)).
Proof.
  intros root. unfold get_frame_names, get_link_names. rewrite frame_names_rec_spec, get_link_names_rec_spec.
  split; [apply (dedup_nodup String.eqb seqb_eq)|]. split; [intros; apply (dedup_in String.eqb seqb_eq)|].
  split; [apply (dedup_nodup oseqb oseqb_eq)|]. split; [intros; apply (dedup_in oseqb oseqb_eq)|].
  intros H. apply (dedup_id String.eqb seqb_eq), H.
Qed.
