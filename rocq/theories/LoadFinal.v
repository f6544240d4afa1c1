(** Last steps of the proofs quoted in Properties_Load.v. *)
From Coq Require Import Reals Lra String Bool Arith Lia List Permutation.
From Verif Require Import Prelude ExtF Tree ChainModel SpecFK ChainProofs Lin Trig RotModel RotBasic ChainInst
  T3dModel LoaderModel LoaderTree RobotModel RobotProofs LoaderProofs LoaderMore SdfProofs MjcfModel MjcfProofs Examples
  LoaderExamples.
Import ListNotations.
Local Open Scope nat_scope.
Local Open Scope string_scope.
Local Open Scope list_scope.

Lemma l50_paths_unique : forall (es : list uelem) top x,
  tree_shaped uj_parent uj_child (joints_of es) top -> x = top \/ In x (map uj_child (joints_of es)) ->
  exists! l, jpath uj_parent uj_child (joints_of es) top l x.
Proof.
  intros es top x HT Hx. pose proof HT as (_ & Hn & Hr & Hreach).
  assert (He : exists l, jpath uj_parent uj_child (joints_of es) top l x).
  { destruct Hx as [->|Hx]; [exists []; constructor|]. apply in_map_iff in Hx as (j & <- & Hj).
    destruct (Hreach j Hj) as (l & Hl). exists (l ++ [j]). apply jpath_snoc. auto. }
  destruct He as (l & Hl). exists l. split; [exact Hl|]. intros l' Hl'. eapply jpath_unique; eauto.
Qed.

Lemma l50_no_joints_refuted : exists es : list uelem, joints_of es = [] /\ map uk_name (links_of es) = ["base"] /\
  forall limit, urdf_chain limit (urobot_of es) = Err UnboundLocalError.
Proof. exists [ELink (mkULink "base" None)]. repeat split. Qed.

Lemma l50_cycle_refuted : exists es : list uelem, map uk_name (links_of es) = ["base"; "a"; "b"] /\
  map (fun j => (uj_parent j, uj_child j)) (joints_of es) = [("base", "a"); ("a", "b"); ("b", "a")] /\
  forall limit, urdf_chain limit (urobot_of es) = Err RecursionError.
Proof.
  exists (map (fun n => ELink (mkULink n None)) ["base"; "a"; "b"] ++
    map (fun p => EJoint (fixed_ujoint (fst p) (snd p))) [("base", "a"); ("a", "b"); ("b", "a")]).
  split; [reflexivity|]. split; [reflexivity|]. intros limit. apply cycle_forever.
Qed.

Lemma l50_forest_refuted : exists (es : list uelem) c, map uk_name (links_of es) = ["a"; "b"; "c"; "d"] /\
  map (fun j => (uj_parent j, uj_child j)) (joints_of es) = [("a", "b"); ("c", "d")] /\
  urdf_chain 3 (urobot_of es) = Ok c /\ map f_name (preorder (c_root c)) = ["a"; "b"].
Proof.
  set (es := map (fun n => ELink (mkULink n None)) ["a"; "b"; "c"; "d"] ++
    map (fun p => EJoint (fixed_ujoint (fst p) (snd p))) [("a", "b"); ("c", "d")]).
  destruct (urdf_tree_chain 3 es _ eq_refl) as (c & Hc & Hr).
  exists es, c. split; [reflexivity|]. split; [reflexivity|]. split; [exact Hc|]. rewrite Hr. reflexivity.
Qed.

Lemma l50_two_parents_refuted : exists (es : list uelem) c, map uk_name (links_of es) = ["base"; "a"; "b"; "c"] /\
  map (fun j => (uj_parent j, uj_child j)) (joints_of es) = [("base", "a"); ("base", "b"); ("a", "c"); ("b", "c")] /\
  urdf_chain 4 (urobot_of es) = Ok c /\ map f_name (preorder (c_root c)) = ["base"; "a"; "c"; "b"; "c"].
Proof.
  set (es := map (fun n => ELink (mkULink n None)) ["base"; "a"; "b"; "c"] ++
    map (fun p => EJoint (fixed_ujoint (fst p) (snd p))) [("base", "a"); ("base", "b"); ("a", "c"); ("b", "c")]).
  destruct (urdf_tree_chain 4 es _ eq_refl) as (c & Hc & Hr).
  exists es, c. split; [reflexivity|]. split; [reflexivity|]. split; [exact Hc|]. rewrite Hr. reflexivity.
Qed.

Lemma l51_urdf_origin_rpy : forall xyz r p y, urdf_transform (Some (mkUPose xyz (mkV3 r p y))) =
  Ok (aff (m3mul (mkM3 (cos y) (- sin y) 0 (sin y) (cos y) 0 0 0 1)
          (m3mul (mkM3 (cos p) 0 (sin p) 0 1 0 (- sin p) 0 (cos p))
                 (mkM3 1 0 0 0 (cos r) (- sin r) 0 (sin r) (cos r)))) xyz).
Proof. intros. apply (urdf_transform_ok (Some (mkUPose xyz (mkV3 r p y)))). Qed.

Lemma l51_urdf_origin_missing : urdf_transform None = Ok I4.
Proof. reflexivity. Qed.

Lemma l52_urdf_joint_attributes : forall (es : list uelem) (top : string) (limit : nat),
  tree_shaped uj_parent uj_child (joints_of es) top ->
  (forall x, x = top \/ In x (map uj_child (joints_of es)) -> In x (map uk_name (links_of es))) ->
  (forall j, In j (joints_of es) -> In (uj_type j) ["revolute"; "continuous"; "prismatic"; "fixed"]) ->
  length (joints_of es) < limit ->
  exists c, urdf_chain limit (urobot_of es) = Ok c /\
    forall j, In j (joints_of es) -> exists f, In f (preorder (c_root c)) /\ f_name f = uj_child j /\
      j_name (f_joint f) = Some (uj_name j) /\
      (uj_type j = "revolute" \/ uj_type j = "continuous" -> j_type (f_joint f) = Revolute) /\
      (uj_type j = "prismatic" -> j_type (f_joint f) = Prismatic) /\
      (uj_type j = "fixed" -> j_type (f_joint f) = Fixed) /\
      (forall M, urdf_transform (uj_origin j) = Ok M -> j_off (f_joint f) = Some M) /\
      (forall a, uj_axis j = Some a -> a <> vzero -> unit3 (j_axis (f_joint f)) /\ vscale (vnorm a) (j_axis (f_joint f)) = a) /\
      (uj_limit j = None -> j_lim (f_joint f) = None /\ j_vlim (f_joint f) = None /\ j_elim (f_joint f) = None) /\
      (forall l, uj_limit j = Some l -> j_lim (f_joint f) = Some (Fin (ul_lower l), Fin (ul_upper l)) /\
         j_vlim (f_joint f) = Some (Fin (- ul_velocity l), Fin (ul_velocity l)) /\
         j_elim (f_joint f) = Some (Fin (- ul_effort l), Fin (ul_effort l))).
Proof.
  intros es top limit HT Hl Hty Hlim.
  assert (Hk : forall j, In j (joints_of es) -> exists k, urdf_kind (uj_type j) = Some k).
  { intros j Hj. specialize (Hty j Hj). simpl in Hty. destruct Hty as [E|[E|[E|[E|[]]]]]; rewrite <- E; eexists; reflexivity. }
  destruct (urdf_frames es top limit HT Hl Hk Hlim) as (c & Hc & _ & _ & Hf). exists c. split; [exact Hc|].
  intros j Hj. destruct (Hk j Hj) as (k & Ek). destruct (Hf j k Hj Ek) as (f & Hin & Hn & Hjt).
  exists f. split; [exact Hin|]. split; [exact Hn|]. rewrite Hjt. unfold made_joint. cbn [j_name j_type j_off j_axis j_lim j_vlim j_elim].
  split; [reflexivity|]. split; [intros [E|E]; rewrite E in Ek; cbn in Ek; congruence|].
  split; [intros E; rewrite E in Ek; cbn in Ek; congruence|]. split; [intros E; rewrite E in Ek; cbn in Ek; congruence|].
  split; [intros M HM; rewrite urdf_transform_ok in HM; congruence|].
  split; [intros a Ea Hz; rewrite Ea; split; [apply normalise_unit, Hz | apply unit_of_scale, Hz]|].
  split; [intros E; rewrite E; repeat split|]. intros l E. rewrite E. repeat split.
Qed.

Lemma l52_default_axis_refuted : exists (es : list uelem) c f j, urdf_chain 2 (urobot_of es) = Ok c /\
  joints_of es = [j] /\ uj_type j = "revolute" /\ uj_axis j = None /\ In f (preorder (c_root c)) /\ f_name f = uj_child j /\
  j_axis (f_joint f) = mkV3 0 0 1 /\ j_axis (f_joint f) <> mkV3 1 0 0.
Proof.
  set (j := mkUJoint "j" "revolute" "base" "a" None None None).
  set (es := [ELink (mkULink "base" None); ELink (mkULink "a" None); EJoint j]).
  destruct (urdf_tree_chain 2 es _ eq_refl) as (c & Hc & Hr).
  exists es, c. rewrite Hr. eexists. exists j. split; [exact Hc|]. split; [reflexivity|]. split; [reflexivity|]. split; [reflexivity|].
  split; [right; left; reflexivity|]. split; [reflexivity|]. cbn [f_joint j_axis].
  assert (E : vscale (/ vnorm (mkV3 0 0 1)) (mkV3 0 0 1) = mkV3 0 0 1) by apply unit_z_fix.
  split; [exact E|]. eapply z_not_x. exact E.
Qed.

Lemma l52_continuous_limits_refuted : exists (es : list uelem) c f j l, urdf_chain 2 (urobot_of es) = Ok c /\
  joints_of es = [j] /\ uj_type j = "continuous" /\ uj_limit j = Some l /\ In f (preorder (c_root c)) /\ f_name f = uj_child j /\
  j_lim (f_joint f) = Some (Fin 0, Fin 0).
Proof.
  set (j := mkUJoint "j" "continuous" "base" "a" None (Some (mkV3 0 0 1)) (Some (mkULimit 5 0 0 7))).
  set (es := [ELink (mkULink "base" None); ELink (mkULink "a" None); EJoint j]).
  destruct (urdf_tree_chain 2 es _ eq_refl) as (c & Hc & Hr).
  exists es, c. rewrite Hr. eexists. exists j, (mkULimit 5 0 0 7). split; [exact Hc|]. split; [reflexivity|]. split; [reflexivity|]. split; [reflexivity|].
  split; [right; left; reflexivity|]. split; reflexivity.
Qed.

Lemma l53_sdf_rejected_refuted : exists w s b : list selem,
  (forall limit, sdf_chain limit (srobot_of w) = Err KeyError) /\
  map (fun j => (sj_parent j, sj_child j)) (joints_of w) = [("world", "base")] /\
  (forall limit, sdf_chain limit (srobot_of s) = Err UnboundLocalError) /\ joints_of s = [] /\
  (forall limit, 1 < limit -> sdf_chain limit (srobot_of b) = Err TypeError) /\
  map sj_limit (joints_of b) = [Some (Some 0%R, None)].
Proof.
  exists [ELink (mkSLink "base" None); EJoint (mkSJoint "j" (Some "fixed") "world" "base" (mkV3 0 0 1) None)],
    [ELink (mkSLink "base" None)],
    [ELink (mkSLink "base" None); ELink (mkSLink "a" None); EJoint (mkSJoint "j" (Some "revolute") "base" "a" (mkV3 0 0 1) (Some (Some 0%R, None)))].
  repeat split. intros [|limit] H; [lia|]. reflexivity.
Qed.

Lemma l54_sdf_pose_characterised : forall xyz r p y, sdf_transform (Some (mkSPose xyz (mkV3 r p y))) =
  Ok (mkT KBase [aff (m3mul (mkM3 (cos r) (- sin r) 0 (sin r) (cos r) 0 0 0 1)
          (m3mul (mkM3 (cos p) 0 (sin p) 0 1 0 (- sin p) 0 (cos p))
                 (mkM3 1 0 0 0 (cos y) (- sin y) 0 (sin y) (cos y)))) xyz]).
Proof. intros. apply (sdf_transform_ok (Some (mkSPose xyz (mkV3 r p y)))). Qed.

Lemma l54_sdf_rpy_partial : forall xyz r p, sdf_transform (Some (mkSPose xyz (mkV3 r p r))) =
  Ok (mkT KBase [aff (rpy_matrix (mkV3 r p r)) xyz]).
Proof. intros. apply (sdf_transform_ok (Some (mkSPose xyz (mkV3 r p r)))). Qed.

Lemma l54_sdf_rpy_refuted :
  (exists p M, vy (sp_rpy p) = 0%R /\ vz (sp_rpy p) = 0%R /\ sdf_transform (Some p) = Ok (mkT KBase [M]) /\
     rotp M <> rpy_matrix (sp_rpy p)) /\
  (exists p M, vx (sp_rpy p) = 0%R /\ vy (sp_rpy p) = 0%R /\ sdf_transform (Some p) = Ok (mkT KBase [M]) /\
     rotp M <> rpy_matrix (sp_rpy p)).
Proof.
  split.
  - exists (mkSPose vzero (mkV3 (PI/2) 0 0)). eexists. split; [reflexivity|]. split; [reflexivity|]. split; [apply sdf_transform_ok|].
    cbn [swapped_pose sp_rpy sp_xyz vx vy vz]. rewrite rotp_aff. apply roll_not_yaw.
  - exists (mkSPose vzero (mkV3 0 0 (PI/2))). eexists. split; [reflexivity|]. split; [reflexivity|]. split; [apply sdf_transform_ok|].
    cbn [swapped_pose sp_rpy sp_xyz vx vy vz]. rewrite rotp_aff. intros E. symmetry in E. revert E. apply roll_not_yaw.
Qed.

Lemma l55_mjcf_forward_kinematics_partial : forall (m : mjmodel) (r : nat) (a : body_arg) (limit : nat) (vs : list config),
  wf_model m -> r < length (mm_bodies m) ->
  (forall i b, nth_error (mm_bodies m) i = Some b -> r < i -> supported m b) ->
  root_body m a = Ok r ->
  NoDup (map mb_name (mm_bodies m) ++ map ms_name (mm_sites m)) ->
  (forall i i' b b' j j', nth_error (mm_bodies m) i = Some b -> nth_error (mm_bodies m) i' = Some b' -> r < i -> r < i' ->
     joint_of m b = Some j -> joint_of m b' = Some j' -> mn_name j = mn_name j' -> i = i') ->
  (forall x, In x (map mb_name (mm_bodies m) ++ map ms_name (mm_sites m)) -> strip_nl x = x) ->
  length (mm_bodies m) < limit ->
  (forall i b j, nth_error (mm_bodies m) i = Some b -> r < i -> joint_of m b = Some j -> mn_pos j = vzero /\ mn_qpos0 j = 0%R) ->
  exists c d, build_chain_from_mjcf limit m a = Ok c /\
    forward_kinematics mops c (config_tensor (c_root c) vs) None = Ok d /\
    NoDup (map fst d) /\
    (forall x, In x (map fst d) <-> (exists i b, descends m r i /\ nth_error (mm_bodies m) i = Some b /\ mb_name b = x) \/
       (exists t, In t (mm_sites m) /\ descends m r (ms_bodyid t) /\ ms_name t = x)) /\
    (forall n, In n (moving_names (c_root c)) <->
       exists i b j, descends m r i /\ r < i /\ nth_error (mm_bodies m) i = Some b /\ joint_of m b = Some j /\ n = Some (mn_name j)) /\
    (forall i b, descends m r i -> nth_error (mm_bodies m) i = Some b -> exists Ms, dget String.eqb (mb_name b) d = Some Ms /\
       Forall2 (fun v M => pose_below m (mj_local m v) r i M) vs Ms) /\
    (forall t, In t (mm_sites m) -> descends m r (ms_bodyid t) -> exists Ms, dget String.eqb (ms_name t) d = Some Ms /\
       Forall2 (fun v M => exists W, pose_below m (mj_local m v) r (ms_bodyid t) W /\
                                     M = m4mul W (aff (qrot (ms_quat t)) (ms_pos t))) vs Ms).
Proof.
  intros m r a limit vs Hwf Hr Hs Ha Hn Hj Hc Hl H0.
  destruct (mjcf_fk m Hwf r Hr Hs a limit vs Ha Hn Hj Hc Hl) as (c & d & H1 & H2 & _ & H3 & H4 & H5 & H6 & H7).
  assert (He : forall v i b, nth_error (mm_bodies m) i = Some b -> r < i -> code_local m v b = mj_local m v b).
  { intros v i b Hb Hi. apply code_mj_local. intros j Hjb. destruct (H0 i b j Hb Hi Hjb) as (E1 & E2). split; [exact E1|]. split; [exact E2|].
    destruct (Hs i b Hb Hi) as [E|(E & j' & Ej & Ht & _)].
    - unfold joint_of in Hjb. rewrite E in Hjb. discriminate.
    - unfold joint_of in Hjb. rewrite E in Hjb. cbn [Nat.eqb] in Hjb. rewrite Ej in Hjb. inversion Hjb; subst. exact Ht. }
  exists c, d. repeat (split; [assumption|]). split.
  - intros i b Hd Hb. destruct (H6 i b Hd Hb) as (Ms & E & HF). exists Ms. split; [exact E|].
    eapply Forall2_impl; [|exact HF]. intros v M HM. eapply pose_ext; [exact Hwf | exact Hr | exact (He v) | assumption].
  - intros t Ht Hd. destruct (H7 t Ht Hd) as (Ms & E & HF). exists Ms. split; [exact E|].
    eapply Forall2_impl; [|exact HF]. intros v M (W & HW & E2). exists W. split; [|exact E2]. eapply pose_ext; [exact Hwf | exact Hr | exact (He v) | assumption].
Qed.

Lemma l56_maps : forall (es : list uelem) (x : string),
  rb_joints (urobot_of es) = joints_of es /\ rb_links (urobot_of es) = links_of es /\
  dget String.eqb x (rb_joint_map (urobot_of es)) = last_with (fun j => String.eqb (uj_name j) x) (joints_of es) /\
  dget String.eqb x (rb_link_map (urobot_of es)) = last_with (fun l => String.eqb (uk_name l) x) (links_of es) /\
  dget String.eqb x (rb_parent_map (urobot_of es)) =
    option_map (fun j => (uj_name j, uj_parent j)) (last_with (fun j => String.eqb (uj_child j) x) (joints_of es)) /\
  dget String.eqb x (rb_child_map (urobot_of es)) =
    match filter (fun j => String.eqb (uj_parent j) x) (joints_of es) with
    | [] => None
    | js => Some (map (fun j => (uj_name j, uj_child j)) js)
    end.
Proof.
  intros es x. split; [apply joints_spec|]. split; [apply links_spec|]. split; [apply joint_map_spec|].
  split; [apply link_map_spec|]. split; [apply parent_map_spec | apply child_map_spec].
Qed.

Lemma l56_maps_distinct : forall (es : list uelem),
  NoDup (map uj_name (joints_of es)) -> NoDup (map uk_name (links_of es)) -> NoDup (map uj_child (joints_of es)) ->
  (forall j, In j (joints_of es) -> dget String.eqb (uj_name j) (rb_joint_map (urobot_of es)) = Some j /\
     dget String.eqb (uj_child j) (rb_parent_map (urobot_of es)) = Some (uj_name j, uj_parent j)) /\
  (forall l, In l (links_of es) -> dget String.eqb (uk_name l) (rb_link_map (urobot_of es)) = Some l).
Proof.
  intros es Hj Hl Hc. split.
  - intros j H. split.
    + unfold urobot_of. rewrite joint_map_spec. apply last_with_key; auto.
    + unfold urobot_of. rewrite parent_map_spec, last_with_key by auto. reflexivity.
  - intros l H. unfold urobot_of. rewrite link_map_spec. apply last_with_key; auto.
Qed.

Lemma l56_get_chain : forall (es : list uelem) top root tip joints links fixed p l fuel,
  tree_shaped uj_parent uj_child (joints_of es) top -> NoDup (map uj_name (joints_of es)) ->
  jpath uj_parent uj_child (joints_of es) top p root -> jpath uj_parent uj_child (joints_of es) root l tip -> length l <= fuel ->
  get_chain uj_type fuel (urobot_of es) root tip joints links fixed = Ok
    ((if links then [root] else []) ++
     flat_map (fun j => (if joints && (fixed || negb (String.eqb (uj_type j) "fixed")) then [uj_name j] else []) ++
                        (if links then [uj_child j] else [])) l).
Proof.
  intros es top root tip js lk fx p l fuel HT Hn Hp Hl Hf.
  unfold urobot_of. rewrite (get_chain_path uj_name uj_parent uj_child uj_type uk_name es top root tip js lk fx p l fuel HT Hn Hp Hl Hf).
  f_equal. f_equal. clear. induction l as [|j l IH]; [reflexivity|]. cbn [alternate flat_map]. rewrite IH, app_assoc. reflexivity.
Qed.

Lemma l56_get_chain_not_above : forall (es : list uelem) top root tip joints links fixed l fuel,
  tree_shaped uj_parent uj_child (joints_of es) top -> NoDup (map uj_name (joints_of es)) ->
  root <> top -> jpath uj_parent uj_child (joints_of es) top l tip -> (forall j, In j l -> uj_child j <> root) ->
  length l < fuel -> get_chain uj_type fuel (urobot_of es) root tip joints links fixed = Err KeyError.
Proof.
  intros es top root tip js lk fx l fuel HT Hn Hne Hl Hnot Hf. unfold get_chain, urobot_of.
  eapply get_chain_loop_key; eauto.
Qed.
