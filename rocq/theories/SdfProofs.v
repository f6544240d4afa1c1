(** The SDF loader. *)
From Coq Require Import Reals Lra String Bool Arith Lia List Permutation.
From Verif Require Import Prelude ExtF Tree ChainModel SpecFK ChainProofs Lin Trig RotModel RotBasic RotFinal EulerProofs
  T3dModel T3dProofs T3dMore ChainInst LoaderModel LoaderTree RobotModel RobotProofs LoaderProofs LoaderMore.
Import ListNotations.
Local Open Scope nat_scope.

(** the pose an SDF element declares: x y z roll pitch yaw, rotation Rz(yaw) Ry(pitch) Rx(roll) *)
Definition sdf_pose (o : option spose) : M4 :=
  match o with Some p => aff (rpy_matrix (sp_rpy p)) (sp_xyz p) | None => I4 end.
(** the same six numbers with roll and yaw exchanged *)
Definition swapped_pose (o : option spose) : M4 :=
  match o with
  | Some p => aff (rpy_matrix (mkV3 (vz (sp_rpy p)) (vy (sp_rpy p)) (vx (sp_rpy p)))) (sp_xyz p)
  | None => I4
  end.

Lemma sdf_transform_ok o : sdf_transform o = Ok (mkT KBase [swapped_pose o]).
Proof.
  destruct o as [[xyz [r p y]]|]; [|reflexivity]. cbn [sdf_transform sp_rpy sp_xyz swapped_pose].
  unfold rpy_matrix. cbn [Lin.vx Lin.vy Lin.vz]. rewrite m3mul_assoc. reflexivity.
Qed.
Lemma swapped_rigid o : is_rigid (swapped_pose o).
Proof. destruct o as [p|]; [apply is_rigid_aff, rpy_rot | apply is_rigid_I]. Qed.

Definition sdf_kind (s : option string) : option jtype :=
  match s with
  | Some s => if String.eqb s "revolute" then Some Revolute
              else if String.eqb s "prismatic" then Some Prismatic
              else if String.eqb s "fixed" then Some Fixed else None
  | None => None
  end.
Definition sdf_moves (j : sjoint) : bool := match sdf_kind (sj_type j) with Some Fixed => false | _ => true end.
Definition sdf_motion (v : @config R) (j : sjoint) : M4 :=
  match sdf_kind (sj_type j) with
  | Some Revolute => turn (sj_axis j) (v (Some (sj_name j)))
  | Some Prismatic => slide (sj_axis j) (v (Some (sj_name j)))
  | _ => I4
  end.

Lemma sdf_kind_map o k : sdf_kind o = Some k -> exists s t, o = Some s /\
  dget String.eqb s sdf_joint_type_map = Some t /\ joint_type_of t = Ok k /\ negb (String.eqb t "fixed") = negb (is_fixed k).
Proof.
  destruct o as [s|]; [|discriminate]. unfold sdf_kind, sdf_joint_type_map. cbn [dget].
  destruct (String.eqb s "revolute") eqn:E1; [intros H; inversion H; exists s, "revolute"%string; rewrite E1; repeat split; reflexivity|].
  destruct (String.eqb s "prismatic") eqn:E2; [intros H; inversion H; exists s, "prismatic"%string; rewrite E1, E2; repeat split; reflexivity|].
  destruct (String.eqb s "fixed") eqn:E3; [intros H; inversion H; exists s, "fixed"%string; rewrite E1, E2, E3; repeat split; reflexivity | discriminate].
Qed.

Section Sdf.
Variable es : list selem.
Variable top : string.
Notation js := (joints_of es).
Notation lmap := (rb_link_map (srobot_of es)).
(** the pose of the last link of a name, as declared *)
Definition declared (x : string) : option spose :=
  match last_with (fun l => String.eqb (sk_name l) x) (links_of es) with Some l => sk_pose l | None => None end.

Lemma slink_found x : In x (map sk_name (links_of es)) ->
  exists lk, dget String.eqb x lmap = Some lk /\ sk_name lk = x /\ sk_pose lk = declared x.
Proof.
  intros H. unfold srobot_of. rewrite link_map_spec. unfold declared.
  destruct (last_with (fun l => String.eqb (sk_name l) x) (links_of es)) as [lk|] eqn:E.
  - apply last_with_some in E as [H1 H2]. apply String.eqb_eq in H2. eauto.
  - exfalso. apply in_map_iff in H as (l & <- & Hl). apply last_with_none with (x := l) in E; [|exact Hl].
    rewrite String.eqb_refl in E. discriminate.
Qed.
Lemma srobot_joints : rb_joints (srobot_of es) = joints_of es.
Proof. apply joints_spec. Qed.

(** bounds are complete or absent *)
Definition complete (j : sjoint) : Prop :=
  match sj_limit j with None => True | Some (Some _, Some _) => True | Some _ => sdf_moves j = false end.
Definition sdf_rel (v : @config R) (j : sjoint) : M4 :=
  m4mul (m4mul (rigid_inv (swapped_pose (declared (sj_parent j)))) (swapped_pose (declared (sj_child j)))) (sdf_motion v j).

Lemma sdf_mk_ok j k : sdf_kind (sj_type j) = Some k -> complete j ->
  In (sj_parent j) (map sk_name (links_of es)) -> In (sj_child j) (map sk_name (links_of es)) ->
  exists l jt, sdf_mk lmap j = Ok (l, jt) /\ l_name l = Some (sj_child j) /\ l_off l = Some I4 /\
    j_name jt = Some (sj_name j) /\ j_type jt = k /\ j_axis jt = unit_of (sj_axis j) /\
    j_off jt = Some (m4mul (rigid_inv (swapped_pose (declared (sj_parent j)))) (swapped_pose (declared (sj_child j)))) /\
    j_lim jt = match sj_limit j with Some (Some a, Some b) => Some (Fin a, Fin b) | _ => None end.
Proof.
  intros Hk Hc Hp Hch. unfold sdf_mk.
  destruct (slink_found _ Hp) as (lp & Ep & _ & Hpp). destruct (slink_found _ Hch) as (lc & Ec & Hn & Hpc).
  rewrite Ep, Ec. cbn [of_opt rbind]. rewrite Hpp, Hpc, !sdf_transform_ok. cbn [rbind].
  unfold compose, inverse. cbn [tm map tk get_matrix_inverse compose_mats].
  unfold broadcast_bmm. cbn [length Nat.eqb zip_with rbind tm the_matrix]. unfold the_matrix, get. cbn [nth_error tm of_opt rbind].
  destruct (sdf_kind_map _ _ Hk) as (s & t & Es & Et & Ej & Ef). rewrite Es. cbn [of_opt rbind]. rewrite Et. cbn [of_opt rbind].
  rewrite Ef. unfold complete, sdf_moves in Hc. rewrite Hk in Hc.
  assert (Hlim : sdf_limits (negb (is_fixed k)) (sj_limit j) =
    Ok (match sj_limit j with Some (Some a, Some b) => Some (Fin a, Fin b) | _ => None end)).
  { destruct (sj_limit j) as [[[a|] [b|]]|]; try reflexivity; destruct k; try discriminate Hc; reflexivity. }
  rewrite Hlim. cbn [rbind]. unfold joint_init. rewrite Ej. cbn [rbind].
  eexists. eexists. split; [reflexivity|]. cbn [l_name l_off j_name j_type j_axis j_off j_lim]. rewrite Hn.
  rewrite invert_rigid by (apply swapped_rigid). repeat split; reflexivity.
Qed.

Lemma sdf_rel_ok v j k l jt n : sdf_kind (sj_type j) = Some k -> l_off l = Some I4 ->
  j_name jt = Some (sj_name j) -> j_type jt = k -> j_axis jt = unit_of (sj_axis j) ->
  j_off jt = Some (m4mul (rigid_inv (swapped_pose (declared (sj_parent j)))) (swapped_pose (declared (sj_child j)))) ->
  rel_pose mops v (Frame n l jt []) = sdf_rel v j.
Proof.
  intros Hk H1 H2 H3 H4 H5. unfold rel_pose, sdf_rel, sdf_motion, joint_motion. cbn [f_link f_joint].
  rewrite H1, H2, H3, H4, H5, Hk. cbn [or_one mops t_mul t_one t_rev t_pris]. rewrite m4mul_1_l. f_equal.
  destruct k; [reflexivity| |].
  - rewrite rot44_aff, rodrigues_eq. reflexivity.
  - rewrite pris_aff. reflexivity.
Qed.

Theorem sdf_fk limit vs :
  tree_shaped sj_parent sj_child js top ->
  (forall x, x = top \/ In x (map sj_child js) -> In x (map sk_name (links_of es))) ->
  (forall j, In j js -> complete j /\ exists k, sdf_kind (sj_type j) = Some k /\ (k <> Fixed -> sj_axis j <> vzero)) ->
  NoDup (map sj_name (filter sdf_moves js)) ->
  (forall x, x = top \/ In x (map sj_child js) -> strip_nl x = x) ->
  length js < limit ->
  exists c d jl, sdf_chain limit (srobot_of es) = Ok c /\ f_name (c_root c) = top /\
    Permutation jl js /\ moving_names (c_root c) = map (fun j => Some (sj_name j)) (filter sdf_moves jl) /\
    forward_kinematics mops c (config_tensor (c_root c) vs) None = Ok d /\
    map fst d = top :: map sj_child jl /\
    forall l x, jpath sj_parent sj_child js top l x ->
      dget String.eqb x d = Some (map (fun v => m4mul (swapped_pose (declared top)) (fold_left m4mul (map (sdf_rel v) l) I4)) vs).
Proof.
  intros HT Hl Hk Hdj Hcl Hlim.
  assert (Hpar : forall j, In j js -> In (sj_parent j) (map sk_name (links_of es))).
  { intros j Hj. apply Hl. destruct (par_root_or_child _ _ _ _ HT j Hj); auto. }
  assert (Hmk : forall j, In j js -> exists l jt, sdf_mk lmap j = Ok (l, jt) /\ l_name l = Some (sj_child j) /\
    j_name jt = Some (sj_name j) /\ negb (is_fixed (j_type jt)) = sdf_moves j /\
    (forall v, rel_pose mops v (Frame (sj_child j) l jt []) = sdf_rel v j)).
  { intros j Hj. destruct (Hk j Hj) as (Hc & k & Ek & Ha).
    destruct (sdf_mk_ok j k Ek Hc (Hpar j Hj)) as (l & jt & E & H1 & H2 & H3 & H4 & H5 & H6 & _); [apply Hl; right; apply in_map, Hj|].
    exists l, jt. split; [exact E|]. split; [exact H1|]. split; [exact H3|]. split.
    - rewrite H4. unfold sdf_moves. rewrite Ek. destruct k; reflexivity.
    - intros v. eapply sdf_rel_ok; eauto. }
  destruct (slink_found top) as (rl & Er & Ern & Hrp); [apply Hl; auto|].
  destruct (joint_init None (Some (swapped_pose (declared top))) "fixed" (Some (mkV3 0 0 1)) None None None) as [rj|] eqn:Erj; [|discriminate].
  assert (Hrj : j_type rj = Fixed /\ j_off rj = Some (swapped_pose (declared top))).
  { unfold joint_init in Erj. cbn [joint_type_of String.eqb Ascii.eqb Bool.eqb rbind] in Erj.
    assert (HX : forall X (a b : X), Ok a = Ok b -> a = b) by (intros; congruence).
    apply HX in Erj. rewrite <- Erj. split; reflexivity. }
  destruct Hrj as [Hrf Hroff].
  set (rlk := mkLink (Some (sk_name rl)) (Some I4)).
  destruct (built_fk _ _ _ _ _ _ _ _ HT Hmk Hdj Hcl limit rlk rj vs Hlim Hrf)
    as (cs & c & d & Hcs & Hc & Hd & (jl & Hperm & _ & Hkeys & Hmov) & Hpath).
  exists c, d, jl. destruct (chain_init_ok mops (Frame top rlk rj cs)) as (c' & Hc' & HC).
  assert (HX : forall X (a b : X), Ok a = Ok b -> a = b) by (intros; congruence).
  rewrite Hc in Hc'. apply HX in Hc'. subst c'. pose proof (ct_root _ _ _ HC) as Hroot. rewrite Hroot.
  split; [|split; [reflexivity|split; [exact Hperm|split; [exact Hmov|split; [exact Hd|split; [exact Hkeys|]]]]]].
  - unfold sdf_chain, build_chain_from_sdf, sdf_tree. rewrite srobot_joints, (find_root_ok _ _ _ _ HT). cbn [rbind].
    rewrite Er. cbn [of_opt rbind]. rewrite Hrp, sdf_transform_ok. cbn [rbind]. unfold the_matrix at 1, get at 1. cbn [tm nth_error of_opt rbind].
    rewrite Erj. cbn [rbind]. unfold the_matrix. change (transform3d_init (MNone 1) PosNone RotNone) with (Ok (mkT KBase [I4])).
    cbn [rbind]. unfold get. cbn [tm nth_error of_opt rbind]. rewrite Ern at 1.
    rewrite Hcs. cbn [rbind]. fold rlk. rewrite Ern. exact Hc.
  - intros l x Hlx. rewrite (Hpath l x Hlx). f_equal. apply map_ext. intros v. f_equal.
    unfold rel_pose, joint_motion. cbn [f_link f_joint rlk l_off or_one]. rewrite Hrf, Hroff.
    cbn [or_one t_one t_mul mops]. rewrite m4mul_1_l, m4mul_1_r. reflexivity.
Qed.

(** telescoping at the zero configuration *)
Lemma sdf_motion_0 j : sdf_motion (fun _ => 0%R) j = I4.
Proof.
  unfold sdf_motion. destruct (sdf_kind (sj_type j)) as [[]|]; try reflexivity.
  - unfold turn. rewrite <- rodrigues_eq, rot33_0. apply aff_I.
  - unfold slide. rewrite <- pris_aff. apply pris_0.
Qed.
Lemma telescope l x : jpath sj_parent sj_child js top l x ->
  m4mul (swapped_pose (declared top)) (fold_left m4mul (map (sdf_rel (fun _ => 0%R)) l) I4) = swapped_pose (declared x).
Proof.
  revert x. induction l as [|j l IH] using rev_ind; intros x Hp.
  - inversion Hp; subst. simpl. apply m4mul_1_r.
  - apply jpath_snoc in Hp as (Hp & Hi & ->). rewrite map_app, fold_left_app. cbn [map fold_left].
    rewrite m4mul_assoc, (IH _ Hp). unfold sdf_rel. rewrite sdf_motion_0, m4mul_1_r, m4mul_assoc.
    rewrite rigid_inv_r by apply swapped_rigid. apply m4mul_1_l.
Qed.
End Sdf.
