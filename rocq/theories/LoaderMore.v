(** The URDF and SDF loaders: what they make of each joint, and the failures. *)
From Coq Require Import Reals Lra String Bool Arith Lia List Permutation.
From Verif Require Import Prelude ExtF Tree ChainModel SpecFK ChainProofs Lin Trig RotModel RotBasic RotFinal EulerProofs
  T3dModel T3dProofs T3dMore ChainInst LoaderModel LoaderTree RobotModel RobotProofs LoaderProofs.
Import ListNotations.
Local Open Scope nat_scope.

(** ** URDF *)
(** the type a URDF joint should get *)
Definition urdf_kind (s : string) : option jtype :=
  if String.eqb s "revolute" then Some Revolute
  else if String.eqb s "continuous" then Some Revolute
  else if String.eqb s "prismatic" then Some Prismatic
  else if String.eqb s "fixed" then Some Fixed
  else None.
(** the motion of a URDF joint; the default axis of the format is x *)
Definition urdf_motion (v : @config R) (j : ujoint) : M4 :=
  let a := match uj_axis j with Some a => a | None => mkV3 1 0 0 end in
  let q := v (Some (uj_name j)) in
  match urdf_kind (uj_type j) with
  | Some Revolute => turn a q
  | Some Prismatic => slide a q
  | _ => I4
  end.
Definition urdf_rel (v : @config R) (j : ujoint) : M4 := m4mul (urdf_origin (uj_origin j)) (urdf_motion v j).
Definition urdf_moves (j : ujoint) : bool := negb (String.eqb (uj_type j) "fixed").

Lemma kind_map s k : urdf_kind s = Some k ->
  exists t, dget String.eqb s urdf_joint_type_map = Some t /\ joint_type_of t = Ok k.
Proof.
  unfold urdf_kind, urdf_joint_type_map. cbn [dget].
  destruct (String.eqb s "revolute"); [intros H; inversion H; eexists; split; reflexivity|].
  destruct (String.eqb s "continuous"); [intros H; inversion H; eexists; split; reflexivity|].
  destruct (String.eqb s "prismatic"); [intros H; inversion H; eexists; split; reflexivity|].
  destruct (String.eqb s "fixed"); [intros H; inversion H; eexists; split; reflexivity | discriminate].
Qed.
Lemma kind_none s : urdf_kind s = None -> dget String.eqb s urdf_joint_type_map = None.
Proof.
  unfold urdf_kind, urdf_joint_type_map. cbn [dget].
  repeat match goal with |- context [String.eqb s ?x] => destruct (String.eqb s x); [discriminate|] end. reflexivity.
Qed.
Lemma kind_fixed s k : urdf_kind s = Some k -> negb (is_fixed k) = negb (String.eqb s "fixed").
Proof.
  unfold urdf_kind.
  destruct (String.eqb_spec s "revolute") as [->|]; [intros H; inversion H; reflexivity|].
  destruct (String.eqb_spec s "continuous") as [->|]; [intros H; inversion H; reflexivity|].
  destruct (String.eqb_spec s "prismatic") as [->|]; [intros H; inversion H; reflexivity|].
  destruct (String.eqb_spec s "fixed") as [->|]; [intros H; inversion H; reflexivity | discriminate].
Qed.

(** the joint made for a declaration *)
Definition made_joint (j : ujoint) (k : jtype) : mjoint :=
  mkJoint (Some (uj_name j)) (Some (urdf_origin (uj_origin j))) k
    (unit_of (match uj_axis j with Some a => a | None => mkV3 0 0 1 end))
    (urdf_limits (uj_limit j)) (urdf_velocity_limits (uj_limit j)) (urdf_effort_limits (uj_limit j)).

Lemma urdf_mk_ok lmap j k lk : urdf_kind (uj_type j) = Some k -> dget String.eqb (uj_child j) lmap = Some lk ->
  urdf_mk lmap j = Ok (mkLink (Some (uk_name lk)) (Some (urdf_origin (uk_origin lk))), made_joint j k).
Proof.
  intros Hk Hl. unfold urdf_mk. rewrite !urdf_transform_ok. cbn [rbind].
  destruct (kind_map _ _ Hk) as (t & Ht & Hjt). rewrite Ht. cbn [of_opt rbind]. unfold joint_init. rewrite Hjt. cbn [rbind].
  rewrite Hl. cbn [of_opt rbind]. rewrite urdf_transform_ok. cbn [rbind]. reflexivity.
Qed.

Lemma urdf_rel_ok v j k n l : urdf_kind (uj_type j) = Some k ->
  (k <> Fixed -> exists a, uj_axis j = Some a) -> l_off l = Some I4 ->
  rel_pose mops v (Frame n l (made_joint j k) []) = urdf_rel v j.
Proof.
  intros Hk Ha Hl. unfold rel_pose, urdf_rel, urdf_motion. cbn [f_link f_joint]. rewrite Hl, Hk.
  cbn [or_one made_joint j_off]. unfold joint_motion, made_joint. cbn [j_type j_axis j_name mops t_mul t_one t_rev t_pris].
  rewrite m4mul_1_l. f_equal. destruct k; [reflexivity| |].
  - destruct Ha as (a & ->); [discriminate|]. rewrite rot44_aff, rodrigues_eq. reflexivity.
  - destruct Ha as (a & ->); [discriminate|]. rewrite pris_aff. reflexivity.
Qed.

Lemma urobot_joints es : rb_joints (urobot_of es) = joints_of es.
Proof. apply joints_spec. Qed.
Section Urdf.
Variable es : list uelem.
Variable top : string.
Notation js := (joints_of es).
Notation lmap := (rb_link_map (urobot_of es)).

Lemma link_found x : In x (map uk_name (links_of es)) ->
  exists lk, dget String.eqb x lmap = Some lk /\ uk_name lk = x /\ In lk (links_of es).
Proof.
  intros H. unfold urobot_of. rewrite link_map_spec.
  destruct (last_with (fun l => String.eqb (uk_name l) x) (links_of es)) as [lk|] eqn:E.
  - apply last_with_some in E as [H1 H2]. apply String.eqb_eq in H2. eauto.
  - exfalso. apply in_map_iff in H as (l & <- & Hl). apply last_with_none with (x := l) in E; [|exact Hl].
    rewrite String.eqb_refl in E. discriminate.
Qed.

(** the tree is made; each declaration has its frame *)
Lemma urdf_frames limit :
  tree_shaped uj_parent uj_child js top ->
  (forall x, x = top \/ In x (map uj_child js) -> In x (map uk_name (links_of es))) ->
  (forall j, In j js -> exists k, urdf_kind (uj_type j) = Some k) ->
  length js < limit ->
  exists c, urdf_chain limit (urobot_of es) = Ok c /\ f_name (c_root c) = top /\
    (exists jl, Permutation jl js /\ map f_name (preorder (c_root c)) = top :: map uj_child jl) /\
    forall j k, In j js -> urdf_kind (uj_type j) = Some k ->
      exists f, In f (preorder (c_root c)) /\ f_name f = uj_child j /\ f_joint f = made_joint j k.
Proof.
  intros HT Hl Hk Hlim.
  assert (Hmk : forall j, In j js -> exists l jn, urdf_mk lmap j = Ok (l, jn) /\ l_name l = Some (uj_child j)).
  { intros j Hj. destruct (Hk j Hj) as (k & Ek). destruct (link_found (uj_child j)) as (lk & E & En & _); [apply Hl; right; apply in_map, Hj|].
    rewrite (urdf_mk_ok _ _ _ _ Ek E). eexists. eexists. split; [reflexivity|]. cbn [l_name]. rewrite En. reflexivity. }
  destruct (build_total _ _ _ _ HT _ Hmk limit [] top (jp_here _ _ _ _)) as (cs & Hcs); [simpl; lia|].
  destruct (build_root_flat _ _ _ _ HT _ Hmk limit cs Hcs) as (jl & Hf2 & Hperm).
  destruct (link_found top) as (rl & Er & Ern & _); [apply Hl; auto|].
  destruct (joint_init None None "fixed" (Some (mkV3 0 0 1)) None None None) as [rj|] eqn:Erj; [|discriminate].
  set (rf := Frame (uk_name rl) (mkLink (Some (uk_name rl)) (Some (urdf_origin (uk_origin rl)))) rj cs).
  destruct (chain_init_ok mops rf) as (c & Hc & HC).
  exists c. pose proof (ct_root _ _ _ HC) as Hroot. rewrite Hroot. split; [|split; [exact Ern|split]].
  - unfold urdf_chain, build_chain_from_urdf, urdf_tree. rewrite urobot_joints, (find_root_ok _ _ _ _ HT). cbn [rbind].
    rewrite Er. cbn [of_opt rbind]. rewrite Erj. cbn [rbind]. rewrite urdf_transform_ok. cbn [rbind]. rewrite Ern at 1.
    rewrite Hcs. cbn [rbind]. exact Hc.
  - exists jl. split; [exact Hperm|]. unfold rf. rewrite preorder_unfold. cbn [map f_name f_children]. rewrite Ern. f_equal.
    clear -Hf2. induction Hf2 as [|j f l fs [_ H] _ IH]; [reflexivity|]. simpl. rewrite H, IH. reflexivity.
  - intros j k Hj Ek. apply (Permutation_in j (Permutation_sym Hperm)) in Hj as Hjl.
    destruct (forall2_in_l _ _ _ j Hf2 Hjl) as (f & Hf & Hm1 & Hm2). exists f. split; [|split; [exact Hm2|]].
    + rewrite preorder_unfold. right. exact Hf.
    + destruct (link_found (uj_child j)) as (lk & E & _); [apply Hl; right; apply in_map, Hj|].
      rewrite (urdf_mk_ok _ _ _ _ Ek E) in Hm1. inversion Hm1. reflexivity.
Qed.

Theorem urdf_fk limit vs :
  tree_shaped uj_parent uj_child js top ->
  (forall x, x = top \/ In x (map uj_child js) -> In x (map uk_name (links_of es))) ->
  (forall l, In l (links_of es) -> uk_origin l = None) ->
  (forall j, In j js -> exists k, urdf_kind (uj_type j) = Some k /\ (k <> Fixed -> exists a, uj_axis j = Some a /\ a <> vzero)) ->
  NoDup (map uj_name (filter urdf_moves js)) ->
  (forall x, x = top \/ In x (map uj_child js) -> strip_nl x = x) ->
  length js < limit ->
  exists c d jl, urdf_chain limit (urobot_of es) = Ok c /\ f_name (c_root c) = top /\
    Permutation jl js /\ moving_names (c_root c) = map (fun j => Some (uj_name j)) (filter urdf_moves jl) /\
    forward_kinematics mops c (config_tensor (c_root c) vs) None = Ok d /\
    map fst d = top :: map uj_child jl /\
    forall l x, jpath uj_parent uj_child js top l x ->
      dget String.eqb x d = Some (map (fun v => fold_left m4mul (map (urdf_rel v) l) I4) vs).
Proof.
  intros HT Hl Ho Hk Hdj Hcl Hlim.
  assert (Hmk : forall j, In j js -> exists l jt, urdf_mk lmap j = Ok (l, jt) /\ l_name l = Some (uj_child j) /\
    j_name jt = Some (uj_name j) /\ negb (is_fixed (j_type jt)) = urdf_moves j /\
    (forall v, rel_pose mops v (Frame (uj_child j) l jt []) = urdf_rel v j)).
  { intros j Hj. destruct (Hk j Hj) as (k & Ek & Ha). destruct (link_found (uj_child j)) as (lk & E & En & Hin); [apply Hl; right; apply in_map, Hj|].
    rewrite (urdf_mk_ok _ _ _ _ Ek E). eexists. eexists. split; [reflexivity|]. cbn [l_name]. rewrite En.
    split; [reflexivity|]. split; [reflexivity|]. split; [apply kind_fixed, Ek|]. intros v. apply urdf_rel_ok; [exact Ek| |].
    - intros Hf. destruct (Ha Hf) as (a & Ea & _). eauto.
    - cbn [l_off]. rewrite (Ho _ Hin). reflexivity. }
  destruct (link_found top) as (rl & Er & Ern & Hrin); [apply Hl; auto|].
  destruct (joint_init None None "fixed" (Some (mkV3 0 0 1)) None None None) as [rj|] eqn:Erj; [|discriminate].
  assert (Hrj : j_type rj = Fixed /\ j_off rj = None).
  { unfold joint_init in Erj. cbn in Erj. inversion Erj. split; reflexivity. }
  destruct Hrj as [Hrf Hroff].
  set (rlk := mkLink (Some (uk_name rl)) (Some (urdf_origin (uk_origin rl)))).
  destruct (built_fk _ _ _ _ _ _ _ _ HT Hmk Hdj Hcl limit rlk rj vs Hlim Hrf)
    as (cs & c & d & Hcs & Hc & Hd & (jl & Hperm & _ & Hkeys & Hmov) & Hpath).
  exists c, d, jl. destruct (chain_init_ok mops (Frame top rlk rj cs)) as (c' & Hc' & HC).
  assert (HX : forall X (a b : X), Ok a = Ok b -> a = b) by (intros; congruence).
  rewrite Hc in Hc'. apply HX in Hc'. subst c'. pose proof (ct_root _ _ _ HC) as Hroot. rewrite Hroot.
  split; [|split; [reflexivity|split; [exact Hperm|split; [exact Hmov|split; [exact Hd|split; [exact Hkeys|]]]]]].
  - unfold urdf_chain, build_chain_from_urdf, urdf_tree. rewrite urobot_joints, (find_root_ok _ _ _ _ HT). cbn [rbind].
    rewrite Er. cbn [of_opt rbind]. rewrite Erj. cbn [rbind]. rewrite urdf_transform_ok. cbn [rbind]. rewrite Ern at 1.
    rewrite Hcs. cbn [rbind]. fold rlk. rewrite Ern. exact Hc.
  - intros l x Hlx. rewrite (Hpath l x Hlx). f_equal. apply map_ext. intros v.
    assert (E : rel_pose mops v (Frame top rlk rj []) = I4).
    { unfold rel_pose, joint_motion. cbn [f_link f_joint rlk l_off or_one]. rewrite Hrf, Hroff, (Ho _ Hrin).
      cbn [or_one urdf_origin t_one t_mul mops]. rewrite !m4mul_1_l. reflexivity. }
    rewrite E, m4mul_1_l. reflexivity.
Qed.
End Urdf.
