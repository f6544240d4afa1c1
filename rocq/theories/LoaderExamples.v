(** Concrete descriptions for the loader theorems, and the failing ones. *)
From Coq Require Import Reals Lra String Bool Arith Lia List Permutation.
From Verif Require Import Prelude ExtF Tree ChainModel SpecFK ChainProofs Lin Trig RotModel RotBasic ChainInst
  T3dModel LoaderModel LoaderTree RobotModel RobotProofs LoaderProofs LoaderMore SdfProofs MjcfModel MjcfProofs Examples.
Import ListNotations.
Local Open Scope nat_scope.
Local Open Scope string_scope.
Local Open Scope list_scope.

Lemma unit_of_scale a : a <> vzero -> vscale (vnorm a) (unit_of a) = a.
Proof.
  intros H. assert (Hn : vnorm a <> 0%R) by (intros E; apply H, vnorm_zero_iff, E).
  unfold unit_of. rewrite vscale_scale, Rinv_r, vscale_1 by exact Hn. reflexivity.
Qed.
Lemma unit_of_unit a : unit3 a -> unit_of a = a.
Proof.
  intros H. unfold unit_of. rewrite unit3_norm, Rinv_1, vscale_1 by exact H. reflexivity.
Qed.
Lemma unit_z_fix : vscale (/ vnorm (mkV3 0 0 1)) (mkV3 0 0 1) = mkV3 0 0 1.
Proof. apply unit_of_unit, zax_unit. Qed.

Lemma z_not_x a : a = mkV3 0 0 1 -> a <> mkV3 1 0 0.
Proof. intros -> H. apply (f_equal vx) in H. cbn [vx] in H. lra. Qed.

(** ** URDF *)
Definition fixed_ujoint (p c : string) : ujoint := mkUJoint (p ++ c) "fixed" p c None None None.
Lemma urdf_tree_chain limit es f : urdf_tree limit (rb_link_map (urobot_of es)) (rb_joints (urobot_of es)) = Ok f ->
  exists c, urdf_chain limit (urobot_of es) = Ok c /\ c_root c = f.
Proof.
  intros H. unfold urdf_chain, build_chain_from_urdf. rewrite H. cbn [rbind].
  destruct (chain_init_ok mops f) as (c & Hc & HC). exists c. split; [exact Hc | apply (ct_root _ _ _ HC)].
Qed.

(** a cycle base -> a -> b -> a *)
Section Cycle.
Let es : list uelem := map (fun n => ELink (mkULink n None)) ["base"; "a"; "b"] ++
    map (fun p => EJoint (fixed_ujoint (fst p) (snd p))) [("base", "a"); ("a", "b"); ("b", "a")].
Let js := rb_joints (urobot_of es).
Let lm := rb_link_map (urobot_of es).
Lemma cycle_ab limit : build_rec uj_parent uj_child (urdf_mk lm) js limit (Some "a") = Err RecursionError /\
  build_rec uj_parent uj_child (urdf_mk lm) js limit (Some "b") = Err RecursionError.
Proof.
  induction limit as [|n [IHa IHb]]; [split; reflexivity|]. split; cbn [build_rec].
  - change (filter (fun j => opt_eqb String.eqb (Some (uj_parent j)) (Some "a")) js) with [fixed_ujoint "a" "b"].
    cbn [rmap]. rewrite (urdf_mk_ok lm (fixed_ujoint "a" "b") Fixed (mkULink "b" None) eq_refl eq_refl).
    cbn [rbind fst l_name uk_name]. rewrite IHb. reflexivity.
  - change (filter (fun j => opt_eqb String.eqb (Some (uj_parent j)) (Some "b")) js) with [fixed_ujoint "b" "a"].
    cbn [rmap]. rewrite (urdf_mk_ok lm (fixed_ujoint "b" "a") Fixed (mkULink "a" None) eq_refl eq_refl).
    cbn [rbind fst l_name uk_name]. rewrite IHa. reflexivity.
Qed.
Lemma cycle_forever limit : urdf_chain limit (urobot_of es) = Err RecursionError.
Proof.
  unfold urdf_chain, build_chain_from_urdf, urdf_tree. fold js lm.
  change (find_root uj_parent uj_child js) with (@Ok string "base"). cbn [rbind].
  change (dget String.eqb "base" lm) with (Some (mkULink "base" None)). cbn [of_opt rbind uk_origin uk_name].
  rewrite urdf_transform_ok. cbn [joint_init joint_type_of String.eqb Ascii.eqb Bool.eqb rbind].
  assert (E : build_rec uj_parent uj_child (urdf_mk lm) js limit (Some "base") = Err RecursionError).
  { destruct limit as [|n]; [reflexivity|]. cbn [build_rec].
    change (filter (fun j => opt_eqb String.eqb (Some (uj_parent j)) (Some "base")) js) with [fixed_ujoint "base" "a"].
    cbn [rmap]. rewrite (urdf_mk_ok lm (fixed_ujoint "base" "a") Fixed (mkULink "a" None) eq_refl eq_refl).
    cbn [rbind fst l_name uk_name]. rewrite (proj1 (cycle_ab n)). reflexivity. }
  rewrite E. reflexivity.
Qed.
End Cycle.

(** any joint of another type is a KeyError *)
Lemma rmap_key {A B} (f : A -> res B) l x : In x l -> f x = Err KeyError ->
  (forall y, In y l -> (exists z, f y = Ok z) \/ f y = Err KeyError) -> rmap f l = Err KeyError.
Proof.
  induction l as [|a l IH]; intros Hx Hf Ha; [destruct Hx|]. cbn [rmap].
  destruct (Ha a (or_introl eq_refl)) as [(z & E)|E]; rewrite E; cbn [rbind]; [|reflexivity].
  destruct Hx as [->|Hx]; [congruence|]. rewrite IH; auto. intros y Hy. apply Ha. right; auto.
Qed.
Section BadType.
Variable es : list uelem.
Variable top : string.
Notation js := (joints_of es).
Notation lmap := (rb_link_map (urobot_of es)).
Hypothesis HT : tree_shaped uj_parent uj_child js top.
Hypothesis Hl : forall x, x = top \/ In x (map uj_child js) -> In x (map uk_name (links_of es)).
Notation build := (build_rec uj_parent uj_child (urdf_mk lmap) js).

Lemma mk_cases j : In j js -> (exists jt, urdf_mk lmap j = Ok (mkLink (Some (uj_child j)) (Some (urdf_origin (match dget String.eqb (uj_child j) lmap with Some lk => uk_origin lk | None => None end))), jt)) \/
  urdf_mk lmap j = Err KeyError.
Proof.
  intros Hj. destruct (urdf_kind (uj_type j)) as [k|] eqn:Ek.
  - left. destruct (link_found es (uj_child j)) as (lk & E & En & _); [apply Hl; right; apply in_map, Hj|].
    rewrite (urdf_mk_ok _ _ _ _ Ek E), E, En. eauto.
  - right. unfold urdf_mk. rewrite urdf_transform_ok. cbn [rbind]. rewrite (kind_none _ Ek). reflexivity.
Qed.
Lemma build_cases n : forall l x, jpath uj_parent uj_child js top l x -> length js < n + length l ->
  (exists cs, build n (Some x) = Ok cs) \/ build n (Some x) = Err KeyError.
Proof.
  induction n as [|n IH]; intros l x Hp Hn.
  - exfalso. destruct HT as (_ & Hnd & Hr & _). pose proof (jpath_length _ _ _ _ Hnd Hr _ _ Hp). lia.
  - cbn [build_rec].
    assert (Hall : forall j, In j (filter (fun j => opt_eqb String.eqb (Some (uj_parent j)) (Some x)) js) ->
      (exists f, (do lj <- urdf_mk lmap j; do cs <- build n (l_name (fst lj)); Ok (Frame (uj_child j) (fst lj) (snd lj) cs)) = Ok f) \/
      (do lj <- urdf_mk lmap j; do cs <- build n (l_name (fst lj)); Ok (Frame (uj_child j) (fst lj) (snd lj) cs)) = Err KeyError).
    { intros j Hj. apply filter_In in Hj as [Hj E]. cbn [opt_eqb] in E. apply String.eqb_eq in E.
      destruct (mk_cases j Hj) as [(jt & E1)|E1]; rewrite E1; cbn [rbind]; [|right; reflexivity]. cbn [fst l_name].
      destruct (IH (l ++ [j]) (uj_child j)) as [(cs & E2)|E2].
      - apply jpath_snoc. rewrite E. auto.
      - rewrite app_length. simpl. lia.
      - rewrite E2. left. cbn [rbind]. eauto.
      - rewrite E2. right. reflexivity. }
    induction (filter (fun j => opt_eqb String.eqb (Some (uj_parent j)) (Some x)) js) as [|j r IHr]; [left; exists []; reflexivity|].
    cbn [rmap]. destruct (Hall j (or_introl eq_refl)) as [(f & E1)|E1]; rewrite E1; cbn [rbind]; [|right; reflexivity].
    destruct IHr as [(fs & E2)|E2]; [intros; apply Hall; right; auto| |]; rewrite E2; cbn [rbind]; [left; eauto | right; reflexivity].
Qed.
Lemma build_bad j : In j js -> urdf_mk lmap j = Err KeyError ->
  forall m l x n, jpath uj_parent uj_child js top l x -> jpath uj_parent uj_child js x m (uj_parent j) ->
  length js < n + length l -> build n (Some x) = Err KeyError.
Proof.
  intros Hj Hbad m. induction m as [|j' m IH]; intros l x n Hp Hm Hn;
    (destruct n as [|n]; [exfalso; destruct HT as (_ & Hnd & Hr & _); pose proof (jpath_length _ _ _ _ Hnd Hr _ _ Hp); lia|]); cbn [build_rec].
  - assert (Ex : x = uj_parent j) by (inversion Hm; congruence). subst x.
    apply (rmap_key _ _ j).
    + apply filter_In. split; [exact Hj|]. cbn [opt_eqb]. apply String.eqb_refl.
    + rewrite Hbad. reflexivity.
    + intros y Hy. apply filter_In in Hy as [Hy E]. cbn [opt_eqb] in E. apply String.eqb_eq in E.
      destruct (mk_cases y Hy) as [(jt & E1)|E1]; rewrite E1; cbn [rbind]; [|right; reflexivity]. cbn [fst l_name].
      destruct (build_cases n (l ++ [y]) (uj_child y)) as [(cs & E2)|E2].
      * apply jpath_snoc. rewrite E. auto.
      * rewrite app_length. simpl. lia.
      * rewrite E2. left. cbn [rbind]. eauto.
      * rewrite E2. right. reflexivity.
  - inversion Hm as [|? ? ? ? Hin Hpar Hrest]; subst.
    apply (rmap_key _ _ j').
    + apply filter_In. split; [exact Hin|]. cbn [opt_eqb]. apply String.eqb_refl.
    + destruct (mk_cases j' Hin) as [(jt & E1)|E1]; rewrite E1; cbn [rbind]; [|reflexivity]. cbn [fst l_name].
      rewrite (IH (l ++ [j']) (uj_child j') n); [reflexivity| |exact Hrest|rewrite app_length; simpl; lia].
      apply jpath_snoc. auto.
    + intros y Hy. apply filter_In in Hy as [Hy E]. cbn [opt_eqb] in E. apply String.eqb_eq in E.
      destruct (mk_cases y Hy) as [(jt & E1)|E1]; rewrite E1; cbn [rbind]; [|right; reflexivity]. cbn [fst l_name].
      destruct (build_cases n (l ++ [y]) (uj_child y)) as [(cs & E2)|E2].
      * apply jpath_snoc. rewrite E. auto.
      * rewrite app_length. simpl. lia.
      * rewrite E2. left. cbn [rbind]. eauto.
      * rewrite E2. right. reflexivity.
Qed.
End BadType.
Lemma bad_type_key (es : list uelem) top j limit :
  tree_shaped uj_parent uj_child (joints_of es) top ->
  (forall x, x = top \/ In x (map uj_child (joints_of es)) -> In x (map uk_name (links_of es))) ->
  In j (joints_of es) -> ~ In (uj_type j) ["revolute"; "continuous"; "prismatic"; "fixed"] ->
  length (joints_of es) < limit -> urdf_chain limit (urobot_of es) = Err KeyError.
Proof.
  intros HT Hl Hj Hty Hlim.
  assert (Hbad : urdf_mk (rb_link_map (urobot_of es)) j = Err KeyError).
  { unfold urdf_mk. rewrite urdf_transform_ok. cbn [rbind].
    assert (Ek : urdf_kind (uj_type j) = None).
    { unfold urdf_kind. destruct (String.eqb_spec (uj_type j) "revolute") as [E|]; [exfalso; apply Hty; rewrite E; simpl; auto|].
      destruct (String.eqb_spec (uj_type j) "continuous") as [E|]; [exfalso; apply Hty; rewrite E; simpl; auto|].
      destruct (String.eqb_spec (uj_type j) "prismatic") as [E|]; [exfalso; apply Hty; rewrite E; simpl; auto|].
      destruct (String.eqb_spec (uj_type j) "fixed") as [E|]; [exfalso; apply Hty; rewrite E; simpl; auto|]. reflexivity. }
    rewrite (kind_none _ Ek). reflexivity. }
  pose proof HT as (_ & _ & _ & Hreach). destruct (Hreach j Hj) as (m & Hm).
  destruct (link_found es top) as (rl & Er & Ern & _); [apply Hl; auto|].
  unfold urdf_chain, build_chain_from_urdf, urdf_tree. rewrite urobot_joints, (find_root_ok _ _ _ _ HT). cbn [rbind].
  rewrite Er. cbn [of_opt rbind joint_init joint_type_of String.eqb Ascii.eqb Bool.eqb]. rewrite urdf_transform_ok. cbn [rbind]. rewrite Ern.
  rewrite (build_bad es top HT Hl j Hj Hbad m [] top limit); [reflexivity | constructor | exact Hm | simpl; lia].
Qed.

(** a turning arm with a tool, and a slider *)
Definition ex_uarm : ujoint := mkUJoint "turn" "revolute" "base" "arm" (Some (mkUPose (mkV3 0 1 0) vzero)) (Some (mkV3 0 0 2)) (Some (mkULimit 2 (-1) 1 3)).
Definition ex_umount : ujoint := mkUJoint "mount" "fixed" "arm" "tool" (Some (mkUPose (mkV3 2 0 0) vzero)) None None.
Definition ex_uslide : ujoint := mkUJoint "lift" "prismatic" "base" "slider" None (Some (mkV3 1 0 0)) None.
Definition ex_urdf : list uelem :=
  [EJoint ex_umount; ELink (mkULink "tool" None); EJoint ex_uslide; ELink (mkULink "base" None); EJoint ex_uarm;
   ELink (mkULink "arm" None); ELink (mkULink "slider" None)].
Definition ex_uconfig : @config R := fun n => match n with Some "turn" => PI | _ => 0%R end.
Lemma ex_urdf_tree : tree_shaped uj_parent uj_child (joints_of ex_urdf) "base".
Proof.
  split; [discriminate|]. split; [simpl; nodup|]. split; [simpl; intuition discriminate|].
  intros j Hj. simpl in Hj. destruct Hj as [<-|[<-|[<-|[]]]].
  - exists [ex_uarm]. eapply jp_step; [simpl; tauto | reflexivity | constructor].
  - exists []. constructor.
  - exists []. constructor.
Qed.
Lemma ex_urdf_links x : x = "base" \/ In x (map uj_child (joints_of ex_urdf)) -> In x (map uk_name (links_of ex_urdf)).
Proof. simpl. intuition. Qed.
Lemma ex_urdf_origins l : In l (links_of ex_urdf) -> uk_origin l = None.
Proof. simpl. intros H. repeat (destruct H as [<-|H]; [reflexivity|]). contradiction. Qed.
Lemma nonzero_z z : z <> 0%R -> mkV3 0 0 z <> vzero.
Proof. intros H E. apply (f_equal vz) in E. cbn in E. congruence. Qed.
Lemma ex_urdf_kinds j : In j (joints_of ex_urdf) -> exists k, urdf_kind (uj_type j) = Some k /\
     (k <> Fixed -> exists a, uj_axis j = Some a /\ a <> vzero).
Proof.
  simpl. intros [<-|[<-|[<-|[]]]].
  - exists Fixed. split; [reflexivity | congruence].
  - exists Prismatic. split; [reflexivity|]. intros _. eexists. split; [reflexivity|].
    intros E. apply (f_equal vx) in E. cbn in E. lra.
  - exists Revolute. split; [reflexivity|]. intros _. eexists. split; [reflexivity|]. apply nonzero_z. lra.
Qed.
Lemma ex_urdf_names : NoDup (map uj_name (filter urdf_moves (joints_of ex_urdf))).
Proof. simpl. nodup. Qed.
Lemma ex_urdf_clean x : x = "base" \/ In x (map uj_child (joints_of ex_urdf)) -> strip_nl x = x.
Proof. simpl. intros H. repeat (destruct H as [<-|H] || destruct H as [->|H]; [reflexivity|]). contradiction. Qed.
Lemma ex_urdf_path : jpath uj_parent uj_child (joints_of ex_urdf) "base" [ex_uarm; ex_umount] "tool".
Proof.
  eapply jp_step; [simpl; tauto | reflexivity |]. eapply jp_step; [simpl; tauto | reflexivity | constructor].
Qed.
Lemma rpy_0 : rpy_matrix vzero = I3.
Proof.
  unfold rpy_matrix, rotx, roty, rotz, vzero. cbn [vx vy vz]. rewrite cos_0, sin_0.
  unfold m3mul, I3. cbn [m00 m01 m02 m10 m11 m12 m20 m21 m22]. apply mkM3_eq; ring.
Qed.
Lemma ex_urdf_pose : trp (fold_left m4mul (map (urdf_rel ex_uconfig) [ex_uarm; ex_umount]) I4) = mkV3 (-2) 1 0.
Proof.
  cbn [map fold_left]. rewrite m4mul_1_l. unfold urdf_rel, urdf_motion, ex_uarm, ex_umount.
  cbn [uj_type uj_axis uj_name uj_origin urdf_kind String.eqb Ascii.eqb Bool.eqb ex_uconfig urdf_origin p_rpy p_xyz].
  rewrite rpy_0, m4mul_1_r. unfold turn. rewrite !aff_mul, trp_aff.
  assert (E : unit_of (mkV3 0 0 2) = mkV3 0 0 1).
  { unfold unit_of, vnorm. lin_simpl. replace (0 * 0 + 0 * 0 + 2 * 2)%R with (2 * 2)%R by ring. rewrite sqrt_square by lra. apply mkV3_eq; field. }
  rewrite E, <- rodrigues_eq, rotz_eq, !m3mul_1_l. unfold rotz. rewrite cos_PI, sin_PI.
  unfold m3vec, vadd, vzero. cbn [m00 m01 m02 m10 m11 m12 m20 m21 m22 vx vy vz]. apply mkV3_eq; ring.
Qed.

(** ** SDF *)
Lemma sdf_zero (es : list selem) (top : string) (limit : nat) :
  tree_shaped sj_parent sj_child (joints_of es) top ->
  (forall x, x = top \/ In x (map sj_child (joints_of es)) -> In x (map sk_name (links_of es))) ->
  (forall j, In j (joints_of es) -> complete j /\ exists k, sdf_kind (sj_type j) = Some k /\ (k <> Fixed -> sj_axis j <> vzero)) ->
  NoDup (map sj_name (filter sdf_moves (joints_of es))) ->
  (forall x, x = top \/ In x (map sj_child (joints_of es)) -> strip_nl x = x) ->
  length (joints_of es) < limit ->
  (forall l p, In l (links_of es) -> sk_pose l = Some p -> vx (sp_rpy p) = vz (sp_rpy p)) ->
  NoDup (map sk_name (links_of es)) ->
  exists c d, sdf_chain limit (srobot_of es) = Ok c /\
    forward_kinematics mops c (config_tensor (c_root c) [fun _ => 0%R]) None = Ok d /\
    forall l, In l (links_of es) -> sk_name l = top \/ In (sk_name l) (map sj_child (joints_of es)) ->
      dget String.eqb (sk_name l) d = Some [sdf_pose (sk_pose l)].
Proof.
  intros HT Hl Hk Hn Hc Hlim Hrp Hnd.
  destruct (sdf_fk es top limit [fun _ => 0%R] HT Hl Hk Hn Hc Hlim) as (c & d & jl & H1 & _ & _ & _ & H2 & _ & H3).
  exists c, d. split; [exact H1|]. split; [exact H2|]. intros l Hin Hx.
  assert (Hp : exists p, jpath sj_parent sj_child (joints_of es) top p (sk_name l)).
  { destruct Hx as [->|Hx]; [exists []; constructor|]. apply in_map_iff in Hx as (j & <- & Hj).
    destruct HT as (_ & _ & _ & Hr). destruct (Hr j Hj) as (p & Hp). exists (p ++ [j]). apply jpath_snoc. auto. }
  destruct Hp as (p & Hp). rewrite (H3 p _ Hp). cbn [map]. f_equal. f_equal. rewrite (telescope es top p _ Hp).
  unfold declared. rewrite (last_with_key sk_name) by auto. specialize (Hrp l). destruct (sk_pose l) as [q|]; [|reflexivity].
  specialize (Hrp q Hin eq_refl). cbn [swapped_pose sdf_pose]. destruct q as [xyz [a b c']]. cbn [sp_rpy sp_xyz vx vy vz] in *. rewrite Hrp. reflexivity.
Qed.
Definition ex_sdf_of (q : spose) : list selem :=
  [ELink (mkSLink "tip" (Some q)); EJoint (mkSJoint "j" (Some "revolute") "base" "tip" (mkV3 0 0 1) (Some (Some (-1)%R, Some 1%R)));
   ELink (mkSLink "base" (Some (mkSPose (mkV3 5 5 5) (mkV3 0 2 0))))].
Definition ex_sdf := ex_sdf_of (mkSPose (mkV3 1 2 3) (mkV3 0 1 0)).
Section ExSdf.
Variable q : spose.
Lemma ex_sdf_tree : tree_shaped sj_parent sj_child (joints_of (ex_sdf_of q)) "base".
Proof.
  split; [discriminate|]. split; [simpl; nodup|]. split; [simpl; intuition discriminate|].
  intros j [<-|[]]. exists []. constructor.
Qed.
Lemma ex_sdf_links x : x = "base" \/ In x (map sj_child (joints_of (ex_sdf_of q))) -> In x (map sk_name (links_of (ex_sdf_of q))).
Proof. simpl. intuition. Qed.
Lemma ex_sdf_kinds j : In j (joints_of (ex_sdf_of q)) -> complete j /\ exists k, sdf_kind (sj_type j) = Some k /\ (k <> Fixed -> sj_axis j <> vzero).
Proof. intros [<-|[]]. split; [exact I|]. exists Revolute. split; [reflexivity|]. intros _. apply nonzero_z. lra. Qed.
Lemma ex_sdf_names : NoDup (map sj_name (filter sdf_moves (joints_of (ex_sdf_of q)))).
Proof. simpl. nodup. Qed.
Lemma ex_sdf_clean x : x = "base" \/ In x (map sj_child (joints_of (ex_sdf_of q))) -> strip_nl x = x.
Proof. simpl. intros H. repeat (destruct H as [<-|H] || destruct H as [->|H]; [reflexivity|]). contradiction. Qed.
End ExSdf.
Lemma roll_not_yaw : rpy_matrix (mkV3 0 0 (PI/2)) <> rpy_matrix (mkV3 (PI/2) 0 0).
Proof.
  unfold rpy_matrix, rotx, roty, rotz. cbn [vx vy vz]. rewrite cos_0, sin_0, cos_PI2, sin_PI2.
  unfold m3mul. cbn [m00 m01 m02 m10 m11 m12 m20 m21 m22]. intros E. apply (f_equal m22) in E. cbn [m22] in E. lra.
Qed.
Lemma sdf_rolled : exists (es : list selem) l p c d M,
  tree_shaped sj_parent sj_child (joints_of es) "base" /\ In l (links_of es) /\ sk_pose l = Some p /\
  sdf_chain 5 (srobot_of es) = Ok c /\
  forward_kinematics mops c (config_tensor (c_root c) [fun _ => 0%R]) None = Ok d /\
  dget String.eqb (sk_name l) d = Some [M] /\ M <> sdf_pose (Some p).
Proof.
  set (q := mkSPose vzero (mkV3 (PI/2) 0 0)). set (es := ex_sdf_of q).
  destruct (sdf_fk es "base" 5 [fun _ => 0%R] (ex_sdf_tree q) (ex_sdf_links q) (ex_sdf_kinds q) (ex_sdf_names q) (ex_sdf_clean q))
    as (c & d & jl & H1 & _ & _ & _ & H2 & _ & H3); [simpl; lia|].
  set (j := mkSJoint "j" (Some "revolute") "base" "tip" (mkV3 0 0 1) (Some (Some (-1)%R, Some 1%R))).
  assert (Hp : jpath sj_parent sj_child (joints_of es) "base" [j] "tip").
  { eapply jp_step; [left; reflexivity | reflexivity | constructor]. }
  exists es, (mkSLink "tip" (Some q)), q, c, d, (swapped_pose (Some q)).
  split; [apply ex_sdf_tree|]. split; [left; reflexivity|]. split; [reflexivity|]. split; [exact H1|]. split; [exact H2|].
  split; [|intros E; apply (f_equal rotp) in E; cbn [swapped_pose sdf_pose] in E; rewrite !rotp_aff in E; revert E; apply roll_not_yaw].
  cbn [sk_name]. rewrite (H3 _ _ Hp). cbn [map]. f_equal. f_equal. exact (telescope es "base" [j] "tip" Hp).
Qed.

(** ** MJCF *)
Lemma Forall2_impl {A B} (P Q : A -> B -> Prop) l m : (forall a b, P a b -> Q a b) -> Forall2 P l m -> Forall2 Q l m.
Proof. intros H. induction 1; constructor; auto. Qed.
Lemma pose_unique (m : mjmodel) loc r i b : wf_model m -> r < length (mm_bodies m) ->
  descends m r i -> nth_error (mm_bodies m) i = Some b -> exists! M, pose_below m loc r i M.
Proof.
  intros Hwf Hr Hd Hb.
  assert (He : exists M, pose_below m loc r i M).
  { clear Hb. induction Hd as [|i b' Hb' Hi Hd (W & IH)].
    - destruct (nth_error (mm_bodies m) r) as [rb|] eqn:E; [|apply nth_error_None in E; lia]. eexists. apply pb_root, E.
    - eexists. apply pb_body; eauto. }
  destruct He as (M & HM). exists M. split; [exact HM|]. clear Hd Hb b. induction HM as [b Hb|i b W Hb Hi HM IH]; intros M' H'.
  - inversion H' as [b' Hb'|? ? ? ? Hne]; subst; congruence.
  - inversion H' as [|? b' W' Hb' Hne HM']; subst; [congruence|]. assert (b' = b) by congruence. subst b'.
    rewrite (IH _ HM'). reflexivity.
Qed.

Definition qone : Q := mkQ 1 0 0 0.
Lemma qone_unit : qnorm2 qone = 1%R. Proof. unfold qnorm2, qone. cbn [qw qx qy qz]. ring. Qed.
Lemma qrot_one : qrot qone = I3.
Proof. unfold qrot, qone, I3. cbn [qw qx qy qz]. apply mkM3_eq; ring. Qed.

(** world -> arm (hinge about z, anchor p, reference q0) -> tip (slide along z) at (3,0,0), site "grip" on tip *)
Definition ex_arm_jnt (p : V3) (q0 : R) : mjnt := mkMJnt "hinge" mjHinge p (mkV3 0 0 1) (0%R, 0%R) false q0.
Definition ex_mj (p : V3) (q0 : R) : mjmodel :=
  mkMJ [mkMBody "world" 0 vzero qone 0 0; mkMBody "arm" 0 vzero qone 1 0; mkMBody "tip" 1 (mkV3 3 0 0) qone 0 0]
       [ex_arm_jnt p q0] [mkMSite "grip" 2 (mkV3 0 0 1) qone].
Definition ex_mjconfig : @config R := fun n => match n with Some "hinge" => (PI / 2)%R | _ => 0%R end.
(** world -> arm (slide along z with a reference value) *)
Definition ex_slide_jnt (q0 : R) : mjnt := mkMJnt "slide" mjSlide vzero (mkV3 0 0 1) (0%R, 0%R) true q0.
Definition ex_mj2 (q0 : R) : mjmodel :=
  mkMJ [mkMBody "world" 0 vzero qone 0 0; mkMBody "arm" 0 vzero qone 1 0] [ex_slide_jnt q0] [].

Ltac bodies i := destruct i as [|[|[|i]]]; simpl; intros;
  try discriminate; try (destruct i; discriminate).
Lemma ex_mj_wf p q0 : wf_model (ex_mj p q0).
Proof.
  split.
  - eexists. split; reflexivity.
  - intros i b. destruct i as [|[|[|i]]]; simpl; intros E H; try congruence; [inversion E; simpl; lia | inversion E; simpl; lia | destruct i; discriminate].
  - intros i b. destruct i as [|[|[|i]]]; simpl; intros E; try (destruct i; discriminate); inversion E; apply qone_unit.
  - intros s [<-|[]]. split; [apply qone_unit | simpl; lia].
Qed.
Lemma ex_mj_sup p q0 i b : nth_error (mm_bodies (ex_mj p q0)) i = Some b -> 0 < i -> supported (ex_mj p q0) b.
Proof.
  destruct i as [|[|[|i]]]; simpl; intros E H; try lia; try (destruct i; discriminate); inversion E.
  - right. split; [reflexivity|]. eexists. split; [reflexivity|]. split; [left; reflexivity | apply nonzero_z; lra].
  - left. reflexivity.
Qed.
Lemma ex_mj_jn p q0 i i' b b' j j' : nth_error (mm_bodies (ex_mj p q0)) i = Some b -> nth_error (mm_bodies (ex_mj p q0)) i' = Some b' ->
  0 < i -> 0 < i' -> joint_of (ex_mj p q0) b = Some j -> joint_of (ex_mj p q0) b' = Some j' -> mn_name j = mn_name j' -> i = i'.
Proof.
  destruct i as [|[|[|i]]]; destruct i' as [|[|[|i']]]; simpl; intros E E'; try lia; try (destruct i; discriminate); try (destruct i'; discriminate);
    intros _ _ Hj Hj'; try reflexivity; inversion E; subst b; inversion E'; subst b'; try discriminate Hj; discriminate Hj'.
Qed.
Lemma ex_mj_names p q0 : NoDup (map mb_name (mm_bodies (ex_mj p q0)) ++ map ms_name (mm_sites (ex_mj p q0))).
Proof. simpl. nodup. Qed.
Lemma ex_mj_clean p q0 x : In x (map mb_name (mm_bodies (ex_mj p q0)) ++ map ms_name (mm_sites (ex_mj p q0))) -> strip_nl x = x.
Proof. simpl. intros H. repeat (destruct H as [<-|H]; [reflexivity|]). contradiction. Qed.

Lemma ex_mj_fk p q0 v : exists c d, build_chain_from_mjcf 9 (ex_mj p q0) BodyNone = Ok c /\
  forward_kinematics mops c (config_tensor (c_root c) [v]) None = Ok d /\
  (exists M, dget String.eqb "arm" d = Some [M] /\ pose_below (ex_mj p q0) (code_local (ex_mj p q0) v) 0 1 M) /\
  (exists M, dget String.eqb "tip" d = Some [M] /\ pose_below (ex_mj p q0) (code_local (ex_mj p q0) v) 0 2 M).
Proof.
  destruct (mjcf_fk (ex_mj p q0) (ex_mj_wf p q0) 0 ltac:(simpl; lia) (ex_mj_sup p q0) BodyNone 9 [v] eq_refl
    (ex_mj_names p q0) (ex_mj_jn p q0) (ex_mj_clean p q0)) as (c & d & H1 & H2 & _ & _ & _ & _ & H6 & _); [simpl; lia|].
  exists c, d. split; [exact H1|]. split; [exact H2|].
  assert (D1 : descends (ex_mj p q0) 0 1) by (eapply de_body; [reflexivity | lia | apply de_root]).
  assert (D2 : descends (ex_mj p q0) 0 2) by (eapply de_body; [reflexivity | lia | exact D1]).
  split.
  - destruct (H6 1 _ D1 eq_refl) as (Ms & E & HF). inversion HF as [|v' M l ms HM HF']; subst. inversion HF'; subst. eauto.
  - destruct (H6 2 _ D2 eq_refl) as (Ms & E & HF). inversion HF as [|v' M l ms HM HF']; subst. inversion HF'; subst. eauto.
Qed.
Lemma code_pose_arm p q0 v : pose_below (ex_mj p q0) (code_local (ex_mj p q0) v) 0 1
  (m4mul I4 (m4mul I4 (m4mul (aff I3 p) (turn (mkV3 0 0 1) (v (Some "hinge")))))).
Proof.
  assert (E : aff (qrot qone) vzero = I4) by (rewrite qrot_one; reflexivity).
  rewrite <- E. eapply pb_body with (b := mkMBody "arm" 0 vzero qone 1 0); [reflexivity | lia |].
  apply (pb_root (ex_mj p q0) _ 0 (mkMBody "world" 0 vzero qone 0 0)). reflexivity.
Qed.
Lemma turn_z q : turn (mkV3 0 0 1) q = aff (rotz q) vzero.
Proof.
  unfold turn. rewrite (unit_of_unit (mkV3 0 0 1) zax_unit), <- rodrigues_eq, rotz_eq. reflexivity.
Qed.
Lemma ex_mj_run : exists c d, build_chain_from_mjcf 9 (ex_mj vzero 0) BodyNone = Ok c /\
  forward_kinematics mops c (config_tensor (c_root c) [ex_mjconfig]) None = Ok d /\
  exists M, dget String.eqb "tip" d = Some [M] /\ trp M = mkV3 0 3 0.
Proof.
  destruct (ex_mj_fk vzero 0 ex_mjconfig) as (c & d & H1 & H2 & _ & M & H3 & H4).
  exists c, d. split; [exact H1|]. split; [exact H2|]. exists M. split; [exact H3|].
  assert (D : descends (ex_mj vzero 0) 0 2).
  { eapply de_body; [reflexivity | lia |]. eapply de_body; [reflexivity | cbn; lia | apply de_root]. }
  destruct (pose_unique (ex_mj vzero 0) (code_local (ex_mj vzero 0) ex_mjconfig) 0 2 _ (ex_mj_wf _ _) ltac:(simpl; lia) D eq_refl) as (M' & HM' & HU).
  pose proof (pb_body (ex_mj vzero 0) (code_local (ex_mj vzero 0) ex_mjconfig) 0 2 (mkMBody "tip" 1 (mkV3 3 0 0) qone 0 0) _ eq_refl ltac:(lia) (code_pose_arm vzero 0 ex_mjconfig)) as Hx.
  rewrite <- (HU M H4). rewrite (HU _ Hx). unfold code_local, joint_of. cbn [mb_jntnum Nat.eqb mb_quat mb_pos].
  rewrite qrot_one, !m4mul_1_l, m4mul_1_r, turn_z, !aff_mul, trp_aff. cbn [ex_mjconfig String.eqb Ascii.eqb Bool.eqb].
  unfold rotz. rewrite cos_PI2, sin_PI2. rewrite ?m3mul_1_l, ?m3mul_1_r, ?m3vec_1. unfold m3vec, vadd, vscale, vzero. cbn [m00 m01 m02 m10 m11 m12 m20 m21 m22 vx vy vz]. apply mkV3_eq; ring.
Qed.
Lemma mj_anchor : exists m c d v M W, wf_model m /\
  (forall i b, nth_error (mm_bodies m) i = Some b -> 0 < i -> supported m b) /\
  build_chain_from_mjcf 9 m BodyNone = Ok c /\ forward_kinematics mops c (config_tensor (c_root c) [v]) None = Ok d /\
  nth_error (map mb_name (mm_bodies m)) 1 = Some "arm" /\ (forall n, v n = 0%R) /\
  dget String.eqb "arm" d = Some [M] /\ pose_below m (mj_local m v) 0 1 W /\ trp M = mkV3 5 0 0 /\ trp W = mkV3 0 0 0.
Proof.
  set (p := mkV3 5 0 0). set (m := ex_mj p 0). set (v := (fun _ => 0%R) : @config R).
  destruct (ex_mj_fk p 0 v) as (c & d & H1 & H2 & (M & H3 & H4) & _).
  assert (D : descends m 0 1) by (eapply de_body; [reflexivity | lia | apply de_root]).
  destruct (pose_unique m (code_local m v) 0 1 _ (ex_mj_wf _ _) ltac:(simpl; lia) D eq_refl) as (M' & HM' & HU).
  exists m, c, d, v, M. eexists. split; [apply ex_mj_wf|]. split; [apply ex_mj_sup|]. split; [exact H1|]. split; [exact H2|].
  split; [reflexivity|]. split; [reflexivity|]. split; [exact H3|]. split.
  { eapply pb_body with (b := mkMBody "arm" 0 vzero qone 1 0); [reflexivity | lia |].
    apply (pb_root m _ 0 (mkMBody "world" 0 vzero qone 0 0)). reflexivity. }
  assert (Ez : rotz 0 = I3) by (unfold rotz, I3; rewrite cos_0, sin_0; apply mkM3_eq; ring).
  split.
  - rewrite <- (HU M H4). rewrite (HU _ (code_pose_arm p 0 v)). unfold v. rewrite !m4mul_1_l, turn_z, Ez, aff_mul, trp_aff.
    unfold p. rewrite ?m3mul_1_l, ?m3mul_1_r, ?m3vec_1. unfold m3vec, vadd, vscale, vzero. cbn [m00 m01 m02 m10 m11 m12 m20 m21 m22 vx vy vz]. apply mkV3_eq; ring.
  - unfold mj_local, mj_joint_motion, joint_of. cbn [mb_jntnum Nat.eqb mb_jntadr m ex_mj mm_joints nth_error ex_arm_jnt mn_type mn_axis mn_pos mn_qpos0 mn_name mb_quat mb_pos].
    unfold v. rewrite Rminus_0_r, turn_z, Ez, qrot_one, !aff_mul, trp_aff. unfold p, opp. rewrite ?m3mul_1_l, ?m3mul_1_r, ?m3vec_1. unfold m3vec, vadd, vscale, vzero. cbn [m00 m01 m02 m10 m11 m12 m20 m21 m22 vx vy vz]. apply mkV3_eq; ring.
Qed.

Lemma ex_mj2_wf q0 : wf_model (ex_mj2 q0).
Proof.
  split.
  - eexists. split; reflexivity.
  - intros i b. destruct i as [|[|i]]; simpl; intros E H; try congruence; [inversion E; simpl; lia | destruct i; discriminate].
  - intros i b. destruct i as [|[|i]]; simpl; intros E; try (destruct i; discriminate); inversion E; apply qone_unit.
  - intros s [].
Qed.
Lemma ex_mj2_sup q0 i b : nth_error (mm_bodies (ex_mj2 q0)) i = Some b -> 0 < i -> supported (ex_mj2 q0) b.
Proof.
  destruct i as [|[|i]]; simpl; intros E H; try lia; try (destruct i; discriminate); inversion E.
  right. split; [reflexivity|]. eexists. split; [reflexivity|]. split; [right; reflexivity | apply nonzero_z; lra].
Qed.
Lemma mj_reference : exists m c d v M W, wf_model m /\
  (forall i b, nth_error (mm_bodies m) i = Some b -> 0 < i -> supported m b) /\
  build_chain_from_mjcf 9 m BodyNone = Ok c /\ forward_kinematics mops c (config_tensor (c_root c) [v]) None = Ok d /\
  (forall j, In j (mm_joints m) -> mn_pos j = vzero) /\
  dget String.eqb "arm" d = Some [M] /\ pose_below m (mj_local m v) 0 1 W /\ trp M = mkV3 0 0 3 /\ trp W = mkV3 0 0 2.
Proof.
  set (m := ex_mj2 1). set (v := (fun _ => 3%R) : @config R).
  destruct (mjcf_fk m (ex_mj2_wf 1) 0 ltac:(simpl; lia) (ex_mj2_sup 1) BodyNone 9 [v] eq_refl)
    as (c & d & H1 & H2 & _ & _ & _ & _ & H6 & _).
  - simpl. nodup.
  - intros [|[|i]] [|[|i']] b b' j j'; simpl; intros; try lia; try (destruct i; discriminate); destruct i'; discriminate.
  - simpl. intros x H. repeat (destruct H as [<-|H]; [reflexivity|]). contradiction.
  - simpl; lia.
  - assert (D : descends m 0 1) by (eapply de_body; [reflexivity | lia | apply de_root]).
    destruct (H6 1 _ D eq_refl) as (Ms & E & HF). inversion HF as [|v' M l ms HM HF']; subst. inversion HF'; subst.
    destruct (pose_unique m (code_local m v) 0 1 _ (ex_mj2_wf _) ltac:(simpl; lia) D eq_refl) as (M' & HM' & HU).
    exists m, c, d, v, M. eexists. split; [apply ex_mj2_wf|]. split; [apply ex_mj2_sup|]. split; [exact H1|]. split; [exact H2|].
    split; [intros j [<-|[]]; reflexivity|]. split; [exact E|]. split.
    { eapply pb_body with (b := mkMBody "arm" 0 vzero qone 1 0); [reflexivity | lia |].
      apply (pb_root m _ 0 (mkMBody "world" 0 vzero qone 0 0)). reflexivity. }
    assert (Hc : pose_below m (code_local m v) 0 1 (m4mul (aff (qrot qone) vzero) (code_local m v (mkMBody "arm" 0 vzero qone 1 0)))).
    { apply pb_body; [reflexivity | lia |]. apply (pb_root m _ 0 (mkMBody "world" 0 vzero qone 0 0)). reflexivity. }
    assert (Es : forall q, slide (mkV3 0 0 1) q = aff I3 (vscale q (mkV3 0 0 1))) by (intros; unfold slide; rewrite (unit_of_unit (mkV3 0 0 1) zax_unit); reflexivity).
    split.
    + rewrite <- (HU M HM). rewrite (HU _ Hc). unfold code_local, code_motion, joint_of.
      cbn [mb_jntnum Nat.eqb mb_jntadr m ex_mj2 mm_joints nth_error ex_slide_jnt mn_type mn_axis mn_pos mn_qpos0 mn_name mb_quat mb_pos].
      unfold v. rewrite Es, qrot_one, !aff_mul, trp_aff. rewrite ?m3mul_1_l, ?m3mul_1_r, ?m3vec_1. unfold m3vec, vadd, vscale, vzero. cbn [m00 m01 m02 m10 m11 m12 m20 m21 m22 vx vy vz]. apply mkV3_eq; ring.
    + unfold mj_local, mj_joint_motion, joint_of. cbn [mb_jntnum Nat.eqb mb_jntadr m ex_mj2 mm_joints nth_error ex_slide_jnt mn_type mn_axis mn_pos mn_qpos0 mn_name mb_quat mb_pos].
      unfold v. rewrite Es, qrot_one, !aff_mul, trp_aff. rewrite ?m3mul_1_l, ?m3mul_1_r, ?m3vec_1. unfold m3vec, vadd, vscale, vzero. cbn [m00 m01 m02 m10 m11 m12 m20 m21 m22 vx vy vz]. apply mkV3_eq; ring.
Qed.
Lemma mj_rejected (m : mjmodel) (limit : nat) (a : body_arg) r i b : root_body m a = Ok r ->
  child_ids m r = [i] -> r < length (mm_bodies m) -> nth_error (mm_bodies m) i = Some b ->
  (1 < mb_jntnum b -> build_chain_from_mjcf (S limit) m a = Err ValueError) /\
  (forall j, mb_jntnum b = 1 -> nth_error (mm_joints m) (mb_jntadr b) = Some j -> mn_type j = mjFree \/ mn_type j = mjBall ->
     build_chain_from_mjcf (S limit) m a = Err KeyError).
Proof.
  intros Ha Hc Hr Hb.
  assert (Hx : forall e, mjcf_joint m b = Err e -> build_chain_from_mjcf (S limit) m a = Err e).
  { intros e He. unfold build_chain_from_mjcf, mjcf_tree. rewrite Ha. cbn [rbind]. unfold get at 1.
    destruct (nth_error (mm_bodies m) r) as [rb|] eqn:Er; [|apply nth_error_None in Er; lia]. cbn [of_opt rbind].
    rewrite placed_ok. cbn [rbind joint_init joint_type_of String.eqb Ascii.eqb Bool.eqb mjcf_rec]. rewrite Hc. cbn [rmap].
    unfold get at 1. rewrite Hb. cbn [of_opt rbind]. unfold mjcf_body_frame. rewrite He. reflexivity. }
  split.
  - intros H. apply Hx. unfold mjcf_joint. apply Nat.ltb_lt in H. rewrite H. reflexivity.
  - intros j H1 Hj Ht. apply Hx. unfold mjcf_joint. rewrite H1. cbn [Nat.ltb Nat.leb Nat.eqb]. unfold get. rewrite Hj. cbn [of_opt rbind].
    change (transform3d_init (MNone 1) (Pos1 (mn_pos j)) RotNone) with (Ok (mkT KBase [set_pos I4 (mn_pos j)])).
    cbn [rbind]. unfold the_matrix, get. cbn [tm nth_error of_opt rbind]. destruct Ht as [Ht|Ht]; rewrite Ht; reflexivity.
Qed.
Lemma mj_unlimited : exists m f, mjcf_tree 9 m BodyNone = Ok f /\
  map mn_limited (mm_joints m) = [false] /\
  exists g, In g (preorder f) /\ f_name g = "arm" /\ j_lim (f_joint g) = Some (Fin 0, Fin 0).
Proof.
  exists (ex_mj vzero 0). eexists. split; [reflexivity|]. split; [reflexivity|].
  eexists. split; [right; left; reflexivity|]. split; reflexivity.
Qed.
Definition ex_free : mjmodel :=
  mkMJ [mkMBody "world" 0 vzero qone 0 0; mkMBody "ball" 0 vzero qone 1 0]
       [mkMJnt "free" mjFree vzero (mkV3 0 0 1) (0%R, 0%R) false 0] [].
