(** Last steps of the proofs quoted in Properties_Dev.v. *)
From Coq Require Import String Bool Arith Lia List.
From Verif Require Import Prelude ExtF Tree ChainModel SpecFK ChainProofs SerialModel SerialProofs DevModel SpecDev DevProofs.
Import ListNotations.
Local Open Scope nat_scope.
Local Open Scope string_scope.
Local Open Scope list_scope.

(** a base with a link offset and no joint offset, and one revolute arm with both, as the URDF and MJCF loaders make them *)
Definition dev_off (dt : dtype) (dv : device) : ttrans := mkTr dt dv (mkT dt dv).
Definition dev_arm (dt : dtype) (dv : device) : tframe :=
  Frame "arm" (mkLink (Some "arm") (Some (dev_off dt dv)))
    (mkJoint (Some "j") (Some (dev_off dt dv)) Revolute (mkT dt dv) None None None) [].
Definition dev_robot (dt : dtype) (dv : device) : tframe :=
  Frame "base" (mkLink (Some "base") (Some (dev_off dt dv))) (mkJoint None None Fixed (mkT dt dv) None None None) [dev_arm dt dv].
(** the rules of current versions of torch for the dtypes at hand *)
Definition ex_promo (a b : dtype) : res dtype :=
  match a, b with
  | DDouble, _ | _, DDouble => Ok DDouble
  | DFloat, _ | _, DFloat => Ok DFloat
  | DHalf, _ | _, DHalf => Ok DHalf
  | DLong, _ | _, DLong => Ok DLong
  | DBool, DBool => Ok DBool
  end.
Lemma ex_torch : torch_like ex_promo dtype_eqb.
Proof. intros d. destruct d; split; reflexivity. Qed.
Lemma ex_promo_err : forall a b x, ex_promo a b = Err x -> x = RuntimeError.
Proof. intros [] []; discriminate. Qed.
Lemma dev_robot_offsets dt dv : forall f m, In f (preorder (dev_robot dt dv)) ->
  l_off (f_link f) = Some m \/ j_off (f_joint f) = Some m -> m = dev_off dt dv.
Proof. intros f m [<-|[<-|[]]]; cbn; intros [H|H]; congruence. Qed.
Lemma dev_robot_at dt dv : tree_at (dev_robot dt dv) (mkT dt dv).
Proof. intros f Hf. split; [destruct Hf as [<-|[<-|[]]]; reflexivity|]. intros m Hm. exact (dev_robot_offsets dt dv f m Hf Hm). Qed.
Lemma dev_distinct dt dv : distinct_frames (dev_robot dt dv).
Proof. unfold distinct_frames. cbn. repeat constructor; cbn; intuition discriminate. Qed.
Lemma dev_clean dt dv : clean_names (dev_robot dt dv).
Proof. intros f [<-|[<-|[]]]; reflexivity. Qed.
(** the index tensors of a chain *)
Definition long_tensors (c : tchain) : list tensor := k_parents c ++ k_levels c ++ [k_jtype c; k_jidx c; k_dpar c; k_jclamp c; k_dof_frame c].
Lemma held_indices promo c : held promo c -> (forall x, In x (long_tensors c) -> t_dt x = DLong) /\ t_dt (k_dof_rev c) = DBool.
Proof.
  induction 1 as [root dt dv c H|c dt dv _ [IH1 IH2]].
  - unfold tag_init in H. destruct (chain_init shape_ops root) as [s|]; cbn [rbind] in H; [|discriminate].
    destruct (rmap (static_tensor (mkT dt dv)) (visited root)) as [so|]; cbn [rbind] in H; [|discriminate].
    destruct (stack promo so) as [st|]; cbn [rbind] in H; [|discriminate].
    destruct (gather _ _) as [jt|]; cbn [rbind] in H; [|discriminate].
    assert (E : forall a b : tchain, Ok a = Ok b -> a = b) by congruence. apply E in H. subst c. split; [|reflexivity].
    intros x Hx. unfold long_tensors in Hx. cbn [k_parents k_levels k_jtype k_jidx k_dpar k_jclamp k_dof_frame] in Hx.
    rewrite !in_app_iff, !in_map_iff in Hx. destruct Hx as [(y & <- & _)|[(y & <- & _)|Hx]]; [reflexivity|reflexivity|].
    cbn [In] in Hx. repeat (destruct Hx as [<-|Hx]; [reflexivity|]). contradiction.
  - split; [|exact IH2]. intros x Hx. unfold long_tensors in Hx, IH1.
    cbn [tag_to k_parents k_levels k_jtype k_jidx k_dpar k_jclamp k_dof_frame] in Hx.
    rewrite !in_app_iff, !in_map_iff in Hx. destruct Hx as [(y & <- & _)|[(y & <- & Hy)|Hx]]; [reflexivity| |].
    + apply (IH1 y). rewrite !in_app_iff. auto.
    + cbn [In] in Hx.
      destruct Hx as [<-|[<-|[<-|[<-|[<-|[]]]]]]; try reflexivity; cbn [ten_move t_dt]; apply IH1; rewrite !in_app_iff; cbn [In]; tauto.
Qed.
Lemma fk_fixed promo conv c th r : c_has_rev (k_shape c) = false -> c_has_pris (k_shape c) = false ->
  fk_tensor promo conv c th = Ok r -> k_static c = th.
Proof.
  intros H1 H2. unfold fk_tensor, joint_tensors. rewrite H1, H2. cbn [rbind].
  destruct (matmul (k_static c) th) as [loc|] eqn:E1; cbn [rbind]; [|discriminate]. now apply matmul_inv in E1.
Qed.
Lemma backward_inv promo c w g r : backward_tensor promo c w g = Ok r -> w = k_axes c /\ g = k_axes c /\ k_mask c = k_axes c.
Proof.
  unfold backward_tensor. destruct (matmul w g) as [tau|] eqn:E1; cbn [rbind]; [|discriminate]. apply matmul_inv in E1 as [<- ->].
  destruct (gather w (k_dof_frame c)) as [tdof|] eqn:E2; cbn [rbind]; [|discriminate]. apply gather_inv in E2. subst tdof.
  destruct (matmul w (k_axes c)) as [z|] eqn:E3; cbn [rbind]; [|discriminate]. apply matmul_inv in E3 as [-> ->].
  destruct (matmul (k_mask c) (k_axes c)) as [st|] eqn:E4; cbn [rbind]; [|discriminate]. apply matmul_inv in E4 as [-> ->]. auto.
Qed.

Lemma l69_construct : forall promo conv (root : tframe) dt, torch_like promo conv ->
  (forall f m, In f (preorder root) -> l_off (f_link f) = Some m \/ j_off (f_joint f) = Some m -> a_mat m = mkT dt cpu) ->
  exists c, tag_init promo root dt cpu = Ok c /\ chain_at c (mkT dt cpu) /\ k_root c = root.
Proof. intros promo conv root dt HT H. destruct (init_at promo conv HT root dt H) as (c & H1 & H2 & H3 & _). exists c. auto. Qed.

Lemma l69_constructor_device : forall promo (root : tframe) dt dv, dv <> cpu -> (forall a b x, promo a b = Err x -> x = RuntimeError) ->
  tag_init promo root dt dv = Err RuntimeError.
Proof. intros promo root dt dv. exact (init_device promo root dt dv). Qed.

Lemma l69_constructor_device_refuted : exists (root : tframe) dt dv, tree_at root (mkT dt dv) /\ tag_init ex_promo root dt dv = Err RuntimeError.
Proof. exists (dev_robot DFloat 1), DFloat, 1. split; [apply dev_robot_at|]. apply init_device; [discriminate|exact ex_promo_err]. Qed.

Lemma l69_mixed : forall promo (root f : tframe) m dt dv, In f (preorder root) ->
  (l_off (f_link f) = Some m /\ j_off (f_joint f) = None \/ l_off (f_link f) = None /\ j_off (f_joint f) = Some m) ->
  a_mat m <> mkT dt dv -> tag_init promo root dt dv = Err RuntimeError.
Proof. intros promo root f m dt dv. exact (init_mixed promo root f m dt dv). Qed.

Lemma l69_to : forall (c : tchain) dt dv,
  let d := match dt with Some d => d | None => k_dtype c end in
  let v := match dv with Some v => v | None => k_device c end in
  chain_at (tag_to c dt dv) (mkT d v) /\ (honest_tree (k_root c) -> tree_at (k_root (tag_to c dt dv)) (mkT d v)).
Proof. intros c dt dv. cbv zeta. split; [apply to_at|]. intros H. exact (frame_to_at (k_root c) (mkT _ _) H). Qed.

Lemma l69_forward : forall promo conv (c : tchain) t, torch_like promo conv -> held promo c -> chain_at c t ->
  fk_tensor promo conv c t = Ok t /\ backward_tensor promo c t t = Ok t.
Proof.
  intros promo conv c t HT Hh Hc. split.
  - exact (fk_same promo conv HT c t (held_levels promo c Hh) Hc).
  - exact (backward_same promo conv HT c t Hc).
Qed.

Lemma l69_forward_only : forall promo conv (c : tchain) t th r, chain_at c t -> fk_tensor promo conv c th = Ok r ->
  r = th /\ (1 < length (k_levels c) \/ c_has_rev (k_shape c) = false /\ c_has_pris (k_shape c) = false -> th = t).
Proof.
  intros promo conv c t th r Hc H. destruct (fk_result promo conv c th r H) as [H1 H2]. split; [exact H1|]. intros [Hl|[Hr Hp]].
  - rewrite <- (H2 Hl). apply (at_floats c t Hc).
  - rewrite <- (fk_fixed promo conv c th r Hr Hp H). apply (at_floats c t Hc).
Qed.

Lemma l69_backward_only : forall promo (c : tchain) w g r, backward_tensor promo c w g = Ok r ->
  w = k_axes c /\ g = k_axes c /\ k_mask c = k_axes c.
Proof. intros promo c w g r. exact (backward_inv promo c w g r). Qed.

Lemma l69_indices : forall promo (c : tchain), held promo c ->
  (forall x, In x (k_parents c ++ k_levels c ++ [k_jtype c; k_jidx c; k_dpar c; k_jclamp c; k_dof_frame c]) -> t_dt x = DLong) /\
  t_dt (k_dof_rev c) = DBool.
Proof. intros promo c. exact (held_indices promo c). Qed.

Lemma l69_serial : forall promo conv (c : tchain) rn p r fs dt, torch_like promo conv ->
  distinct_frames (k_root c) -> clean_names (k_root c) -> root_path (k_root c) (p ++ [r]) ->
  ((rn = "" /\ r = k_root c) \/ (rn <> "" /\ rn = f_name r)) -> root_path r (r :: fs) -> tree_at (k_root c) (mkT dt cpu) ->
  exists s, tag_serial promo c (f_name (last (r :: fs) r)) rn dt cpu = Ok s /\ serial_at s (mkT dt cpu) /\
    jacobian_tensor_t promo conv s (mkT dt cpu) = Ok (mkT dt cpu) /\
    forall dt' dv', serial_at (serial_to s (Some dt') (Some dv')) (mkT dt' dv') /\
      jacobian_tensor_t promo conv (serial_to s (Some dt') (Some dv')) (mkT dt' dv') = Ok (mkT dt' dv').
Proof.
  intros promo conv c rn p r fs dt HT Hd Hcl Hpr Hrn Hp Ht.
  assert (Hin : In r (preorder (k_root c))) by (apply (path_incl _ _ Hpr), in_or_app; right; left; reflexivity).
  destruct (serial_built promo conv HT c (k_root c) rn r fs dt eq_refl Hd Hcl) as (s & H1 & H2 & H3 & _); [|exact Hp|exact Ht|].
  { destruct Hrn as [H|[Ha Hb]]; [left; exact H|right; repeat split; assumption]. }
  exists s. split; [exact H1|]. split; [exact H2|].
  split; [exact (jacobian_same promo conv HT s _ (held_levels promo _ H3) H2)|].
  intros dt' dv'. pose proof (serial_to_at s (Some dt') (Some dv')) as H. cbv zeta in H. split; [exact H|].
  refine (jacobian_same promo conv HT _ _ (held_levels promo _ _) H). apply (held_to promo _ (Some dt') (Some dv') H3).
Qed.

Lemma l69_serial_after_to : forall promo (c : tchain) e m dt dv dt' dv', honest_tree (k_root c) ->
  (l_off (f_link (k_root c)) = Some m /\ j_off (f_joint (k_root c)) = None) ->
  (forall a b x, promo a b = Err x -> x = RuntimeError) ->
  (dt <> dt' \/ dv <> dv' \/ dv <> cpu) ->
  tag_serial promo (tag_to c (Some dt) (Some dv)) e "" dt' dv' = Err RuntimeError.
Proof.
  intros promo c e m dt dv dt' dv' Hh [Hl Hj] Hp Hne. unfold tag_serial. cbn [String.eqb]. cbn [rbind].
  set (c' := tag_to c (Some dt) (Some dv)).
  assert (E : tag_init promo (k_root c') dt' dv' = Err RuntimeError).
  { destruct (Nat.eq_dec dv' cpu) as [->|Hd]; [|apply init_device; assumption].
    assert (Hf : In (k_root c') (preorder (k_root c'))) by (rewrite preorder_unfold; left; reflexivity).
    apply (init_mixed promo _ (k_root c') (mkTr dt dv (mkT dt dv)) _ _ Hf).
    - left. unfold c'. cbn [tag_to k_root]. destruct (k_root c) as [n l j cs] eqn:Er. cbn [frame_to f_link f_joint link_to joint_to l_off j_off] in *.
      rewrite Hl, Hj. cbn [option_map]. split; [|reflexivity]. f_equal. apply trans_to_at.
      apply (Hh (Frame n l j cs)); [left; reflexivity|left; exact Hl].
    - cbn [a_mat]. intros E. injection E as E1 E2. tauto. }
  rewrite E. reflexivity.
Qed.

Lemma l69_serial_after_to_refuted : exists (c : tchain), tag_init ex_promo (dev_robot DFloat cpu) DFloat cpu = Ok c /\
  (exists s, tag_serial ex_promo c "arm" "" DFloat cpu = Ok s) /\
  tag_serial ex_promo (tag_to c (Some DDouble) None) "arm" "" DFloat cpu = Err RuntimeError /\
  (forall dt dv, tag_serial ex_promo (tag_to c (Some DFloat) (Some 1)) "arm" "" dt dv = Err RuntimeError).
Proof.
  assert (E : exists c, tag_init ex_promo (dev_robot DFloat cpu) DFloat cpu = Ok c /\ k_root c = dev_robot DFloat cpu /\ k_device c = cpu) by (eexists; split; [reflexivity|split; reflexivity]).
  destruct E as (c & Hc & Hr & Hv). exists c. split; [exact Hc|].
  assert (Hh : honest_tree (k_root c)) by (rewrite Hr; apply (tree_at_honest _ (mkT DFloat cpu)), dev_robot_at).
  assert (Ho : l_off (f_link (k_root c)) = Some (dev_off DFloat cpu) /\ j_off (f_joint (k_root c)) = None) by (rewrite Hr; split; reflexivity).
  split; [|split].
  - destruct (serial_built ex_promo dtype_eqb ex_torch c (k_root c) "" (dev_robot DFloat cpu) [dev_arm DFloat cpu] DFloat eq_refl) as (s & Hs & _);
      [rewrite Hr; apply dev_distinct|rewrite Hr; apply dev_clean|left; split; [reflexivity|symmetry; exact Hr]| |rewrite Hr; apply dev_robot_at|exists s; exact Hs].
    apply rp_child with (c := dev_arm DFloat cpu); [left; reflexivity|]. apply rp_here.
  - assert (E : tag_to c (Some DDouble) None = tag_to c (Some DDouble) (Some cpu)) by (unfold tag_to; rewrite Hv; reflexivity).
    rewrite E. apply (l69_serial_after_to ex_promo c "arm" _ DDouble cpu DFloat cpu Hh Ho ex_promo_err). left. discriminate.
  - intros dt dv. apply (l69_serial_after_to ex_promo c "arm" _ DFloat 1 dt dv Hh Ho ex_promo_err). right; right. discriminate.
Qed.

Lemma l69_visuals_refuted : exists (l : vlink) dt dv m, v_vis (vlink_to dt dv l) = [Some m] /\
  v_off (vlink_to dt dv l) = Some (mkTr dt dv (mkT dt dv)) /\ a_mat m <> mkT dt dv.
Proof.
  exists (mkVL (Some (dev_off DFloat cpu)) [Some (dev_off DFloat cpu)]), DDouble, 1, (dev_off DFloat cpu). split; [reflexivity|]. split; [reflexivity|discriminate].
Qed.
