(** C69: dtypes and devices of chains. *)
From Coq Require Import String Bool Arith Lia List.
From Verif Require Import Prelude ExtF Tree ChainModel SpecFK ChainProofs SerialModel SerialProofs DevModel SpecDev DevProofs.
From Verif Require Import DevFinal.
Import ListNotations.
Local Open Scope nat_scope.
Local Open Scope string_scope.
Local Open Scope list_scope.



(** C69.  Construction: when the offsets of the tree have the requested dtype and are on the CPU, the chain is built and all its
    tensors are there. *)
Theorem C69_construct : forall promo conv (root : tframe) dt, torch_like promo conv ->
  (forall f m, In f (preorder root) -> l_off (f_link f) = Some m \/ j_off (f_joint f) = Some m -> a_mat m = mkT dt cpu) ->
  exists c, tag_init promo root dt cpu = Ok c /\ chain_at c (mkT dt cpu) /\ k_root c = root.
Proof. exact l69_construct. Qed.
Print Assumptions C69_construct.

Example C69_construct_example : exists c, tag_init ex_promo (dev_robot DDouble cpu) DDouble cpu = Ok c /\ chain_at c (mkT DDouble cpu) /\
  k_axes c = mkT DDouble cpu.
Proof.
  destruct (C69_construct ex_promo dtype_eqb (dev_robot DDouble cpu) DDouble ex_torch) as (c & H1 & H2 & _).
  { intros f m Hf Hm. rewrite (dev_robot_offsets _ _ f m Hf Hm). reflexivity. }
  exists c. split; [exact H1|]. split; [exact H2|]. apply (at_floats c _ H2).
Qed.

(** C69, refuted part: the [device] argument of the constructor.  Whatever the tree, asking for any device but the CPU ends in
    RuntimeError: the joint types are made on the CPU and then indexed with a tensor on the requested device. *)
Theorem C69_constructor_device : forall promo (root : tframe) dt dv, dv <> cpu -> (forall a b x, promo a b = Err x -> x = RuntimeError) ->
  tag_init promo root dt dv = Err RuntimeError.
Proof. exact l69_constructor_device. Qed.
Print Assumptions C69_constructor_device.

Theorem C69_constructor_device_refuted : exists (root : tframe) dt dv, tree_at root (mkT dt dv) /\ tag_init ex_promo root dt dv = Err RuntimeError.
Proof. exact l69_constructor_device_refuted. Qed.
Print Assumptions C69_constructor_device_refuted.

(** C69: a frame with exactly one of its two offsets present, of another dtype or device than the one requested, stops the constructor. *)
Theorem C69_mixed : forall promo (root f : tframe) m dt dv, In f (preorder root) ->
  (l_off (f_link f) = Some m /\ j_off (f_joint f) = None \/ l_off (f_link f) = None /\ j_off (f_joint f) = Some m) ->
  a_mat m <> mkT dt dv -> tag_init promo root dt dv = Err RuntimeError.
Proof. exact l69_mixed. Qed.
Print Assumptions C69_mixed.

Example C69_mixed_example : tag_init ex_promo (dev_robot DFloat cpu) DDouble cpu = Err RuntimeError.
Proof.
  apply (C69_mixed ex_promo _ (dev_robot DFloat cpu) (dev_off DFloat cpu)); [left; reflexivity|left; split; reflexivity|discriminate].
Qed.

(** C69.  [to]: whatever the chain, afterwards every tensor of it is on the requested device and every floating-point one has the
    requested dtype, so has every offset and axis in its tree; an omitted argument keeps what the chain had. *)
Theorem C69_to : forall (c : tchain) dt dv,
  let d := match dt with Some d => d | None => k_dtype c end in
  let v := match dv with Some v => v | None => k_device c end in
  chain_at (tag_to c dt dv) (mkT d v) /\ (honest_tree (k_root c) -> tree_at (k_root (tag_to c dt dv)) (mkT d v)).
Proof. exact l69_to. Qed.
Print Assumptions C69_to.

Example C69_to_example : exists c, tag_init ex_promo (dev_robot DFloat cpu) DFloat cpu = Ok c /\
  chain_at (tag_to c (Some DDouble) (Some 1)) (mkT DDouble 1) /\ tree_at (k_root (tag_to c (Some DDouble) (Some 1))) (mkT DDouble 1) /\
  chain_at (tag_to c None (Some 1)) (mkT DFloat 1) /\ ~ chain_at c (mkT DDouble 1).
Proof.
  destruct (C69_construct ex_promo dtype_eqb (dev_robot DFloat cpu) DFloat ex_torch) as (c & H1 & H2 & H3).
  { intros f m Hf Hm. rewrite (dev_robot_offsets _ _ f m Hf Hm). reflexivity. }
  exists c. split; [exact H1|]. split; [apply C69_to|]. split.
  - apply C69_to. rewrite H3. apply (tree_at_honest _ (mkT DFloat cpu)), dev_robot_at.
  - split; [|intros (E & _); destruct H2 as (E' & _); cbn in E, E'; congruence].
    pose proof (proj1 (C69_to c None (Some 1))) as H. destruct H2 as (E & _). cbn in E, H. rewrite E in H. exact H.
Qed.

(** C69.  Forward kinematics and its backward pass on a chain whose tensors agree: they work on joint values of the chain's dtype and
    device, and the result has both. *)
Theorem C69_forward : forall promo conv (c : tchain) t, torch_like promo conv -> held promo c -> chain_at c t ->
  fk_tensor promo conv c t = Ok t /\ backward_tensor promo c t t = Ok t.
Proof. exact l69_forward. Qed.
Print Assumptions C69_forward.

(** C69: nothing is converted silently.  A result has the dtype and device of the joint values, and below the root frame (more than one
    level), or when no joint moves, there is a result only when these are the chain's.  The backward pass gives a result only when the
    saved transforms and the gradient agree with the axes and with the mask. *)
Theorem C69_forward_only : forall promo conv (c : tchain) t th r, chain_at c t -> fk_tensor promo conv c th = Ok r ->
  r = th /\ (1 < length (k_levels c) \/ c_has_rev (k_shape c) = false /\ c_has_pris (k_shape c) = false -> th = t).
Proof. exact l69_forward_only. Qed.
Print Assumptions C69_forward_only.

Theorem C69_backward_only : forall promo (c : tchain) w g r, backward_tensor promo c w g = Ok r ->
  w = k_axes c /\ g = k_axes c /\ k_mask c = k_axes c.
Proof. exact l69_backward_only. Qed.
Print Assumptions C69_backward_only.

(** C69: the index tensors stay integers and the mask of revolute joints stays boolean, however often the chain is moved. *)
Theorem C69_indices : forall promo (c : tchain), held promo c ->
  (forall x, In x (k_parents c ++ k_levels c ++ [k_jtype c; k_jidx c; k_dpar c; k_jclamp c; k_dof_frame c]) -> t_dt x = DLong) /\
  t_dt (k_dof_rev c) = DBool.
Proof. exact l69_indices. Qed.
Print Assumptions C69_indices.

Example C69_forward_example : exists c, held ex_promo c /\ chain_at c (mkT DDouble 1) /\
  fk_tensor ex_promo dtype_eqb c (mkT DDouble 1) = Ok (mkT DDouble 1) /\
  fk_tensor ex_promo dtype_eqb c (mkT DFloat 1) = Err RuntimeError /\
  fk_tensor ex_promo dtype_eqb c (mkT DDouble cpu) = Err RuntimeError /\
  fk_tensor ex_promo dtype_eqb c (mkT DLong 1) = Err RuntimeError /\
  backward_tensor ex_promo c (mkT DDouble 1) (mkT DDouble 1) = Ok (mkT DDouble 1) /\
  backward_tensor ex_promo c (mkT DDouble 1) (mkT DFloat 1) = Err RuntimeError.
Proof.
  assert (E : exists c, tag_init ex_promo (dev_robot DFloat cpu) DFloat cpu = Ok c) by (eexists; reflexivity).
  destruct E as (c & Hc). exists (tag_to c (Some DDouble) (Some 1)).
  assert (Hh : held ex_promo (tag_to c (Some DDouble) (Some 1))) by (apply held_to; exact (held_init _ _ _ _ _ Hc)).
  pose proof (proj1 (C69_to c (Some DDouble) (Some 1))) as Ha.
  split; [exact Hh|]. split; [exact Ha|]. split; [apply C69_forward; [exact ex_torch|exact Hh|exact Ha]|].
  assert (E : forall a b : tchain, Ok a = Ok b -> a = b) by congruence.
  vm_compute in Hc. apply E in Hc. subst c. repeat split; reflexivity.
Qed.

(** C69.  Serial chains: cut out of a chain whose tree agrees in dtype and is on the CPU, with that dtype given, a serial chain is built with
    all its tensors there; its Jacobian works and has the dtype and device of the joint values, also after any [to]. *)
Theorem C69_serial : forall promo conv (c : tchain) rn p r fs dt, torch_like promo conv ->
  distinct_frames (k_root c) -> clean_names (k_root c) -> root_path (k_root c) (p ++ [r]) ->
  ((rn = "" /\ r = k_root c) \/ (rn <> "" /\ rn = f_name r)) -> root_path r (r :: fs) -> tree_at (k_root c) (mkT dt cpu) ->
  exists s, tag_serial promo c (f_name (last (r :: fs) r)) rn dt cpu = Ok s /\ serial_at s (mkT dt cpu) /\
    jacobian_tensor_t promo conv s (mkT dt cpu) = Ok (mkT dt cpu) /\
    forall dt' dv', serial_at (serial_to s (Some dt') (Some dv')) (mkT dt' dv') /\
      jacobian_tensor_t promo conv (serial_to s (Some dt') (Some dv')) (mkT dt' dv') = Ok (mkT dt' dv').
Proof. exact l69_serial. Qed.
Print Assumptions C69_serial.

Example C69_serial_example : exists c s, tag_init ex_promo (dev_robot DFloat cpu) DFloat cpu = Ok c /\
  tag_serial ex_promo (tag_to c (Some DDouble) None) "arm" "" DDouble cpu = Ok s /\ serial_at s (mkT DDouble cpu) /\
  jacobian_tensor_t ex_promo dtype_eqb s (mkT DDouble cpu) = Ok (mkT DDouble cpu).
Proof.
  destruct (C69_construct ex_promo dtype_eqb (dev_robot DFloat cpu) DFloat ex_torch) as (c & H1 & H2 & H3).
  { intros f m Hf Hm. rewrite (dev_robot_offsets _ _ f m Hf Hm). reflexivity. }
  assert (Er : k_root (tag_to c (Some DDouble) None) = dev_robot DDouble cpu).
  { cbn [tag_to k_root]. rewrite H3. destruct H2 as (_ & -> & _). reflexivity. }
  destruct (C69_serial ex_promo dtype_eqb (tag_to c (Some DDouble) None) "" [] (dev_robot DDouble cpu) [dev_arm DDouble cpu] DDouble ex_torch) as (s & Hs & Ha & Hj & _).
  - rewrite Er. apply dev_distinct.
  - rewrite Er. apply dev_clean.
  - rewrite Er. apply rp_here.
  - left. split; [reflexivity|]. symmetry. exact Er.
  - apply rp_child with (c := dev_arm DDouble cpu); [left; reflexivity|]. apply rp_here.
  - rewrite Er. apply dev_robot_at.
  - exists c, s. split; [exact H1|]. split; [exact Hs|]. split; [exact Ha|exact Hj].
Qed.

(** C69, refuted part: the default arguments of [SerialChain] after [to].  When the root frame has exactly one offset, as after loading a URDF
    or MJCF file, a chain moved to anything but float32 on the CPU gives no serial chain without arguments; and once moved to another device
    it gives none with any arguments. *)
Theorem C69_serial_after_to : forall promo (c : tchain) e m dt dv dt' dv', honest_tree (k_root c) ->
  (l_off (f_link (k_root c)) = Some m /\ j_off (f_joint (k_root c)) = None) ->
  (forall a b x, promo a b = Err x -> x = RuntimeError) ->
  (dt <> dt' \/ dv <> dv' \/ dv <> cpu) ->
  tag_serial promo (tag_to c (Some dt) (Some dv)) e "" dt' dv' = Err RuntimeError.
Proof. exact l69_serial_after_to. Qed.
Print Assumptions C69_serial_after_to.

Theorem C69_serial_after_to_refuted : exists (c : tchain), tag_init ex_promo (dev_robot DFloat cpu) DFloat cpu = Ok c /\
  (exists s, tag_serial ex_promo c "arm" "" DFloat cpu = Ok s) /\
  tag_serial ex_promo (tag_to c (Some DDouble) None) "arm" "" DFloat cpu = Err RuntimeError /\
  (forall dt dv, tag_serial ex_promo (tag_to c (Some DFloat) (Some 1)) "arm" "" dt dv = Err RuntimeError).
Proof. exact l69_serial_after_to_refuted. Qed.
Print Assumptions C69_serial_after_to_refuted.

(** C69, refuted part: [Link.to] leaves the visuals where they were. *)
Theorem C69_visuals_refuted : exists (l : vlink) dt dv m, v_vis (vlink_to dt dv l) = [Some m] /\
  v_off (vlink_to dt dv l) = Some (mkTr dt dv (mkT dt dv)) /\ a_mat m <> mkT dt dv.
Proof. exact l69_visuals_refuted. Qed.
Print Assumptions C69_visuals_refuted.
