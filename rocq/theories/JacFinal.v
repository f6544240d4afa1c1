(** Last steps of the proofs quoted in Properties_Jac.v. *)
From Coq Require Import Reals Lra String Bool Arith Lia List Permutation Sorted.
From Coquelicot Require Import Coquelicot.
From Verif Require Import Prelude ExtF Tree ChainModel SpecFK ChainProofs ChainTables TreeQueries Input Widths Lin Trig RotModel RotBasic ChainInst
  ChainClamp Examples SerialModel SerialProofs SerialMore Deriv JacModel JacProofs JacMore BackProofs.
Import ListNotations.
Local Open Scope nat_scope.
Local Open Scope string_scope.
Local Open Scope list_scope.


Lemma l14_jacobian_is_derivative : forall (nan : R) is_nan (root r : mframe) c rn p fs vs,
  chain_init mops root = Ok c -> distinct_joints root -> distinct_frames root -> clean_names root -> rigid_tree root ->
  root_path root (p ++ [r]) -> ((rn = "" /\ r = root) \/ (rn <> "" /\ rn = f_name r)) -> root_path r (r :: fs) ->
  exists s E Js, serial_init mops zax c (f_name (last (r :: fs) r)) rn = Ok s /\
    (forall v, serial_fk_end mops nan is_nan s (InTensor (T1 (map v (c_names (s_chain s))))) = Ok [E v]) /\
    jacobian s (InTensor (T2 (length (c_names (s_chain s))) (map (fun v => map v (c_names (s_chain s))) vs))) None = Ok (Js, map E vs) /\
    length Js = length vs /\
    forall b v J, nth_error vs b = Some v -> nth_error Js b = Some J -> is_jacobian E (c_names (s_chain s)) v J.
Proof.
  intros nan is_nan root r c rn p fs vs Hc Hdj Hdf Hcl Hrt Hpr Hrn Hp.
  assert (Hin : In r (preorder root)) by (eapply root_path_in; exact Hpr).
  assert (Hch : root_choice root r rn) by (destruct Hrn as [?|[? ?]]; [left | right]; auto).
  destruct (serial_ok mops zax root c rn r fs Hc Hdf Hcl Hch Hp) as (s & Hs & Ht).
  exists s, (fun v => pose v fs), (map (fun v => map (col_of v (pose v fs)) (mov [] fs)) vs).
  split; [exact Hs|]. split; [intros v; apply (serial_pose nan is_nan root r c rn fs s v); assumption|].
  rewrite (path_chain_names r fs s Ht). split; [|split; [apply map_length|]].
  - unfold jacobian, jac_input. cbn [rbind]. apply (jacobian_tensor_eq root r fs s vs Hin Hdj Hdf Hcl Hp Ht).
  - intros b v J Hv HJ. rewrite nth_error_map in HJ. unfold config in *. rewrite Hv in HJ. cbn [option_map] in HJ.
    assert (HX : forall X (a b : X), Some a = Some b -> a = b) by (intros; congruence). apply HX in HJ. subst J.
    pose proof (cols_jacobian v fs I4 (rigid_path root r fs Hrt Hin Hp) (nodup_path root r fs Hdj Hin Hp) (proj1 is_rigid_I)) as (L & D).
    rewrite m4mul_1_r in *. split; [exact L|]. intros j n lin ang H1 H2. specialize (D j n lin ang H1 H2).
    eapply is_derive4_ext; [intros t; apply m4mul_1_r | exact D].
Qed.

Lemma l14_input_forms : forall (s : schain M4 V3) t row n rows,
  jacobian s (InList (T2 n rows)) t = jacobian s (InTensor (T2 n rows)) t /\
  jacobian s (InNumpy (T2 n rows)) t = jacobian s (InTensor (T2 n rows)) t /\
  jacobian s (InTensor (T1 row)) t = jacobian s (InTensor (T2 (length row) [row])) t /\
  jacobian s (InList (T1 row)) t = jacobian s (InTensor (T2 (length row) [row])) t /\
  jacobian s (InNumpy (T1 row)) t = jacobian s (InTensor (T2 (length row) [row])) t.
Proof. intros. repeat split. Qed.

Lemma l14_dict_refuted : exists (root : mframe) c s d T, chain_init mops root = Ok c /\ serial_init mops zax c "hand" "" = Ok s /\
  serial_fk_end mops 0%R (fun _ => false) s (InDict d) = Ok [T] /\ jacobian s (InDict d) None = Err RuntimeError.
Proof.
  destruct ex_chain as (c & Hc). pose (fs := [ex_shoulder; ex_elbow; ex_hand]).
  assert (Hp : root_path ex_robot (ex_robot :: fs)) by exact ex_path_hand.
  assert (Hin : In ex_robot (preorder ex_robot)) by (left; reflexivity).
  destruct (serial_ok mops zax ex_robot c "" ex_robot fs Hc ex_distinct_frames ex_clean) as (s & Hs & Ht); [left; auto | exact Hp |].
  pose (d := [(Some "j1", DV [0%R]); (Some "j2", DV [0%R])]).
  exists ex_robot, c, s, d, (pose (fun _ => 0%R) fs). split; [exact Hc|]. split; [exact Hs|]. split; [|reflexivity].
  destruct (serial_fk_tensor mops zax ex_robot ex_robot fs s [fun _ => 0%R] mlaws Hin ex_distinct_joints ex_distinct_frames ex_clean Hp Ht) as ((fi & Hfi & HX) & _).
  assert (W : works (fun _ => false) fs [fun _ => 0%R] (InDict d)).
  { apply w_dict; [discriminate | | |].
    - cbn. repeat constructor; cbn; intuition discriminate.
    - intros k. cbn. intuition.
    - intros k x H. cbn in H. split; [|reflexivity]. destruct H as [H|[H|[]]]; inversion H; reflexivity. }
  destruct (works_input mops zax 0%R (fun _ => false) ex_robot fs s _ _ (serial_moving zax _ _ ex_robot Hin ex_distinct_joints Hp) Ht W) as (W1 & W2 & W3).
  destruct (serial_forward mops zax 0%R (fun _ => false) c "" _ s _ _ fi Hs W1 W2 W3 Hfi) as [E _]. etransitivity; [exact E|]. exact HX.
Qed.

Lemma l15_jacobian_with_tool : forall (nan : R) is_nan (root r : mframe) c rn p fs vs t tools,
  chain_init mops root = Ok c -> distinct_joints root -> distinct_frames root -> clean_names root -> rigid_tree root ->
  root_path root (p ++ [r]) -> ((rn = "" /\ r = root) \/ (rn <> "" /\ rn = f_name r)) -> root_path r (r :: fs) ->
  (t = ToolT tools \/ exists m, t = ToolT [m] /\ tools = repeat m (length vs)) -> length tools = length vs -> (forall m, In m tools -> affine m) ->
  exists s E Js Ts, serial_init mops zax c (f_name (last (r :: fs) r)) rn = Ok s /\
    (forall v, serial_fk_end mops nan is_nan s (InTensor (T1 (map v (c_names (s_chain s))))) = Ok [E v]) /\
    calc_jacobian s (InTensor (T2 (length (c_names (s_chain s))) (map (fun v => map v (c_names (s_chain s))) vs))) (Some t) = Ok (Js, Ts) /\
    length Js = length vs /\ length Ts = length vs /\
    forall b v m, nth_error vs b = Some v -> nth_error tools b = Some m ->
      nth_error Ts b = Some (m4mul (E v) m) /\
      exists J, nth_error Js b = Some J /\ is_jacobian (fun v => m4mul (E v) m) (c_names (s_chain s)) v J.
Proof.
  intros nan is_nan root r c rn p fs vs t tools Hc Hdj Hdf Hcl Hrt Hpr Hrn Hp Htool Hlen Haff.
  assert (Hin : In r (preorder root)) by (eapply root_path_in; exact Hpr).
  assert (Hch : root_choice root r rn) by (destruct Hrn as [?|[? ?]]; [left | right]; auto).
  destruct (serial_ok mops zax root c rn r fs Hc Hdf Hcl Hch Hp) as (s & Hs & Ht).
  assert (Hrow : row_tools vs (tool_matrix t) = Some tools).
  { unfold row_tools. destruct Htool as [->|(m & -> & ->)]; cbn [tool_matrix].
    - rewrite Hlen, Nat.eqb_refl. reflexivity.
    - cbn [length]. unfold config in *. destruct (Nat.eqb_spec 1 (length vs)) as [E|E]; [rewrite <- E; reflexivity | reflexivity]. }
  exists s, (fun v => pose v fs), (zip_with (fun v m => map (col_of v (m4mul (pose v fs) m)) (mov [] fs)) vs tools), (zip_with (fun v m => m4mul (pose v fs) m) vs tools).
  split; [exact Hs|]. split; [intros v; apply (serial_pose nan is_nan root r c rn fs s v); assumption|].
  rewrite (path_chain_names r fs s Ht). split; [unfold calc_jacobian; apply (jacobian_tool_eq root r fs s vs Hin Hdj Hdf Hcl Hp Ht); [reflexivity | exact Hrow]|].
  assert (Z : forall X (h : config -> M4 -> X), length (zip_with h vs tools) = length vs).
  { clear -Hlen. intros X h. revert tools Hlen. induction vs as [|v l IH]; intros [|m ms] H; cbn [zip_with length] in *; try lia. rewrite IH; lia. }
  split; [apply Z|]. split; [apply Z|].
  intros b v m Hv Hm. split; [exact (zip_with_nth (fun v m => m4mul (pose v fs) m) vs tools b v m Hv Hm)|].
  eexists. split; [exact (zip_with_nth (fun v m => map (col_of v (m4mul (pose v fs) m)) (mov [] fs)) vs tools b v m Hv Hm)|].
  apply (cols_jacobian v fs m (rigid_path root r fs Hrt Hin Hp) (nodup_path root r fs Hdj Hin Hp)).
  apply Haff. eapply nth_error_In, Hm.
Qed.

Lemma l15_positions : forall (s : schain M4 V3) i ps, jacobian s i (Some (ToolPos ps)) = jacobian s i (Some (ToolT (map (fun p => aff I3 p) ps))).
Proof. intros. reflexivity. Qed.

Lemma l15_several_tools_refuted : exists (root : mframe) c s i tools X, chain_init mops root = Ok c /\
  serial_init mops zax c "hand" "" = Ok s /\ jacobian s i None = Ok X /\ (forall m, In m tools -> is_rigid m) /\
  jacobian s i (Some (ToolT tools)) = Err RuntimeError.
Proof.
  destruct ex_chain as (c & Hc). pose (fs := [ex_shoulder; ex_elbow; ex_hand]).
  assert (Hp : root_path ex_robot (ex_robot :: fs)) by exact ex_path_hand.
  assert (Hin : In ex_robot (preorder ex_robot)) by (left; reflexivity).
  destruct (serial_ok mops zax ex_robot c "" ex_robot fs Hc ex_distinct_frames ex_clean) as (s & Hs & Ht); [left; auto | exact Hp |].
  exists ex_robot, c, s, (InTensor (T1 [(PI / 2)%R; 5%R])), [I4; I4]. eexists. split; [exact Hc|]. split; [exact Hs|].
  destruct (serial_slots ex_robot ex_robot fs s [ex_config] Hin ex_distinct_joints ex_distinct_frames ex_clean Hp Ht) as (arr & Ha & E1 & E2).
  split; [exact (jacobian_tensor_eq ex_robot ex_robot fs s [ex_config] Hin ex_distinct_joints ex_distinct_frames ex_clean Hp Ht)|].
  split; [intros m [<-|[<-|[]]]; apply is_rigid_I|].
  unfold jacobian, jac_input. cbn [rbind].
  change (mkTh (length [(PI / 2)%R; 5%R]) [[(PI / 2)%R; 5%R]]) with (path_tensor fs [ex_config]). rewrite Ha. cbn [rbind].
  rewrite (jacobian_from_eq ex_robot fs s [ex_config] Ht arr E1 E2). cbn [rbind].
  rewrite E2. reflexivity.
Qed.

Lemma l16_backward_is_vjp : forall (root : mframe) c, chain_init mops root = Ok c -> distinct_joints root -> rigid_tree root ->
  exists W : config (S := R) -> nat -> M4,
    (forall vs, forward_kinematics_tensor mops c (config_tensor root vs) = Ok (map (fun i => Some (map (fun v => W v i) vs)) (seq 0 (size root)))) /\
    forall (vs : list (config (S := R))) (Gs : list (nat -> M4)), length Gs = length vs ->
    exists g, backward c (length vs) (map (fun i => map (fun v => W v i) vs) (seq 0 (size root))) (map (fun i => map (fun G => G i) Gs) (seq 0 (size root))) = Ok g /\
      length g = length vs /\
      forall b v G row, nth_error vs b = Some v -> nth_error Gs b = Some G -> nth_error g b = Some row ->
        length row = length (c_names c) /\
        forall j n x, nth_error (c_names c) j = Some n -> nth_error row j = Some x ->
          is_derive (fun q => rsum (map (fun i => frob (G i) (W (upd v n q) i)) (seq 0 (size root)))) (v n) x.
Proof.
  intros root c Hc Hdj Hrt. pose proof (chain_root mops root c Hc) as HC. exists (wpose root c).
  split; [intros vs; apply fk_tensor_poses; assumption|].
  intros vs Gs Hl. eexists. split; [apply (backward_eq root c HC Hdj vs Gs Hl)|].
  split; [clear -Hl; revert Gs Hl; induction vs as [|v l IH]; intros [|m ms] H; cbn [zip_with length] in *; try lia; rewrite IH; lia|].
  intros b v G row Hv HG Hr. rewrite (zip_with_nth _ vs Gs b v G Hv HG) in Hr.
  assert (HX : forall X (a b : X), Some a = Some b -> a = b) by (intros; congruence). apply HX in Hr. subst row.
  destruct (dof_tables_list root c HC Hdj) as (_ & _ & _ & En).
  split; [rewrite map_length, <- En, map_length; reflexivity|].
  intros j n x Hn Hx. rewrite <- En, nth_error_map in Hn. rewrite nth_error_map in Hx.
  destruct (nth_error (c_dof_frame c) j) as [d|] eqn:Ed; [|discriminate]. cbn [option_map] in Hn, Hx. apply HX in Hn. apply HX in Hx. subst n x.
  apply grad_deriv; [assumption..|]. eapply nth_error_In, Ed.
Qed.

Lemma l16_ancestor_mask : forall (root : mframe) c fs f g, chain_init mops root = Ok c -> distinct_joints root -> distinct_frames root ->
  clean_names root -> root_path root (fs ++ [f]) -> In g (preorder root) -> moving g = true ->
  exists i j row, dget String.eqb (f_name f) (c_f2i c) = Some i /\ nth_error (c_names c) j = Some (j_name (f_joint g)) /\
    nth_error (c_mask c) j = Some row /\ length row = size root /\
    (nth_error row i = Some true <-> In g (fs ++ [f])) /\ (nth_error row i = Some false <-> ~ In g (fs ++ [f])).
Proof.
  intros root c fs f g Hc Hdj Hdf Hcl Hp Hg Hm. pose proof (chain_root mops root c Hc) as HC.
  destruct (path_parents mops root c HC fs f Hp) as (i & pr & is & Hi & Hpar & HF & _).
  destruct (jix_moving root g Hg Hm) as (j & Hj & Hlt). destruct (jix_some _ _ _ Hj) as [_ Hn].
  destruct (preorder_in_items root g Hg) as (d & it & Hd & Eg).
  assert (Hdof : nth_error (c_dof_frame c) j = Some d) by (apply (proj2 (dof_frame_own mops root c Hdj HC)) with (it := it); [exact Hd | rewrite Eg; exact Hj]).
  exists i, j, (map (fun ps => existsb (Nat.eqb d) ps) (c_parents c)).
  split; [exact (f2i_get mops root c i (f, pr, length fs) Hdf Hcl HC Hi)|]. split; [rewrite (ct_names _ _ _ HC); exact Hn|].
  split; [rewrite (ct_mask _ _ _ HC); unfold ancestor_mask; rewrite nth_error_map, Hdof; reflexivity|].
  split; [rewrite map_length, (ct_plen _ _ _ HC), items_length; reflexivity|].
  assert (K : existsb (Nat.eqb d) (is ++ [i]) = true <-> In g (fs ++ [f])).
  { rewrite existsb_exists. split.
    - intros (k & Hk & E). apply Nat.eqb_eq in E. subst k. clear -HF Hk Hd Eg. induction HF as [|k g' l1 l2 (p & dd & H1) HF IH]; [contradiction|].
      destruct Hk as [->|Hk]; [|right; auto]. left. rewrite Hd in H1. assert (it = (g', p, dd)) by congruence. subst it. exact Eg.
    - intros Hin. assert (X : exists k, In k (is ++ [i]) /\ exists p dd, nth_error (items root) k = Some (g, p, dd)).
      { clear -HF Hin. induction HF as [|k g' l1 l2 (p & dd & H1) HF IH]; [contradiction|]. destruct Hin as [->|Hin]; [exists k; split; [left; reflexivity | eauto]|].
        destruct (IH Hin) as (k' & Hk & X). exists k'. split; [right; exact Hk | exact X]. }
      destruct X as (k & Hk & p & dd & H1). exists k. split; [exact Hk|]. apply Nat.eqb_eq.
      apply (items_uniq_moving root d k it (g, p, dd) Hdj Hd H1); unfold qf in *; cbn [fst]; rewrite ?Eg; auto. }
  rewrite nth_error_map, Hpar. cbn [option_map]. destruct (existsb (Nat.eqb d) (is ++ [i])) eqn:E; split; split; intros Q; try discriminate Q; try reflexivity;
    try (apply K; reflexivity); try (exfalso; apply Q, K; reflexivity); try (apply K in Q; discriminate Q).
  intros Q2. apply K in Q2. discriminate.
Qed.
