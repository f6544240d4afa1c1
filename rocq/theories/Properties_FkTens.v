(** C90: the tensor programs of forward kinematics, of its backward pass and of the Jacobian. *)
From Coq Require Import Reals Lra String Bool Arith Lia List.
From Coquelicot Require Import Coquelicot.
From Verif Require Import Prelude ExtF Lin Trig RotModel RotBasic TorchModel RotTorchModel SpecTorch SpecFkTorch TorchProofs RotTorch Tree ChainModel SpecFK ChainProofs ChainTables ChainInst Input SerialModel SerialProofs Deriv JacModel JacProofs BackProofs JacFinal Examples Properties_Jac FkTorchModel FkTorch FkTorchChain FkTorchBack FkTorchJac FkTorchList.
From Verif Require Import FkTensFinal.
Import ListNotations.
Local Open Scope nat_scope.
Local Open Scope list_scope.


(** C90.  Forward kinematics on tensors is the forward kinematics of [ChainModel]: at each row and each frame it has the same matrix, whatever torch.empty leaves in the result.  The width may be 1 (torch broadcasts it). *)
Theorem C90_forward_is_rowwise : forall (root : mframe) c static axes th cols B junk arr, chain_init mops root = Ok c -> holds_m4 static (c_static c) -> holds_v3 axes (c_axes c) -> shape th = [cols; B] ->
  0 < B \/ cols = List.length (c_axes c) -> forward_kinematics_tensor mops c (rows_of th cols B) = Ok arr ->
  exists T, fk_t junk c static axes th = Ok T /\ shape T = [4; 4; B; c_nf c] /\
    forall f ws b M, nth_error arr f = Some (Some ws) -> nth_error ws b = Some M -> m4_at T [b; f] = M.
Proof. exact l90_forward_is_rowwise. Qed.
Print Assumptions C90_forward_is_rowwise.

(** the matrix at row [b] and frame [i] is the product of the transforms along the path to that frame, for the joint values in row [b] *)
Theorem C90_forward_is_path_product : forall (root : mframe) c static axes th B junk, chain_init mops root = Ok c -> distinct_joints root -> holds_m4 static (c_static c) -> holds_v3 axes (c_axes c) ->
  shape th = [List.length (moving_names root); B] ->
  exists T, fk_t junk c static axes th = Ok T /\ shape T = [4; 4; B; size root] /\
    forall fs f, root_path root (fs ++ [f]) -> exists i, i < size root /\ dget Nat.eqb i (c_i2f c) = Some (strip_nl (f_name f)) /\
      forall b v, b < B -> (forall k n, nth_error (moving_names root) k = Some n -> v n = at_ th [k; b]) -> m4_at T [b; i] = path_pose mops v (fs ++ [f]).
Proof. exact l90_forward_is_path_product. Qed.
Print Assumptions C90_forward_is_path_product.

(** a width that is neither the number of joints nor 1 is refused, for every batch size *)
Theorem C90_wrong_width : forall (root : mframe) c static axes th cols B junk, chain_init mops root = Ok c -> holds_v3 axes (c_axes c) -> shape th = [cols; B] -> moving_names root <> [] ->
  cols <> List.length (moving_names root) -> cols <> 1 -> fk_t junk c static axes th = Err (if cols =? 0 then UnboundLocalError else RuntimeError).
Proof. exact l90_wrong_width. Qed.
Print Assumptions C90_wrong_width.
Example C90_forward_ex : exists c T i, chain_init mops ex_robot = Ok c /\ fk_t (fun _ => 7%R) c (m4_tensor (c_static c)) (v3_tensor (c_axes c)) (ex_th [[0; 0; 0]; [PI / 2; 5; 0]]%R) = Ok T /\ shape T = [4; 4; 2; 5] /\
  i < 5 /\ trp (m4_at T [1; i]) = mkV3 0 6 5.
Proof.
  destruct ex_chain as (c & Hc).
  destruct (C90_forward_is_path_product ex_robot c (m4_tensor (c_static c)) (v3_tensor (c_axes c)) (ex_th [[0; 0; 0]; [PI / 2; 5; 0]]%R) 2 (fun _ => 7%R) Hc ex_distinct_joints (m4_tensor_holds _) (v3_tensor_holds _) eq_refl) as (T & ET & ST & HT).
  destruct (HT [ex_robot; ex_shoulder; ex_elbow] ex_hand ex_path_hand) as (i & Li & _ & Hi). exists c, T, i. split; [exact Hc|]. split; [exact ET|]. split; [exact ST|]. split; [exact Li|].
  rewrite (Hi 1 ex_config); [exact ex_hand_pose | auto |]. intros k n. destruct k as [|[|[|k]]]; cbn; intros H; try discriminate H; [injection H as <-; reflexivity | injection H as <-; reflexivity | injection H as <-; reflexivity | destruct k; discriminate H].
Qed.
Example C90_wrong_width_ex : exists c, chain_init mops ex_robot = Ok c /\
  fk_t (fun _ => 0%R) c (m4_tensor (c_static c)) (v3_tensor (c_axes c)) (mkT [2; 0] (fun _ => 0%R)) = Err RuntimeError /\
  exists T, fk_t (fun _ => 0%R) c (m4_tensor (c_static c)) (v3_tensor (c_axes c)) (mkT [3; 0] (fun _ => 0%R)) = Ok T.
Proof.
  destruct ex_chain as (c & Hc). exists c. split; [exact Hc|]. split; [apply (C90_wrong_width ex_robot c _ _ (mkT [2; 0] (fun _ => 0%R)) 2 0 _ Hc (v3_tensor_holds _) eq_refl); [discriminate | discriminate | discriminate]|].
  destruct (C90_forward_is_path_product ex_robot c (m4_tensor (c_static c)) (v3_tensor (c_axes c)) (mkT [3; 0] (fun _ => 0%R)) 0 (fun _ => 0%R) Hc ex_distinct_joints (m4_tensor_holds _) (v3_tensor_holds _) eq_refl) as (T & ET & _). eauto.
Qed.

(** C90, backward.  The tensor program of the analytical backward pass gives, at row [b] and joint [j], what [JacModel.backward] gives. *)
Theorem C90_backward_is_rowwise : forall (root : mframe) c T G mask axes B, chain_init mops root = Ok c -> distinct_joints root -> shape T = [4; 4; B; size root] -> shape G = [4; 4; B; size root] ->
  holds_mask mask (size root) (c_mask c) -> holds_v3 axes (c_axes c) -> 0 < B ->
  exists g rows, backward_t T G mask axes (c_dof_frame c) (c_dof_rev c) = Ok g /\ shape g = [List.length (moving_names root); B] /\
    backward c B (mats T (size root) B) (mats G (size root) B) = Ok rows /\ List.length rows = B /\
    forall b j row x, nth_error rows b = Some row -> nth_error row j = Some x -> at_ g [j; b] = x.
Proof. exact l90_backward_is_rowwise. Qed.
Print Assumptions C90_backward_is_rowwise.

(** back-propagation through the forward tensor program: for the loss that weighs the entries of the result by [G], the entry of joint [j] at row [b] is the derivative of the loss with respect to that joint value *)
Theorem C90_backward_is_derivative : forall (root : mframe) c static mask axes th B junk T G, chain_init mops root = Ok c -> distinct_joints root -> rigid_tree root -> holds_m4 static (c_static c) -> holds_mask mask (size root) (c_mask c) ->
  holds_v3 axes (c_axes c) -> shape th = [List.length (moving_names root); B] -> 0 < B -> fk_t junk c static axes th = Ok T -> shape G = [4; 4; B; size root] ->
  exists g, backward_t T G mask axes (c_dof_frame c) (c_dof_rev c) = Ok g /\ shape g = [List.length (moving_names root); B] /\
    forall j b, j < List.length (moving_names root) -> b < B -> exists F : R -> tensor R,
      (forall q, fk_t junk c static axes (put_at th j b q) = Ok (F q)) /\
      is_derive (fun q => BackProofs.rsum (map (fun b' => BackProofs.rsum (map (fun f => frob (m4_at G [b'; f]) (m4_at (F q) [b'; f])) (seq 0 (size root)))) (seq 0 B))) (at_ th [j; b]) (at_ g [j; b]).
Proof. exact l90_backward_is_derivative. Qed.
Print Assumptions C90_backward_is_derivative.

(** an empty batch goes forward, but its backward pass raises: the reshape to (-1, 0, 3) is ambiguous *)
Theorem C90_backward_of_empty_batch_refuted : forall (root : mframe) c static mask axes th junk G, chain_init mops root = Ok c -> distinct_joints root -> holds_m4 static (c_static c) -> holds_mask mask (size root) (c_mask c) -> holds_v3 axes (c_axes c) ->
  shape th = [List.length (moving_names root); 0] -> shape G = [4; 4; 0; size root] ->
  exists T, fk_t junk c static axes th = Ok T /\ shape T = shape G /\ fails (backward_t T G mask axes (c_dof_frame c) (c_dof_rev c)).
Proof. exact l90_backward_of_empty_batch_refuted. Qed.
Print Assumptions C90_backward_of_empty_batch_refuted.
Example C90_backward_ex : exists c T g, chain_init mops ex_robot = Ok c /\ fk_t (fun _ => 7%R) c (m4_tensor (c_static c)) (v3_tensor (c_axes c)) (ex_th [[0; 0; 0]; [PI / 2; 5; 0]]%R) = Ok T /\
  backward_t T (mkT [4; 4; 2; 5] (fun _ => 1%R)) (mask_tensor 5 (c_mask c)) (v3_tensor (c_axes c)) (c_dof_frame c) (c_dof_rev c) = Ok g /\ shape g = [3; 2].
Proof.
  destruct ex_chain as (c & Hc).
  destruct (C90_forward_is_path_product ex_robot c (m4_tensor (c_static c)) (v3_tensor (c_axes c)) (ex_th [[0; 0; 0]; [PI / 2; 5; 0]]%R) 2 (fun _ => 7%R) Hc ex_distinct_joints (m4_tensor_holds _) (v3_tensor_holds _) eq_refl) as (T & ET & ST & HT).
  destruct (C90_backward_is_derivative ex_robot c _ (mask_tensor 5 (c_mask c)) _ (ex_th [[0; 0; 0]; [PI / 2; 5; 0]]%R) 2 _ T (mkT [4; 4; 2; 5] (fun _ => 1%R)) Hc ex_distinct_joints ex_rigid (m4_tensor_holds _) (mask_tensor_holds 5 _) (v3_tensor_holds _) eq_refl Nat.lt_0_2 ET eq_refl) as (g & Eg & Sg & _).
  exists c, T, g. auto.
Qed.

(** C90, Jacobian.  The tensor program of [jacobian] gives at row [b] the columns and the end effector pose that [JacModel.jacobian] gives. *)
Theorem C90_jacobian_is_rowwise : forall c0 en rn s static axes dof_axes th cols B junk Js Ts, serial_init mops zax c0 en rn = Ok s -> holds_m4 static (c_static (s_chain s)) -> holds_v3 axes (c_axes (s_chain s)) -> holds_v3 dof_axes (s_dof_axes s) ->
  shape th = [cols; B] -> 0 < B \/ cols = List.length (c_axes (s_chain s)) -> jacobian s (InTensor (T2 cols (th_rows (rows_of th cols B)))) None = Ok (Js, Ts) ->
  exists J T, jacobian_t junk s static axes dof_axes th None = Ok (J, T) /\ shape J = [List.length (s_dof_idx s); 6; B] /\ shape T = [4; 4; B] /\ List.length Js = B /\ List.length Ts = B /\
    (forall b j cs p, nth_error Js b = Some cs -> nth_error cs j = Some p -> col_at J b j = p) /\ (forall b M, nth_error Ts b = Some M -> m4_at T [b] = M).
Proof. exact l90_jacobian_is_rowwise. Qed.
Print Assumptions C90_jacobian_is_rowwise.

(** with tool transforms, one for all rows or one for each row; any other number is refused by both *)
Theorem C90_jacobian_with_tool_is_rowwise : forall c0 en rn s static axes dof_axes th cols B junk tool ms, serial_init mops zax c0 en rn = Ok s -> holds_m4 static (c_static (s_chain s)) -> holds_v3 axes (c_axes (s_chain s)) -> holds_v3 dof_axes (s_dof_axes s) ->
  holds_m4 tool ms -> shape th = [cols; B] -> 0 < B \/ cols = List.length (c_axes (s_chain s)) -> (exists r, jacobian s (InTensor (T2 cols (th_rows (rows_of th cols B)))) None = Ok r) ->
  let e := jacobian s (InTensor (T2 cols (th_rows (rows_of th cols B)))) (Some (ToolT ms)) in
  let e' := jacobian_t junk s static axes dof_axes th (Some tool) in
  (List.length ms = B \/ List.length ms = 1 -> exists Js Ts J T, e = Ok (Js, Ts) /\ e' = Ok (J, T) /\ shape J = [List.length (s_dof_idx s); 6; B] /\ shape T = [4; 4; B] /\ List.length Js = B /\ List.length Ts = B /\
    (forall b j cs p, nth_error Js b = Some cs -> nth_error cs j = Some p -> col_at J b j = p) /\ (forall b M, nth_error Ts b = Some M -> m4_at T [b] = M)) /\
  (List.length ms <> B -> List.length ms <> 1 -> e = Err RuntimeError /\ e' = Err RuntimeError).
Proof. exact l90_jacobian_with_tool_is_rowwise. Qed.
Print Assumptions C90_jacobian_with_tool_is_rowwise.
Example C90_jacobian_ex : exists c s J T, chain_init mops ex_robot = Ok c /\ serial_init mops zax c "hand"%string ""%string = Ok s /\
  jacobian_t (fun _ => 7%R) s (m4_tensor (c_static (s_chain s))) (v3_tensor (c_axes (s_chain s))) (v3_tensor (s_dof_axes s)) (ex_th [[PI / 2; 5]]%R) None = Ok (J, T) /\
  col_at J 0 0 = (mkV3 (-4) 0 0, mkV3 0 0 1) /\ col_at J 0 1 = (mkV3 0 (3/5) (4/5), mkV3 0 0 0) /\ trp (m4_at T [0]) = mkV3 0 6 5.
Proof.
  destruct C14_example as (c & s & T0 & Hc & Hs & HJ & HT).
  destruct (C90_jacobian_is_rowwise c _ _ s _ _ _ (ex_th [[PI / 2; 5]]%R) 2 1 (fun _ => 7%R) _ _ Hs (m4_tensor_holds _) (v3_tensor_holds _) (v3_tensor_holds _) eq_refl (or_introl Nat.lt_0_1) HJ) as (J & T & E & _ & _ & _ & _ & H1 & H2).
  exists c, s, J, T. split; [exact Hc|]. split; [exact Hs|]. split; [exact E|]. split; [exact (H1 0 0 _ _ eq_refl eq_refl)|]. split; [exact (H1 0 1 _ _ eq_refl eq_refl)|]. rewrite (H2 0 _ eq_refl). exact HT.
Qed.
Example C90_jacobian_with_tool_ex : exists c s J T, chain_init mops ex_robot = Ok c /\ serial_init mops zax c "hand"%string ""%string = Ok s /\
  jacobian_t (fun _ => 7%R) s (m4_tensor (c_static (s_chain s))) (v3_tensor (c_axes (s_chain s))) (v3_tensor (s_dof_axes s)) (ex_th [[PI / 2; 5]]%R) (Some (m4_tensor [aff I3 (mkV3 1 0 0)])) = Ok (J, T) /\
  col_at J 0 0 = (mkV3 (-5) 0 0, mkV3 0 0 1) /\ trp (m4_at T [0]) = mkV3 0 7 5 /\
  jacobian_t (fun _ => 7%R) s (m4_tensor (c_static (s_chain s))) (v3_tensor (c_axes (s_chain s))) (v3_tensor (s_dof_axes s)) (ex_th [[PI / 2; 5]]%R) (Some (m4_tensor [I4; I4])) = Err RuntimeError.
Proof.
  destruct C15_example as (c & s & T0 & Hc & Hs & HJ & HT). exists c, s.
  assert (HJ0 : exists r, jacobian s (InTensor (T2 2 (th_rows (rows_of (ex_th [[PI / 2; 5]]%R) 2 1)))) None = Ok r).
  { unfold jacobian in HJ |- *. unfold jacobian_tensor. cbn [jac_input rbind] in HJ |- *. change (mkTh 2 (th_rows (rows_of (ex_th [[PI / 2; 5]]%R) 2 1))) with (mkTh 2 [[(PI / 2)%R; 5%R]]). change (mkTh (List.length [(PI / 2)%R; 5%R]) [[(PI / 2)%R; 5%R]]) with (mkTh 2 [[(PI / 2)%R; 5%R]]) in HJ.
    destruct (forward_kinematics_tensor mops (s_chain s) (mkTh 2 [[(PI / 2)%R; 5%R]])) as [arr|]; cbn [rbind] in HJ |- *; [|discriminate HJ]. destruct (jacobian_from s arr) as [r|]; cbn [rbind] in HJ; [eauto | discriminate HJ]. }
  destruct (C90_jacobian_with_tool_is_rowwise c _ _ s _ _ _ (ex_th [[PI / 2; 5]]%R) 2 1 (fun _ => 7%R) _ [aff I3 (mkV3 1 0 0)] Hs (m4_tensor_holds _) (v3_tensor_holds _) (v3_tensor_holds _) (m4_tensor_holds _) eq_refl (or_introl Nat.lt_0_1) HJ0) as (H & _).
  destruct (C90_jacobian_with_tool_is_rowwise c _ _ s _ _ _ (ex_th [[PI / 2; 5]]%R) 2 1 (fun _ => 7%R) _ [I4; I4] Hs (m4_tensor_holds _) (v3_tensor_holds _) (v3_tensor_holds _) (m4_tensor_holds _) eq_refl (or_introl Nat.lt_0_1) HJ0) as (_ & H').
  destruct (H (or_introl eq_refl)) as (Js & Ts & J & T & E1 & E2 & _ & _ & _ & _ & H1 & H2).
  assert (Q : Ok (Js, Ts) = Ok ([[(mkV3 (-5) 0 0, mkV3 0 0 1); (mkV3 0 (3/5) (4/5), mkV3 0 0 0)]], [T0]) :> res (list jac * list M4)) by (etransitivity; [symmetry; exact E1 | exact HJ]).
  assert (Q1 : Js = [[(mkV3 (-5) 0 0, mkV3 0 0 1); (mkV3 0 (3/5) (4/5), mkV3 0 0 0)]]) by exact (f_equal (fun r => match r with Ok p => fst p | Err _ => [] end) Q).
  assert (Q2 : Ts = [T0]) by exact (f_equal (fun r => match r with Ok p => snd p | Err _ => [] end) Q). rewrite Q1 in H1. rewrite Q2 in H2.
  exists J, T. split; [exact Hc|]. split; [exact Hs|]. split; [exact E2|]. split; [exact (H1 0 0 _ _ eq_refl eq_refl)|]. split; [rewrite (H2 0 _ eq_refl); exact HT|]. apply H'; discriminate.
Qed.
