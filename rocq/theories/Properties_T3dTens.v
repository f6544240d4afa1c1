(** C94: composition, inverse and application of transforms as tensor programs. *)
From Coq Require Import Reals Lra Bool Arith Lia List.
From Verif Require Import Prelude ExtF Lin RotModel TorchModel RotTorchModel SpecTorch SpecT3dTorch TorchProofs RotTorch FkTorchModel FkTorch IkTorchModel IkTorch IkSvdTorchModel IkSvdTorch T3dTorchModel T3dTorch.
From Verif Require T3dModel T3dProofs.
From Verif Require Import T3dTensFinal.
Import ListNotations.
Local Open Scope nat_scope.


(** Composing a batch with further batches multiplies row by row, from left to right; a batch of one goes with every row, and the result has the size of the others. *)
Theorem C94_compose : forall (self : tensor R) others n, (forall T, In T (self :: others) -> shape T = [4; 4; n] \/ shape T = [4; 4; 1]) ->
  exists out, compose_t self others = Ok out /\ In (shape out) (map shape (self :: others)) /\ (forall T, In T (self :: others) -> batch T = batch out \/ batch T = 1) /\
    forall r, r < batch out -> m4_at out [r] = fold_left (fun M T => m4mul M (m4_at T [pick_row (batch T) r])) others (m4_at self [pick_row (batch self) r]).
Proof. exact l94_compose. Qed.
Print Assumptions C94_compose.
(** Two batches of different sizes, none of them one, are refused with ValueError, whatever follows. *)
Theorem C94_compose_rejects : forall (self other : tensor R) others n m, shape self = [4; 4; n] -> shape other = [4; 4; m] -> n <> m -> n <> 1 -> m <> 1 -> compose_t self (other :: others) = Err ValueError.
Proof. exact l94_compose_rejects. Qed.
Print Assumptions C94_compose_rejects.
Example C94_compose_ex : exists out, compose_t (of_m4s I4 [ex_turn; I4]) [of_m4s I4 [ex_turn]] = Ok out /\ shape out = [4; 4; 2] /\ m4_at out [0] = m4mul ex_turn ex_turn /\ m4_at out [1] = m4mul I4 ex_turn.
Proof.
  destruct (C94_compose (of_m4s I4 [ex_turn; I4]) [of_m4s I4 [ex_turn]] 2) as (out & E & I & B & H); [intros T [<-|[<-|[]]]; [left | right]; reflexivity|]. exists out. split; [exact E|].
  assert (S : shape out = [4; 4; 2]). { pose proof (B _ (or_introl eq_refl)) as B0. destruct I as [I|[I|[]]]; [symmetry; exact I|]. unfold batch in B0. rewrite <- I in B0. cbn [of_m4s shape last List.length] in B0. lia. }
  split; [exact S|]. split; rewrite H by (rewrite (batch_of _ _ _ _ S); lia); cbn [fold_left]; rewrite !of_m4s_at; reflexivity.
Qed.
(** The inverse of every class is the inverse of every matrix of the batch, on both sides. *)
Theorem C94_inverse : forall k (T : tensor R) N, shape T = [4; 4; N] -> (forall r, r < N -> held k (m4_at T [r])) ->
  exists inv, inverse_t k T = Ok inv /\ shape inv = [4; 4; N] /\ forall r, r < N -> m4mul (m4_at inv [r]) (m4_at T [r]) = I4 /\ m4mul (m4_at T [r]) (m4_at inv [r]) = I4.
Proof. exact l94_inverse. Qed.
Print Assumptions C94_inverse.
Example C94_inverse_ex : exists inv, inverse_t T3dModel.KBase (of_m4s I4 [ex_turn]) = Ok inv /\ m4mul (m4_at inv [0]) ex_turn = I4.
Proof.
  destruct (C94_inverse T3dModel.KBase (of_m4s I4 [ex_turn]) 1 eq_refl) as (inv & E & S & H); [intros r L; rewrite of_m4s_at; replace r with 0 by lia; exact ex_turn_rigid|]. exists inv. split; [exact E|].
  destruct (H 0 ltac:(lia)) as (A & _). rewrite of_m4s_at in A. exact A.
Qed.
(** Points: N batches of P points under N' transforms, N = N' or one of them one; every point is mapped by the matrix of its row and divided by the fourth coordinate,
    which is first moved away from zero if [eps] is given. *)
Theorem C94_points : forall (T pts : tensor R) eps P N N', shape T = [4; 4; N'] -> shape pts = [3; P; N] -> sizes_agree N N' ->
  exists out, transform_points_t T pts eps = Ok out /\ shape out = [3; P; joint_size N N'] /\
    forall p r, p < P -> r < joint_size N N' -> let x := v_at pts [p; pick_row N r] in let h := m4vec (m4_at T [pick_row N' r]) (mkV4 (vx x) (vy x) (vz x) 1) in
      clamped eps (v3 h) <> 0%R -> v_at out [p; r] = mkV3 (v0 h / clamped eps (v3 h)) (v1 h / clamped eps (v3 h)) (v2 h / clamped eps (v3 h)).
Proof. exact l94_points. Qed.
Print Assumptions C94_points.
(** Points without a batch dimension: with one transform the answer has none either, with N' of them it has one. *)
Theorem C94_flat_points : forall (T pts : tensor R) eps P N', shape T = [4; 4; N'] -> shape pts = [3; P] ->
  exists out, transform_points_t T pts eps = Ok out /\ shape out = (if N' =? 1 then [3; P] else [3; P; N']) /\
    forall p r, p < P -> r < N' -> let x := v_at pts [p] in let h := m4vec (m4_at T [r]) (mkV4 (vx x) (vy x) (vz x) 1) in
      clamped eps (v3 h) <> 0%R -> v_at out (if N' =? 1 then [p] else [p; r]) = mkV3 (v0 h / clamped eps (v3 h)) (v1 h / clamped eps (v3 h)) (v2 h / clamped eps (v3 h)).
Proof. exact l94_flat_points. Qed.
Print Assumptions C94_flat_points.
(** Points that do not have three coordinates are refused with RuntimeError. *)
Theorem C94_points_width : forall (T pts : tensor R) eps c P N N', shape T = [4; 4; N'] -> c <> 3 -> (shape pts = [c; P; N] /\ sizes_agree N N') \/ shape pts = [c; P] -> transform_points_t T pts eps = Err RuntimeError.
Proof. exact l94_points_width. Qed.
Print Assumptions C94_points_width.
Example C94_points_ex : exists out, transform_points_t (of_m4s I4 [ex_turn]) (mkT [3; 1] (fun i => INR (nth 0 i 0))) None = Ok out /\ shape out = [3; 1] /\ v_at out [0] = mkV3 0 2 5.
Proof.
  destruct (C94_flat_points (of_m4s I4 [ex_turn]) (mkT [3; 1] (fun i => INR (nth 0 i 0))) None 1 1 eq_refl eq_refl) as (out & E & S & H). exists out. split; [exact E|]. split; [exact S|].
  specialize (H 0 0 ltac:(lia) ltac:(lia)). cbv zeta in H. rewrite of_m4s_at in H. cbn [nth v_at at_ vx vy vz INR] in H.
  unfold ex_turn, m4vec, clamped in H. cbn [v0 v1 v2 v3 a00 a01 a02 a03 a10 a11 a12 a13 a20 a21 a22 a23 a30 a31 a32 a33] in H. cbn [Nat.eqb] in H. rewrite H by lra. apply eqV; field.
Qed.
(** Normals: the scalar product of a transformed normal with a transformed direction is the one they had before, for every class, row and normal. *)
Theorem C94_normals : forall k (T nr : tensor R) P N N', shape T = [4; 4; N'] -> shape nr = [3; P; N] -> sizes_agree N N' -> (forall r, r < N' -> held k (m4_at T [r])) ->
  exists out, transform_normals_t k T nr = Ok out /\ shape out = [3; P; joint_size N N'] /\
    forall p r u, p < P -> r < joint_size N N' -> vdot (v_at out [p; r]) (m3vec (rotp (m4_at T [pick_row N' r])) u) = vdot (v_at nr [p; pick_row N r]) u.
Proof. exact l94_normals. Qed.
Print Assumptions C94_normals.
Theorem C94_flat_normals : forall k (T nr : tensor R) P N', shape T = [4; 4; N'] -> shape nr = [3; P] -> (forall r, r < N' -> held k (m4_at T [r])) ->
  exists out, transform_normals_t k T nr = Ok out /\ shape out = (if N' =? 1 then [3; P] else [3; P; N']) /\
    forall p r u, p < P -> r < N' -> vdot (v_at out (if N' =? 1 then [p] else [p; r])) (m3vec (rotp (m4_at T [r])) u) = vdot (v_at nr [p]) u.
Proof. exact l94_flat_normals. Qed.
Print Assumptions C94_flat_normals.
(** Shape operators, one per row: the quadratic form on transformed directions is the one before. *)
Theorem C94_shape_operators : forall k (T ops : tensor R) N N', shape T = [4; 4; N'] -> shape ops = [3; 3; N] -> sizes_agree N N' -> (forall r, r < N' -> held k (m4_at T [r])) ->
  exists out, transform_shape_operator_t k T ops = Ok out /\ shape out = [3; 3; joint_size N N'] /\
    forall r u w, r < joint_size N N' -> let A := rotp (m4_at T [pick_row N' r]) in vdot (m3vec A u) (m3vec (m3_at out [r]) (m3vec A w)) = vdot u (m3vec (m3_at ops [pick_row N r]) w).
Proof. exact l94_shape_operators. Qed.
Print Assumptions C94_shape_operators.
Example C94_directions_ex : exists out, transform_normals_t T3dModel.KBase (of_m4s I4 [ex_turn]) (mkT [3; 1] (fun i => INR (nth 0 i 0))) = Ok out /\ shape out = [3; 1] /\ vdot (v_at out [0]) (m3vec (rotp ex_turn) (mkV3 0 1 0)) = 1%R.
Proof.
  destruct (C94_flat_normals T3dModel.KBase (of_m4s I4 [ex_turn]) (mkT [3; 1] (fun i => INR (nth 0 i 0))) 1 1 eq_refl eq_refl) as (out & E & S & H); [intros r L; rewrite of_m4s_at; replace r with 0 by lia; exact ex_turn_rigid|].
  exists out. split; [exact E|]. split; [exact S|]. specialize (H 0 0 (mkV3 0 1 0) ltac:(lia) ltac:(lia)). rewrite of_m4s_at in H. cbn [nth Nat.eqb] in H. rewrite H. unfold vdot, v_at. cbn [vx vy vz at_ nth INR]. ring.
Qed.
(** Arguments of other ranks are refused with ValueError; a shape operator argument of four dimensions, which the documentation names, always fails. *)
Theorem C94_ranks : forall k (T x : tensor R) eps, (List.length (shape x) <> 2 -> List.length (shape x) <> 3 -> transform_points_t T x eps = Err ValueError /\ transform_normals_t k T x = Err ValueError) /\
  (List.length (shape x) <> 3 -> List.length (shape x) <> 4 -> transform_shape_operator_t k T x = Err ValueError) /\
  (List.length (shape x) = 4 -> forall N, shape T = [4; 4; N] -> exists e, transform_shape_operator_t k T x = Err e).
Proof. exact l94_ranks. Qed.
Print Assumptions C94_ranks.
Example C94_ranks_ex : exists e, transform_shape_operator_t T3dModel.KBase (of_m4s I4 [ex_turn]) (mkT [3; 3; 2; 1] (fun _ => 0%R)) = Err e.
Proof. exact (proj2 (proj2 (C94_ranks T3dModel.KBase (of_m4s I4 [ex_turn]) (mkT [3; 3; 2; 1] (fun _ => 0%R)) None)) eq_refl 1 eq_refl). Qed.
