(** Last steps of the proofs quoted in Properties_T3dTens.v. *)
From Coq Require Import Reals Lra Bool Arith Lia List.
From Verif Require Import Prelude ExtF Lin RotModel TorchModel RotTorchModel SpecTorch SpecT3dTorch TorchProofs RotTorch FkTorchModel FkTorch IkTorchModel IkTorch IkSvdTorchModel IkSvdTorch T3dTorchModel T3dTorch.
From Verif Require T3dModel T3dProofs.
Import ListNotations.
Local Open Scope nat_scope.

Lemma batch_of {A} (t : tensor A) a b n : shape t = [a; b; n] -> batch t = n. Proof. unfold batch. intros ->. reflexivity. Qed.
Lemma held_ok k M : held k M -> m4mul (T3dModel.get_matrix_inverse k M) M = I4 /\ m4mul M (T3dModel.get_matrix_inverse k M) = I4 /\ affine (T3dModel.get_matrix_inverse k M) /\ affine M.
Proof.
  intros H. assert (G : T3dProofs.class_inv k M /\ T3dProofs.invertible_by k M /\ affine M).
  { destruct k; cbn [held T3dProofs.class_inv T3dProofs.invertible_by] in *.
    - split; [exact (proj1 H)|]. split; [exact H | exact (proj1 H)].
    - destruct H as (v & ->). split; [exists v; reflexivity|]. assert (Rr : is_rigid (aff I3 v)) by (apply is_rigid_aff; split; [apply mkM3_eq; cbn [m00 m01 m02 m10 m11 m12 m20 m21 m22 I3 m3tr]; ring | unfold det3, I3; cbn [m00 m01 m02 m10 m11 m12 m20 m21 m22]; ring]). split; [exact Rr | exact (proj1 Rr)].
    - destruct H as (v & -> & Hv). split; [exists v; reflexivity|]. split; [exists v; split; [reflexivity | exact Hv]|]. repeat split; reflexivity.
    - destruct H as (A & -> & Hr). split; [exists A; reflexivity|]. assert (Rr : is_rigid (aff A vzero)) by (apply is_rigid_aff, Hr). split; [exact Rr | exact (proj1 Rr)]. }
  destruct G as (G1 & G2 & G3). destruct (T3dProofs.inverse_one k M G1 G2) as (L & Rr & _ & Af). auto.
Qed.
Lemma blocks_inverse k M : held k M -> m3mul (rotp (T3dModel.get_matrix_inverse k M)) (rotp M) = I3.
Proof. intros H. destruct (held_ok k M H) as (L & _ & Af & Am). rewrite <- (rotp_mul _ _ Af Am), L. reflexivity. Qed.
Lemma pull Q A n u : m3mul Q A = I3 -> vdot (m3vec (m3tr Q) n) (m3vec A u) = vdot n u.
Proof. intros E. rewrite vdot_tr. change (m3tr (m3tr Q)) with (mkM3 (m00 Q) (m01 Q) (m02 Q) (m10 Q) (m11 Q) (m12 Q) (m20 Q) (m21 Q) (m22 Q)). replace (mkM3 _ _ _ _ _ _ _ _ _) with Q by (destruct Q; reflexivity). rewrite <- m3vec_mul, E. unfold vdot, m3vec, I3. cbn [vx vy vz m00 m01 m02 m10 m11 m12 m20 m21 m22]. ring. Qed.
Lemma pull2 Q A S u w : m3mul Q A = I3 -> vdot (m3vec A u) (m3vec (m3mul (m3tr Q) (m3mul S Q)) (m3vec A w)) = vdot u (m3vec S w).
Proof.
  intros E. rewrite !m3vec_mul, <- (m3vec_mul Q A w), E. replace (m3vec I3 w) with w by (destruct w as [x y z]; unfold m3vec, I3; cbn [vx vy vz m00 m01 m02 m10 m11 m12 m20 m21 m22]; apply eqV; ring).
  set (z := m3vec S w). pose proof (pull Q A z u E) as P. assert (C : forall a b, vdot a b = vdot b a) by (intros a b; unfold vdot; ring). rewrite (C (m3vec A u)), P. apply C.
Qed.
Lemma compose_step (self b : tensor R) n : (shape self = [4; 4; n] \/ shape self = [4; 4; 1]) -> (shape b = [4; 4; n] \/ shape b = [4; 4; 1]) ->
  exists t, broadcast_bmm_t (Ok self) (Ok b) = Ok t /\ (shape t = [4; 4; n] \/ shape t = [4; 4; 1]) /\ (shape t = shape self \/ shape t = shape b) /\ (batch self = batch t \/ batch self = 1) /\ (batch b = batch t \/ batch b = 1) /\
    forall r, r < batch t \/ batch t = 1 -> m4_at t [pick_row (batch t) r] = m4mul (m4_at self [pick_row (batch self) r]) (m4_at b [pick_row (batch b) r]).
Proof.
  intros H1 H2. assert (X : exists N1 N2, shape self = [4; 4; N1] /\ shape b = [4; 4; N2] /\ (N1 = n \/ N1 = 1) /\ (N2 = n \/ N2 = 1)) by (destruct H1, H2; do 2 eexists; repeat split; eauto).
  destruct X as (N1 & N2 & E1 & E2 & C1 & C2). assert (F : sizes_agree N1 N2) by (unfold sizes_agree; lia). destruct (compose2 self b N1 N2 E1 E2 F) as (t & E & St & Ht).
  exists t. split; [exact E|]. rewrite (batch_of self _ _ _ E1), (batch_of b _ _ _ E2), (batch_of t _ _ _ St).
  assert (J : joint_size N1 N2 = n \/ joint_size N1 N2 = 1) by (unfold joint_size; destruct (Nat.eqb_spec N1 1); lia).
  split; [destruct J as [J|J]; rewrite St, J; auto|]. split; [rewrite St, E1, E2; unfold joint_size; destruct (Nat.eqb_spec N1 1); auto|].
  split; [unfold joint_size; destruct (Nat.eqb_spec N1 1); auto|]. split; [unfold sizes_agree in F; unfold joint_size; destruct (Nat.eqb_spec N1 1); lia|].
  intros r L. assert (LL : pick_row (joint_size N1 N2) r < joint_size N1 N2) by (unfold pick_row; destruct (Nat.eqb_spec (joint_size N1 N2) 1); lia). rewrite (Ht _ LL).
  assert (P1 : pick_row N1 (pick_row (joint_size N1 N2) r) = pick_row N1 r) by (unfold pick_row, joint_size; destruct (Nat.eqb_spec N1 1); [reflexivity|]; destruct (Nat.eqb_spec N1 1); lia).
  assert (P2 : pick_row N2 (pick_row (joint_size N1 N2) r) = pick_row N2 r) by (unfold pick_row, joint_size; unfold sizes_agree in F; destruct (Nat.eqb_spec N2 1); [reflexivity|]; destruct (Nat.eqb_spec N1 1); [destruct (Nat.eqb_spec N2 1); lia | destruct (Nat.eqb_spec N1 1); lia]).
  rewrite P1, P2. reflexivity.
Qed.
Lemma compose_ok n others : forall self : tensor R, (forall T, In T (self :: others) -> shape T = [4; 4; n] \/ shape T = [4; 4; 1]) ->
  exists out, compose_t self others = Ok out /\ In (shape out) (map shape (self :: others)) /\ (forall T, In T (self :: others) -> batch T = batch out \/ batch T = 1) /\
    forall r, r < batch out -> m4_at out [r] = fold_left (fun M T => m4mul M (m4_at T [pick_row (batch T) r])) others (m4_at self [pick_row (batch self) r]).
Proof.
  induction others as [|b l IH]; intros self H.
  - exists self. split; [reflexivity|]. split; [left; reflexivity|]. split; [intros T [->|[]]; auto|]. intros r L. cbn [fold_left]. unfold pick_row. destruct (Nat.eqb_spec (batch self) 1); [replace r with 0 by lia|]; reflexivity.
  - destruct (compose_step self b n (H self (or_introl eq_refl)) (H b (or_intror (or_introl eq_refl)))) as (t & E & Sn & Ss & B1 & B2 & Ht).
    destruct (IH t) as (out & Eo & Io & Bo & Ho); [intros T [<-|I]; [exact Sn | apply H; right; right; exact I]|]. exists out.
    split; [unfold compose_t in *; cbn [fold_left]; rewrite E; exact Eo|].
    split; [destruct Io as [I|I]; [destruct Ss as [Ss|Ss]; [left | right; left]; congruence | right; right; exact I]|].
    pose proof (Bo t (or_introl eq_refl)) as Bt. split.
    + intros T [<-|[<-|I]]; [lia | lia | apply Bo; right; exact I].
    + intros r L. rewrite (Ho r L), (Ht r) by lia. reflexivity.
Qed.
Definition ex_turn : M4 := mkM4 0 (-1) 0 1 1 0 0 2 0 0 1 3 0 0 0 1.
Definition of_m4s (d : M4) (l : list M4) : tensor R := mkT [4; 4; List.length l] (fun i => let M := nth (nth 2 i 0) l d in
  nth (4 * nth 1 i 0 + nth 0 i 0) [a00 M; a01 M; a02 M; a03 M; a10 M; a11 M; a12 M; a13 M; a20 M; a21 M; a22 M; a23 M; a30 M; a31 M; a32 M; a33 M] 0%R).
Lemma of_m4s_at d l r : m4_at (of_m4s d l) [r] = nth r l d. Proof. unfold m4_at, of_m4s. cbn [at_ nth Nat.mul Nat.add]. destruct (nth r l d). reflexivity. Qed.
Lemma ex_turn_rigid : is_rigid ex_turn.
Proof. split; [repeat split; reflexivity|]. unfold ex_turn, rotp. cbn [a00 a01 a02 a03 a10 a11 a12 a13 a20 a21 a22 a23 a30 a31 a32 a33]. split; [unfold m3mul, m3tr, I3; cbn [m00 m01 m02 m10 m11 m12 m20 m21 m22]; apply mkM3_eq; ring | unfold det3; cbn [m00 m01 m02 m10 m11 m12 m20 m21 m22]; ring]. Qed.

Lemma l94_compose : forall (self : tensor R) others n, (forall T, In T (self :: others) -> shape T = [4; 4; n] \/ shape T = [4; 4; 1]) ->
  exists out, compose_t self others = Ok out /\ In (shape out) (map shape (self :: others)) /\ (forall T, In T (self :: others) -> batch T = batch out \/ batch T = 1) /\
    forall r, r < batch out -> m4_at out [r] = fold_left (fun M T => m4mul M (m4_at T [pick_row (batch T) r])) others (m4_at self [pick_row (batch self) r]).
Proof. intros self others n H. exact (compose_ok n others self H). Qed.

Lemma l94_compose_rejects : forall (self other : tensor R) others n m, shape self = [4; 4; n] -> shape other = [4; 4; m] -> n <> m -> n <> 1 -> m <> 1 -> compose_t self (other :: others) = Err ValueError.
Proof.
  intros self other others n m E1 E2 D1 D2 D3. unfold compose_t. cbn [fold_left]. rewrite (bcast_bad self other _ _ _ _ _ _ E1 E2) by (unfold sizes_agree; lia). induction others; [reflexivity | exact IHothers].
Qed.

Lemma l94_inverse : forall k (T : tensor R) N, shape T = [4; 4; N] -> (forall r, r < N -> held k (m4_at T [r])) ->
  exists inv, inverse_t k T = Ok inv /\ shape inv = [4; 4; N] /\ forall r, r < N -> m4mul (m4_at inv [r]) (m4_at T [r]) = I4 /\ m4mul (m4_at T [r]) (m4_at inv [r]) = I4.
Proof.
  intros k T N S H. destruct (inverse_rows T N S k) as (inv & E & Si & Hi). exists inv. split; [exact E|]. split; [exact Si|]. intros r L. rewrite (Hi r L). destruct (held_ok k _ (H r L)) as (A & B & _). auto.
Qed.

Lemma l94_points : forall (T pts : tensor R) eps P N N', shape T = [4; 4; N'] -> shape pts = [3; P; N] -> sizes_agree N N' ->
  exists out, transform_points_t T pts eps = Ok out /\ shape out = [3; P; joint_size N N'] /\
    forall p r, p < P -> r < joint_size N N' -> let x := v_at pts [p; pick_row N r] in let h := m4vec (m4_at T [pick_row N' r]) (mkV4 (vx x) (vy x) (vz x) 1) in
      clamped eps (v3 h) <> 0%R -> v_at out [p; r] = mkV3 (v0 h / clamped eps (v3 h)) (v1 h / clamped eps (v3 h)) (v2 h / clamped eps (v3 h)).
Proof.
  intros T pts eps P N N' ST SP F. rewrite (points_eq3 T pts eps 3 P N SP).
  destruct (unfront_other pts 2 _ _ _ _ _ (points_core T pts eps P N N' (at_ pts) ST (is_in pts _ SP) F)) as (out & E & S & H); [rewrite SP; cbn [List.length]; lia|].
  exists out. split; [exact E|]. split; [exact S|]. intros p r Lp Lr x h D.  unfold v_at at 1.
  assert (HH : hv T (at_ pts) N N' p r = h) by reflexivity.
  apply eqV; (rewrite H by (apply valid3; [lia | exact Lp | exact Lr])); cbn [nth]; rewrite HH, den_ok; reflexivity.
Qed.

Lemma l94_flat_points : forall (T pts : tensor R) eps P N', shape T = [4; 4; N'] -> shape pts = [3; P] ->
  exists out, transform_points_t T pts eps = Ok out /\ shape out = (if N' =? 1 then [3; P] else [3; P; N']) /\
    forall p r, p < P -> r < N' -> let x := v_at pts [p] in let h := m4vec (m4_at T [r]) (mkV4 (vx x) (vy x) (vz x) 1) in
      clamped eps (v3 h) <> 0%R -> v_at out (if N' =? 1 then [p] else [p; r]) = mkV3 (v0 h / clamped eps (v3 h)) (v1 h / clamped eps (v3 h)) (v2 h / clamped eps (v3 h)).
Proof.
  intros T pts eps P N' ST SP. rewrite (points_eq2 T pts eps 3 P SP).
  pose proof (points_core T (front pts) eps P 1 N' _ ST (front_t pts 3 P SP) ltac:(unfold sizes_agree; lia)) as C. change (joint_size 1 N') with N' in C.
  destruct (Nat.eqb_spec N' 1) as [->|D1].
  - destruct (unfront2_one pts _ 3 P _ C SP) as (out & E & S & H). exists out. split; [exact E|]. split; [exact S|]. intros p r Lp Lr x h D.  unfold v_at at 1.
    assert (HH : hv T (fun i => at_ pts [nth 0 i 0; nth 1 i 0]) 1 1 p 0 = h) by (unfold h; replace r with 0 by lia; reflexivity).
    apply eqV; (rewrite H by (constructor; [lia|]; constructor; [exact Lp | constructor])); cbn [nth]; rewrite HH, den_ok; reflexivity.
  - destruct (unfront2_more pts _ 3 P _ _ C D1) as (out & E & S & H). exists out. split; [exact E|]. split; [exact S|]. intros p r Lp Lr x h D.  unfold v_at at 1.
    assert (HH : hv T (fun i => at_ pts [nth 0 i 0; nth 1 i 0]) 1 N' p r = h) by (unfold hv, h, pick_row; rewrite (proj2 (Nat.eqb_neq _ _) D1); reflexivity).
    apply eqV; (rewrite H by (apply valid3; [lia | exact Lp | exact Lr])); cbn [nth]; rewrite HH, den_ok; reflexivity.
Qed.

Lemma l94_points_width : forall (T pts : tensor R) eps c P N N', shape T = [4; 4; N'] -> c <> 3 -> (shape pts = [c; P; N] /\ sizes_agree N N') \/ shape pts = [c; P] -> transform_points_t T pts eps = Err RuntimeError.
Proof.
  intros T pts eps c P N N' ST D [(SP & F)|SP].
  - rewrite (points_eq3 T pts eps c P N SP), (points_width T pts eps c P N N' ST SP D F). reflexivity.
  - rewrite (points_eq2 T pts eps c P SP), (points_width T (front pts) eps c P 1 N' ST); [reflexivity | unfold front; cbn [shape]; rewrite SP; reflexivity | exact D | unfold sizes_agree; lia].
Qed.

Lemma l94_normals : forall k (T nr : tensor R) P N N', shape T = [4; 4; N'] -> shape nr = [3; P; N] -> sizes_agree N N' -> (forall r, r < N' -> held k (m4_at T [r])) ->
  exists out, transform_normals_t k T nr = Ok out /\ shape out = [3; P; joint_size N N'] /\
    forall p r u, p < P -> r < joint_size N N' -> vdot (v_at out [p; r]) (m3vec (rotp (m4_at T [pick_row N' r])) u) = vdot (v_at nr [p; pick_row N r]) u.
Proof.
  intros k T nr P N N' ST SN F HT. rewrite (normals_eq3 k T nr P N SN). destruct (normals_core k T N' ST nr P N (at_ nr) (is_in nr _ SN) F) as (inv & _ & HI & C).
  destruct (unfront_other nr 2 _ _ _ _ _ C) as (out & E & S & H); [rewrite SN; cbn [List.length]; lia|]. exists out. split; [exact E|]. split; [exact S|]. intros p r u Lp Lr.
  destruct (pk_lt N N' r F Lr) as (_ & L2). rewrite <- (pull _ _ (v_at nr [p; pick_row N r]) u (blocks_inverse k _ (HT _ L2))). f_equal. rewrite <- (HI _ L2).
  unfold v_at, m3vec, m3tr, rotp, m4_at. cbn [vx vy vz a00 a01 a02 a03 a10 a11 a12 a13 a20 a21 a22 a23 a30 a31 a32 a33 m00 m01 m02 m10 m11 m12 m20 m21 m22].
  apply eqV; (rewrite H by (apply valid3; [lia | exact Lp | exact Lr])); cbn [nth]; rewrite rsum3; ring.
Qed.

Lemma l94_flat_normals : forall k (T nr : tensor R) P N', shape T = [4; 4; N'] -> shape nr = [3; P] -> (forall r, r < N' -> held k (m4_at T [r])) ->
  exists out, transform_normals_t k T nr = Ok out /\ shape out = (if N' =? 1 then [3; P] else [3; P; N']) /\
    forall p r u, p < P -> r < N' -> vdot (v_at out (if N' =? 1 then [p] else [p; r])) (m3vec (rotp (m4_at T [r])) u) = vdot (v_at nr [p]) u.
Proof.
  intros k T nr P N' ST SN HT. rewrite (normals_eq2 k T nr P SN). destruct (normals_core k T N' ST (front nr) P 1 _ (front_t nr 3 P SN) ltac:(unfold sizes_agree; lia)) as (inv & _ & HI & C). change (joint_size 1 N') with N' in C.
  destruct (Nat.eqb_spec N' 1) as [->|D1].
  - destruct (unfront2_one nr _ 3 P _ C SN) as (out & E & S & H). exists out. split; [exact E|]. split; [exact S|]. intros p r u Lp Lr.
    rewrite <- (pull _ _ (v_at nr [p]) u (blocks_inverse k _ (HT _ Lr))). f_equal. rewrite <- (HI _ Lr). replace r with 0 by lia.
    unfold v_at, m3vec, m3tr, rotp, m4_at. cbn [vx vy vz a00 a01 a02 a03 a10 a11 a12 a13 a20 a21 a22 a23 a30 a31 a32 a33 m00 m01 m02 m10 m11 m12 m20 m21 m22].
    apply eqV; (rewrite H by (constructor; [lia|]; constructor; [exact Lp | constructor])); cbn [nth]; rewrite rsum3; cbn [nth]; unfold pick_row; cbn [Nat.eqb]; ring.
  - destruct (unfront2_more nr _ 3 P _ _ C D1) as (out & E & S & H). exists out. split; [exact E|]. split; [exact S|]. intros p r u Lp Lr.
    rewrite <- (pull _ _ (v_at nr [p]) u (blocks_inverse k _ (HT _ Lr))). f_equal. rewrite <- (HI _ Lr).
    unfold v_at, m3vec, m3tr, rotp, m4_at. cbn [vx vy vz a00 a01 a02 a03 a10 a11 a12 a13 a20 a21 a22 a23 a30 a31 a32 a33 m00 m01 m02 m10 m11 m12 m20 m21 m22].
    apply eqV; (rewrite H by (apply valid3; [lia | exact Lp | exact Lr])); cbn [nth]; rewrite rsum3; cbn [nth]; unfold pick_row; rewrite (proj2 (Nat.eqb_neq _ _) D1); ring.
Qed.

Lemma l94_shape_operators : forall k (T ops : tensor R) N N', shape T = [4; 4; N'] -> shape ops = [3; 3; N] -> sizes_agree N N' -> (forall r, r < N' -> held k (m4_at T [r])) ->
  exists out, transform_shape_operator_t k T ops = Ok out /\ shape out = [3; 3; joint_size N N'] /\
    forall r u w, r < joint_size N N' -> let A := rotp (m4_at T [pick_row N' r]) in vdot (m3vec A u) (m3vec (m3_at out [r]) (m3vec A w)) = vdot u (m3vec (m3_at ops [pick_row N r]) w).
Proof.
  intros k T ops N N' ST SO F HT. destruct (shape_core k T N' ST ops N SO F) as (inv & out & _ & HI & E & S & H). exists out. split; [exact E|]. split; [exact S|]. intros r u w Lr A.
  destruct (pk_lt N N' r F Lr) as (_ & L2). rewrite (H r Lr), (HI _ L2). apply pull2. exact (blocks_inverse k _ (HT _ L2)).
Qed.

Lemma l94_ranks : forall k (T x : tensor R) eps, (List.length (shape x) <> 2 -> List.length (shape x) <> 3 -> transform_points_t T x eps = Err ValueError /\ transform_normals_t k T x = Err ValueError) /\
  (List.length (shape x) <> 3 -> List.length (shape x) <> 4 -> transform_shape_operator_t k T x = Err ValueError) /\
  (List.length (shape x) = 4 -> forall N, shape T = [4; 4; N] -> exists e, transform_shape_operator_t k T x = Err e).
Proof.
  intros k T x eps. split; [|split].
  - intros D2 D3. apply Nat.eqb_neq in D2 as D2', D3 as D3'. split; [unfold transform_points_t; rewrite D2' | unfold transform_normals_t; rewrite D2', D3'; reflexivity]. destruct (shape x) as [|a [|b [|c [|d s]]]]; cbn [List.length] in *; try reflexivity; lia.
  - intros D3 D4. apply Nat.eqb_neq in D3, D4. unfold transform_shape_operator_t. rewrite D3, D4. reflexivity.
  - intros L N ST. destruct (shape x) as [|a [|b [|c [|d [|e s]]]]] eqn:E; cbn [List.length] in L; try discriminate. exact (shape_4d k T N ST x a b c d E).
Qed.
