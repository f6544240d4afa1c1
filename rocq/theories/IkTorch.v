(** The pose error and the damped step on tensors are those of [IKKernel] at each row. *)
From Coq Require Import Reals Lra Bool Arith Lia List.
From Verif Require Import Prelude ExtF Lin Trig RotModel TorchModel RotTorchModel SpecTorch TorchProofs RotTorch ChainModel ChainInst SerialModel JacModel IKKernel FkTorchModel SpecFkTorch FkTorch FkTorchJac IkTorchModel.
Import ListNotations.
Local Open Scope nat_scope.

Lemma t_reshape {A} (e : ten A) s f s' (h : list nat -> list nat) : is_t e s f -> prod s' = prod s -> (forall i, valid s' i -> valid s (h i) /\ ravel s (h i) = ravel s' i) ->
  is_t (reshape s' e) s' (fun i => f (h i)).
Proof.
  intros (t & -> & <- & H) Ep Hh. unfold reshape. cbn [rbind]. rewrite Ep, Nat.eqb_refl. eexists. split; [reflexivity|]. split; [reflexivity|]. intros i V. cbn [at_].
  destruct (Hh i V) as (V' & E). rewrite <- E, unravel_ravel by exact V'. apply H, V'.
Qed.
Lemma valid3 a b c i j k : i < a -> j < b -> k < c -> valid [a; b; c] [i; j; k]. Proof. intros. repeat constructor; assumption. Qed.
Lemma valid3_inv a b c i : valid [a; b; c] i -> exists x y z, i = [x; y; z] /\ x < a /\ y < b /\ z < c.
Proof.
  intros V. inversion V as [|x n0 l s0 Hx V0 E0]; subst. inversion V0 as [|y n1 l1 s1 Hy V1 E1]; subst. inversion V1 as [|z n2 l2 s2 Hz V2 E2]; subst. inversion V2; subst. exists x, y, z. auto.
Qed.
Lemma row_lt N M k n : k < M -> n < N -> k + M * n < N * M.
Proof. intros. assert (M * S n <= M * N) by (apply Nat.mul_le_mono_l; lia). lia. Qed.
Lemma row_div M k n : k < M -> (k + M * n) / M = n /\ (k + M * n) mod M = k.
Proof. intros. rewrite Nat.mul_comm, Nat.div_add, Nat.mod_add, Nat.div_small, Nat.mod_small by lia. lia. Qed.
Lemma row_parts N M r : r < N * M -> r mod M < M /\ r / M < N /\ r mod M + M * (r / M) = r.
Proof.
  intros H. assert (M <> 0) by (intros ->; lia). split; [apply Nat.mod_upper_bound; assumption|]. split; [apply Nat.div_lt_upper_bound; lia|]. pose proof (Nat.div_mod r M H0). lia.
Qed.
Lemma view_row {A} (e : ten A) M N f : is_t e [3; M; N] f -> is_t (view31 e) [1; 3; N * M] (fun i => f [nth 1 i 0; nth 2 i 0 mod M; nth 2 i 0 / M]).
Proof.
  intros (t & -> & E & H). unfold view31. cbn [rbind]. rewrite E.
  assert (P : prod [3; M; N] / 3 = N * M). { cbn [prod]. rewrite Nat.mul_comm, Nat.div_mul by lia. lia. } rewrite P.
  eapply (t_reshape (Ok t) [3; M; N] f [1; 3; N * M] (fun i => [nth 1 i 0; nth 2 i 0 mod M; nth 2 i 0 / M])); [exists t; auto | cbn [prod]; lia |].
  intros i V. apply valid3_inv in V as (x & c & r & -> & Lx & Lc & Lr). cbn [nth]. destruct (row_parts N M r Lr) as (L1 & L2 & L3).
  split; [apply valid3; assumption|]. cbn [ravel hd tl]. lia.
Qed.
Lemma unflat m N M : shape m = [4; 4; N * M] -> exists t, reshape [4; 4; M; N] (Ok m) = Ok t /\ shape t = [4; 4; M; N] /\ forall k n, k < M -> n < N -> m4_at t [k; n] = m4_at m [k + M * n].
Proof.
  intros E. destruct (t_reshape (Ok m) [4; 4; N * M] (at_ m) [4; 4; M; N] (fun i => [nth 0 i 0; nth 1 i 0; nth 2 i 0 + M * nth 3 i 0])) as (t & Et & St & Ht).
  - exists m. auto.
  - cbn [prod]. lia.
  - intros i V. inversion V as [|x n0 l s0 Hx V0 E0]; subst. inversion V0 as [|y n1 l1 s1 Hy V1 E1]; subst. apply valid2_inv in V1 as (k & n & -> & Lk & Ln). cbn [nth].
    split; [apply valid3; [assumption | assumption | apply row_lt; assumption] |]. cbn [ravel hd tl]. lia.
  - exists t. split; [exact Et|]. split; [exact St|]. intros k n Lk Ln. unfold m4_at. cbv zeta. rewrite !Ht by (repeat constructor; assumption). reflexivity.
Qed.
Lemma t_unsq1 {A} (t : tensor A) a K : shape t = [a; K] -> is_t (unsq 1 (Ok t)) [a; 1; K] (fun i => at_ t [nth 0 i 0; nth 2 i 0]).
Proof.
  intros E. eexists. split; [reflexivity|]. cbn [shape at_]. rewrite E. split; [reflexivity|]. intros i V. apply valid3_inv in V as (x & y & z & -> & _). reflexivity.
Qed.
Definition tix (K r : nat) : nat := if K =? 1 then 0 else r.
Lemma tix_lt K N n : K = N \/ K = 1 -> n < N -> tix K n < K.
Proof. intros H L. unfold tix. destruct (Nat.eqb_spec K 1); lia. Qed.
Lemma tog_targets M K N : K = N \/ K = 1 -> together [1; K] [M; N] [M; N].
Proof. intros [->| ->]; repeat constructor. Qed.

Lemma diff_t (m tp : tensor R) M N K : shape m = [4; 4; M; N] -> shape tp = [3; K] -> K = N \/ K = 1 ->
  is_t (unsq 1 (Ok tp) - pos_of (Ok m))%T [3; M; N] (fun i => v3get (vsub (v_at tp [tix K (nth 2 i 0)]) (trp (m4_at m [nth 1 i 0; nth 2 i 0]))) (nth 0 i 0)).
Proof.
  intros E1 E2 HK. unfold pos_of. eapply t_ext; [eapply t_op2; [apply (t_unsq1 tp 3 K E2) | tt | apply tg_same, (tog_targets M K N HK)] |].
  intros i V. apply valid3_inv in V as (c & k & n & -> & Lc & Lk & Ln). cbn [bidx nth hd tl app Nat.add Nat.eqb]. fold (tix K n).
  rewrite (one_or M k Lk), (one_or N n Ln). destruct c as [|[|[|c]]]; [..|lia]; reflexivity.
Qed.
Lemma rw_ext {A X} (read : tensor A -> list nat -> X) tail B e f g : rowwise read tail B e f -> (forall b, valid B b -> f b = g b) -> rowwise read tail B e g.
Proof. intros (t & E & S & H) G. exists t. split; [exact E|]. split; [exact S|]. intros b V. rewrite (H b V). apply G, V. Qed.
Lemma rw_f3 (e : ten F) M N f : rowwise f3_at [3] [M; N] e f -> is_t e [3; M; N] (fun i => let g := f [nth 1 i 0; nth 2 i 0] in match nth 0 i 0 with 0 => f3x g | 1 => f3y g | _ => f3z g end).
Proof.
  intros (t & -> & S & H). exists t. split; [reflexivity|]. split; [exact S|]. intros i V. apply valid3_inv in V as (c & k & n & -> & Lc & Lk & Ln). cbn [nth]. rewrite <- (H [k; n]) by (apply valid2; assumption).
  destruct c as [|[|[|c]]]; [..|lia]; reflexivity.
Qed.
Lemma row_comp2 {A A' X Y} (read : tensor A -> list nat -> X) (read' : tensor A' -> list nat -> Y) tail tail' B e f (F : ten A -> ten A') (G : X -> Y) :
  (forall t, shape t = tail ++ B -> rowwise read' tail' B (F (Ok t)) (fun b => G (read t b))) -> rowwise read tail B e f -> rowwise read' tail' B (F e) (fun b => G (f b)).
Proof.
  intros HF (t & -> & Es & H). destruct (HF t Es) as (u & E & Eu & Hu). exists u. split; [exact E|]. split; [exact Eu|]. intros b V. rewrite (Hu b V), (H b V). reflexivity.
Qed.
Lemma aa_t (m tq : tensor R) M N K : shape m = [4; 4; M; N] -> shape tq = [4; K] -> K = N \/ K = 1 ->
  rowwise f3_at [3] [M; N] (quaternion_to_axis_angle_t (quaternion_multiply_t (unsq 1 (Ok tq)) (quaternion_invert_t (matrix_to_quaternion_t (rot_of (Ok m))))))
    (fun b => quaternion_to_axis_angle (quaternion_multiply (q_at tq [tix K (nth 1 b 0)]) (quaternion_invert (matrix_to_quaternion (rotp (m4_at m b)))))).
Proof.
  intros E1 E2 HK.
  pose proof (row_comp m3_at q_at [3; 3] [4] [M; N] _ _ matrix_to_quaternion_t matrix_to_quaternion (fun t => row_m2q t [M; N]) (row_rotp m [M; N] E1)) as Hc.
  destruct (row_comp q_at q_at [4] [4] [M; N] _ _ quaternion_invert_t quaternion_invert (fun t => row_inv t [M; N]) Hc) as (u & Eu & Su & Hu). unfold rot_of. rewrite Eu.
  destruct (t_unsq1 tq 4 K E2) as (t & Et & St & Ht). rewrite Et.
  apply (row_comp2 q_at f3_at [4] [3] [M; N] _ (fun b => quaternion_multiply (q_at tq [tix K (nth 1 b 0)]) (quaternion_invert (matrix_to_quaternion (rotp (m4_at m b))))) quaternion_to_axis_angle_t quaternion_to_axis_angle (fun t => row_q2aa t [M; N])).
  destruct (row_mult t u [1; K] [M; N] [M; N] St Su (tog_targets M K N HK)) as (w & Ew & Sw & Hw). exists w. split; [exact Ew|]. split; [exact Sw|]. intros b V.
  rewrite (Hw b (bidx [1; K] b) b V (reads_bidx _ _ _ b (tog_targets M K N HK) V) (reads_self _ b V)), (Hu b V). apply valid2_inv in V as (k & n & -> & Lk & Ln). cbn [bidx hd tl Nat.eqb nth]. fold (tix K n).
  f_equal. pose proof (tix_lt K N n HK Ln) as Lt. unfold q_at. cbv zeta. rewrite !Ht by (repeat constructor; lia). reflexivity.
Qed.

(** the rows of the pose error *)
Lemma error_rows m tp tq N M K : shape m = [4; 4; N * M] -> 0 < M -> shape tp = [3; K] -> shape tq = [4; K] -> K = N \/ K = 1 ->
  exists P D, pose_error_t m tp tq M = (Ok P, Ok D) /\ shape P = [1; 3; N * M] /\ shape D = [1; 3; N * M] /\
    forall r, r < N * M -> delta_pose (m4_at m [r]) (v_at tp [tix K (r / M)]) (q_at tq [tix K (r / M)]) =
      (mkV3 (at_ P [0; 0; r]) (at_ P [0; 1; r]) (at_ P [0; 2; r]), mkF3 (at_ D [0; 0; r]) (at_ D [0; 1; r]) (at_ D [0; 2; r])).
Proof.
  intros E1 HM E2 E3 HK. unfold pose_error_t. rewrite E1. replace (M =? 0) with false by (symmetry; apply Nat.eqb_neq; lia). rewrite Nat.div_mul by lia.
  destruct (unflat m N M E1) as (t & Et & St & Ht). rewrite Et. unfold delta_pose_t. cbv zeta.
  destruct (view_row _ M N _ (diff_t t tp M N K St E2 HK)) as (P & EP & SP & HP). destruct (view_row _ M N _ (rw_f3 _ M N _ (aa_t t tq M N K St E3 HK))) as (D & ED & SD & HD).
  exists P, D. rewrite EP, ED. split; [reflexivity|]. split; [exact SP|]. split; [exact SD|]. intros r Lr. destruct (row_parts N M r Lr) as (L1 & L2 & L3).
  rewrite !HP, !HD by (apply valid3; lia). cbn [nth]. rewrite !(Ht _ _ L1 L2), L3. unfold delta_pose. cbv zeta. cbn [v3get].
  set (f := quaternion_to_axis_angle _). destruct f. reflexivity.
Qed.
Lemma error_bad m tp tq N M K : shape m = [4; 4; N * M] -> 0 < M -> shape tp = [3; K] -> K <> N -> K <> 1 -> N <> 1 -> fst (pose_error_t m tp tq M) = Err RuntimeError.
Proof.
  intros E1 HM E2 H1 H2 H3. unfold pose_error_t. rewrite E1. replace (M =? 0) with false by (symmetry; apply Nat.eqb_neq; lia). rewrite Nat.div_mul by lia.
  destruct (unflat m N M E1) as (t & Et & St & Ht). rewrite Et. unfold delta_pose_t, view31. cbv zeta. cbn [fst].
  destruct (t_unsq1 tp 3 K E2) as (u & -> & Su & _). assert (Hp : is_t (pos_of (Ok t)) [3; M; N] (fun i => at_ t (3 :: i))). { unfold pos_of. eapply t_ext; [tt|]. intros i V. apply valid3_inv in V as (x & y & z & -> & _). reflexivity. }
  destruct Hp as (v & -> & Sv & _). rewrite (bad_op2 _ u v); [reflexivity|]. rewrite Su, Sv. intros s H.
  assert (T : forall s, ~ together [K] [N] s). { intros s' G. inversion G; subst; congruence. }
  inversion H; subst. match goal with G : together [1; K] [M; N] _ |- _ => inversion G; subst end; eapply T; eassumption.
Qed.

(** ** The step *)
Lemma rsum_eq n f g : (forall k, k < n -> f k = g k) -> TorchModel.rsum n f = IKKernel.rsum n g.
Proof.
  revert f g. induction n as [|n IH]; intros f g H; [reflexivity|].
  assert (X : forall m (h : nat -> R), TorchModel.rsum (S m) h = (h O + TorchModel.rsum m (fun i => h (S i)))%R).
  { clear. induction m as [|m IH]; intros h; [cbn [TorchModel.rsum]; ring|]. cbn [TorchModel.rsum]. cbn [TorchModel.rsum] in IH. rewrite IH. ring. }
  rewrite X. cbn [IKKernel.rsum]. rewrite (H 0) by lia. rewrite (IH _ (fun i => g (S i))); [reflexivity|]. intros k L. apply H. lia.
Qed.
Lemma ksum_ext n f g : (forall k, k < n -> f k = g k) -> IKKernel.rsum n f = IKKernel.rsum n g.
Proof. revert f g. induction n as [|n IH]; intros f g H; cbn [IKKernel.rsum]; [reflexivity|]. rewrite (H 0), (IH (fun i => f (S i)) (fun i => g (S i))) by (intros; try apply H; lia). reflexivity. Qed.
(** solving depends on the entries of the system only *)
Definition same_sol (n : nat) (a b : res (nat -> R)) : Prop := match a, b with Ok x, Ok y => forall i, i < n -> x i = y i | Err e, Err e' => e = e' | _, _ => False end.
Lemma solve_ext n : forall A A' b b', (forall i j, i < n -> j < n -> A i j = A' i j) -> (forall i, i < n -> b i = b' i) -> same_sol n (lin_solve n A b) (lin_solve n A' b').
Proof.
  induction n as [|n IH]; intros A A' b b' HA Hb; cbn [lin_solve]; [intros i L; lia|]. rewrite (HA 0 0) by lia. destruct (Reqb (A' 0 0) 0%R); [reflexivity|].
  assert (G : same_sol n (lin_solve n (fun i j => A (S i) (S j) - A (S i) O * A O (S j) / A' O O)%R (fun i => b (S i) - A (S i) O * b O / A' O O)%R)
    (lin_solve n (fun i j => A' (S i) (S j) - A' (S i) O * A' O (S j) / A' O O)%R (fun i => b' (S i) - A' (S i) O * b' O / A' O O)%R)).
  { apply IH; intros; rewrite ?(HA (S i) 0), ?Hb, ?HA by lia; reflexivity. }
  destruct (lin_solve n _ _) as [x|e]; destruct (lin_solve n _ _) as [y|e']; cbn [same_sol rbind] in *; try contradiction; [|exact G].
  intros [|i] L; [|apply G; lia]. rewrite Hb by lia. rewrite (ksum_ext n _ (fun j => A' O (S j) * y j)%R); [reflexivity|]. intros k Lk. rewrite HA, G by lia. reflexivity.
Qed.
Lemma t_tr2 {A} (e : ten A) n m s f : is_t e (n :: m :: s) f -> is_t (tr2 e) (m :: n :: s) (fun i => f (hd 0 (tl i) :: hd 0 i :: tl (tl i))).
Proof.
  intros (t & -> & E & H). unfold tr2. cbn [rbind]. rewrite E. eexists. split; [reflexivity|]. split; [reflexivity|]. intros i V. cbn [at_]. apply H.
  inversion V as [|x n0 l s0 Hx V0 E0]; subst. inversion V0 as [|y n1 l1 s1 Hy V1 E1]; subst. constructor; [assumption|]. constructor; assumption.
Qed.
Lemma t_cat2 {A} (e1 e2 : ten A) k n m s f1 f2 : is_t e1 (k :: n :: s) f1 -> is_t e2 (k :: m :: s) f2 ->
  is_t (cat2 e1 e2) (k :: n + m :: s) (fun i => if nth 1 i 0 <? n then f1 i else f2 (hd 0 i :: nth 1 i 0 - n :: tl (tl i))).
Proof.
  intros (t & -> & E1 & H1) (u & -> & E2 & H2). unfold cat2. cbn [rbind]. rewrite E1, E2, Nat.eqb_refl, eqb_list_refl. cbn [andb]. eexists. split; [reflexivity|]. split; [reflexivity|]. intros i V. cbn [at_].
  inversion V as [|x n0 l s0 Hx V0 E0]; subst. inversion V0 as [|y n1 l1 s1 Hy V1 E3]; subst. cbn [nth hd tl]. destruct (Nat.ltb_spec y n) as [L|L]; [apply H1 | apply H2]; (constructor; [assumption|]; constructor; [lia | assumption]).
Qed.
Lemma t_sum2 (e : ten R) k n s f : is_t e (k :: n :: s) f -> is_t (sum2_keep e) (k :: 1 :: s) (fun i => TorchModel.rsum n (fun j => f (hd 0 i :: j :: tl (tl i)))).
Proof.
  intros (t & -> & E & H). unfold sum2_keep. cbn [rbind]. rewrite E. eexists. split; [reflexivity|]. split; [reflexivity|]. intros i V. cbn [at_].
  inversion V as [|x n0 l s0 Hx V0 E0]; subst. inversion V0 as [|y n1 l1 s1 Hy V1 E3]; subst. cbn [hd tl]. apply TorchProofs.rsum_ext. intros j L. apply H. constructor; [assumption|]. constructor; assumption.
Qed.
Lemma t_eye6 : is_t eye6 [6; 6] (fun i => if hd 0 i =? nth 1 i 0 then 1%R else 0%R). Proof. eexists. split; [reflexivity|]. split; reflexivity. Qed.
Lemma rmap_tab {X Y} (g : X -> res Y) (h : X -> Y) l : (forall x, In x l -> g x = Ok (h x)) -> rmap g l = Ok (map h l).
Proof. induction l as [|x l IH]; intros H; cbn [rmap map]; [reflexivity|]. rewrite (H x) by (left; reflexivity). cbn [rbind]. rewrite IH by (intros; apply H; right; assumption). reflexivity. Qed.
Lemma rmap_err {X Y} (g : X -> res Y) l x e : In x l -> g x = Err e -> (forall y e', g y = Err e' -> e' = e) -> rmap g l = Err e.
Proof.
  intros H E U. induction l as [|y l IH]; [contradiction|]. cbn [rmap]. destruct (g y) as [z|e'] eqn:Ey; cbn [rbind]; [|rewrite (U y e' Ey); reflexivity].
  destruct H as [->|H]; [congruence|]. rewrite (IH H). reflexivity.
Qed.
Lemma lin_err n : forall A b e, lin_solve n A b = Err e -> e = RuntimeError.
Proof.
  induction n as [|n IH]; intros A b e; cbn [lin_solve]; [discriminate|]. destruct (Reqb (A 0 0) 0%R); [congruence|]. destruct (lin_solve n _ _) as [x|e'] eqn:E; cbn [rbind]; [discriminate|].
  intros H. assert (X : e' = e) by congruence. subst. eapply IH, E.
Qed.
(** the solutions [x r] of the systems of the rows *)
Lemma t_solve e1 e2 n B f1 f2 (x : nat -> nat -> R) : is_t e1 [n; n; B] f1 -> is_t e2 [1; n; B] f2 ->
  (forall r, r < B -> same_sol n (lin_solve n (fun i j => f1 [j; i; r]) (fun i => f2 [0; i; r])) (Ok (x r))) -> is_t (solve_t e1 e2) [1; n; B] (fun i => x (nth 2 i 0) (nth 1 i 0)).
Proof.
  intros (t & -> & E1 & H1) (u & -> & E2 & H2) Hx. unfold solve_t. cbn [rbind]. rewrite E1, E2, !Nat.eqb_refl. cbn [andb].
  set (g := fun r => match lin_solve n (fun i j => at_ t [j; i; r]) (fun i => at_ u [0; i; r]) with Ok y => y | Err _ => fun _ => 0%R end).
  assert (G : forall r, r < B -> lin_solve n (fun i j => at_ t [j; i; r]) (fun i => at_ u [0; i; r]) = Ok (g r) /\ forall i, i < n -> g r i = x r i).
  { intros r L. specialize (Hx r L). pose proof (solve_ext n (fun i j => at_ t [j; i; r]) (fun i j => f1 [j; i; r]) (fun i => at_ u [0; i; r]) (fun i => f2 [0; i; r])
      ltac:(intros; apply H1, valid3; assumption) ltac:(intros; apply H2, valid3; auto)) as S. unfold g.
    destruct (lin_solve n (fun i j => at_ t [j; i; r]) _) as [y|e]; destruct (lin_solve n (fun i j => f1 [j; i; r]) _) as [y'|e']; cbn [same_sol] in *; try contradiction.
    split; [reflexivity|]. intros i Li. rewrite S, Hx by exact Li. reflexivity. }
  rewrite (rmap_tab _ (fun r => [g r])). 2:{ intros r Hr. apply in_seq in Hr. cbn [seq rmap]. rewrite (proj1 (G r ltac:(lia))). reflexivity. }
  cbn [rbind]. eexists. split; [reflexivity|]. split; [reflexivity|]. intros i V. apply valid3_inv in V as (c & k & r & -> & Lc & Lk & Lr). cbn [at_ nth].
  rewrite (nth_indep _ [] [g 0]) by (rewrite map_length, seq_length; exact Lr). rewrite (map_nth (fun r => [g r]) (seq 0 B) 0 r), seq_nth by exact Lr. cbn [Nat.add]. replace c with 0 by lia. cbn [nth]. apply G; assumption.
Qed.
Lemma solve_fails e1 e2 n B f1 f2 r : is_t e1 [n; n; B] f1 -> is_t e2 [1; n; B] f2 -> r < B -> lin_solve n (fun i j => f1 [j; i; r]) (fun i => f2 [0; i; r]) = Err RuntimeError -> solve_t e1 e2 = Err RuntimeError.
Proof.
  intros (t & -> & E1 & H1) (u & -> & E2 & H2) L Hf. unfold solve_t. cbn [rbind]. rewrite E1, E2, !Nat.eqb_refl. cbn [andb seq rmap].
  rewrite (rmap_err _ _ r RuntimeError); [reflexivity | apply in_seq; lia | |].
  - pose proof (solve_ext n (fun i j => at_ t [j; i; r]) (fun i j => f1 [j; i; r]) (fun i => at_ u [0; i; r]) (fun i => f2 [0; i; r])
      ltac:(intros; apply H1, valid3; assumption) ltac:(intros; apply H2, valid3; auto)) as S. rewrite Hf in S.
    destruct (lin_solve n (fun i j => at_ t [j; i; r]) _) as [y|e]; cbn [same_sol rbind] in *; [contradiction|]. subst. reflexivity.
  - clear Hf. intros y e'. destruct (lin_solve n _ _) as [z|e] eqn:E; cbn [rbind]; [discriminate|]. intros H. assert (X : e = e') by congruence. subst. eapply lin_err, E.
Qed.

Section Dls.
Variables (dx J : tensor R) (reg lm : R) (w : option (tensor R)) (n B : nat).
Hypothesis (Sx : shape dx = [1; 6; B]) (SJ : shape J = [n; 6; B]) (Sw : forall t, w = Some t -> shape t = [6]).
Let wk : option (nat -> R) := option_map (fun t i => at_ t [i]) w.
Let Jr (r : nat) : jac := map (col_at J r) (seq 0 n).
Let dr (r : nat) : V3 * V3 := col_at dx r 0.
Let wt (e : ten R) : ten R := match w with Some w => (reshape [1; 6; 1] (Ok w) * e)%T | None => e end.
Lemma six_col (t : tensor R) r j i : i < 6 -> six (col_at t r j) i = at_ t [j; i; r].
Proof. intros L. destruct i as [|[|[|[|[|[|i]]]]]]; [..|lia]; reflexivity. Qed.
Lemma weigh_t (t : tensor R) k : shape t = [k; 6; B] -> is_t (wt (Ok t)) [k; 6; B] (fun i => weigh wk (col_at t (nth 2 i 0) (nth 0 i 0)) (nth 1 i 0)).
Proof.
  intros E. unfold wt, wk, weigh. destruct w as [v|] eqn:Ew; cbn [option_map].
  - assert (R1 : is_t (reshape [1; 6; 1] (Ok v)) [1; 6; 1] (fun i => at_ v [nth 1 i 0])).
    { apply (t_reshape (Ok v) [6] (at_ v) [1; 6; 1] (fun i => [nth 1 i 0])); [apply is_in, Sw; reflexivity | reflexivity |].
      intros i V. apply valid3_inv in V as (x & y & z & -> & Lx & Ly & Lz). cbn [nth ravel hd tl]. split; [constructor; [exact Ly | constructor] | lia]. }
    eapply t_ext; [eapply t_op2; [exact R1 | apply is_in, E | apply tg_one_l, tg_same, tg_one_l, tg_left] |].
    intros i V. apply valid3_inv in V as (x & y & z & -> & Lx & Ly & Lz). cbn [bidx nth hd tl Nat.eqb]. rewrite (one_or k x Lx), (one_or B z Lz), six_col by exact Ly. reflexivity.
  - eapply t_ext; [apply is_in, E|]. intros i V. apply valid3_inv in V as (x & y & z & -> & Lx & Ly & Lz). cbn [nth]. rewrite six_col by exact Ly. reflexivity.
Qed.
Lemma jac_nth r i j : j < n -> weigh wk (col_at J r j) i = jac_w wk (Jr r) i j.
Proof. intros L. unfold jac_w, Jr. rewrite (nth_indep _ _ (col_at J r 0)) by (rewrite map_length, seq_length; exact L). rewrite map_nth, seq_nth by exact L. reflexivity. Qed.
Lemma Jr_len r : length (Jr r) = n. Proof. unfold Jr. rewrite map_length, seq_length. reflexivity. Qed.
Let Aw : ten R := (matmul (wt (Ok J)) (tr2 (wt (Ok J))) + Ok (reg_t reg))%T.
Let tmpA : ten R := if Rltb 0 lm then (Aw + (num lm * sum2_keep (wt (Ok dx) * wt (Ok dx))) * eye6)%T else Aw.
Let sys (r i k : nat) : R := (IKKernel.rsum n (fun j => jac_w wk (Jr r) i j * jac_w wk (Jr r) k j) + (if Nat.eqb i k then damping reg lm (weigh wk (dr r)) else 0))%R.
Lemma dls_eq : dls_t dx J (reg_t reg) lm w = matmul (tr2 (wt (Ok J))) (solve_t tmpA (wt (Ok dx))).
Proof. unfold dls_t, tmpA, Aw, wt. destruct w; reflexivity. Qed.
Lemma tog66 : together [6; 6; B] [6; 6] [6; 6; B]. Proof. apply tg_same, tg_same, tg_left. Qed.
Lemma Aw_t : is_t Aw [6; 6; B] (fun i => IKKernel.rsum n (fun j => jac_w wk (Jr (nth 2%nat i O)) (nth 1%nat i O) j * jac_w wk (Jr (nth 2%nat i O)) (nth 0%nat i O) j) + reg * (if Nat.eqb (nth 0%nat i O) (nth 1%nat i O) then 1 else 0))%R.
Proof.
  unfold Aw. eapply t_ext; [eapply t_op2; [eapply t_matmul; [apply (weigh_t J n SJ) | eapply t_tr2, (weigh_t J n SJ)] | apply (is_in (reg_t reg) [6; 6] eq_refl) | apply tog66] |].
  intros i V. apply valid3_inv in V as (k & i' & r & -> & Lk & Li & Lr). cbn [bidx nth hd tl Nat.eqb]. rewrite (one_or B r Lr). cbn [reg_t at_ hd nth]. f_equal.
  apply rsum_eq. intros j Lj. cbn [nth]. rewrite !jac_nth by exact Lj. reflexivity.
Qed.
Lemma tmpA_t : is_t tmpA [6; 6; B] (fun i => sys (nth 2 i 0) (nth 1 i 0) (nth 0 i 0)).
Proof.
  unfold tmpA.
  destruct (Rltb 0 lm) eqn:El.
  - assert (Mu : is_t ((num lm * sum2_keep (wt (Ok dx) * wt (Ok dx))) * eye6)%T [6; 6; B] (fun i => lm * IKKernel.rsum 6 (fun c => weigh wk (dr (nth 2%nat i O)) c * weigh wk (dr (nth 2%nat i O)) c) * (if Nat.eqb (nth 0%nat i O) (nth 1%nat i O) then 1 else 0))%R).
    { eapply t_ext; [eapply t_op2; [eapply t_op2_num_l, t_sum2, t_op2_same; apply (weigh_t dx 1 Sx) | apply t_eye6 | apply tg_one_l, tg_one_l, tg_left] |].
      intros i V. apply valid3_inv in V as (k & i' & r & -> & Lk & Li & Lr). cbn [bidx nth hd tl Nat.eqb]. rewrite (one_or B r Lr). f_equal. f_equal. apply rsum_eq. intros c Lc. reflexivity. }
    eapply t_ext; [eapply t_op2_same; [apply Aw_t | exact Mu] |]. intros i V. apply valid3_inv in V as (k & i' & r & -> & Lk & Li & Lr). cbn [nth]. unfold sys, damping. rewrite El, (Nat.eqb_sym k i').
    destruct (Nat.eqb i' k); ring.
  - eapply t_ext; [apply Aw_t|]. intros i V. apply valid3_inv in V as (k & i' & r & -> & Lk & Li & Lr). cbn [nth]. unfold sys, damping. rewrite El, (Nat.eqb_sym k i'). destruct (Nat.eqb i' k); ring.
Qed.
Lemma step_sys r : ik_step (Jr r) (dr r) reg lm wk = (do x <- lin_solve 6 (sys r) (weigh wk (dr r)); Ok (map (fun j => IKKernel.rsum 6 (fun i => jac_w wk (Jr r) i j * x i)%R) (seq 0 n))).
Proof. unfold ik_step. cbv zeta. rewrite Jr_len. reflexivity. Qed.
Theorem dls_rows (dq : nat -> list R) : (forall r, r < B -> ik_step (Jr r) (dr r) reg lm wk = Ok (dq r)) ->
  exists t, dls_t dx J (reg_t reg) lm w = Ok t /\ shape t = [1; n; B] /\ forall r, r < B -> map (fun j => at_ t [0; j; r]) (seq 0 n) = dq r.
Proof.
  intros H. rewrite dls_eq. set (x := fun r => match lin_solve 6 (sys r) (weigh wk (dr r)) with Ok x => x | Err _ => fun _ => 0%R end).
  assert (Hx : forall r, r < B -> lin_solve 6 (sys r) (weigh wk (dr r)) = Ok (x r) /\ map (fun j => IKKernel.rsum 6 (fun i => jac_w wk (Jr r) i j * x r i)%R) (seq 0 n) = dq r).
  { intros r L. specialize (H r L). rewrite step_sys in H. unfold x. destruct (lin_solve 6 (sys r) (weigh wk (dr r))) as [y|e]; cbn [rbind] in H; [|discriminate]. split; [reflexivity | congruence]. }
  assert (HS : is_t (solve_t tmpA (wt (Ok dx))) [1; 6; B] (fun i => x (nth 2 i 0) (nth 1 i 0))).
  { eapply t_solve; [apply tmpA_t | apply (weigh_t dx 1 Sx) |]. intros r L. cbn [nth]. change (same_sol 6 (lin_solve 6 (sys r) (weigh wk (dr r))) (Ok (x r))). rewrite (proj1 (Hx r L)). intros i Li. reflexivity. }
  destruct (t_matmul _ _ 6 n 1 [B] _ _ (t_tr2 _ _ _ _ _ (weigh_t J n SJ)) HS) as (t & Et & St & Ht). exists t. split; [exact Et|]. split; [exact St|]. intros r L. rewrite <- (proj2 (Hx r L)). apply map_ext_in. intros j Hj. apply in_seq in Hj.
  rewrite Ht by (apply valid3; lia). apply rsum_eq. intros i Li. cbn [nth hd tl]. rewrite jac_nth by lia. reflexivity.
Qed.
Theorem dls_fails r e : r < B -> ik_step (Jr r) (dr r) reg lm wk = Err e -> dls_t dx J (reg_t reg) lm w = Err RuntimeError.
Proof.
  intros L H. rewrite dls_eq. rewrite step_sys in H. destruct (lin_solve 6 (sys r) (weigh wk (dr r))) as [y|e'] eqn:E; cbn [rbind] in H; [discriminate|]. pose proof (lin_err _ _ _ _ E) as X. subst e'.
  rewrite (solve_fails _ _ 6 B _ _ r tmpA_t (weigh_t dx 1 Sx) L); [|exact E]. destruct (t_tr2 _ _ _ _ _ (weigh_t J n SJ)) as (t & -> & _). reflexivity.
Qed.
End Dls.
