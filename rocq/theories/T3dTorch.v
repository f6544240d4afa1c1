(** The tensor programs of [T3dTorchModel], transform by transform. *)
From Coq Require Import Reals Lra Bool Arith Lia List.
From Verif Require Import Prelude ExtF Lin RotModel TorchModel RotTorchModel SpecTorch SpecT3dTorch TorchProofs RotTorch FkTorchModel FkTorch IkTorchModel IkTorch IkSvdTorchModel IkSvdTorch T3dTorchModel.
From Verif Require T3dModel.
Import ListNotations.
Local Open Scope nat_scope.


Lemma pk_lt n m r : sizes_agree n m -> r < joint_size n m -> pick_row n r < n /\ pick_row m r < m.
Proof. unfold sizes_agree, pick_row, joint_size. intros F L. destruct (Nat.eqb_spec n 1), (Nat.eqb_spec m 1); lia. Qed.
Lemma valid3_t a b c i : valid [a; b; c] i -> i = [nth 0 i 0; nth 1 i 0; nth 2 i 0].
Proof. intros V. apply valid3_inv in V as (x & y & z & -> & _). reflexivity. Qed.
Lemma t_bmm e1 e2 k p m N f1 f2 : is_t e1 [k; p; N] f1 -> is_t e2 [m; k; N] f2 ->
  is_t (bmm e1 e2) [m; p; N] (fun i => TorchModel.rsum k (fun l => Rmult (f1 [l; nth 1 i 0; nth 2 i 0]) (f2 [nth 0 i 0; l; nth 2 i 0]))).
Proof.
  intros (t & -> & E1 & H1) (u & -> & E2 & H2). unfold bmm. cbn [rbind]. rewrite E1, E2, !Nat.eqb_refl. cbn [andb]. eexists. split; [reflexivity|]. split; [reflexivity|].
  intros i V. apply valid3_inv in V as (x & y & z & -> & Lx & Ly & Lz). cbn [at_ nth]. apply rsum_ext. intros l L. rewrite H1, H2 by (apply valid3; assumption). reflexivity.
Qed.
Lemma t_bcast e1 e2 k p m N1 N2 f1 f2 : is_t e1 [k; p; N1] f1 -> is_t e2 [m; k; N2] f2 -> sizes_agree N1 N2 ->
  is_t (broadcast_bmm_t e1 e2) [m; p; joint_size N1 N2] (fun i => TorchModel.rsum k (fun l => Rmult (f1 [l; nth 1 i 0; pick_row N1 (nth 2 i 0)]) (f2 [nth 0 i 0; l; pick_row N2 (nth 2 i 0)]))).
Proof.
  intros H1 H2 F. pose proof H1 as (t & -> & E1 & _). pose proof H2 as (u & -> & E2 & _). unfold broadcast_bmm_t. cbn [rbind]. rewrite E1. cbn [length Nat.eqb]. unfold len. rewrite E1, E2. cbn [last].
  destruct (Nat.eqb_spec N1 N2) as [<-|D].
  - assert (B : joint_size N1 N1 = N1) by (unfold joint_size; destruct (N1 =? 1); reflexivity). rewrite B. eapply t_ext; [eapply t_bmm; [exact H1 | exact H2]|].
    intros i V. apply valid3_inv in V as (x & y & z & -> & Lx & Ly & Lz). cbn [nth]. apply rsum_ext. intros l L.
    assert (P : pick_row N1 z = z) by (unfold pick_row; destruct (Nat.eqb_spec N1 1); [lia | reflexivity]). rewrite P. reflexivity.
  - unfold sizes_agree in F. unfold joint_size. destruct (Nat.eqb_spec N1 1) as [O1|O1].
    + cbn [orb negb]. unfold expand_first at 1. rewrite E1, O1. cbn [Nat.eqb rbind shape last]. destruct (Nat.eqb_spec N2 1) as [O2|O2]; [lia|]. cbn [rbind].
      eapply t_ext; [eapply t_bmm; [apply is_in; reflexivity | exact H2]|]. intros i V. apply valid3_inv in V as (x & y & z & -> & Lx & Ly & Lz). cbn [nth at_]. apply rsum_ext. intros l L.
      unfold pick_row. cbn [Nat.eqb]. destruct (Nat.eqb_spec N2 1); [lia|]. destruct H1 as (t' & Et & _ & H1). injection Et as <-. rewrite H1 by (apply valid3; lia). reflexivity.
    + assert (O2 : N2 = 1) by lia. rewrite O2. cbn [Nat.eqb orb negb rbind]. unfold expand_first. rewrite E2, E1, O2. cbn [last Nat.eqb rbind].
      eapply t_ext; [eapply t_bmm; [exact H1 | apply is_in; reflexivity]|]. intros i V. apply valid3_inv in V as (x & y & z & -> & Lx & Ly & Lz). cbn [nth at_]. apply rsum_ext. intros l L.
      unfold pick_row. cbn [Nat.eqb]. destruct (Nat.eqb_spec N1 1); [lia|]. destruct H2 as (u' & Eu & _ & H2). injection Eu as <-. rewrite H2 by (apply valid3; lia). reflexivity.
Qed.
Lemma bcast_bad (a b : tensor R) k p m k' N1 N2 : shape a = [k; p; N1] -> shape b = [m; k'; N2] -> ~ sizes_agree N1 N2 -> broadcast_bmm_t (Ok a) (Ok b) = Err ValueError.
Proof.
  intros E1 E2 F. unfold sizes_agree in F. unfold broadcast_bmm_t. cbn [rbind]. rewrite E1. cbn [length Nat.eqb]. unfold len. rewrite E1, E2. cbn [last].
  destruct (Nat.eqb_spec N1 N2); [lia|]. destruct (Nat.eqb_spec N1 1); [lia|]. destruct (Nat.eqb_spec N2 1); [lia|]. reflexivity.
Qed.
Lemma bcast_width (a b : tensor R) k p m k' N1 N2 : shape a = [k; p; N1] -> shape b = [m; k'; N2] -> sizes_agree N1 N2 -> k <> k' -> broadcast_bmm_t (Ok a) (Ok b) = Err RuntimeError.
Proof.
  intros E1 E2 F D. apply Nat.eqb_neq in D. unfold sizes_agree in F. unfold broadcast_bmm_t. cbn [rbind]. rewrite E1. cbn [length Nat.eqb]. unfold len. rewrite E1, E2. cbn [last].
  destruct (Nat.eqb_spec N1 N2); [unfold bmm; cbn [rbind]; rewrite E1, E2, D; reflexivity|]. destruct (Nat.eqb_spec N1 1) as [O|O].
  - cbn [orb negb]. unfold expand_first at 1. rewrite E1, O. cbn [Nat.eqb rbind]. destruct (Nat.eqb_spec N2 1); [lia|]. cbn [rbind]. unfold bmm. cbn [rbind shape]. rewrite E2, D. reflexivity.
  - destruct (Nat.eqb_spec N2 1) as [O2|O2]; [|lia]. cbn [orb negb rbind]. unfold expand_first. rewrite E2, E1, O2. cbn [Nat.eqb rbind]. unfold bmm. cbn [rbind shape]. rewrite E1, D. reflexivity.
Qed.
Lemma front_t {A} (t : tensor A) k p : shape t = [k; p] -> is_t (Ok (front t)) [k; p; 1] (fun i => at_ t [nth 0 i 0; nth 1 i 0]).
Proof.
  intros E. exists (front t). split; [reflexivity|]. split; [unfold front; cbn [shape]; rewrite E; reflexivity|].
  intros i V. apply valid3_inv in V as (x & y & z & -> & _). unfold front. cbn [at_]. rewrite E. reflexivity.
Qed.
Lemma bcast_front (a : tensor R) e k p : shape a = [k; p] -> broadcast_bmm_t (Ok a) e = broadcast_bmm_t (Ok (front a)) e.
Proof.
  intros E. assert (L : length (shape (front a)) = 3) by (unfold front; cbn [shape]; rewrite E; reflexivity).
  unfold broadcast_bmm_t. cbn [rbind]. rewrite L, E. reflexivity.
Qed.
(** composition of two *)
Lemma compose2 (a b : tensor R) N1 N2 : shape a = [4; 4; N1] -> shape b = [4; 4; N2] -> sizes_agree N1 N2 ->
  exists t, broadcast_bmm_t (Ok a) (Ok b) = Ok t /\ shape t = [4; 4; joint_size N1 N2] /\ forall r, r < joint_size N1 N2 -> m4_at t [r] = m4mul (m4_at a [pick_row N1 r]) (m4_at b [pick_row N2 r]).
Proof.
  intros E1 E2 F. destruct (t_bcast _ _ _ _ _ _ _ _ _ (is_in a _ E1) (is_in b _ E2) F) as (t & E & S & H). exists t. split; [exact E|]. split; [exact S|]. intros r L.
  unfold m4_at, m4mul. cbn [a00 a01 a02 a03 a10 a11 a12 a13 a20 a21 a22 a23 a30 a31 a32 a33].
  apply eqM4; (rewrite H by (apply valid3; [lia | lia | exact L])); cbn [nth]; apply rsum4.
Qed.

(** the blocks of a tensor of matrices *)
Lemma rot_t (e : ten R) N f : is_t e [4; 4; N] f -> is_t (rot_of e) [3; 3; N] f.
Proof.
  intros H. unfold rot_of. eapply t_ext; [exact (t_slice _ 0 3 4 [3; N] _ (t_slice2 _ 0 3 4 4 [N] _ H ltac:(lia) ltac:(lia)) ltac:(lia) ltac:(lia))|].
  intros i V. apply valid3_inv in V as (x & y & z & -> & _). reflexivity.
Qed.
Lemma pos_t (e : ten R) N f : is_t e [4; 4; N] f -> is_t (pos_of e) [3; N] (fun i => f (3 :: i)).
Proof.
  intros H. unfold pos_of. eapply t_ext; [exact (t_slice _ 0 3 4 [N] _ (t_sel _ 4 3 [4; N] _ H ltac:(lia)) ltac:(lia) ltac:(lia))|].
  intros i V. inversion V; subst. reflexivity.
Qed.
Lemma col3k_ok s i j : valid (4 :: 4 :: s) i -> col3k i = Some j -> valid (col3k_shape (4 :: 4 :: s)) j.
Proof.
  intros V E. inversion V as [|x n0 l s0 Hx V0 E0]; subst. inversion V0 as [|y n1 l1 s1 Hy V1 E1]; subst. unfold col3k in E. destruct ((x =? 3) && (y <? 3)) eqn:Q; [|discriminate]. injection E as <-.
  apply andb_prop in Q as [_ Q]. apply Nat.ltb_lt in Q. unfold col3k_shape. cbn [tl]. constructor; [lia|]. constructor; assumption.
Qed.
Lemma t_put_same {A} reg rs (e v : ten A) s f g : is_t e s f -> is_t v (rs s) g -> (forall i j, valid s i -> reg i = Some j -> valid (rs s) j) ->
  is_t (put reg rs e v) s (fun i => match reg i with Some j => g j | None => f i end).
Proof.
  intros H1 H2 L. eapply t_ext; [exact (t_put reg rs e v s (rs s) f g H1 H2 (tog_refl _) L)|]. intros i V. cbv beta. destruct (reg i) as [j|] eqn:E; [|reflexivity].
  rewrite (bidx_id _ _ (L i j V E)). reflexivity.
Qed.
Section Inv.
Variables (T : tensor R) (N : nat).
Hypothesis (S : shape T = [4; 4; N]).
Let H := is_in T _ S.
Lemma invert_rows : exists t, invert_t T = Ok t /\ shape t = [4; 4; N] /\ forall r, r < N -> m4_at t [r] = T3dModel.invert_transformation_matrix (m4_at T [r]).
Proof.
  unfold invert_t.
  pose proof (t_put_same block33 block33_shape _ _ [4; 4; N] _ _ H (t_tr2 _ _ _ _ _ (rot_t _ _ _ H)) (block33_ok [N])) as P.
  set (Tinv := put block33 block33_shape (Ok T) _) in *.
  pose proof (t_matmul _ _ 3 3 1 [N] _ _ (t_op1 Ropp _ _ _ (rot_t _ _ _ P)) (t_unsq _ _ _ (pos_t _ _ _ H))) as Q.
  destruct (t_put_same col3k col3k_shape _ _ [4; 4; N] _ _ P Q (col3k_ok [N])) as (t & E & St & Ht). exists t. split; [exact E|]. split; [exact St|].
  intros r L. unfold m4_at, T3dModel.invert_transformation_matrix. cbn zeta.
  unfold m3vec, m3opp, m3tr, rotp, trp. cbn [a00 a01 a02 a03 a10 a11 a12 a13 a20 a21 a22 a23 a30 a31 a32 a33 m00 m01 m02 m10 m11 m12 m20 m21 m22 vx vy vz].
  apply eqM4; (rewrite Ht by (apply valid3; [lia | lia | exact L])); unfold col3k; cbn [Nat.eqb Nat.ltb Nat.leb andb]; try (rewrite rsum3); reflexivity.
Qed.
Lemma translate_rows : exists t, translate_inverse_t T = Ok t /\ shape t = [4; 4; N] /\ forall r, r < N -> m4_at t [r] = T3dModel.translate_inverse (m4_at T [r]).
Proof.
  unfold translate_inverse_t.
  pose proof (t_put col3 col3_shape _ _ [4; 4; 1] [] _ _ (t_full [4; 4; 1] 1%R) (t_num (-1)) ltac:(constructor) (col3_ok [1])) as P.
  assert (TG : together [4; 4; N] [4; 4; 1] [4; 4; N]) by (apply tg_same, tg_same, tg_one_r, tog_refl).
  destruct (t_op2 Rmult _ _ _ _ _ _ _ H P TG) as (t & E & St & Ht). exists t. split; [exact E|]. split; [exact St|].
  intros r L. unfold m4_at, T3dModel.translate_inverse. cbn [a00 a01 a02 a03 a10 a11 a12 a13 a20 a21 a22 a23 a30 a31 a32 a33].
  apply eqM4; (rewrite Ht by (apply valid3; [lia | lia | exact L])); rewrite bidx_id by (apply valid3; [lia | lia | exact L]); reflexivity.
Qed.
Lemma scale_rows : exists t, scale_inverse_t T = Ok t /\ shape t = [4; 4; N] /\ forall r, r < N -> m4_at t [r] = T3dModel.scale_inverse (m4_at T [r]).
Proof.
  unfold scale_inverse_t. cbn [map].
  assert (Q : forall i, i < 4 -> is_t (sel i (sel2 i (Ok T))) [N] (fun l => at_ T (i :: i :: l))) by (intros i Li; exact (t_sel _ 4 i [N] _ (t_sel2 _ 4 4 i [N] _ H Li) Li)).
  pose proof (t_stack [sel 0 (sel2 0 (Ok T)); sel 1 (sel2 1 (Ok T)); sel 2 (sel2 2 (Ok T)); sel 3 (sel2 3 (Ok T))] [N] (fun l => at_ T (0 :: 0 :: l)) [fun l => at_ T (1 :: 1 :: l); fun l => at_ T (2 :: 2 :: l); fun l => at_ T (3 :: 3 :: l)]
    ltac:(repeat constructor; apply Q; lia)) as P. cbn [length] in P.
  destruct (t_diag _ _ _ _ (t_op2_num_l Rdiv 1 _ _ _ P)) as (t & E & St & Ht). exists t. split; [exact E|]. split; [exact St|].
  intros r L. unfold m4_at, T3dModel.scale_inverse. cbn [a00 a01 a02 a03 a10 a11 a12 a13 a20 a21 a22 a23 a30 a31 a32 a33].
  apply eqM4; (rewrite Ht by (apply valid3; [lia | lia | exact L])); reflexivity.
Qed.
Lemma rotate_rows : exists t, rotate_inverse_t T = Ok t /\ shape t = [4; 4; N] /\ forall r, r < N -> m4_at t [r] = T3dModel.rotate_inverse (m4_at T [r]).
Proof.
  unfold rotate_inverse_t. destruct (t_tr2 _ _ _ _ _ H) as (t & E & St & Ht). exists t. split; [exact E|]. split; [exact St|].
  intros r L. unfold m4_at, T3dModel.rotate_inverse, m4tr. cbn [a00 a01 a02 a03 a10 a11 a12 a13 a20 a21 a22 a23 a30 a31 a32 a33].
  apply eqM4; (rewrite Ht by (apply valid3; [lia | lia | exact L])); reflexivity.
Qed.
Lemma inverse_rows k : exists t, inverse_t k T = Ok t /\ shape t = [4; 4; N] /\ forall r, r < N -> m4_at t [r] = T3dModel.get_matrix_inverse k (m4_at T [r]).
Proof. destruct k; [exact invert_rows | exact translate_rows | exact scale_rows | exact rotate_rows]. Qed.
End Inv.

(** reshaping back when the argument had no batch dimension *)
Lemma unfront2_one (arg : tensor R) e k P f : is_t e [k; P; 1] f -> shape arg = [k; P] -> is_t (unfront 2 arg e) [k; P] (fun i => f [nth 0 i 0; nth 1 i 0; 0]).
Proof.
  intros H E. pose proof H as (t & Et & St & _). unfold unfront. rewrite Et. cbn [rbind]. unfold len. rewrite St, E. cbn [last length Nat.eqb andb]. rewrite <- Et.
  apply (t_reshape e [k; P; 1] f [k; P] (fun i => [nth 0 i 0; nth 1 i 0; 0]) H); [cbn [prod]; lia|].
  intros i V. inversion V as [|x n0 l s0 Hx V0 E0]; subst. inversion V0 as [|y n1 l1 s1 Hy V1 E1]; subst. inversion V1; subst. cbn [nth]. split; [apply valid3; lia|]. cbn [ravel hd tl]. lia.
Qed.
Lemma unfront2_more (arg : tensor R) e k P M f : is_t e [k; P; M] f -> M <> 1 -> is_t (unfront 2 arg e) [k; P; M] f.
Proof.
  intros H E. pose proof H as (t & Et & St & _). unfold unfront. rewrite Et. cbn [rbind]. unfold len. rewrite St. cbn [last]. rewrite (proj2 (Nat.eqb_neq M 1) E). cbn [andb]. rewrite <- Et. exact H.
Qed.
Lemma unfront_other (arg : tensor R) d e k P M f : is_t e [k; P; M] f -> length (shape arg) <> d -> is_t (unfront d arg e) [k; P; M] f.
Proof.
  intros H E. pose proof H as (t & Et & St & _). unfold unfront. rewrite Et. cbn [rbind]. rewrite (proj2 (Nat.eqb_neq _ _) E), andb_false_r. rewrite <- Et. exact H.
Qed.
Lemma unfront3_same (arg : tensor R) e k P M M' f : is_t e [k; P; M] f -> shape arg = [k; P; M'] -> (M = 1 -> M' = 1) -> is_t (unfront 3 arg e) [k; P; M] f.
Proof.
  intros H E Q. pose proof H as (t & Et & St & _). unfold unfront. rewrite Et. cbn [rbind]. unfold len. rewrite St, E. cbn [last length Nat.eqb]. rewrite andb_true_r, <- Et.
  destruct (Nat.eqb_spec M 1) as [->|]; [|exact H]. rewrite (Q eq_refl). apply (t_reshape e _ f _ (fun i => i) H); [reflexivity|]. intros i V. split; [exact V | reflexivity].
Qed.

(** points *)
Definition vc (c : nat) (h : V4) : R := match c with 0 => v0 h | 1 => v1 h | 2 => v2 h | _ => v3 h end.
Definition den (eps : option R) (d : R) : R := match eps with None => d | Some e => ((sign d + (if Reqb d 0 then 1 else 0)) * Rmax (Rabs d) e)%R end.
Definition hv (T : tensor R) (g : list nat -> R) N1 N2 p r : V4 :=
  m4vec (m4_at T [pick_row N2 r]) (mkV4 (g [0; p; pick_row N1 r]) (g [1; p; pick_row N1 r]) (g [2; p; pick_row N1 r]) 1).
Definition divided (eps : option R) (e : ten R) : ten R :=
  let denom := from 3 e in
  let denom := match eps with
    | Some e => (op1 (fun d => Rplus (sign d) (if Reqb d 0 then 1%R else 0%R)) denom * op1 (fun d => Rmax (Rabs d) e) denom)%T
    | None => denom
    end in
  op2 Rdiv (slice 0 3 e) denom.
Lemma divided_t eps e s f : is_t e (4 :: s) f -> is_t (divided eps e) (3 :: s) (fun i => Rdiv (f i) (den eps (f (3 :: tl i)))).
Proof.
  intros H. pose proof (t_from e 3 4 s f H ltac:(lia)) as D. pose proof (t_slice e 0 3 4 s f H ltac:(lia) ltac:(lia)) as Q. unfold divided.
  assert (D' : is_t (match eps with
    | Some e0 => (op1 (fun d => Rplus (sign d) (if Reqb d 0 then 1%R else 0%R)) (from 3 e) * op1 (fun d => Rmax (Rabs d) e0) (from 3 e))%T
    | None => from 3 e end) (1 :: s) (fun i => den eps (f (3 + hd 0 i :: tl i)))).
  { destruct eps as [x|]; [exact (t_op2_same Rmult _ _ _ _ _ (t_op1 _ _ _ _ D) (t_op1 _ _ _ _ D)) | exact D]. }
  eapply t_ext; [exact (t_op2_keep Rdiv _ _ _ _ _ _ Q D')|]. intros i V. inversion V; subst. reflexivity.
Qed.
Lemma points_core (T pb : tensor R) eps P N1 N2 g : shape T = [4; 4; N2] -> is_t (Ok pb) [3; P; N1] g -> sizes_agree N1 N2 ->
  is_t (divided eps (broadcast_bmm_t (cat (Ok pb) (full [1; P; N1] 1%R)) (tr2 (Ok T)))) [3; P; joint_size N1 N2]
    (fun i => Rdiv (vc (nth 0 i 0) (hv T g N1 N2 (nth 1 i 0) (nth 2 i 0))) (den eps (v3 (hv T g N1 N2 (nth 1 i 0) (nth 2 i 0))))).
Proof.
  intros ST H F. pose proof (t_cat _ _ _ _ _ _ _ H (t_full [1; P; N1] 1%R)) as C. cbn [Nat.add] in C.
  pose proof (t_bcast _ _ _ _ _ _ _ _ _ C (t_tr2 _ _ _ _ _ (is_in T _ ST)) F) as B.
  eapply t_ext; [exact (divided_t eps _ _ _ B)|]. intros i V. apply valid3_inv in V as (x & y & z & -> & Lx & Ly & Lz). cbn [nth hd tl].
  assert (G : forall c, c < 4 -> TorchModel.rsum 4 (fun l => Rmult (if l <? 3 then g [l; y; pick_row N1 z] else 1%R) (at_ T [l; c; pick_row N2 z])) = vc c (hv T g N1 N2 y z)).
  { intros c Lc. rewrite rsum4. cbn [Nat.ltb Nat.leb]. unfold hv, m4vec, m4_at. cbn [v0 v1 v2 v3 a00 a01 a02 a03 a10 a11 a12 a13 a20 a21 a22 a23 a30 a31 a32 a33].
    destruct c as [|[|[|[|c]]]]; [| | | | lia]; cbn [vc v0 v1 v2 v3]; ring. }
  rewrite (G x) by lia. rewrite (G 3) by lia. reflexivity.
Qed.
Lemma points_width (T pb : tensor R) eps c P N1 N2 : shape T = [4; 4; N2] -> shape pb = [c; P; N1] -> c <> 3 -> sizes_agree N1 N2 ->
  divided eps (broadcast_bmm_t (cat (Ok pb) (full [1; P; N1] 1%R)) (tr2 (Ok T))) = Err RuntimeError.
Proof.
  intros ST SP D F. destruct (t_cat _ _ _ _ _ _ _ (is_in pb _ SP) (t_full [1; P; N1] 1%R)) as (a & Ea & Sa & _). destruct (t_tr2 _ _ _ _ _ (is_in T _ ST)) as (b & Eb & Sb & _).
  rewrite Ea, Eb, (bcast_width a b _ _ _ _ _ _ Sa Sb F) by lia. reflexivity.
Qed.
Lemma points_eq3 (T pts : tensor R) eps c P N1 : shape pts = [c; P; N1] -> transform_points_t T pts eps = unfront 2 pts (divided eps (broadcast_bmm_t (cat (Ok pts) (full [1; P; N1] 1%R)) (tr2 (Ok T)))).
Proof. intros E. unfold transform_points_t. rewrite E. cbn [length Nat.eqb]. rewrite E. reflexivity. Qed.
Lemma points_eq2 (T pts : tensor R) eps c P : shape pts = [c; P] -> transform_points_t T pts eps = unfront 2 pts (divided eps (broadcast_bmm_t (cat (Ok (front pts)) (full [1; P; 1] 1%R)) (tr2 (Ok T)))).
Proof.
  intros E. assert (L : shape (front pts) = [c; P; 1]) by (unfold front; cbn [shape]; rewrite E; reflexivity). unfold transform_points_t. rewrite E. cbn [length Nat.eqb]. rewrite L. reflexivity.
Qed.
Lemma den_ok eps d : den eps d = clamped eps d.
Proof.
  destruct eps as [e|]; [|reflexivity]. unfold den, clamped, sign. destruct (Rlt_dec d 0) as [L|L].
  - replace (Reqb d 0) with false by (symmetry; apply Reqb_false; lra). replace (Rltb 0 d) with false by (symmetry; apply Rltb_false; lra). replace (Rltb d 0) with true by (symmetry; apply Rltb_true; exact L).
    rewrite Rabs_left by exact L. unfold Rmax, Rmin. destruct (Rle_dec (- d) e), (Rle_dec d (- e)); lra.
  - destruct (Req_dec d 0) as [->|N0].
    + replace (Reqb 0 0) with true by (symmetry; apply Reqb_true; reflexivity). replace (Rltb 0 0) with false by (symmetry; apply Rltb_false; lra). rewrite Rabs_R0. ring.
    + replace (Reqb d 0) with false by (symmetry; apply Reqb_false; exact N0). replace (Rltb 0 d) with true by (symmetry; apply Rltb_true; lra). rewrite Rabs_pos_eq by lra. ring.
Qed.

(** normals and shape operators *)
Section Directions.
Variables (k : T3dModel.tkind) (T : tensor R) (N2 : nat).
Hypothesis (ST : shape T = [4; 4; N2]).
Lemma normals_core (pb : tensor R) P N1 g : is_t (Ok pb) [3; P; N1] g -> sizes_agree N1 N2 ->
  exists inv, inverse_t k T = Ok inv /\ (forall r, r < N2 -> m4_at inv [r] = T3dModel.get_matrix_inverse k (m4_at T [r])) /\
  is_t (broadcast_bmm_t (Ok pb) (rot_of (inverse_t k T))) [3; P; joint_size N1 N2] (fun i => TorchModel.rsum 3 (fun l => Rmult (g [l; nth 1 i 0; pick_row N1 (nth 2 i 0)]) (at_ inv [nth 0 i 0; l; pick_row N2 (nth 2 i 0)]))).
Proof.
  intros H F. destruct (inverse_rows T N2 ST k) as (inv & E & S & HI). exists inv. split; [exact E|]. split; [exact HI|]. rewrite E.
  exact (t_bcast _ _ _ _ _ _ _ _ _ H (rot_t _ _ _ (is_in inv _ S)) F).
Qed.
Lemma normals_eq3 (nr : tensor R) P N1 : shape nr = [3; P; N1] -> transform_normals_t k T nr = unfront 2 nr (broadcast_bmm_t (Ok nr) (rot_of (inverse_t k T))).
Proof. intros E. unfold transform_normals_t. rewrite E. reflexivity. Qed.
Lemma normals_eq2 (nr : tensor R) P : shape nr = [3; P] -> transform_normals_t k T nr = unfront 2 nr (broadcast_bmm_t (Ok (front nr)) (rot_of (inverse_t k T))).
Proof. intros E. unfold transform_normals_t. rewrite E. cbn [length Nat.eqb orb]. rewrite (bcast_front nr _ 3 P E). reflexivity. Qed.
Lemma shape_core (ops : tensor R) N1 : shape ops = [3; 3; N1] -> sizes_agree N1 N2 ->
  exists inv out, inverse_t k T = Ok inv /\ (forall r, r < N2 -> m4_at inv [r] = T3dModel.get_matrix_inverse k (m4_at T [r])) /\
  transform_shape_operator_t k T ops = Ok out /\ shape out = [3; 3; joint_size N1 N2] /\
  forall r, r < joint_size N1 N2 -> m3_at out [r] = m3mul (m3tr (rotp (m4_at inv [pick_row N2 r]))) (m3mul (m3_at ops [pick_row N1 r]) (rotp (m4_at inv [pick_row N2 r]))).
Proof.
  intros SO F. destruct (inverse_rows T N2 ST k) as (inv & E & S & HI). pose proof (rot_t _ _ _ (is_in inv _ S)) as HR.
  pose proof (t_bcast _ _ _ _ _ _ _ _ _ (is_in ops _ SO) HR F) as B1.
  assert (F2 : sizes_agree N2 (joint_size N1 N2)) by (unfold sizes_agree, joint_size in *; destruct (Nat.eqb_spec N1 1); lia).
  assert (BB : joint_size N2 (joint_size N1 N2) = joint_size N1 N2) by (unfold sizes_agree, joint_size in *; destruct (Nat.eqb_spec N1 1), (Nat.eqb_spec N2 1); lia).
  pose proof (t_bcast _ _ _ _ _ _ _ _ _ (t_tr2 _ _ _ _ _ HR) B1 F2) as B2. rewrite BB in B2.
  assert (Q : joint_size N1 N2 = 1 -> N1 = 1) by (unfold joint_size; destruct (Nat.eqb_spec N1 1); lia).
  pose proof (unfront3_same ops _ _ _ _ N1 _ B2 SO Q) as (out & Eo & So & Ho). exists inv, out. split; [exact E|]. split; [exact HI|].
  split; [unfold transform_shape_operator_t; rewrite SO; cbn [length Nat.eqb orb]; rewrite E; exact Eo|]. split; [exact So|]. intros r L.
  assert (PP : pick_row (joint_size N1 N2) r = r) by (unfold pick_row; destruct (Nat.eqb_spec (joint_size N1 N2) 1); lia).
  unfold m3_at, m4_at, m3mul, m3tr, rotp. cbn [a00 a01 a02 a03 a10 a11 a12 a13 a20 a21 a22 a23 a30 a31 a32 a33 m00 m01 m02 m10 m11 m12 m20 m21 m22].
  apply mkM3_eq; (rewrite Ho by (apply valid3; [lia | lia | exact L])); cbn [nth hd tl]; rewrite rsum3; cbn [nth hd tl]; rewrite PP, !rsum3; cbn [nth hd tl]; reflexivity.
Qed.
Lemma shape_4d (ops : tensor R) a b c d : shape ops = [a; b; c; d] -> exists e, transform_shape_operator_t k T ops = Err e.
Proof.
  intros SO. destruct (inverse_rows T N2 ST k) as (inv & E & S & _). destruct (rot_t _ _ _ (is_in inv _ S)) as (m & Em & Sm & _). unfold transform_shape_operator_t. rewrite SO. cbn [length Nat.eqb orb]. rewrite E, Em.
  assert (X : exists x, broadcast_bmm_t (Ok ops) (Ok m) = Err x).
  { unfold broadcast_bmm_t. cbn [rbind]. rewrite SO. cbn [length Nat.eqb]. unfold len. rewrite SO, Sm. cbn [last]. destruct (d =? N2); [unfold bmm; cbn [rbind]; rewrite SO; eexists; reflexivity|].
    destruct (negb _); [eexists; reflexivity|]. destruct (d =? 1); [unfold expand_first; rewrite SO; eexists; reflexivity|]. cbn [rbind].
    destruct (if N2 =? 1 then _ else _) as [b'|x]; [|eexists; reflexivity]. cbn [rbind]. unfold bmm. cbn [rbind]. rewrite SO. eexists. reflexivity. }
  destruct X as (x & Ex). rewrite Ex. unfold broadcast_bmm_t at 1. destruct (tr2 (Ok m)); cbn [rbind]; eexists; reflexivity.
Qed.
End Directions.
