(** The rotation conversions on tensors of any leading shape are the functions of [RotModel] at each row. *)
From Coq Require Import Reals Lra Bool Arith Lia List String Ascii.
From Verif Require Import Prelude ExtF Lin Trig RotModel TorchModel RotTorchModel SpecTorch TorchProofs.
Import ListNotations.
Local Open Scope nat_scope.

Lemma eqQ a b c d a' b' c' d' : a = a' -> b = b' -> c = c' -> d = d' -> mkQ a b c d = mkQ a' b' c' d'. Proof. intros -> -> -> ->. reflexivity. Qed.
Lemma eqV a b c a' b' c' : a = a' -> b = b' -> c = c' -> mkV3 a b c = mkV3 a' b' c'. Proof. intros -> -> ->. reflexivity. Qed.
Lemma eqF a b c a' b' c' : a = a' -> b = b' -> c = c' -> mkF3 a b c = mkF3 a' b' c'. Proof. intros -> -> ->. reflexivity. Qed.
Lemma eqM a b c d e f g h i a' b' c' d' e' f' g' h' i' : a = a' -> b = b' -> c = c' -> d = d' -> e = e' -> f = f' -> g = g' -> h = h' -> i = i' -> mkM3 a b c d e f g h i = mkM3 a' b' c' d' e' f' g' h' i'.
Proof. intros -> -> -> -> -> -> -> -> ->. reflexivity. Qed.
Lemma rsum4 f : rsum 4 f = (f 0%nat + f 1%nat + f 2%nat + f 3%nat)%R. Proof. cbn [rsum]. ring. Qed.
Lemma rsum3 f : rsum 3 f = (f 0%nat + f 1%nat + f 2%nat)%R. Proof. cbn [rsum]. ring. Qed.
Lemma argmax4_ext f g : (forall k, k < 4 -> f k = g k) -> argmax4 f = argmax4 g.
Proof.
  intros H. unfold argmax4. cbv zeta. rewrite !(H 0), !(H 1), !(H 2), !(H 3) by lia. destruct (Rltb (g 0) (g 1)); rewrite ?(H 0), ?(H 1) by lia;
    [destruct (Rltb (g 1) (g 2)) | destruct (Rltb (g 0) (g 2))]; rewrite ?(H 0), ?(H 1), ?(H 2) by lia; reflexivity.
Qed.
Ltac see' V := see; rewrite ?(bidx_id _ _ V), ?Rplus_0_l.

Lemma row_xyzw t B : shape t = 4 :: B -> rowwise q_at [4] B (xyzw_to_wxyz_t (Ok t)) (fun b => xyzw_to_wxyz (v4_at t b)).
Proof. intros E. unfold xyzw_to_wxyz_t. eapply row_t; [exact loc_q | tt | reflexivity | intros b V; see' V; reflexivity]. Qed.
Lemma row_wxyz t B : shape t = 4 :: B -> rowwise v4_at [4] B (wxyz_to_xyzw_t (Ok t)) (fun b => wxyz_to_xyzw (q_at t b)).
Proof. intros E. unfold wxyz_to_xyzw_t. eapply row_t; [exact loc_v4 | tt | reflexivity | intros b V; see' V; reflexivity]. Qed.
Lemma row_q2m t B : shape t = 4 :: B -> rowwise m3_at [3; 3] B (quaternion_to_matrix_t (Ok t)) (fun b => quaternion_to_matrix (q_at t b)).
Proof.
  intros E. unfold quaternion_to_matrix_t, one, two. cbn [rbind]. rewrite E. cbn [tl]. eapply row_t; [exact loc_m3 | tt | reflexivity |]. intros b V. see' V. reflexivity.
Qed.
Lemma row_m2q t B : shape t = 3 :: 3 :: B -> rowwise q_at [4] B (matrix_to_quaternion_t (Ok t)) (fun b => matrix_to_quaternion (m3_at t b)).
Proof.
  intros E. unfold matrix_to_quaternion_t, check33, one, two. cbn [rbind]. rewrite E. cbn [Nat.eqb negb rbind]. eapply row_t; [exact loc_q | tt | reflexivity |].
  - intros i V. apply argmax4_lt.
  - intros b V. see' V.
    unfold matrix_to_quaternion, quat_candidate. set (f := fun k => _). fold (m3_at t b). assert (Ef : argmax4 f = argmax4 (q_abs (m3_at t b))).
    { apply argmax4_ext. intros k L. unfold f. destruct k as [|[|[|[|k]]]]; [..|lia]; see' V; reflexivity. }
    rewrite Ef. clear f Ef. pose proof (argmax4_lt (q_abs (m3_at t b))) as L. destruct (argmax4 (q_abs (m3_at t b))) as [|[|[|[|k]]]]; [..|lia]; see' V;
      cbn [quat_by_rijk qscale q_abs m00 m01 m02 m10 m11 m12 m20 m21 m22 qw qx qy qz]; unfold qscale, sqrt_positive_part; cbn [qw qx qy qz]; apply eqQ; unfold Rdiv; ring.
Qed.
Lemma row_rot1 t B c (H : is_letter c = true) : shape t = B -> rowwise m3_at [3; 3] B (axis_angle_rotation_t c (Ok t)) (fun b => match axis_angle_rotation c (at_ t b) with Ok m => m | Err _ => I3 end).
Proof.
  intros E. unfold axis_angle_rotation_t, axis_angle_rotation. unfold is_letter in H. destruct (Ascii.eqb c "X"); [|destruct (Ascii.eqb c "Y"); [|destruct (Ascii.eqb c "Z"); [|discriminate]]];
    cbn [rbind]; rewrite E; (eapply row_t; [exact loc_m3 | tt | reflexivity |]); intros b V; see' V; reflexivity.
Qed.
Lemma row_comp {A X Y} (read : tensor A -> list nat -> X) (read' : tensor A -> list nat -> Y) tail tail' B e f (F : ten A -> ten A) (G : X -> Y) :
  (forall t, shape t = tail ++ B -> rowwise read' tail' B (F (Ok t)) (fun b => G (read t b))) -> rowwise read tail B e f -> rowwise read' tail' B (F e) (fun b => G (f b)).
Proof.
  intros HF (t & -> & Es & H). destruct (HF t Es) as (u & E & Eu & Hu). exists u. split; [exact E|]. split; [exact Eu|]. intros b V. rewrite (Hu b V), (H b V). reflexivity.
Qed.
Lemma m3_t e B f : rowwise m3_at [3; 3] B e f -> is_t e (3 :: 3 :: B) (fun i => m3get (f (tl (tl i))) (hd 0 (tl i)) (hd 0 i)).
Proof.
  intros (t & -> & Es & H). exists t. split; [reflexivity|]. split; [exact Es|]. intros i V. inversion V as [|c n0 l s0 Hc V' E0]; subst. inversion V' as [|r n1 b s1 Hr Vb E1]; subst. cbn [hd tl]. rewrite <- (H b Vb).
  destruct r as [|[|[|r]]]; [..|lia]; (destruct c as [|[|[|c]]]; [..|lia]); reflexivity.
Qed.
Lemma t_m3 e B f : is_t e (3 :: 3 :: B) f -> rowwise m3_at [3; 3] B e (fun b => m3_at (mkT (3 :: 3 :: B) f) b).
Proof. intros H. eapply row_t; [exact loc_m3 | exact H | reflexivity | reflexivity]. Qed.
Lemma row_mul e1 e2 B f1 f2 : rowwise m3_at [3; 3] B e1 f1 -> rowwise m3_at [3; 3] B e2 f2 -> rowwise m3_at [3; 3] B (matmul e1 e2) (fun b => m3mul (f1 b) (f2 b)).
Proof.
  intros H1 H2. eapply row_t; [exact loc_m3 | eapply t_matmul; [exact (m3_t _ _ _ H1) | exact (m3_t _ _ _ H2)] | reflexivity |]. intros b V. see' V.
  cbn [m3get m3row v3get vx vy vz]. unfold m3mul. apply eqM; reflexivity.
Qed.
Lemma row_sel t B k : k < 3 -> shape t = 3 :: B -> rowwise (fun t b => at_ t b) [] B (unb 3 k (Ok t)) (fun b => v3get (v_at t b) k).
Proof.
  intros L E. eapply row_t; [intros B' u v b V H; exact (H b V) | tt | reflexivity |]. intros b V. see' V. destruct k as [|[|[|k]]]; [..|lia]; reflexivity.
Qed.
Lemma letter_ok c t : is_letter c = true -> exists m, axis_angle_rotation c t = Ok m.
Proof. unfold is_letter, axis_angle_rotation. destruct (Ascii.eqb c "X"); [eauto|]. destruct (Ascii.eqb c "Y"); [eauto|]. destruct (Ascii.eqb c "Z"); [eauto | discriminate]. Qed.
Lemma check_letters s a b c : check_convention s = Ok (a, b, c) -> is_letter a = true /\ is_letter b = true /\ is_letter c = true.
Proof.
  unfold check_convention. destruct s as [|x [|y [|z [|w s]]]]; try discriminate. destruct (_ || _)%bool; [discriminate|]. destruct (is_letter x && is_letter y && is_letter z)%bool eqn:E; [|discriminate].
  intros H. injection H as <- <- <-. apply andb_prop in E. destruct E as [E1 E3]. apply andb_prop in E1. tauto.
Qed.
Lemma row_e2m t B s m : shape t = 3 :: B -> (exists abc, check_convention s = Ok abc) -> (forall b, valid B b -> euler_angles_to_matrix (v_at t b) s = Ok (m b)) ->
  rowwise m3_at [3; 3] B (euler_angles_to_matrix_t (Ok t) s) m.
Proof.
  intros E (((a, b), c) & C) M. unfold euler_angles_to_matrix_t. cbn [rbind]. rewrite E. cbn [Nat.eqb negb]. rewrite C. cbn [rbind]. destruct (check_letters _ _ _ _ C) as (La & Lb & Lc).
  assert (G : forall k x, k < 3 -> is_letter x = true -> rowwise m3_at [3; 3] B (axis_angle_rotation_t x (unb 3 k (Ok t))) (fun b => match axis_angle_rotation x (v3get (v_at t b) k) with Ok m => m | Err _ => I3 end)).
  { intros k x L Lx. exact (row_comp _ _ [] [3; 3] B _ _ (axis_angle_rotation_t x) (fun r => match axis_angle_rotation x r with Ok m => m | Err _ => I3 end) (fun u => row_rot1 u B x Lx) (row_sel t B k L E)). }
  destruct (row_mul _ _ _ _ _ (row_mul _ _ _ _ _ (G 0 a ltac:(lia) La) (G 1 b ltac:(lia) Lb)) (G 2 c ltac:(lia) Lc)) as (u & Eu & Su & Hu).
  exists u. split; [exact Eu|]. split; [exact Su|]. intros i V. rewrite (Hu i V). specialize (M i V). unfold euler_angles_to_matrix in M. rewrite C in M. cbn [rbind] in M. cbn [v3get].
  destruct (letter_ok a (vx (v_at t i)) La) as (ma & Ea). destruct (letter_ok b (vy (v_at t i)) Lb) as (mb & Eb). destruct (letter_ok c (vz (v_at t i)) Lc) as (mc & Ec). rewrite Ea, Eb, Ec in *. cbn [rbind] in M. congruence.
Qed.

Lemma letters c : is_letter c = true -> c = "X"%char \/ c = "Y"%char \/ c = "Z"%char.
Proof.
  unfold is_letter. destruct (Ascii.eqb c "X") eqn:E1; [apply Ascii.eqb_eq in E1; auto|]. destruct (Ascii.eqb c "Y") eqn:E2; [apply Ascii.eqb_eq in E2; auto|].
  destruct (Ascii.eqb c "Z") eqn:E3; [apply Ascii.eqb_eq in E3; auto | discriminate].
Qed.
Lemma row_m2e t B s : shape t = 3 :: 3 :: B -> (exists abc, check_convention s = Ok abc) ->
  rowwise (fun u b => Ok (f3_at u b)) [3] B (matrix_to_euler_angles_t (Ok t) s) (fun b => matrix_to_euler_angles (m3_at t b) s).
Proof.
  intros E (((a, b), c) & C). unfold matrix_to_euler_angles_t, matrix_to_euler_angles. rewrite C. cbn [rbind]. unfold check33. cbn [rbind]. rewrite E. cbn [Nat.eqb negb rbind].
  assert (L : local (fun (u : tensor F) b => Ok (f3_at u b)) [3]) by (intros B' u v i V H; f_equal; exact (loc_f3 B' u v i V H)).
  destruct (check_letters _ _ _ _ C) as (La & Lb & Lc). clear C. destruct (letters a La) as [->|[->| ->]]; destruct (letters b Lb) as [->|[->| ->]]; destruct (letters c Lc) as [->|[->| ->]]; clear La Lb Lc;
    cbv [index_from_letter angle_from_tan_t angle_from_tan Ascii.eqb Bool.eqb andb orb negb Nat.eqb Nat.add];
    (eapply row_t; [exact L | tt | reflexivity |]); intros i V; see' V; cbv [m3col m3row m3tr m3get v3get]; cbn [vx vy vz m00 m01 m02 m10 m11 m12 m20 m21 m22]; reflexivity.
Qed.
Lemma row_random t B : shape t = 4 :: B -> rowwise q_at [4] B (random_quaternions_t (Ok t)) (fun b => random_quaternion (q_at t b)).
Proof.
  intros E. unfold random_quaternions_t. eapply row_t; [exact loc_q | tt | reflexivity |]. intros b V. see' V. unfold random_quaternion, qscale, qnorm2. cbn [qw qx qy qz]. apply eqQ; unfold Rdiv; ring.
Qed.
Lemma row_std t B : shape t = 4 :: B -> rowwise q_at [4] B (standardize_quaternion_t (Ok t)) (fun b => standardize_quaternion (q_at t b)).
Proof.
  intros E. unfold standardize_quaternion_t. eapply row_t; [exact loc_q | tt | reflexivity |]. intros b V. see' V. unfold standardize_quaternion. cbn [qw qx qy qz]. destruct (Rltb (at_ t (0 :: b)) 0); reflexivity.
Qed.
Lemma row_inv t B : shape t = 4 :: B -> rowwise q_at [4] B (quaternion_invert_t (Ok t)) (fun b => quaternion_invert (q_at t b)).
Proof. intros E. unfold quaternion_invert_t. eapply row_t; [exact loc_q | tt | reflexivity |]. intros b V. see' V. reflexivity. Qed.
Lemma row_raw t u A B C : shape t = 4 :: A -> shape u = 4 :: B -> together A B C ->
  rowwise2 q_at [4] A B C (quaternion_raw_multiply_t (Ok t) (Ok u)) (fun a b => quaternion_raw_multiply (q_at t a) (q_at u b)).
Proof.
  intros E1 E2 T. unfold quaternion_raw_multiply_t. eapply row2_t; [exact loc_q | tt | reflexivity |]. intros b V. see' V. reflexivity.
Qed.
Lemma row_33 t u A B C : shape t = 3 :: A -> shape u = B -> together A B C ->
  rowwise2 m3_at [3; 3] A B C (axis_and_angle_to_matrix_33_t (Ok t) (Ok u)) (fun a b => axis_and_angle_to_matrix_33 (v_at t a) (at_ u b)).
Proof.
  intros E1 E2 T. unfold axis_and_angle_to_matrix_33_t, one. eapply row2_t; [exact loc_m3 | tt | reflexivity |]. intros b V. see' V.
  rewrite ?(bidx_bidx _ _ _ b T), ?(bidx_bidx _ _ _ b (tog_sym _ _ _ T)), ?(bidx_bidx _ _ _ b (tog_refl A)), ?(bidx_bidx _ _ _ b (tog_refl B)). reflexivity.
Qed.
Lemma row_aa2q t B : shape t = 3 :: B -> rowwise q_at [4] B (axis_angle_to_quaternion_t (Ok t)) (fun b => axis_angle_to_quaternion (v_at t b)).
Proof.
  intros E. unfold axis_angle_to_quaternion_t, sin_half_over_t. eapply row_t; [exact loc_q | tt | reflexivity |]. intros b V. see' V. reflexivity.
Qed.
Lemma row_q2aa t B : shape t = 4 :: B -> rowwise f3_at [3] B (quaternion_to_axis_angle_t (Ok t)) (fun b => quaternion_to_axis_angle (q_at t b)).
Proof.
  intros E. unfold quaternion_to_axis_angle_t, sin_half_over_t, two. eapply row_t; [exact loc_f3 | tt | reflexivity |]. intros b V. see' V. reflexivity.
Qed.
Lemma normalize_div v : normalize v = mkV3 (vx v / Rmax (vnorm v) eps12) (vy v / Rmax (vnorm v) eps12) (vz v / Rmax (vnorm v) eps12).
Proof. unfold normalize, vscale. apply eqV; unfold Rdiv; ring. Qed.
Lemma row_6d t B : shape t = 6 :: B -> rowwise m3_at [3; 3] B (rotation_6d_to_matrix_t (Ok t)) (fun b => rotation_6d_to_matrix (fst (six_at t b)) (snd (six_at t b))).
Proof.
  intros E. unfold rotation_6d_to_matrix_t. eapply row_t; [exact loc_m3 | tt | reflexivity |]. intros b V. see' V. unfold rotation_6d_to_matrix. cbv zeta. rewrite !normalize_div. reflexivity.
Qed.
(** four numbers in a row are taken for a first vector and three times the fourth number *)
Lemma row_4d t B : shape t = 4 :: B -> rowwise m3_at [3; 3] B (rotation_6d_to_matrix_t (Ok t))
  (fun b => let a k := at_ t (k :: b) in rotation_6d_to_matrix (mkV3 (a 0) (a 1) (a 2)) (mkV3 (a 3) (a 3) (a 3))).
Proof.
  intros E. unfold rotation_6d_to_matrix_t. eapply row_t; [exact loc_m3 | tt | reflexivity |]. intros b V. see' V. unfold rotation_6d_to_matrix. cbv zeta. rewrite !normalize_div. reflexivity.
Qed.
Lemma row_to6d t B : shape t = 3 :: 3 :: B -> rowwise six_at [6] B (matrix_to_rotation_6d_t (Ok t)) (fun b => matrix_to_rotation_6d (m3_at t b)).
Proof.
  intros E. unfold matrix_to_rotation_6d_t. cbn [rbind]. rewrite E. cbn [tl]. eapply row_t; [exact loc_6 | tt | reflexivity |]. intros b V. see' V. reflexivity.
Qed.
Lemma row_rotp t B : shape t = 4 :: 4 :: B -> rowwise m3_at [3; 3] B (slice 0 3 (slice2 0 3 (Ok t))) (fun b => rotp (m4_at t b)).
Proof. intros E. eapply row_t; [exact loc_m3 | tt | reflexivity |]. intros b V. see' V. reflexivity. Qed.
Lemma row_trp t B : shape t = 4 :: 4 :: B -> rowwise v_at [3] B (sel 3 (slice2 0 3 (Ok t))) (fun b => trp (m4_at t b)).
Proof. intros E. eapply row_t; [exact loc_v | tt | reflexivity |]. intros b V. see' V. reflexivity. Qed.
Lemma six_t e B f : rowwise six_at [6] B e f -> exists t, e = Ok t /\ shape t = 6 :: B /\ forall b, valid B b -> six_at t b = f b. Proof. intros H. exact H. Qed.
Lemma row_to9d t B : shape t = 4 :: 4 :: B -> rowwise nine_at [9] B (matrix44_to_se3_9d_t (Ok t)) (fun b => matrix44_to_se3_9d (m4_at t b)).
Proof.
  intros E. unfold matrix44_to_se3_9d_t.
  destruct (row_comp _ _ [3; 3] [6] B _ _ matrix_to_rotation_6d_t matrix_to_rotation_6d (fun u => row_to6d u B) (row_rotp t B E)) as (u & -> & Su & Hu). cbn [app] in Su.
  destruct (row_trp t B E) as (w & -> & Sw & Hw). cbn [app] in Sw. eapply row_t; [exact loc_9 | tt | reflexivity |]. intros b V. unfold matrix44_to_se3_9d. rewrite <- (Hu b V), <- (Hw b V). see' V. reflexivity.
Qed.
Lemma row_slice6 t B : shape t = 9 :: B -> rowwise six_at [6] B (slice 0 6 (Ok t)) (fun b => fst (nine_at t b)).
Proof. intros E. eapply row_t; [exact loc_6 | tt | reflexivity |]. intros b V. see' V. reflexivity. Qed.
Lemma aff_eq M (v : V3) : aff M v = mkM4 (m00 M) (m01 M) (m02 M) (vx v) (m10 M) (m11 M) (m12 M) (vy v) (m20 M) (m21 M) (m22 M) (vz v) 0 0 0 1. Proof. destruct M, v. reflexivity. Qed.
Lemma row_from9d t B : shape t = 9 :: B -> rowwise m4_at [4; 4] B (se3_9d_to_matrix44_t (Ok t)) (fun b => se3_9d_to_matrix44 (nine_at t b)).
Proof.
  intros E. unfold se3_9d_to_matrix44_t.
  destruct (row_comp _ _ [6] [3; 3] B _ _ rotation_6d_to_matrix_t (fun x => rotation_6d_to_matrix (fst x) (snd x)) (fun u => row_6d u B) (row_slice6 t B E)) as (u & Eu & Su & Hu). cbn [app] in Su.
  rewrite Eu. cbn [rbind]. rewrite Su. cbn [tl]. eapply row_t; [exact loc_m4 | tt | reflexivity |]. intros b V.
  change (se3_9d_to_matrix44 (nine_at t b)) with (aff (rotation_6d_to_matrix (fst (fst (nine_at t b))) (snd (fst (nine_at t b)))) (snd (nine_at t b))). rewrite <- (Hu b V), aff_eq. see' V. reflexivity.
Qed.
Lemma row_pos t B : shape t = 4 :: 4 :: B -> rowwise v_at [3] B (fst (matrix_to_pos_rot_t (Ok t))) (fun b => fst (matrix_to_pos_rot (m4_at t b)))
  /\ rowwise v4_at [4] B (snd (matrix_to_pos_rot_t (Ok t))) (fun b => snd (matrix_to_pos_rot (m4_at t b))).
Proof.
  intros E. split; [exact (row_trp t B E)|]. cbn [matrix_to_pos_rot_t snd].
  exact (row_comp _ _ [4] [4] B _ _ wxyz_to_xyzw_t wxyz_to_xyzw (fun u => row_wxyz u B) (row_comp _ _ [3; 3] [4] B _ _ matrix_to_quaternion_t matrix_to_quaternion (fun u => row_m2q u B) (row_rotp t B E))).
Qed.
Lemma row_aa2m t B : shape t = 3 :: B -> rowwise m3_at [3; 3] B (axis_angle_to_matrix_t (Ok t)) (fun b => axis_angle_to_matrix (v_at t b)).
Proof. intros E. exact (row_comp _ _ [4] [3; 3] B _ _ quaternion_to_matrix_t quaternion_to_matrix (fun u => row_q2m u B) (row_aa2q t B E)). Qed.
Lemma row_m2aa t B : shape t = 3 :: 3 :: B -> rowwise f3_at [3] B (matrix_to_axis_angle_t (Ok t)) (fun b => matrix_to_axis_angle (m3_at t b)).
Proof.
  intros E. destruct (row_m2q t B E) as (u & Eu & Su & Hu). destruct (row_q2aa u B Su) as (w & Ew & Sw & Hw). exists w. unfold matrix_to_axis_angle_t. rewrite Eu. split; [exact Ew|]. split; [exact Sw|].
  intros b V. rewrite (Hw b V), (Hu b V). reflexivity.
Qed.
Lemma row2_post {X Y} (read : tensor R -> list nat -> X) (read' : tensor R -> list nat -> Y) tail tail' A B C e f (F : ten R -> ten R) (G : X -> Y) :
  (forall t, shape t = tail ++ C -> rowwise read' tail' C (F (Ok t)) (fun b => G (read t b))) -> rowwise2 read tail A B C e f -> rowwise2 read' tail' A B C (F e) (fun a b => G (f a b)).
Proof.
  intros HF (t & -> & Es & H). destruct (HF t Es) as (u & E & Eu & Hu). exists u. split; [exact E|]. split; [exact Eu|]. intros b a1 a2 V R1 R2. rewrite (Hu b V), (H b a1 a2 V R1 R2). reflexivity.
Qed.
Lemma row_mult t u A B C : shape t = 4 :: A -> shape u = 4 :: B -> together A B C ->
  rowwise2 q_at [4] A B C (quaternion_multiply_t (Ok t) (Ok u)) (fun a b => quaternion_multiply (q_at t a) (q_at u b)).
Proof. intros E1 E2 T. exact (row2_post _ _ [4] [4] A B C _ _ standardize_quaternion_t standardize_quaternion (fun w => row_std w C) (row_raw t u A B C E1 E2 T)). Qed.
Lemma reads_self C b : valid C b -> reads C b b. Proof. intros V. rewrite <- (bidx_id C b V) at 2. exact (reads_bidx C C C b (tog_refl C) V). Qed.
Lemma row_apply t u A B C : shape t = 4 :: A -> shape u = 3 :: B -> together A B C ->
  rowwise2 v_at [3] A B C (quaternion_apply_t (Ok t) (Ok u)) (fun a b => quaternion_apply (q_at t a) (v_at u b)).
Proof.
  intros E1 E2 T. unfold quaternion_apply_t. cbn [rbind]. rewrite E2.
  assert (P : rowwise q_at [4] B (cat (full (1 :: B) 0%R) (Ok u)) (fun b => let p := v_at u b in mkQ 0 (vx p) (vy p) (vz p))).
  { eapply row_t; [exact loc_q | tt | reflexivity |]. intros b V. see' V. reflexivity. }
  destruct P as (p & Ep & Sp & Hp). rewrite Ep. cbn [app] in Sp. destruct (row_raw t p A B C E1 Sp T) as (r & Er & Sr & Hr). rewrite Er. destruct (row_inv t A E1) as (v & Ev & Sv & Hv). rewrite Ev. cbn [app] in Sr, Sv.
  destruct (row_raw r v C A C Sr Sv (tog_l' _ _ _ T)) as (w & Ew & Sw & Hw). rewrite Ew. cbn [app] in Sw. eapply row2_t; [exact loc_v | tt | reflexivity |]. intros b V.
  unfold quaternion_apply. cbv zeta. pose proof (reads_bidx _ _ _ _ T V) as R1. pose proof (reads_bidx _ _ _ _ (tog_sym _ _ _ T) V) as R2.
  rewrite <- (Hv (bidx A b) (bidx_valid _ _ _ _ T V)).
  pose proof (Hp (bidx B b) (bidx_valid _ _ _ _ (tog_sym _ _ _ T) V)) as Hp'. cbv beta zeta in Hp'.
  rewrite <- Hp', <- (Hr b _ _ V R1 R2), <- (Hw b b _ V (reads_self C b V) R1). reflexivity.
Qed.
Lemma row_pris t u A B : shape t = 3 :: A -> shape u = B -> together A B A ->
  rowwise2 m4_at [4; 4] A B A (axis_and_d_to_pris_matrix_t (Ok t) (Ok u)) (fun a b => axis_and_d_to_pris_matrix (v_at t a) (at_ u b)).
Proof.
  intros E1 E2 T. unfold axis_and_d_to_pris_matrix_t, one. cbn [rbind]. rewrite E1. cbn [tl]. eapply row2_t; [exact loc_m4 | tt | reflexivity |]. intros b V. see' V. reflexivity.
Qed.
Lemma row_44 t u A B : shape t = 3 :: A -> shape u = B -> together A B A ->
  rowwise2 m4_at [4; 4] A B A (axis_and_angle_to_matrix_44_t (Ok t) (Ok u)) (fun a b => axis_and_angle_to_matrix_44 (v_at t a) (at_ u b)).
Proof.
  intros E1 E2 T. unfold axis_and_angle_to_matrix_44_t, one. destruct (row_33 t u A B A E1 E2 T) as (r & -> & Sr & Hr). cbn [app] in Sr. cbn [rbind]. rewrite E1. cbn [tl]. eapply row2_t; [exact loc_m4 | tt | reflexivity |].
  intros b V. unfold axis_and_angle_to_matrix_44. cbv zeta. rewrite <- (Hr b _ _ V (reads_bidx _ _ _ _ T V) (reads_bidx _ _ _ _ (tog_sym _ _ _ T) V)). see' V. reflexivity.
Qed.
Lemma row_pr2m t u A B : shape t = 3 :: A -> shape u = 4 :: B -> together A B A ->
  rowwise2 m4_at [4; 4] A B A (pos_rot_to_matrix_t (Ok t) (Ok u)) (fun a b => pos_rot_to_matrix (v_at t a) (v4_at u b)).
Proof.
  intros E1 E2 T. unfold pos_rot_to_matrix_t.
  destruct (row_comp _ _ [4] [3; 3] B _ _ quaternion_to_matrix_t quaternion_to_matrix (fun w => row_q2m w B) (row_xyzw u B E2)) as (r & -> & Sr & Hr). cbn [app] in Sr. cbn [rbind]. rewrite E1. cbn [tl].
  eapply row2_t; [exact loc_m4 | tt | reflexivity |]. intros b V. unfold pos_rot_to_matrix. rewrite <- (Hr (bidx B b) (bidx_valid _ _ _ _ (tog_sym _ _ _ T) V)), aff_eq. see' V. reflexivity.
Qed.

(** ** Wrong shapes *)
Lemma t_ok {A} (e : ten A) s f : is_t e s f -> exists t, e = Ok t. Proof. intros (t & E & _). eauto. Qed.
Lemma op2_r {A B C} (g : A -> B -> C) e1 x : (exists t, e1 = Ok t) -> op2 g e1 (Err x) = Err x. Proof. intros (t & ->). reflexivity. Qed.
Lemma unb_bad {A} (t : tensor A) n m k B : shape t = m :: B -> m <> n -> unb n k (Ok t) = Err ValueError.
Proof. intros E N. unfold unb. cbn [rbind]. rewrite E, (proj2 (Nat.eqb_neq m n) N). reflexivity. Qed.
Lemma bad_q2m t n B : shape t = n :: B -> n <> 4 -> quaternion_to_matrix_t (Ok t) = Err ValueError.
Proof.
  intros E N. unfold quaternion_to_matrix_t, one, two. cbv zeta. rewrite !(unb_bad t 4 n _ B E N). cbn [rbind].
  assert (T : exists w, op2 Rdiv (num 2) (sum_last (op2 Rmult (Ok t) (Ok t))) = Ok w) by (eapply t_ok; tt). destruct T as (w & ->). reflexivity.
Qed.
Lemma bad_check t c r B : shape t = c :: r :: B -> c <> 3 \/ r <> 3 -> check33 (Ok t) = Err ValueError.
Proof.
  intros E N. unfold check33. cbn [rbind]. rewrite E. destruct (c =? 3) eqn:C; [|reflexivity]. apply Nat.eqb_eq in C. cbn [negb]. destruct (r =? 3) eqn:D; [|reflexivity]. apply Nat.eqb_eq in D. tauto.
Qed.
Lemma bad_m2q t c r B : shape t = c :: r :: B -> c <> 3 \/ r <> 3 -> matrix_to_quaternion_t (Ok t) = Err ValueError.
Proof. intros E N. unfold matrix_to_quaternion_t. rewrite (bad_check t c r B E N). reflexivity. Qed.
Lemma bad_m2e t c r B s : shape t = c :: r :: B -> c <> 3 \/ r <> 3 -> matrix_to_euler_angles_t (Ok t) s = Err ValueError.
Proof.
  intros E N. unfold matrix_to_euler_angles_t. rewrite (bad_check t c r B E N). unfold check_convention. destruct s as [|x [|y [|z [|w s]]]]; try reflexivity. destruct (_ || _)%bool; [reflexivity|]. destruct (_ && _)%bool; reflexivity.
Qed.
Lemma bad_e2m t n B s : shape t = n :: B -> n <> 3 -> euler_angles_to_matrix_t (Ok t) s = Err ValueError.
Proof. intros E N. unfold euler_angles_to_matrix_t. cbn [rbind]. rewrite E, (proj2 (Nat.eqb_neq n 3) N). reflexivity. Qed.
Lemma conv_err s x : check_convention s = Err x -> x = ValueError.
Proof. unfold check_convention. destruct s as [|a [|y [|z [|w s]]]]; try congruence. destruct (_ || _)%bool; [congruence|]. destruct (_ && _)%bool; congruence. Qed.
Lemma bad_conv t B s x : shape t = 3 :: B -> check_convention s = Err x -> euler_angles_to_matrix_t (Ok t) s = Err x.
Proof. intros E C. unfold euler_angles_to_matrix_t. cbn [rbind]. rewrite E. cbn [Nat.eqb negb]. rewrite C. reflexivity. Qed.
Lemma bad_op2 {A B C} (g : A -> B -> C) (t : tensor A) (u : tensor B) : (forall s, ~ together (shape t) (shape u) s) -> op2 g (Ok t) (Ok u) = Err RuntimeError.
Proof. intros H. unfold op2. cbn [rbind]. destruct (bshape (shape t) (shape u)) as [s|] eqn:E; [apply bshape_tog in E; destruct (H s E) | reflexivity]. Qed.
Lemma unb_ok {A} (t : tensor A) n k B : shape t = n :: B -> unb n k (Ok t) = Ok (mkT B (fun i => at_ t (k :: i))).
Proof. intros E. unfold unb. cbn [rbind]. rewrite E, Nat.eqb_refl. reflexivity. Qed.
Lemma bad_raw t u A B : shape t = 4 :: A -> shape u = 4 :: B -> (forall C, ~ together A B C) -> fails (quaternion_raw_multiply_t (Ok t) (Ok u)).
Proof.
  intros E1 E2 N. exists RuntimeError. unfold quaternion_raw_multiply_t, stack. cbv zeta. cbn [all_ok]. rewrite !(unb_ok t 4 _ A E1), !(unb_ok u 4 _ B E2). rewrite (bad_op2 Rmult (mkT A (fun i => at_ t (0 :: i))) (mkT B _)) by exact N. reflexivity.
Qed.
Lemma bad_raw_l t u n A : shape t = n :: A -> n <> 4 -> fails (quaternion_raw_multiply_t (Ok t) u).
Proof. intros E N. unfold quaternion_raw_multiply_t. cbv zeta. rewrite !(unb_bad t 4 n _ A E N). exists ValueError. reflexivity. Qed.
Lemma bad_33 t u A B : shape t = 3 :: A -> shape u = B -> (forall C, ~ together A B C) -> fails (axis_and_angle_to_matrix_33_t (Ok t) (Ok u)).
Proof.
  intros E1 E2 N. exists RuntimeError. unfold axis_and_angle_to_matrix_33_t, stack2, stack, one. cbv zeta. cbn [all_ok]. rewrite !(unb_ok t 3 _ A E1).
  assert (P : exists p, op2 Rmult (Ok (mkT A (fun i => at_ t (0 :: i)))) (Ok (mkT A (fun i => at_ t (0 :: i)))) = Ok p /\ shape p = A).
  { assert (G : is_t (op2 Rmult (Ok (mkT A (fun i => at_ t (0 :: i)))) (Ok (mkT A (fun i => at_ t (0 :: i))))) A (fun i => Rmult (at_ t (0 :: i)) (at_ t (0 :: i)))) by (apply t_op2_same; apply is_in; reflexivity).
    destruct G as (p & Ep & Sp & _). eauto. }
  assert (O : exists o, op2 Rminus (num 1) (op1 cos (Ok u)) = Ok o /\ shape o = B).
  { assert (G : is_t (op2 Rminus (num 1) (op1 cos (Ok u))) B (fun i => (1 - cos (at_ u i))%R)) by (apply t_op2_num_l, t_op1, is_in, E2). destruct G as (p & Ep & Sp & _). eauto. }
  destruct P as (p & -> & Sp). destruct O as (o & -> & So). rewrite (bad_op2 Rmult p o) by (rewrite Sp, So; exact N). reflexivity.
Qed.
Lemma fits_longer A N : N <> 1 -> fits (A ++ [N]) A = false.
Proof. intros H. induction A as [|n A IH]; cbn [app fits]; [rewrite (proj2 (Nat.eqb_neq N 1) H); reflexivity|]. rewrite IH, andb_false_r. reflexivity. Qed.
Lemma tog_longer A N : together A (A ++ [N]) (A ++ [N]). Proof. induction A as [|n A IH]; cbn [app]; constructor; exact IH. Qed.
Lemma put_bad {A} reg rs (t u : tensor A) : fits (shape u) (rs (shape t)) = false -> put reg rs (Ok t) (Ok u) = Err RuntimeError. Proof. intros H. unfold put. cbn [rbind]. rewrite H. reflexivity. Qed.
Lemma bad_44 t u A N : shape t = 3 :: A -> shape u = A ++ [N] -> N <> 1 -> axis_and_angle_to_matrix_44_t (Ok t) (Ok u) = Err RuntimeError.
Proof.
  intros E1 E2 H. unfold axis_and_angle_to_matrix_44_t. cbv zeta. destruct (row_33 t u A _ _ E1 E2 (tog_longer A N)) as (r & -> & Sr & _). cbn [rbind]. unfold full.
  rewrite (put_bad block33); [reflexivity|]. rewrite Sr, E1. cbn [shape app tl block33_shape fits]. rewrite (fits_longer A N H). reflexivity.
Qed.
Lemma bad_pris t u A N : shape t = 3 :: A -> shape u = A ++ [N] -> N <> 1 -> axis_and_d_to_pris_matrix_t (Ok t) (Ok u) = Err RuntimeError.
Proof.
  intros E1 E2 H. unfold axis_and_d_to_pris_matrix_t, one. cbv zeta. cbn [rbind]. rewrite E1. cbn [tl].
  assert (G : exists m, put (cell 3) cell_shape (put (cell 2) cell_shape (put (cell 1) cell_shape (put (cell 0) cell_shape (full (4 :: 4 :: A) 0%R) (num 1)) (num 1)) (num 1)) (num 1) = Ok m /\ shape m = 4 :: 4 :: A).
  { assert (X : exists f, is_t (put (cell 3) cell_shape (put (cell 2) cell_shape (put (cell 1) cell_shape (put (cell 0) cell_shape (full (4 :: 4 :: A) 0%R) (num 1)) (num 1)) (num 1)) (num 1)) (4 :: 4 :: A) f) by (eexists; tt).
    destruct X as (f & m & Em & Sm & _). eauto. }
  destruct G as (m & -> & Sm).
  assert (G : exists p, op2 Rmult (Ok t) (unsqueeze (Ok u)) = Ok p /\ shape p = 3 :: A ++ [N]).
  { pose proof (tog_longer A N) as T. assert (X : exists f, is_t (op2 Rmult (Ok t) (unsqueeze (Ok u))) (3 :: A ++ [N]) f) by (eexists; tt). destruct X as (f & p & Ep & Sp & _). eauto. }
  destruct G as (p & -> & Sp). apply put_bad. rewrite Sp, Sm. cbn [col3_shape tl fits]. rewrite (fits_longer A N H). reflexivity.
Qed.
Lemma bad_pr2m t u A N : shape t = 3 :: A -> shape u = 4 :: A ++ [N] -> N <> 1 -> pos_rot_to_matrix_t (Ok t) (Ok u) = Err RuntimeError.
Proof.
  intros E1 E2 H. unfold pos_rot_to_matrix_t. cbv zeta.
  destruct (row_comp _ _ [4] [3; 3] (A ++ [N]) _ _ quaternion_to_matrix_t quaternion_to_matrix (fun w => row_q2m w (A ++ [N])) (row_xyzw u _ E2)) as (r & -> & Sr & _). cbn [rbind]. rewrite E1. cbn [tl].
  assert (X : exists f, is_t (put col3 col3_shape (eyes A) (Ok t)) (4 :: 4 :: A) f) by (eexists; tt). destruct X as (f & p & -> & Sp & _). apply put_bad. rewrite Sp, Sr. cbn [app block33_shape tl fits]. rewrite (fits_longer A N H). reflexivity.
Qed.
