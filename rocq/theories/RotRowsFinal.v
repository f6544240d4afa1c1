(** Last steps of the proofs quoted in Properties_RotRows.v. *)
From Coq Require Import Reals Lra Bool Arith Lia List String Ascii.
From Verif Require Import Prelude ExtF Lin Trig RotModel TorchModel RotTorchModel SpecTorch TorchProofs RotTorch.
Import ListNotations.
Local Open Scope nat_scope.

(** two quaternions: no turn, and a half turn about x *)
Definition two_turns : tensor R := mkT [4; 2] (fun i => match i with [0; 0] => 1%R | [1; 1] => 1%R | _ => 0%R end).
(** two axes x and y, and the angles 0 and pi, once as a row and once as a column *)
Definition two_axes : tensor R := mkT [3; 2] (fun i => match i with [0; 0] => 1%R | [1; 1] => 1%R | _ => 0%R end).
Definition one_axis : tensor R := mkT [3] (fun i => match i with [0] => 1%R | _ => 0%R end).
Definition two_angles : tensor R := mkT [2] (fun i => match i with [0] => 0%R | _ => PI end).
Definition two_angles_column : tensor R := mkT [1; 2] (fun i => match i with [_; 0] => 0%R | _ => PI end).
Definition one_place : tensor R := mkT [3] (fun _ => 0%R).
Definition ok_m3 (t : tensor R) (b : list nat) : res M3 := Ok (m3_at t b).
Definition ok_f3 (t : tensor F) (b : list nat) : res F3 := Ok (f3_at t b).
(** the first three numbers of a row, and three times its fourth *)
Definition first3 (t : tensor R) (b : list nat) : V3 := let a k := at_ t (k :: b) in mkV3 (a 0) (a 1) (a 2).
Definition last3 (t : tensor R) (b : list nat) : V3 := let a := at_ t (3 :: b) in mkV3 a a a.
Lemma e2m_all t B s : shape t = 3 :: B ->
  (exists x, euler_angles_to_matrix_t (Ok t) s = Err x /\ forall e, euler_angles_to_matrix e s = Err x)
  \/ rowwise ok_m3 [3; 3] B (euler_angles_to_matrix_t (Ok t) s) (fun b => euler_angles_to_matrix (v_at t b) s).
Proof.
  intros E. destruct (check_convention s) as [((a, b), c)|x] eqn:C.
  - right. destruct (check_letters _ _ _ _ C) as (La & Lb & Lc).
    assert (M : exists m, forall b, euler_angles_to_matrix (v_at t b) s = Ok (m b)).
    { exists (fun b => match euler_angles_to_matrix (v_at t b) s with Ok m => m | Err _ => I3 end). intros i. unfold euler_angles_to_matrix. rewrite C. cbn [rbind].
      destruct (letter_ok a (vx (v_at t i)) La) as (ma & ->). destruct (letter_ok b (vy (v_at t i)) Lb) as (mb & ->). destruct (letter_ok c (vz (v_at t i)) Lc) as (mc & ->). reflexivity. }
    destruct M as (m & M). destruct (row_e2m t B s m E (ex_intro _ _ C) (fun b _ => M b)) as (u & Eu & Su & Hu). exists u. split; [exact Eu|]. split; [exact Su|]. intros i V. unfold ok_m3. rewrite (Hu i V), M. reflexivity.
  - left. exists x. split; [exact (bad_conv t B s x E C)|]. intros e. unfold euler_angles_to_matrix. rewrite C. reflexivity.
Qed.
Lemma m2e_all t B s : shape t = 3 :: 3 :: B ->
  (exists x, matrix_to_euler_angles_t (Ok t) s = Err x /\ forall m, matrix_to_euler_angles m s = Err x)
  \/ rowwise ok_f3 [3] B (matrix_to_euler_angles_t (Ok t) s) (fun b => matrix_to_euler_angles (m3_at t b) s).
Proof.
  intros E. destruct (check_convention s) as [abc|x] eqn:C; [right; exact (row_m2e t B s E (ex_intro _ _ C))|]. left. exists x. split; [unfold matrix_to_euler_angles_t | intros m; unfold matrix_to_euler_angles]; rewrite C; reflexivity.
Qed.

Lemma l89_quaternion_rows : forall t B, shape t = 4 :: B ->
  rowwise q_at [4] B (xyzw_to_wxyz_t (Ok t)) (fun b => xyzw_to_wxyz (v4_at t b))
  /\ rowwise v4_at [4] B (wxyz_to_xyzw_t (Ok t)) (fun b => wxyz_to_xyzw (q_at t b))
  /\ rowwise m3_at [3; 3] B (quaternion_to_matrix_t (Ok t)) (fun b => quaternion_to_matrix (q_at t b))
  /\ rowwise q_at [4] B (standardize_quaternion_t (Ok t)) (fun b => standardize_quaternion (q_at t b))
  /\ rowwise q_at [4] B (quaternion_invert_t (Ok t)) (fun b => quaternion_invert (q_at t b))
  /\ rowwise f3_at [3] B (quaternion_to_axis_angle_t (Ok t)) (fun b => quaternion_to_axis_angle (q_at t b))
  /\ rowwise q_at [4] B (random_quaternions_t (Ok t)) (fun b => random_quaternion (q_at t b)).
Proof.
  intros t B E. exact (conj (row_xyzw t B E) (conj (row_wxyz t B E) (conj (row_q2m t B E) (conj (row_std t B E) (conj (row_inv t B E) (conj (row_q2aa t B E) (row_random t B E))))))).
Qed.

Lemma l89_matrix_rows : forall t B, shape t = 3 :: 3 :: B ->
  rowwise q_at [4] B (matrix_to_quaternion_t (Ok t)) (fun b => matrix_to_quaternion (m3_at t b))
  /\ rowwise f3_at [3] B (matrix_to_axis_angle_t (Ok t)) (fun b => matrix_to_axis_angle (m3_at t b))
  /\ rowwise six_at [6] B (matrix_to_rotation_6d_t (Ok t)) (fun b => matrix_to_rotation_6d (m3_at t b)).
Proof. intros t B E. exact (conj (row_m2q t B E) (conj (row_m2aa t B E) (row_to6d t B E))). Qed.

Lemma l89_vector_rows : forall t B, shape t = 3 :: B ->
  rowwise q_at [4] B (axis_angle_to_quaternion_t (Ok t)) (fun b => axis_angle_to_quaternion (v_at t b))
  /\ rowwise m3_at [3; 3] B (axis_angle_to_matrix_t (Ok t)) (fun b => axis_angle_to_matrix (v_at t b)).
Proof. intros t B E. exact (conj (row_aa2q t B E) (row_aa2m t B E)). Qed.

Lemma l89_six_rows : forall t B, shape t = 6 :: B ->
  rowwise m3_at [3; 3] B (rotation_6d_to_matrix_t (Ok t)) (fun b => rotation_6d_to_matrix (fst (six_at t b)) (snd (six_at t b))).
Proof. intros t B E. exact (row_6d t B E). Qed.

Lemma l89_pose_rows : forall t B, shape t = 4 :: 4 :: B ->
  rowwise nine_at [9] B (matrix44_to_se3_9d_t (Ok t)) (fun b => matrix44_to_se3_9d (m4_at t b))
  /\ rowwise v_at [3] B (fst (matrix_to_pos_rot_t (Ok t))) (fun b => fst (matrix_to_pos_rot (m4_at t b)))
  /\ rowwise v4_at [4] B (snd (matrix_to_pos_rot_t (Ok t))) (fun b => snd (matrix_to_pos_rot (m4_at t b))).
Proof. intros t B E. exact (conj (row_to9d t B E) (row_pos t B E)). Qed.

Lemma l89_nine_rows : forall t B, shape t = 9 :: B -> rowwise m4_at [4; 4] B (se3_9d_to_matrix44_t (Ok t)) (fun b => se3_9d_to_matrix44 (nine_at t b)).
Proof. intros t B E. exact (row_from9d t B E). Qed.

Lemma l89_euler_rows : forall t B s,
  (shape t = 3 :: B ->
    (exists x, euler_angles_to_matrix_t (Ok t) s = Err x /\ forall e, euler_angles_to_matrix e s = Err x)
    \/ rowwise ok_m3 [3; 3] B (euler_angles_to_matrix_t (Ok t) s) (fun b => euler_angles_to_matrix (v_at t b) s))
  /\ (shape t = 3 :: 3 :: B ->
    (exists x, matrix_to_euler_angles_t (Ok t) s = Err x /\ forall m, matrix_to_euler_angles m s = Err x)
    \/ rowwise ok_f3 [3] B (matrix_to_euler_angles_t (Ok t) s) (fun b => matrix_to_euler_angles (m3_at t b) s)).
Proof. intros t B s. exact (conj (e2m_all t B s) (m2e_all t B s)). Qed.

Lemma l89_pairs : forall t u A B C, together A B C ->
  (shape t = 4 :: A -> shape u = 4 :: B ->
    rowwise2 q_at [4] A B C (quaternion_raw_multiply_t (Ok t) (Ok u)) (fun a b => quaternion_raw_multiply (q_at t a) (q_at u b))
    /\ rowwise2 q_at [4] A B C (quaternion_multiply_t (Ok t) (Ok u)) (fun a b => quaternion_multiply (q_at t a) (q_at u b)))
  /\ (shape t = 4 :: A -> shape u = 3 :: B -> rowwise2 v_at [3] A B C (quaternion_apply_t (Ok t) (Ok u)) (fun a b => quaternion_apply (q_at t a) (v_at u b)))
  /\ (shape t = 3 :: A -> shape u = B -> rowwise2 m3_at [3; 3] A B C (axis_and_angle_to_matrix_33_t (Ok t) (Ok u)) (fun a b => axis_and_angle_to_matrix_33 (v_at t a) (at_ u b))).
Proof.
  intros t u A B C T. split; [intros E1 E2; exact (conj (row_raw t u A B C E1 E2 T) (row_mult t u A B C E1 E2 T))|]. split; [intros E1 E2; exact (row_apply t u A B C E1 E2 T) | intros E1 E2; exact (row_33 t u A B C E1 E2 T)].
Qed.

Lemma l89_reads : forall A B C b, together A B C -> valid C b ->
  exists a1 a2, reads A b a1 /\ valid A a1 /\ reads B b a2 /\ valid B a2 /\ (forall a, reads A b a -> a = a1) /\ (forall a, reads B b a -> a = a2).
Proof.
  intros A B C b T V. exists (bidx A b), (bidx B b). split; [exact (reads_bidx _ _ _ _ T V)|]. split; [exact (bidx_valid _ _ _ _ T V)|]. split; [exact (reads_bidx _ _ _ _ (tog_sym _ _ _ T) V)|]. split; [exact (bidx_valid _ _ _ _ (tog_sym _ _ _ T) V)|].
  split; intros a; apply reads_fun.
Qed.

Lemma l89_first_leads : forall t u A B, shape t = 3 :: A -> together A B A ->
  (shape u = B -> rowwise2 m4_at [4; 4] A B A (axis_and_d_to_pris_matrix_t (Ok t) (Ok u)) (fun a b => axis_and_d_to_pris_matrix (v_at t a) (at_ u b))
    /\ rowwise2 m4_at [4; 4] A B A (axis_and_angle_to_matrix_44_t (Ok t) (Ok u)) (fun a b => axis_and_angle_to_matrix_44 (v_at t a) (at_ u b)))
  /\ (shape u = 4 :: B -> rowwise2 m4_at [4; 4] A B A (pos_rot_to_matrix_t (Ok t) (Ok u)) (fun a b => pos_rot_to_matrix (v_at t a) (v4_at u b))).
Proof. intros t u A B E T. split; [intros E2; exact (conj (row_pris t u A B E E2 T) (row_44 t u A B E E2 T)) | intros E2; exact (row_pr2m t u A B E E2 T)]. Qed.

Lemma l89_one_axis_many_angles_refuted : forall t u A N, shape t = 3 :: A -> N <> 1 ->
  (shape u = A ++ [N] -> axis_and_angle_to_matrix_44_t (Ok t) (Ok u) = Err RuntimeError /\ axis_and_d_to_pris_matrix_t (Ok t) (Ok u) = Err RuntimeError
    /\ rowwise2 m3_at [3; 3] A (A ++ [N]) (A ++ [N]) (axis_and_angle_to_matrix_33_t (Ok t) (Ok u)) (fun a b => axis_and_angle_to_matrix_33 (v_at t a) (at_ u b)))
  /\ (shape u = 4 :: A ++ [N] -> pos_rot_to_matrix_t (Ok t) (Ok u) = Err RuntimeError).
Proof.
  intros t u A N E H. split; [intros E2; exact (conj (bad_44 t u A N E E2 H) (conj (bad_pris t u A N E E2 H) (row_33 t u A _ _ E E2 (tog_longer A N)))) | intros E2; exact (bad_pr2m t u A N E E2 H)].
Qed.

Lemma l89_wrong_sizes : forall t,
  (forall n B, shape t = n :: B -> n <> 4 -> quaternion_to_matrix_t (Ok t) = Err ValueError /\ forall u, fails (quaternion_raw_multiply_t (Ok t) u))
  /\ (forall c r B, shape t = c :: r :: B -> c <> 3 \/ r <> 3 -> matrix_to_quaternion_t (Ok t) = Err ValueError /\ forall s, matrix_to_euler_angles_t (Ok t) s = Err ValueError)
  /\ (forall n B s, shape t = n :: B -> n <> 3 -> euler_angles_to_matrix_t (Ok t) s = Err ValueError)
  /\ (forall u A B, (forall C, ~ together A B C) ->
       (shape t = 4 :: A -> shape u = 4 :: B -> fails (quaternion_raw_multiply_t (Ok t) (Ok u))) /\ (shape t = 3 :: A -> shape u = B -> fails (axis_and_angle_to_matrix_33_t (Ok t) (Ok u)))).
Proof.
  intros t. split; [intros n B E N; split; [exact (bad_q2m t n B E N) | intros u; exact (bad_raw_l t u n B E N)]|]. split; [intros c r B E N; split; [exact (bad_m2q t c r B E N) | intros s; exact (bad_m2e t c r B s E N)]|].
  split; [intros n B s E N; exact (bad_e2m t n B s E N)|]. intros u A B N. split; [intros E1 E2; exact (bad_raw t u A B E1 E2 N) | intros E1 E2; exact (bad_33 t u A B E1 E2 N)].
Qed.

Lemma l89_six_of_four_refuted : forall t B, shape t = 4 :: B ->
  rowwise m3_at [3; 3] B (rotation_6d_to_matrix_t (Ok t)) (fun b => rotation_6d_to_matrix (first3 t b) (last3 t b)).
Proof. intros t B E. exact (row_4d t B E). Qed.
