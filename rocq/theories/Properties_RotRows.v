(** The rotation conversions work row by row on tensors of any leading shape; two arguments are broadcast together. *)
From Coq Require Import Reals Lra Bool Arith Lia List String Ascii.
From Verif Require Import Prelude ExtF Lin Trig RotModel TorchModel RotTorchModel SpecTorch TorchProofs RotTorch.
From Verif Require Import RotRowsFinal.
Import ListNotations.
Local Open Scope nat_scope.


(** one argument *)
Theorem C89_quaternion_rows : forall t B, shape t = 4 :: B ->
  rowwise q_at [4] B (xyzw_to_wxyz_t (Ok t)) (fun b => xyzw_to_wxyz (v4_at t b))
  /\ rowwise v4_at [4] B (wxyz_to_xyzw_t (Ok t)) (fun b => wxyz_to_xyzw (q_at t b))
  /\ rowwise m3_at [3; 3] B (quaternion_to_matrix_t (Ok t)) (fun b => quaternion_to_matrix (q_at t b))
  /\ rowwise q_at [4] B (standardize_quaternion_t (Ok t)) (fun b => standardize_quaternion (q_at t b))
  /\ rowwise q_at [4] B (quaternion_invert_t (Ok t)) (fun b => quaternion_invert (q_at t b))
  /\ rowwise f3_at [3] B (quaternion_to_axis_angle_t (Ok t)) (fun b => quaternion_to_axis_angle (q_at t b))
  /\ rowwise q_at [4] B (random_quaternions_t (Ok t)) (fun b => random_quaternion (q_at t b)).
Proof. exact l89_quaternion_rows. Qed.
Print Assumptions C89_quaternion_rows.
Example C89_quaternion_rows_ex : exists m, quaternion_to_matrix_t (Ok two_turns) = Ok m /\ shape m = [3; 3; 2] /\ m3_at m [0] = quaternion_to_matrix (mkQ 1 0 0 0) /\ m3_at m [1] = quaternion_to_matrix (mkQ 0 1 0 0).
Proof.
  destruct (C89_quaternion_rows two_turns [2] eq_refl) as (_ & _ & (m & E & S0 & H) & _). exists m. split; [exact E|]. split; [exact S0|]. split; rewrite H by (repeat constructor); reflexivity.
Qed.
Theorem C89_matrix_rows : forall t B, shape t = 3 :: 3 :: B ->
  rowwise q_at [4] B (matrix_to_quaternion_t (Ok t)) (fun b => matrix_to_quaternion (m3_at t b))
  /\ rowwise f3_at [3] B (matrix_to_axis_angle_t (Ok t)) (fun b => matrix_to_axis_angle (m3_at t b))
  /\ rowwise six_at [6] B (matrix_to_rotation_6d_t (Ok t)) (fun b => matrix_to_rotation_6d (m3_at t b)).
Proof. exact l89_matrix_rows. Qed.
Print Assumptions C89_matrix_rows.
Example C89_matrix_rows_ex : exists q, matrix_to_quaternion_t (Ok (mkT [3; 3; 2; 5] (fun i => match i with c :: r :: _ => if c =? r then 1%R else 0%R | _ => 0%R end))) = Ok q /\ shape q = [4; 2; 5] /\ q_at q [1; 4] = matrix_to_quaternion I3.
Proof.
  destruct (C89_matrix_rows (mkT [3; 3; 2; 5] (fun i => match i with c :: r :: _ => if c =? r then 1%R else 0%R | _ => 0%R end)) [2; 5] eq_refl) as ((q & E & S0 & H) & _). exists q. split; [exact E|]. split; [exact S0|].
  rewrite H by (repeat constructor). reflexivity.
Qed.
Theorem C89_vector_rows : forall t B, shape t = 3 :: B ->
  rowwise q_at [4] B (axis_angle_to_quaternion_t (Ok t)) (fun b => axis_angle_to_quaternion (v_at t b))
  /\ rowwise m3_at [3; 3] B (axis_angle_to_matrix_t (Ok t)) (fun b => axis_angle_to_matrix (v_at t b)).
Proof. exact l89_vector_rows. Qed.
Print Assumptions C89_vector_rows.
Example C89_vector_rows_ex : exists m, axis_angle_to_matrix_t (Ok one_axis) = Ok m /\ shape m = [3; 3] /\ m3_at m [] = axis_angle_to_matrix (mkV3 1 0 0).
Proof. destruct (C89_vector_rows one_axis [] eq_refl) as (_ & m & E & S0 & H). exists m. split; [exact E|]. split; [exact S0|]. rewrite H by constructor. reflexivity. Qed.
Theorem C89_six_rows : forall t B, shape t = 6 :: B ->
  rowwise m3_at [3; 3] B (rotation_6d_to_matrix_t (Ok t)) (fun b => rotation_6d_to_matrix (fst (six_at t b)) (snd (six_at t b))).
Proof. exact l89_six_rows. Qed.
Print Assumptions C89_six_rows.
Example C89_six_rows_ex : exists m, rotation_6d_to_matrix_t (Ok (mkT [6; 1; 7] (fun i => INR (hd 0 i)))) = Ok m /\ shape m = [3; 3; 1; 7]
  /\ m3_at m [0; 6] = rotation_6d_to_matrix (mkV3 (INR 0) (INR 1) (INR 2)) (mkV3 (INR 3) (INR 4) (INR 5)).
Proof. destruct (C89_six_rows (mkT [6; 1; 7] (fun i => INR (hd 0 i))) [1; 7] eq_refl) as (m & E & S0 & H). exists m. split; [exact E|]. split; [exact S0|]. rewrite H by (repeat constructor). reflexivity. Qed.
Theorem C89_pose_rows : forall t B, shape t = 4 :: 4 :: B ->
  rowwise nine_at [9] B (matrix44_to_se3_9d_t (Ok t)) (fun b => matrix44_to_se3_9d (m4_at t b))
  /\ rowwise v_at [3] B (fst (matrix_to_pos_rot_t (Ok t))) (fun b => fst (matrix_to_pos_rot (m4_at t b)))
  /\ rowwise v4_at [4] B (snd (matrix_to_pos_rot_t (Ok t))) (fun b => snd (matrix_to_pos_rot (m4_at t b))).
Proof. exact l89_pose_rows. Qed.
Print Assumptions C89_pose_rows.
Example C89_pose_rows_ex : exists x, matrix44_to_se3_9d_t (Ok (mkT [4; 4; 3] (fun i => INR (hd 0 (tl (tl i)))))) = Ok x /\ shape x = [9; 3] /\ nine_at x [2] = let v := mkV3 (INR 2) (INR 2) (INR 2) in (v, v, v).
Proof. destruct (C89_pose_rows (mkT [4; 4; 3] (fun i => INR (hd 0 (tl (tl i))))) [3] eq_refl) as ((x & E & S0 & H) & _). exists x. split; [exact E|]. split; [exact S0|]. rewrite H by (repeat constructor). reflexivity. Qed.
Theorem C89_nine_rows : forall t B, shape t = 9 :: B -> rowwise m4_at [4; 4] B (se3_9d_to_matrix44_t (Ok t)) (fun b => se3_9d_to_matrix44 (nine_at t b)).
Proof. exact l89_nine_rows. Qed.
Print Assumptions C89_nine_rows.
Example C89_nine_rows_ex : exists m, se3_9d_to_matrix44_t (Ok (mkT [9] (fun i => INR (hd 0 i)))) = Ok m /\ shape m = [4; 4] /\ a03 (m4_at m []) = INR 6 /\ a33 (m4_at m []) = 1%R.
Proof. destruct (C89_nine_rows (mkT [9] (fun i => INR (hd 0 i))) [] eq_refl) as (m & E & S0 & H). exists m. split; [exact E|]. split; [exact S0|]. rewrite !H by constructor. split; reflexivity. Qed.
(** angles and matrices, for every convention string: either the string is refused for every row, or each row is converted *)
Theorem C89_euler_rows : forall t B s,
  (shape t = 3 :: B ->
    (exists x, euler_angles_to_matrix_t (Ok t) s = Err x /\ forall e, euler_angles_to_matrix e s = Err x)
    \/ rowwise ok_m3 [3; 3] B (euler_angles_to_matrix_t (Ok t) s) (fun b => euler_angles_to_matrix (v_at t b) s))
  /\ (shape t = 3 :: 3 :: B ->
    (exists x, matrix_to_euler_angles_t (Ok t) s = Err x /\ forall m, matrix_to_euler_angles m s = Err x)
    \/ rowwise ok_f3 [3] B (matrix_to_euler_angles_t (Ok t) s) (fun b => matrix_to_euler_angles (m3_at t b) s)).
Proof. exact l89_euler_rows. Qed.
Print Assumptions C89_euler_rows.
Example C89_euler_rows_ex : exists m, euler_angles_to_matrix_t (Ok two_axes) "XYZ" = Ok m /\ shape m = [3; 3; 2] /\ euler_angles_to_matrix (mkV3 0 1 0) "XYZ" = Ok (m3_at m [1]).
Proof.
  destruct (proj1 (C89_euler_rows two_axes [2] "XYZ") eq_refl) as [(x & E & H)|(m & E & S0 & H)]; [specialize (H (mkV3 0 0 0)); cbv -[cos sin Rmult Rplus Ropp IZR] in H; discriminate H|].
  exists m. split; [exact E|]. split; [exact S0|]. symmetry. exact (H [1] (Forall2_cons _ _ (le_n 2) (Forall2_nil _))).
Qed.

(** two arguments: each row of the broadcast result is made of the rows that broadcasting reads *)
Theorem C89_pairs : forall t u A B C, together A B C ->
  (shape t = 4 :: A -> shape u = 4 :: B ->
    rowwise2 q_at [4] A B C (quaternion_raw_multiply_t (Ok t) (Ok u)) (fun a b => quaternion_raw_multiply (q_at t a) (q_at u b))
    /\ rowwise2 q_at [4] A B C (quaternion_multiply_t (Ok t) (Ok u)) (fun a b => quaternion_multiply (q_at t a) (q_at u b)))
  /\ (shape t = 4 :: A -> shape u = 3 :: B -> rowwise2 v_at [3] A B C (quaternion_apply_t (Ok t) (Ok u)) (fun a b => quaternion_apply (q_at t a) (v_at u b)))
  /\ (shape t = 3 :: A -> shape u = B -> rowwise2 m3_at [3; 3] A B C (axis_and_angle_to_matrix_33_t (Ok t) (Ok u)) (fun a b => axis_and_angle_to_matrix_33 (v_at t a) (at_ u b))).
Proof. exact l89_pairs. Qed.
Print Assumptions C89_pairs.
(** axes of shape (2, 3) with angles of shape (2, 1) give four matrices, not two *)
Example C89_pairs_ex : exists m, axis_and_angle_to_matrix_33_t (Ok two_axes) (Ok two_angles_column) = Ok m /\ shape m = [3; 3; 2; 2] /\ m3_at m [0; 1] = axis_and_angle_to_matrix_33 (mkV3 1 0 0) PI.
Proof.
  destruct (proj2 (proj2 (C89_pairs two_axes two_angles_column [2] [1; 2] [2; 2] (tg_one_r 2 [] [2] [2] (tg_right [2])))) eq_refl eq_refl) as (m & E & S0 & H). exists m. split; [exact E|]. split; [exact S0|].
  rewrite (H [0; 1] [0] [0; 1]); [reflexivity | repeat constructor | apply rd_same; [lia | apply rd_missing] | apply rd_one, rd_same; [lia | apply rd_missing]].
Qed.
(** the rows that broadcasting reads exist, and there is one of each *)
Theorem C89_reads : forall A B C b, together A B C -> valid C b ->
  exists a1 a2, reads A b a1 /\ valid A a1 /\ reads B b a2 /\ valid B a2 /\ (forall a, reads A b a -> a = a1) /\ (forall a, reads B b a -> a = a2).
Proof. exact l89_reads. Qed.
Print Assumptions C89_reads.
Example C89_reads_ex : together [1; 2] [4] [4; 2] /\ valid [4; 2] [3; 1] /\ reads [1; 2] [3; 1] [0; 1] /\ reads [4] [3; 1] [3].
Proof. split; [apply tg_one_l, tg_left|]. split; [repeat constructor|]. split; [apply rd_one, rd_same; [lia | constructor] | apply rd_same; [lia | constructor]]. Qed.
(** these three take the leading shape of their first argument, so the second one has to fit into it *)
Theorem C89_first_leads : forall t u A B, shape t = 3 :: A -> together A B A ->
  (shape u = B -> rowwise2 m4_at [4; 4] A B A (axis_and_d_to_pris_matrix_t (Ok t) (Ok u)) (fun a b => axis_and_d_to_pris_matrix (v_at t a) (at_ u b))
    /\ rowwise2 m4_at [4; 4] A B A (axis_and_angle_to_matrix_44_t (Ok t) (Ok u)) (fun a b => axis_and_angle_to_matrix_44 (v_at t a) (at_ u b)))
  /\ (shape u = 4 :: B -> rowwise2 m4_at [4; 4] A B A (pos_rot_to_matrix_t (Ok t) (Ok u)) (fun a b => pos_rot_to_matrix (v_at t a) (v4_at u b))).
Proof. exact l89_first_leads. Qed.
Print Assumptions C89_first_leads.
Example C89_first_leads_ex : exists m, axis_and_angle_to_matrix_44_t (Ok two_axes) (Ok two_angles) = Ok m /\ shape m = [4; 4; 2] /\ m4_at m [1] = axis_and_angle_to_matrix_44 (mkV3 0 1 0) PI.
Proof.
  destruct (proj2 (proj1 (C89_first_leads two_axes two_angles [2] [2] eq_refl (tg_same 2 [] [] [] (tg_left []))) eq_refl)) as (m & E & S0 & H). exists m. split; [exact E|]. split; [exact S0|].
  rewrite (H [1] [1] [1]); [reflexivity | repeat constructor | apply rd_same; [lia | constructor] | apply rd_same; [lia | constructor]].
Qed.
(** one axis (or place) with N angles (or rotations), N <> 1, is refused by these three, although [axis_and_angle_to_matrix_33] takes it *)
Theorem C89_one_axis_many_angles_refuted : forall t u A N, shape t = 3 :: A -> N <> 1 ->
  (shape u = A ++ [N] -> axis_and_angle_to_matrix_44_t (Ok t) (Ok u) = Err RuntimeError /\ axis_and_d_to_pris_matrix_t (Ok t) (Ok u) = Err RuntimeError
    /\ rowwise2 m3_at [3; 3] A (A ++ [N]) (A ++ [N]) (axis_and_angle_to_matrix_33_t (Ok t) (Ok u)) (fun a b => axis_and_angle_to_matrix_33 (v_at t a) (at_ u b)))
  /\ (shape u = 4 :: A ++ [N] -> pos_rot_to_matrix_t (Ok t) (Ok u) = Err RuntimeError).
Proof. exact l89_one_axis_many_angles_refuted. Qed.
Print Assumptions C89_one_axis_many_angles_refuted.
Example C89_one_axis_many_angles_ex : axis_and_angle_to_matrix_44_t (Ok one_axis) (Ok two_angles) = Err RuntimeError /\ pos_rot_to_matrix_t (Ok one_place) (Ok two_turns) = Err RuntimeError
  /\ exists m, axis_and_angle_to_matrix_33_t (Ok one_axis) (Ok two_angles) = Ok m /\ shape m = [3; 3; 2].
Proof.
  destruct (proj1 (C89_one_axis_many_angles_refuted one_axis two_angles [] 2 eq_refl ltac:(lia)) eq_refl) as (E & _ & m & Em & Sm & _). split; [exact E|].
  split; [exact (proj2 (C89_one_axis_many_angles_refuted one_place two_turns [] 2 eq_refl ltac:(lia)) eq_refl) | exists m; split; [exact Em | exact Sm]].
Qed.
(** wrong sizes *)
Theorem C89_wrong_sizes : forall t,
  (forall n B, shape t = n :: B -> n <> 4 -> quaternion_to_matrix_t (Ok t) = Err ValueError /\ forall u, fails (quaternion_raw_multiply_t (Ok t) u))
  /\ (forall c r B, shape t = c :: r :: B -> c <> 3 \/ r <> 3 -> matrix_to_quaternion_t (Ok t) = Err ValueError /\ forall s, matrix_to_euler_angles_t (Ok t) s = Err ValueError)
  /\ (forall n B s, shape t = n :: B -> n <> 3 -> euler_angles_to_matrix_t (Ok t) s = Err ValueError)
  /\ (forall u A B, (forall C, ~ together A B C) ->
       (shape t = 4 :: A -> shape u = 4 :: B -> fails (quaternion_raw_multiply_t (Ok t) (Ok u))) /\ (shape t = 3 :: A -> shape u = B -> fails (axis_and_angle_to_matrix_33_t (Ok t) (Ok u)))).
Proof. exact l89_wrong_sizes. Qed.
Print Assumptions C89_wrong_sizes.
Example C89_wrong_sizes_ex : quaternion_to_matrix_t (Ok two_axes) = Err ValueError /\ (forall C, ~ together [2] [3] C).
Proof. split; [exact (proj1 (proj1 (C89_wrong_sizes two_axes) 3 [2] eq_refl ltac:(lia)))|]. intros C H. inversion H. Qed.
(** but four numbers are taken by the 6D conversion, and made into a matrix *)
Theorem C89_six_of_four_refuted : forall t B, shape t = 4 :: B ->
  rowwise m3_at [3; 3] B (rotation_6d_to_matrix_t (Ok t)) (fun b => rotation_6d_to_matrix (first3 t b) (last3 t b)).
Proof. exact l89_six_of_four_refuted. Qed.
Print Assumptions C89_six_of_four_refuted.
Example C89_six_of_four_ex : exists m, rotation_6d_to_matrix_t (Ok two_turns) = Ok m /\ shape m = [3; 3; 2] /\ m3_at m [1] = rotation_6d_to_matrix (mkV3 0 1 0) (mkV3 0 0 0).
Proof. destruct (C89_six_of_four_refuted two_turns [2] eq_refl) as (m & E & S0 & H). exists m. split; [exact E|]. split; [exact S0|]. rewrite H by (repeat constructor). reflexivity. Qed.
