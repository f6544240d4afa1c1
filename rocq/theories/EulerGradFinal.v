(** Last steps of the proofs quoted in Properties_EulerGrad.v. *)
From Coq Require Import Reals Lra Bool Arith Lia List String Ascii.
From Coquelicot Require Import Coquelicot.
From Verif Require Import Prelude ExtF Trig Lin RotModel RotBasic QuatProofs EulerProofs MathModel GradModel GradSixModel GradEulerModel SpecGrad SpecEulerGrad GradProofs GradDeriv GradTapes GradNan GradFinal GradSix GradEuler.
Import ListNotations.
Local Open Scope R_scope.

Lemma six_wf : wf_prog tape_rotation_6d_to_matrix = true. Proof. vm_compute. reflexivity. Qed.
Lemma right_six old a b c d e f : eps12 < vnorm (mkV3 a b c) -> eps12 < vnorm (perp (mkV3 a b c) (mkV3 d e f)) ->
  differentiates old tape_rotation_6d_to_matrix six_list [a; b; c; d; e; f].
Proof.
  intros H1 H2. destruct (six_tape a b c d e f) as (E & T & Sm). apply (right_tape old _ _ _ (fun _ => true)); [exact six_wf | reflexivity | exact E | | exact T | exact (Sm H1 H2) | apply forallb_forall; reflexivity].
  intros h Lh. cbn [List.length] in Lh. dlist h Lh. apply always. intros t. cbn [moved]. exact (proj1 (six_tape _ _ _ _ _ _)).
Qed.
Lemma sq2_zero x y : x * x + y * y = 0 -> x = 0 /\ y = 0.
Proof. intros H. pose proof (Rle_0_sqr x); pose proof (Rle_0_sqr y). unfold Rsqr in *. split; apply Rsqr_0_uniq; unfold Rsqr; lra. Qed.
Lemma cross_zero a c A k : is_rot A -> m3get A (index_from_letter a) (index_from_letter c) * m3get A (index_from_letter a) (index_from_letter c) = 1 ->
  (k < 9)%nat -> in_cross (index_from_letter a) (index_from_letter c) k = true -> nth k (m3_list A) 0 = 0.
Proof.
  intros HA U Hk. destruct (EulerProofs.rot_rows A HA) as [Hr Hc]. specialize (Hr (index_from_letter a)). specialize (Hc (index_from_letter c)). revert U Hr Hc. unfold m3get.
  assert (I : forall l, index_from_letter l = 0%nat \/ index_from_letter l = 1%nat \/ index_from_letter l = 2%nat) by (intros l; unfold index_from_letter; repeat destruct (Ascii.eqb _ _); tauto).
  destruct A as [r0 r1 r2 r3 r4 r5 r6 r7 r8].
  destruct (I a) as [->|[->| ->]], (I c) as [->|[->| ->]]; unfold m3col, m3row, m3tr, vnorm2, vdot, m3_list; cbn [v3get vx vy vz m00 m01 m02 m10 m11 m12 m20 m21 m22]; intros U Hr Hc;
    (match type of Hr with ?p * ?p + ?q * ?q + ?r * ?r = 1 => first [assert (K : q * q + r * r = 0) by lra | assert (K : p * p + r * r = 0) by lra | assert (K : p * p + q * q = 0) by lra] end; apply sq2_zero in K as [-> ->]);
    (match type of Hc with ?p * ?p + ?q * ?q + ?r * ?r = 1 => first [assert (K : q * q + r * r = 0) by lra | assert (K : p * p + r * r = 0) by lra | assert (K : p * p + q * q = 0) by lra] end; apply sq2_zero in K as [-> ->]);
    destruct k as [|[|[|[|[|[|[|[|[|k]]]]]]]]]; try (exfalso; lia); cbv -[IZR]; first [discriminate | reflexivity].
Qed.
Lemma lock_value a b c A : In (conv3 a b c) conventions -> m3get A (index_from_letter a) (index_from_letter c) * m3get A (index_from_letter a) (index_from_letter c) = 1 ->
  exists e, matrix_to_euler_angles A (conv3 a b c) = Ok (fin3 e).
Proof.
  intros H U. assert (U' : m3get A (index_from_letter a) (index_from_letter c) * m3get A (index_from_letter a) (index_from_letter c) <= 1) by lra. apply sq_unit in U'. clear U.
  destruct (proj2 (check_ok _) H) as [abc E]. unfold matrix_to_euler_angles. rewrite E. cbn [rbind].
  assert (Eabc : abc = (a, b, c)) by (revert E; unfold conv3, check_convention; repeat match goal with |- context [if ?t then _ else _] => destruct t end; congruence). subst abc.
  destruct (Nat.eqb (index_from_letter a) (index_from_letter c)) eqn:Ei; cbn [negb].
  - apply Nat.eqb_eq in Ei. rewrite <- Ei in U'. rewrite tacos_in by exact U'. eexists (mkV3 _ _ _). reflexivity.
  - rewrite tasin_in by (destruct (Nat.eqb _ _ || Nat.eqb _ _); lra). eexists (mkV3 _ _ _). reflexivity.
Qed.
Lemma lock_grad old a b c A u v w : In (conv3 a b c) conventions -> is_rot A -> m3get A (index_from_letter a) (index_from_letter c) * m3get A (index_from_letter a) (index_from_letter c) = 1 ->
  let g := gradient old (tape_matrix_to_euler_angles a b c) (map Fin (m3_list A)) (map Fin [u; v; w]) in
  (forall k, (k < 9)%nat -> in_cross (index_from_letter a) (index_from_letter c) k = true -> nth k g (Fin 0) = NaN) /\
  unbounded (nth (3 * index_from_letter a + index_from_letter c) g (Fin 0)).
Proof.
  intros H HA U. pose proof (fun k Hk Ck => cross_zero a c A k HA U Hk Ck) as Z. destruct A as [r0 r1 r2 r3 r4 r5 r6 r7 r8].
  apply (m2e_nan a b c H old r0 r1 r2 r3 r4 r5 r6 r7 r8 u v w); [exact Z|].
  rewrite <- U. revert a b c H U Z. each_convention; intros _ _; reflexivity.
Qed.

Lemma l88_six_right : forall old a1 a2, eps12 < vnorm a1 -> eps12 < vnorm (perp a1 a2) ->
  differentiates old tape_rotation_6d_to_matrix six_list (v_list a1 ++ v_list a2).
Proof. intros old [a b c] [d e f] H1 H2. exact (right_six old a b c d e f H1 H2). Qed.

Lemma l88_six_finite : forall old a1 a2 cot, exists g,
  gradient old tape_rotation_6d_to_matrix (map Fin (v_list a1 ++ v_list a2)) (map Fin cot) = map Fin g /\ List.length g = 6%nat.
Proof.
  intros old [a b c] [d e f] cot. destruct (six_tape a b c d e f) as (_ & T & _). exists (rgradient tape_rotation_6d_to_matrix [a; b; c; d; e; f] cot).
  pose proof (gradient_fin old tape_rotation_6d_to_matrix [a; b; c; d; e; f] cot six_wf eq_refl T) as G. split; [exact G|].
  rewrite <- (map_length Fin), <- G. unfold gradient. rewrite firstn_length, fback_len, acc_len, map_length.
  assert (L : (6 <= List.length (frun (p_ops tape_rotation_6d_to_matrix) (map Fin [a; b; c; d; e; f])))%nat); [|change (p_in tape_rotation_6d_to_matrix) with 6%nat; lia].
  rewrite (frun_fin (p_ops tape_rotation_6d_to_matrix) [a; b; c; d; e; f] (proj1 (andb_prop _ _ six_wf)) T), map_length, rrun_len. cbn [List.length]. lia.
Qed.

Lemma l88_angles_to_matrix : forall old a b c e, In (String a (String b (String c EmptyString))) conventions ->
  differentiates old (tape_euler_angles_to_matrix a b c) (e2m_list (String a (String b (String c EmptyString)))) (v_list e).
Proof. intros old a b c [x y z] H. exact (right_e2m old a b c x y z H). Qed.

Lemma l88_matrix_to_angles : forall old a b c A e, let s := String a (String b (String c EmptyString)) in In s conventions -> is_rot A ->
  matrix_to_euler_angles A s = Ok (fin3 e) -> vx e <> PI -> vz e <> PI -> gimbal_entry s A * gimbal_entry s A <> 1 ->
  differentiates old (tape_matrix_to_euler_angles a b c) (m2e_list s) (m3_list A).
Proof. intros old a b c A [x y z] s H HA Hm Nx Nz Hg. exact (right_m2e old a b c A x y z H HA Hg Hm Nx Nz). Qed.

Lemma l88_lock_refuted : forall old a b c A u v w, let s := String a (String b (String c EmptyString)) in In s conventions -> is_rot A ->
  gimbal_entry s A * gimbal_entry s A = 1 ->
  let i := index_from_letter a in let j := index_from_letter c in
  let g := gradient old (tape_matrix_to_euler_angles a b c) (map Fin (m3_list A)) (map Fin [u; v; w]) in
  (exists e, matrix_to_euler_angles A s = Ok (fin3 e)) /\
  (forall k, (k < 9)%nat -> in_cross i j k = true -> nth k g (Fin 0) = NaN) /\ unbounded (nth (3 * i + j) g (Fin 0)).
Proof. intros old a b c A u v w s H HA U. split; [exact (lock_value a b c A H U) | exact (lock_grad old a b c A u v w H HA U)]. Qed.

Lemma l88_identity_refuted : forall old a b u v w, In (String a (String b (String a EmptyString))) proper_euler ->
  exists k, (k < 9)%nat /\ nth k (gradient old (tape_matrix_to_euler_angles a b a) (map Fin (m3_list I3)) (map Fin [u; v; w])) (Fin 0) = NaN.
Proof.
  intros old a b u v w H. assert (C : In (conv3 a b a) conventions) by (unfold conventions; apply in_or_app; right; exact H).
  assert (I : index_from_letter a = 0%nat \/ index_from_letter a = 1%nat \/ index_from_letter a = 2%nat) by (unfold index_from_letter; repeat destruct (Ascii.eqb _ _); tauto).
  assert (U : m3get I3 (index_from_letter a) (index_from_letter a) * m3get I3 (index_from_letter a) (index_from_letter a) = 1) by (destruct I as [->|[->| ->]]; cbn; ring).
  pose proof (proj1 (lock_grad old a b a I3 u v w C is_rot_I U)) as G. destruct I as [E|[E|E]]; rewrite E in G.
  - exists 1%nat. split; [lia | apply G; [lia | reflexivity]].
  - exists 3%nat. split; [lia | apply G; [lia | reflexivity]].
  - exists 6%nat. split; [lia | apply G; [lia | reflexivity]].
Qed.
