(** The tapes of the Euler angle conversions. *)
From Coq Require Import Reals Lra Bool Arith Lia List String Ascii.
From Coquelicot Require Import Coquelicot.
From Verif Require Import Prelude ExtF Trig Lin RotModel RotBasic QuatProofs EulerProofs MathModel GradModel GradEulerModel SpecGrad SpecEulerGrad GradProofs GradDeriv GradTapes GradNan GradFinal.
Import ListNotations.
Local Open Scope char_scope.
Local Open Scope R_scope.

Definition conv3 (a b c : ascii) : string := String a (String b (String c EmptyString)).
Lemma by_convention (P : ascii -> ascii -> ascii -> Prop) :
  P "X" "Y" "Z" -> P "X" "Z" "Y" -> P "Y" "X" "Z" -> P "Y" "Z" "X" -> P "Z" "X" "Y" -> P "Z" "Y" "X" ->
  P "X" "Y" "X" -> P "X" "Z" "X" -> P "Y" "X" "Y" -> P "Y" "Z" "Y" -> P "Z" "X" "Z" -> P "Z" "Y" "Z" ->
  forall a b c, In (conv3 a b c) conventions -> P a b c.
Proof.
  intros. assert (I : In (conv3 a b c) ["XYZ"; "XZY"; "YXZ"; "YZX"; "ZXY"; "ZYX"; "XYX"; "XZX"; "YXY"; "YZY"; "ZXZ"; "ZYZ"]%string) by assumption.
  unfold conv3 in I. cbn [In] in I. repeat destruct I as [I|I]; try contradiction; injection I; intros; subst; assumption.
Qed.

Ltac each_convention := match goal with |- forall a b c, In (conv3 a b c) conventions -> @?P a b c => apply (by_convention P); cbv beta end.

(** ** Angles to matrix: only sums, products, sines and cosines *)
Definition entire (o : op) : bool :=
  match o with OConst _ | OAdd _ _ | OSub _ _ | OMul _ _ | ONeg _ | OSin _ | OCos _ => true | _ => false end.
Lemma entire_run ops env : forallb entire ops = true -> along tame ops env /\ smooth (fun _ => true) ops env.
Proof.
  revert env. induction ops as [|o r IH]; intros env H; cbn [forallb along smooth] in *; [split; exact I|]. apply andb_true_iff in H as [H1 H2]. destruct (IH (env ++ [rval env o]) H2) as [I1 I2].
  split; (split; [|assumption]).
  - destruct o; try discriminate H1; exact I.
  - intros _. split; [destruct o; try discriminate H1; exact I|]. apply forallb_forall. reflexivity.
Qed.
Lemma e2m_value : forall a b c, In (conv3 a b c) conventions -> forall x y z : R, routputs (tape_euler_angles_to_matrix a b c) [x; y; z] = e2m_list (conv3 a b c) [x; y; z].
Proof.
  each_convention; intros x y z; cbv -[Rplus Rmult Ropp Rminus IZR sin cos]; reflexivity.
Qed.
Lemma e2m_entire : forall a b c, In (conv3 a b c) conventions -> forallb entire (p_ops (tape_euler_angles_to_matrix a b c)) = true /\ wf_prog (tape_euler_angles_to_matrix a b c) = true.
Proof. each_convention; split; vm_compute; reflexivity. Qed.
Lemma right_e2m old a b c x y z : In (conv3 a b c) conventions -> differentiates old (tape_euler_angles_to_matrix a b c) (e2m_list (conv3 a b c)) [x; y; z].
Proof.
  intros H. destruct (e2m_entire a b c H) as [En W]. destruct (entire_run _ [x; y; z] En) as [T Sm].
  apply (right_tape old _ _ _ (fun _ => true)); [exact W | reflexivity | apply e2m_value, H | | exact T | exact Sm | apply forallb_forall; reflexivity].
  intros d Ld. cbn [List.length] in Ld. dlist d Ld. apply always. intros t. cbn [moved]. apply e2m_value, H.
Qed.

(** ** Matrix to angles *)
Lemma off_cut p q : 0 < p * p + q * q -> atan2 p q <> PI -> p <> 0 \/ 0 < q.
Proof.
  intros N C. destruct (Req_dec p 0) as [->|]; [right | left; assumption]. destruct (Rlt_or_le 0 q) as [|L]; [assumption|]. exfalso. apply C.
  assert (q <> 0) by (intros ->; lra). unfold atan2. replace (Rltb 0 q) with false by (symmetry; apply Rltb_false; lra).
  replace (Rltb q 0) with true by (symmetry; apply Rltb_true; lra). replace (Rleb 0 0) with true by (symmetry; apply Rleb_true; lra).
  replace (0 / q) with 0 by (field; assumption). rewrite atan_0. ring.
Qed.
Lemma sq_unit x : x * x <= 1 -> -1 <= x <= 1. Proof. intros H. split; apply Rnot_lt_le; intros L; nra. Qed.
Lemma sq_unit' x : x * x < 1 -> -1 < x < 1. Proof. intros H. split; apply Rnot_le_lt; intros L; nra. Qed.
Lemma tasin_in x : -1 <= x <= 1 -> tasin x = Fin (asin x). Proof. exact (tasin_fin x). Qed.
Lemma tacos_in x : -1 <= x <= 1 -> tacos x = Fin (acos x). Proof. exact (tacos_fin x). Qed.
Ltac few := cbv -[Rplus Rmult Ropp Rminus IZR atan2 asin acos tasin tacos fin].
Lemma m2e_value : forall a b c, In (conv3 a b c) conventions -> forall r0 r1 r2 r3 r4 r5 r6 r7 r8 : R,
  let l := [r0; r1; r2; r3; r4; r5; r6; r7; r8] in gimbal_entry (conv3 a b c) (list_m3 l) * gimbal_entry (conv3 a b c) (list_m3 l) <= 1 ->
  routputs (tape_matrix_to_euler_angles a b c) l = m2e_list (conv3 a b c) l.
Proof.
  each_convention; intros; subst l; match goal with H : _ <= 1 |- _ => revert H end; few; intros H; apply sq_unit in H;
    first [rewrite tasin_in by lra | rewrite tacos_in by lra]; reflexivity.
Qed.
Lemma m2e_wf : forall a b c, In (conv3 a b c) conventions -> wf_prog (tape_matrix_to_euler_angles a b c) = true /\ p_in (tape_matrix_to_euler_angles a b c) = 9%nat.
Proof. each_convention; split; vm_compute; reflexivity. Qed.
Lemma m2e_smooth : forall a b c, In (conv3 a b c) conventions -> forall r0 r1 r2 r3 r4 r5 r6 r7 r8 x y z : R,
  let l := [r0; r1; r2; r3; r4; r5; r6; r7; r8] in is_rot (list_m3 l) -> gimbal_entry (conv3 a b c) (list_m3 l) * gimbal_entry (conv3 a b c) (list_m3 l) < 1 ->
  m2e_list (conv3 a b c) l = [x; y; z] -> x <> PI -> z <> PI ->
  along tame (p_ops (tape_matrix_to_euler_angles a b c)) l /\ smooth (fun _ => true) (p_ops (tape_matrix_to_euler_angles a b c)) l.
Proof.
  each_convention; intros r0 r1 r2 r3 r4 r5 r6 r7 r8 x y z l; subst l; intros HA Hg Hm Nx Nz;
    destruct (EulerProofs.rot_rows _ HA) as [Hr Hc]; pose proof (Hr 0%nat) as R0; pose proof (Hr 1%nat) as R1; pose proof (Hr 2%nat) as R2; pose proof (Hc 0%nat) as C0; pose proof (Hc 1%nat) as C1; pose proof (Hc 2%nat) as C2;
    clear HA Hr Hc; unfold list_m3, m3col, m3row, m3tr, vnorm2, vdot in R0, R1, R2, C0, C1, C2; cbn [list_m3 nth m3row m3col m3tr vnorm2 vdot vx vy vz m00 m01 m02 m10 m11 m12 m20 m21 m22] in R0, R1, R2, C0, C1, C2;
    revert Hg Hm; few; intros Hg Hm;
    match type of Hm with [?u; _; ?w] = _ => assert (Ex : u = x) by exact (f_equal (fun q => nth 0 q 0) Hm); assert (Ez : w = z) by exact (f_equal (fun q => nth 2 q 0) Hm) end;
    cbn [fin] in Ex, Ez; rewrite <- Ex in Nx; rewrite <- Ez in Nz; clear Hm Ex Ez.
  all: pose proof (sq_unit' _ Hg) as G; apply off_cut in Nx; [|lra]; apply off_cut in Nz; [|lra].
  all: split; repeat split; cbv -[Rplus Rmult Ropp Rminus IZR Rlt not atan2 asin acos tasin tacos fin];
    first [exact Nx | exact Nz | lra | destruct Nx; lra | destruct Nz; lra].
Qed.
Lemma gimbal_entry_at : forall a b c, In (conv3 a b c) conventions -> forall l : list R, List.length l = 9%nat ->
  gimbal_entry (conv3 a b c) (list_m3 l) = nth (3 * index_from_letter a + index_from_letter c) l 0.
Proof. each_convention; intros l L; dlist l L; reflexivity. Qed.
Lemma gimbal_entry_moves a b c (l d : list R) : In (conv3 a b c) conventions -> List.length l = 9%nat -> List.length d = 9%nat ->
  exists g, is_derive (fun t => gimbal_entry (conv3 a b c) (list_m3 (moved l d t))) 0 g.
Proof.
  intros H L Ld. exists (nth (3 * index_from_letter a + index_from_letter c) d 0). revert a b c H. dlist l L. dlist d Ld. each_convention; unfold conv3, gimbal_entry; cbn [moved]; unfold list_m3; cbn [nth]; apply d_line.
Qed.
Lemma moved_0 l d : List.length d = List.length l -> moved l d 0 = l.
Proof. revert d. induction l as [|x l IH]; intros [|y d] L; cbn in *; try discriminate; [reflexivity|]. rewrite IH by lia. f_equal. ring. Qed.
Lemma right_m2e old a b c A x y z : In (conv3 a b c) conventions -> is_rot A -> gimbal_entry (conv3 a b c) A * gimbal_entry (conv3 a b c) A <> 1 ->
  matrix_to_euler_angles A (conv3 a b c) = Ok (fin3 (mkV3 x y z)) -> x <> PI -> z <> PI ->
  differentiates old (tape_matrix_to_euler_angles a b c) (m2e_list (conv3 a b c)) (m3_list A).
Proof.
  intros H HA Hg Hm Nx Nz. destruct A as [r0 r1 r2 r3 r4 r5 r6 r7 r8]. set (A := mkM3 r0 r1 r2 r3 r4 r5 r6 r7 r8) in *. set (l := [r0; r1; r2; r3; r4; r5; r6; r7; r8]).
  change (m3_list A) with l. assert (EA : list_m3 l = A) by reflexivity.
  assert (Hl : gimbal_entry (conv3 a b c) A * gimbal_entry (conv3 a b c) A < 1).
  { assert (gimbal_entry (conv3 a b c) A * gimbal_entry (conv3 a b c) A <= 1); [|lra]. destruct (EulerProofs.rot_rows A HA) as [Hr _]. specialize (Hr (index_from_letter a)). unfold gimbal_entry, conv3, m3get.
    destruct (m3row A (index_from_letter a)) as [p q r]. unfold vnorm2, vdot in Hr. cbn [vx vy vz] in Hr. pose proof (Rle_0_sqr p); pose proof (Rle_0_sqr q); pose proof (Rle_0_sqr r). unfold Rsqr in *.
    destruct (index_from_letter c) as [|[|]]; cbn [v3get vx vy vz]; lra. }
  destruct (m2e_wf a b c H) as [W P9]. assert (Em : m2e_list (conv3 a b c) l = [x; y; z]) by (unfold m2e_list; rewrite EA, Hm; reflexivity).
  destruct (m2e_smooth a b c H r0 r1 r2 r3 r4 r5 r6 r7 r8 x y z HA Hl Em Nx Nz) as [T Sm].
  apply (right_tape old _ _ _ (fun _ => true)); [exact W | rewrite P9; reflexivity | apply (m2e_value a b c H); exact (Rlt_le _ _ Hl) | | exact T | exact Sm | apply forallb_forall; reflexivity].
  intros d Ld. destruct (gimbal_entry_moves a b c l d H eq_refl Ld) as [g D]. pose proof (d_mult _ _ _ _ D D) as D2.
  eapply filter_imp; [|eapply (near_lt _ _ 1 _ D2 eq_refl)].
  - intros t Ht. cbv beta in Ht. change (List.length d = 9%nat) in Ld. dlist d Ld. cbn [moved] in Ht |- *. apply (m2e_value a b c H). exact (Rlt_le _ _ Ht).
  - rewrite moved_0 by exact Ld. exact Hl.
Qed.

(** ** Gimbal lock *)
Lemma gdiv_0 x : x = 0 -> gdiv (Fin 1) (Fin x) = PInf.
Proof.
  intros ->. cbn [gdiv]. unfold fdivr. replace (Reqb 0 0) with true by (symmetry; apply Reqb_true; reflexivity).
  replace (Rltb 0 1) with true by (symmetry; apply Rltb_true; lra). reflexivity.
Qed.
Lemma gsqrt_0 x : x = 0 -> gsqrt (Fin x) = Fin 0.
Proof. intros ->. cbn [gsqrt]. replace (Rltb 0 0) with false by (symmetry; apply Rltb_false; lra). rewrite sqrt_0. reflexivity. Qed.
Lemma fmul_0_inf y : y = 0 -> fmul (Fin y) PInf = NaN.
Proof. intros ->. cbn [fmul]. replace (Rltb 0 0) with false by (symmetry; apply Rltb_false; lra). reflexivity. Qed.
Lemma unbounded_inf x : unbounded (fmul (Fin x) PInf) /\ unbounded (fmul (Fin x) NInf).
Proof. cbn [fmul]. destruct (Rltb 0 x), (Rltb x 0); split; exact I. Qed.
Lemma unbounded_mul x y : unbounded x -> unbounded (fmul x (Fin y)).
Proof. destruct x; cbn [fmul unbounded]; intros H; try contradiction; try exact I; destruct (Rltb 0 y), (Rltb y 0); exact I. Qed.
Lemma unbounded_add x y : unbounded x -> unbounded (fadd (Fin y) x).
Proof. destruct x; cbn; auto. Qed.
Lemma unbounded_add' x y : unbounded x -> unbounded (fadd x (Fin y)).
Proof. destruct x; cbn; auto. Qed.
Lemma m2e_nan : forall a b c, In (conv3 a b c) conventions -> forall (old : bool) (r0 r1 r2 r3 r4 r5 r6 r7 r8 u v w : R),
  let l := [r0; r1; r2; r3; r4; r5; r6; r7; r8] in let i := index_from_letter a in let j := index_from_letter c in
  (forall k, (k < 9)%nat -> in_cross i j k = true -> nth k l 0 = 0) -> nth (3 * i + j) l 0 * nth (3 * i + j) l 0 = 1 ->
  let g := gradient old (tape_matrix_to_euler_angles a b c) (map Fin l) (map Fin [u; v; w]) in
  (forall k, (k < 9)%nat -> in_cross i j k = true -> nth k g (Fin 0) = NaN) /\ unbounded (nth (3 * i + j) g (Fin 0)).
Proof.
  each_convention; intros old r0 r1 r2 r3 r4 r5 r6 r7 r8 u v w l i j Z U; cbn in i, j; subst i j; subst l.
  all: assert (Z' : forall k, Nat.ltb k 9 = true -> in_cross _ _ k = true -> _) by (intros k Hk; apply Nat.ltb_lt in Hk; exact (Z k Hk)); clear Z.
  all: try pose proof (Z' 0%nat eq_refl eq_refl) as Z0; try pose proof (Z' 1%nat eq_refl eq_refl) as Z1; try pose proof (Z' 2%nat eq_refl eq_refl) as Z2; try pose proof (Z' 3%nat eq_refl eq_refl) as Z3;
    try pose proof (Z' 4%nat eq_refl eq_refl) as Z4; try pose proof (Z' 5%nat eq_refl eq_refl) as Z5; try pose proof (Z' 6%nat eq_refl eq_refl) as Z6; try pose proof (Z' 7%nat eq_refl eq_refl) as Z7; try pose proof (Z' 8%nat eq_refl eq_refl) as Z8.
  all: clear Z'; cbn [nth Nat.mul Nat.add] in *; subst.
  all: split; [intros k Hk; destruct k as [|[|[|[|[|[|[|[|[|k]]]]]]]]]; [..|exfalso; lia]; cbv -[fadd fmul fopp gdiv gsqrt gasin gacos gatan2 Rplus Rmult Ropp Rminus IZR lt]; first [discriminate | intros _] |
    cbv -[fadd fmul fopp gdiv gsqrt gasin gacos gatan2 Rplus Rmult Ropp Rminus IZR unbounded]].
  all: cbn [fadd fmul fopp].
  all: repeat match goal with |- context [gsqrt (Fin ?x)] => rewrite (gsqrt_0 x) by lra end; repeat match goal with |- context [gdiv (Fin 1) (Fin ?x)] => rewrite (gdiv_0 x) by lra end.
  all: repeat match goal with |- context [fmul (Fin ?x) PInf] => rewrite (fmul_0_inf x) by lra end.
  all: try solve [cbn [fadd fopp fmul]; rewrite ?fadd_nan_r; cbn [fadd fmul fopp]; rewrite ?fadd_nan_r; reflexivity].
  all: cbn [fopp fadd]; try solve [repeat first [apply unbounded_add | apply unbounded_add' | apply unbounded_mul | apply (proj1 (unbounded_inf _)) | apply (proj2 (unbounded_inf _))]].
  all: repeat match goal with |- context [Rltb ?x ?y] => replace (Rltb x y) with false by (symmetry; apply Rltb_false; lra) end; cbn [fopp fadd]; reflexivity.
Qed.
