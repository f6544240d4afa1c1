(** Rounding errors of matrix products, of joint motions and of whole chains. *)
From Coq Require Import Reals Lra Psatz String Bool Arith Lia List Permutation.
From Verif Require Import Prelude ExtF Tree ChainModel SpecFK ChainProofs Lin Trig RotModel RotBasic ChainInst SpecRound RoundNorm RoundModel.
Import ListNotations.
Local Open Scope R_scope.

(** ** Sums of products *)
Section Sums.
Variables (u : R) (rnd : R -> R).
Hypothesis Hr : rounding u rnd.
Lemma rnd_abs x : Rabs (rnd x - x) <= u * Rabs x. Proof. apply Hr. Qed.
Lemma rnd_0 : rnd 0 = 0.
Proof.
  pose proof (rnd_abs 0) as H. rewrite Rabs_R0, Rmult_0_r, Rminus_0_r in H. pose proof (Rabs_pos (rnd 0)).
  destruct (Req_dec (rnd 0) 0) as [E|E]; [exact E|]. pose proof (Rabs_pos_lt _ E). lra.
Qed.
Lemma u_nonneg : 0 <= u.
Proof. pose proof (rnd_abs 1) as H. rewrite Rabs_R1 in H. pose proof (Rabs_pos (rnd 1 - 1)). lra. Qed.

Fixpoint s_height (t : stree) : nat :=
  match t with Prod _ => 1 | Plus l r => S (Nat.max (s_height l) (s_height r)) | Fma _ t => S (s_height t) end%nat.
Lemma s_height_leaves t : (1 <= s_height t <= length (s_leaves t))%nat.
Proof.
  induction t as [k|l IHl r IHr|k t IH]; simpl; try rewrite app_length; lia.
Qed.
Definition exact_sum (p : nat -> R) (l : list nat) : R := fold_right (fun k s => p k + s) 0 l.
Lemma exact_sum_app p l1 l2 : exact_sum p (l1 ++ l2) = exact_sum p l1 + exact_sum p l2.
Proof. induction l1 as [|k l IH]; simpl; [ring|]. rewrite IH; ring. Qed.
Lemma exact_sum_perm p l1 l2 : Permutation l1 l2 -> exact_sum p l1 = exact_sum p l2.
Proof. induction 1; simpl; lra. Qed.
Lemma exact_sum_abs p l : Rabs (exact_sum p l) <= exact_sum (fun k => Rabs (p k)) l.
Proof. induction l as [|k l IH]; simpl; [rewrite Rabs_R0; lra|]. eapply Rle_trans; [apply Rabs_triang|]. lra. Qed.
Lemma exact_sum_nonneg p l : 0 <= exact_sum (fun k => Rabs (p k)) l.
Proof. induction l as [|k l IH]; simpl; [lra|]. pose proof (Rabs_pos (p k)). lra. Qed.
Lemma pow_ge1 n : 1 <= (1 + u) ^ n.
Proof. pose proof u_nonneg. apply pow_R1_Rle. lra. Qed.
Lemma pow_mono m n : (m <= n)%nat -> (1 + u) ^ m <= (1 + u) ^ n.
Proof. intros H. pose proof u_nonneg. apply Rle_pow; [lra|exact H]. Qed.
Lemma rnd_chain x y n s : Rabs (x - y) <= ((1 + u) ^ n - 1) * s -> Rabs y <= s ->
  Rabs (rnd x - y) <= ((1 + u) ^ S n - 1) * s.
Proof.
  intros H1 H2. pose proof u_nonneg. pose proof (rnd_abs x) as H3.
  replace (rnd x - y) with ((rnd x - x) + (x - y)) by ring. eapply Rle_trans; [apply Rabs_triang|].
  assert (H4 : Rabs x <= (1 + u) ^ n * s).
  { replace x with ((x - y) + y) by ring. eapply Rle_trans; [apply Rabs_triang|].
    replace ((1 + u) ^ n * s) with (((1 + u) ^ n - 1) * s + s) by ring. lra. }
  assert (H5 : u * Rabs x <= u * ((1 + u) ^ n * s)) by (apply Rmult_le_compat_l; assumption).
  cbn [pow]. replace (((1 + u) * (1 + u) ^ n - 1) * s) with (u * ((1 + u) ^ n * s) + ((1 + u) ^ n - 1) * s) by ring. lra.
Qed.
Lemma s_eval_err p t : Rabs (s_eval rnd p t - exact_sum p (s_leaves t)) <= ((1 + u) ^ s_height t - 1) * exact_sum (fun k => Rabs (p k)) (s_leaves t).
Proof.
  induction t as [k|l IHl r IHr|k t IH]; cbn [s_eval s_leaves s_height].
  - cbn [exact_sum fold_right]. rewrite !Rplus_0_r. apply (rnd_chain (p k) (p k) 0); [|lra].
    replace (p k - p k) with 0 by ring. rewrite Rabs_R0. simpl; lra.
  - unfold fadd. rewrite !exact_sum_app. apply rnd_chain.
    + replace (s_eval rnd p l + s_eval rnd p r - (exact_sum p (s_leaves l) + exact_sum p (s_leaves r)))
        with ((s_eval rnd p l - exact_sum p (s_leaves l)) + (s_eval rnd p r - exact_sum p (s_leaves r))) by ring.
      eapply Rle_trans; [apply Rabs_triang|]. rewrite Rmult_plus_distr_l. apply Rplus_le_compat.
      * eapply Rle_trans; [exact IHl|]. apply Rmult_le_compat_r; [apply exact_sum_nonneg|].
        pose proof (pow_mono _ _ (Nat.le_max_l (s_height l) (s_height r))). lra.
      * eapply Rle_trans; [exact IHr|]. apply Rmult_le_compat_r; [apply exact_sum_nonneg|].
        pose proof (pow_mono _ _ (Nat.le_max_r (s_height l) (s_height r))). lra.
    + eapply Rle_trans; [apply Rabs_triang|]. apply Rplus_le_compat; apply exact_sum_abs.
  - cbn [exact_sum fold_right]. fold (exact_sum p (s_leaves t)). fold (exact_sum (fun k => Rabs (p k)) (s_leaves t)).
    apply rnd_chain.
    + replace (p k + s_eval rnd p t - (p k + exact_sum p (s_leaves t))) with (s_eval rnd p t - exact_sum p (s_leaves t)) by ring.
      eapply Rle_trans; [exact IH|]. apply Rmult_le_compat_l; [pose proof (pow_ge1 (s_height t)); lra|]. pose proof (Rabs_pos (p k)). lra.
    + eapply Rle_trans; [apply Rabs_triang|]. apply Rplus_le_compat; [lra|apply exact_sum_abs].
Qed.
Lemma s_full_err p t : s_full t ->
  Rabs (s_eval rnd p t - (p 0%nat + p 1%nat + p 2%nat + p 3%nat)) <= ((1 + u) ^ 4 - 1) * (Rabs (p 0%nat) + Rabs (p 1%nat) + Rabs (p 2%nat) + Rabs (p 3%nat)).
Proof.
  intros Hf. pose proof (s_eval_err p t) as H. rewrite (exact_sum_perm p _ _ Hf), (exact_sum_perm (fun k => Rabs (p k)) _ _ Hf) in H.
  cbn [exact_sum fold_right] in H. rewrite !Rplus_0_r in H.
  pose proof (s_height_leaves t) as [_ Hh]. rewrite (Permutation_length Hf) in Hh. cbn [length] in Hh.
  replace (p 0%nat + p 1%nat + p 2%nat + p 3%nat) with (p 0%nat + (p 1%nat + (p 2%nat + p 3%nat))) by ring.
  eapply Rle_trans; [exact H|]. pose proof (pow_mono _ _ Hh). pose proof (Rabs_pos (p 0%nat)). pose proof (Rabs_pos (p 1%nat)).
  pose proof (Rabs_pos (p 2%nat)). pose proof (Rabs_pos (p 3%nat)).
  replace (Rabs (p 0%nat) + Rabs (p 1%nat) + Rabs (p 2%nat) + Rabs (p 3%nat)) with (Rabs (p 0%nat) + (Rabs (p 1%nat) + (Rabs (p 2%nat) + Rabs (p 3%nat)))) by ring.
  apply Rmult_le_compat_r; lra.
Qed.
(** sums of zeros, and of zeros and one 1, are exact *)
Lemma s_eval_zero p t : (forall k, In k (s_leaves t) -> p k = 0) -> s_eval rnd p t = 0.
Proof.
  induction t as [k|l IHl r IHr|k t IH]; cbn [s_eval s_leaves]; intros H.
  - rewrite H by (left; reflexivity). apply rnd_0.
  - rewrite IHl, IHr by (intros; apply H, in_or_app; auto). unfold fadd. rewrite Rplus_0_r. apply rnd_0.
  - rewrite (H k) by (left; reflexivity). rewrite IH by (intros k' Hk'; apply H; right; exact Hk'). rewrite Rplus_0_r. apply rnd_0.
Qed.
Lemma nodup_app_inv {X} (l m : list X) : NoDup (l ++ m) -> NoDup l /\ NoDup m /\ forall x, In x l -> In x m -> False.
Proof.
  induction l as [|a l IH]; simpl; intros H; [repeat split; [constructor|exact H|tauto]|].
  inversion H as [|? ? Ha H']; subst. destruct (IH H') as (H1 & H2 & H3). split; [|split; [exact H2|]].
  - constructor; [|exact H1]. intros Hc. apply Ha, in_or_app; auto.
  - intros x [<-|Hx] Hm; [apply Ha, in_or_app; auto|eauto].
Qed.
Lemma s_eval_one p t q : NoDup (s_leaves t) -> In q (s_leaves t) -> p q = 1 -> (forall k, In k (s_leaves t) -> k <> q -> p k = 0) -> s_eval rnd p t = 1.
Proof.
  induction t as [k|l IHl r IHr|k t IH]; cbn [s_eval s_leaves]; intros Hn Hq H1 H0.
  - destruct Hq as [->|[]]. rewrite H1. apply Hr.
  - apply nodup_app_inv in Hn as (Nl & Nr & Hd). apply in_app_or in Hq as [Hq|Hq].
    + rewrite IHl by (auto; intros; apply H0; auto; apply in_or_app; auto).
      rewrite s_eval_zero. { unfold fadd. rewrite Rplus_0_r. apply Hr. }
      intros k Hk. apply H0; [apply in_or_app; auto|]. intros ->. eapply Hd; eauto.
    + rewrite IHr by (auto; intros; apply H0; auto; apply in_or_app; auto).
      rewrite s_eval_zero. { unfold fadd. rewrite Rplus_0_l. apply Hr. }
      intros k Hk. apply H0; [apply in_or_app; auto|]. intros ->. eapply Hd; eauto.
  - inversion Hn as [|? ? Hk Hn']; subst. destruct Hq as [->|Hq].
    + rewrite H1, s_eval_zero. { rewrite Rplus_0_r. apply Hr. }
      intros k' Hk'. apply H0; [right; exact Hk'|]. intros ->. contradiction.
    + rewrite IH by (auto; intros; apply H0; simpl; auto). rewrite (H0 k); [|left; reflexivity|intros ->; contradiction].
      rewrite Rplus_0_l. apply Hr.
Qed.
Lemma s_full_nodup t : s_full t -> NoDup (s_leaves t).
Proof. intros H. apply (Permutation_NoDup (Permutation_sym H)). repeat constructor; simpl; intuition discriminate. Qed.
Lemma s_full_in t k : s_full t -> In k (s_leaves t) -> (k = 0 \/ k = 1 \/ k = 2 \/ k = 3)%nat.
Proof. intros H Hk. apply (Permutation_in _ H) in Hk. simpl in Hk. intuition. Qed.
Lemma s_full_three t : s_full t -> In 3%nat (s_leaves t).
Proof. intros H. apply (Permutation_in _ (Permutation_sym H)). simpl; auto. Qed.

Lemma fl_matmul_rounded st : (forall i j, s_full (st i j)) -> rounded_product ((1 + u) ^ 4 - 1) (fl_matmul rnd st).
Proof.
  intros Hst A B (A0 & A1 & A2 & A3) (B0 & B1 & B2 & B3).
  assert (Hlast : forall j, (j <= 2)%nat -> s_eval rnd (fun k => row4 3 A k * col4 j B k) (st 3%nat j) = 0).
  { intros j Hj. apply s_eval_zero. intros k Hk. apply (s_full_in _ _ (Hst 3%nat j)) in Hk as [->|[->|[->| ->]]]; unfold col4; cbn [row4].
    - rewrite A0; ring. - rewrite A1; ring. - rewrite A2; ring.
    - destruct j as [|[|[|j]]]; cbn [row4]; try lia; [rewrite B0|rewrite B1|rewrite B2]; ring. }
  split; [|split].
  - split; [apply (Hlast 0%nat); lia|]. split; [apply (Hlast 1%nat); lia|]. split; [apply (Hlast 2%nat); lia|].
    apply (s_eval_one _ _ 3%nat); [apply s_full_nodup, Hst|apply s_full_three, Hst|unfold col4; cbn [row4]; rewrite A3, B3; ring|].
    intros k Hk Hn. apply (s_full_in _ _ (Hst 3%nat 3%nat)) in Hk as [->|[->|[->| ->]]]; unfold col4; cbn [row4];
      [rewrite A0|rewrite A1|rewrite A2|contradiction]; ring.
  - assert (HE : forall i j, (i <= 2)%nat -> (j <= 2)%nat ->
      Rabs (s_eval rnd (fun k => row4 i A k * col4 j B k) (st i j) - (row4 i A 0 * col4 j B 0 + row4 i A 1 * col4 j B 1 + row4 i A 2 * col4 j B 2 + row4 i A 3 * col4 j B 3))
      <= ((1 + u) ^ 4 - 1) * (Rabs (row4 i A 0) * Rabs (col4 j B 0) + Rabs (row4 i A 1) * Rabs (col4 j B 1) + Rabs (row4 i A 2) * Rabs (col4 j B 2))).
    { intros i j Hi Hj. eapply Rle_trans; [apply (s_full_err (fun k => row4 i A k * col4 j B k)), Hst|].
      rewrite !Rabs_mult. replace (col4 j B 3) with 0. { rewrite Rabs_R0. right; ring. }
      destruct j as [|[|[|j]]]; unfold col4; cbn [row4]; try lia; congruence. }
    unfold m3le. cbn [m00 m01 m02 m10 m11 m12 m20 m21 m22 m3abs m3sub m3add m3opp m3scale m3mul rotp fl_matmul m4mul a00 a01 a02 a10 a11 a12 a20 a21 a22].
    fold (Rminus).
    repeat split; [apply (HE 0 0)%nat|apply (HE 0 1)%nat|apply (HE 0 2)%nat|apply (HE 1 0)%nat|apply (HE 1 1)%nat|apply (HE 1 2)%nat|apply (HE 2 0)%nat|apply (HE 2 1)%nat|apply (HE 2 2)%nat]; lia.
  - assert (HE : forall i, (i <= 2)%nat ->
      Rabs (s_eval rnd (fun k => row4 i A k * col4 3 B k) (st i 3%nat) - (row4 i A 0 * a03 B + row4 i A 1 * a13 B + row4 i A 2 * a23 B + row4 i A 3))
      <= ((1 + u) ^ 4 - 1) * (Rabs (row4 i A 0) * Rabs (a03 B) + Rabs (row4 i A 1) * Rabs (a13 B) + Rabs (row4 i A 2) * Rabs (a23 B) + Rabs (row4 i A 3))).
    { intros i Hi. pose proof (s_full_err (fun k => row4 i A k * col4 3 B k) _ (Hst i 3%nat)) as H. cbv beta in H. rewrite !Rabs_mult in H. unfold col4 in H; cbn [row4] in H.
      unfold col4; cbn [row4]. rewrite B3, Rabs_R1, !Rmult_1_r in H. exact H. }
    unfold vle. cbn [vx vy vz vabs vsub vscale vadd m3vec m3abs m00 m01 m02 m10 m11 m12 m20 m21 m22 rotp trp fl_matmul m4mul a00 a01 a02 a03 a10 a11 a12 a13 a20 a21 a22 a23].
    rewrite B3, !Rmult_1_r.
    split; [apply (HE 0%nat)|split; [apply (HE 1%nat)|apply (HE 2%nat)]]; lia.
Qed.
End Sums.

(** ** Joint motions *)
Lemma fnorm_entries A e : 0 <= e -> m3le (m3abs A) (mkM3 e e e e e e e e e) -> fnorm A <= 3 * e.
Proof.
  intros He H. eapply Rle_trans; [apply (m3le_fnorm _ _ H)|]. unfold fnorm. rewrite <- (sqrt_square (3 * e)) by lra.
  apply sqrt_le_1_alt. unfold fnorm2, vnorm2, vdot, row0, row1, row2. cbn [vx vy vz m00 m01 m02 m10 m11 m12 m20 m21 m22]. right; ring.
Qed.
Lemma vnorm_entries v e : 0 <= e -> vle (vabs v) (mkV3 e e e) -> vnorm v <= 2 * e.
Proof.
  intros He H. eapply Rle_trans; [apply (vle_norm _ _ H)|]. apply vnorm_le_sqr; [lra|]. unfold vnorm2, vdot. cbn [vx vy vz].
  pose proof (Rmult_le_pos e e He He). lra.
Qed.

Section Motions.
Variables (u t a eps : R) (rnd fcos fsin : R -> R).
Hypothesis Hr : rounding u rnd.
Hypothesis Ht : trig_within t fcos fsin.
Hypotheses (Hu : u <= eps) (Hte : t <= eps) (Hae : a <= eps) (Hep : eps <= / 100).
Lemma eps_nonneg : 0 <= eps. Proof. pose proof (u_nonneg u rnd Hr). lra. Qed.

Lemma st_rnd C b x x0 : 0 <= C -> 0 <= b -> Rabs (x - x0) <= C * eps -> Rabs x0 <= b -> Rabs (rnd x - x0) <= (C + b + C / 100) * eps.
Proof.
  intros HC Hb H1 H2. pose proof eps_nonneg as He. pose proof (u_nonneg u rnd Hr) as Hu0.
  replace (rnd x - x0) with ((rnd x - x) + (x - x0)) by ring. eapply Rle_trans; [apply Rabs_triang|].
  assert (H3 : Rabs x <= b + C / 100).
  { replace x with (x0 + (x - x0)) by ring. eapply Rle_trans; [apply Rabs_triang|].
    assert (C * eps <= C * / 100) by (apply Rmult_le_compat_l; assumption). unfold Rdiv. lra. }
  assert (H4 : u * Rabs x <= eps * (b + C / 100)).
  { apply Rmult_le_compat; [exact Hu0|apply Rabs_pos|exact Hu|exact H3]. }
  pose proof (proj2 Hr x). replace ((C + b + C / 100) * eps) with (eps * (b + C / 100) + C * eps) by field. lra.
Qed.
Lemma st_mul C D b c x x0 y y0 : 0 <= C -> 0 <= D -> 0 <= b -> 0 <= c -> Rabs (x - x0) <= C * eps -> Rabs (y - y0) <= D * eps ->
  Rabs x0 <= b -> Rabs y0 <= c -> Rabs (x * y - x0 * y0) <= (b * D + c * C + C * D / 100) * eps.
Proof.
  intros HC HD Hb Hc H1 H2 H3 H4. pose proof eps_nonneg as He.
  replace (x * y - x0 * y0) with (x0 * (y - y0) + y0 * (x - x0) + (x - x0) * (y - y0)) by ring.
  eapply Rle_trans; [apply Rabs_triang|]. eapply Rle_trans; [apply Rplus_le_compat_r, Rabs_triang|]. rewrite !Rabs_mult.
  assert (K1 : Rabs x0 * Rabs (y - y0) <= b * (D * eps)) by (apply Rmult_le_compat; try apply Rabs_pos; assumption).
  assert (K2 : Rabs y0 * Rabs (x - x0) <= c * (C * eps)) by (apply Rmult_le_compat; try apply Rabs_pos; assumption).
  assert (K3 : Rabs (x - x0) * Rabs (y - y0) <= (C * eps) * (D * eps)) by (apply Rmult_le_compat; try apply Rabs_pos; assumption).
  assert (K4 : (C * eps) * (D * eps) <= (C * D / 100) * eps).
  { replace ((C * eps) * (D * eps)) with ((C * D * eps) * eps) by ring. apply Rmult_le_compat_r; [exact He|].
    unfold Rdiv. apply Rmult_le_compat_l; [apply Rmult_le_pos; assumption|exact Hep]. }
  rewrite !Rmult_plus_distr_r. lra.
Qed.
Lemma st_add C D x x0 y y0 : Rabs (x - x0) <= C * eps -> Rabs (y - y0) <= D * eps -> Rabs (x + y - (x0 + y0)) <= (C + D) * eps.
Proof.
  intros H1 H2. replace (x + y - (x0 + y0)) with ((x - x0) + (y - y0)) by ring. eapply Rle_trans; [apply Rabs_triang|]. lra.
Qed.
Lemma st_sub C D x x0 y y0 : Rabs (x - x0) <= C * eps -> Rabs (y - y0) <= D * eps -> Rabs (x - y - (x0 - y0)) <= (C + D) * eps.
Proof.
  intros H1 H2. replace (x - y - (x0 - y0)) with ((x - x0) + - (y - y0)) by ring. eapply Rle_trans; [apply Rabs_triang|]. rewrite Rabs_Ropp. lra.
Qed.
Lemma st_le C D x x0 : C <= D -> Rabs (x - x0) <= C * eps -> Rabs (x - x0) <= D * eps.
Proof. intros H1 H2. pose proof eps_nonneg. eapply Rle_trans; [exact H2|]. apply Rmult_le_compat_r; assumption. Qed.
Lemma abs_mul_le x y b c : Rabs x <= b -> Rabs y <= c -> Rabs (x * y) <= b * c.
Proof. intros. rewrite Rabs_mult. apply Rmult_le_compat; try apply Rabs_pos; assumption. Qed.
Lemma abs_add_le x y b c : Rabs x <= b -> Rabs y <= c -> Rabs (x + y) <= b + c.
Proof. intros. eapply Rle_trans; [apply Rabs_triang|]. lra. Qed.
Lemma abs_sub_le x y b c : Rabs x <= b -> Rabs y <= c -> Rabs (x - y) <= b + c.
Proof. intros. unfold Rminus. eapply Rle_trans; [apply Rabs_triang|]. rewrite Rabs_Ropp. lra. Qed.

Lemma unit_entries k : unit3 k -> Rabs (vx k) <= 1 /\ Rabs (vy k) <= 1 /\ Rabs (vz k) <= 1.
Proof.
  unfold unit3, vnorm2, vdot. intros H. repeat split; apply Rabs_le; split; nra.
Qed.
Lemma cos_abs q : Rabs (cos q) <= 1. Proof. apply Rabs_le. pose proof (COS_bound q). lra. Qed.
Lemma sin_abs q : Rabs (sin q) <= 1. Proof. apply Rabs_le. pose proof (SIN_bound q). lra. Qed.

Section Entries.
Variables (q : R).
Lemma c_err : Rabs (fcos q - cos q) <= 1 * eps. Proof. pose proof (proj1 (Ht q)). lra. Qed.
Lemma s_err : Rabs (fsin q - sin q) <= 1 * eps. Proof. pose proof (proj2 (Ht q)). lra. Qed.
Lemma o_err : Rabs (fsub rnd 1 (fcos q) - (1 - cos q)) <= 4 * eps.
Proof.
  eapply st_le; [|apply (st_rnd 1 2); [lra|lra| |]].
  - lra.
  - replace (1 - fcos q - (1 - cos q)) with (- (fcos q - cos q)) by ring. rewrite Rabs_Ropp. apply c_err.
  - apply Rabs_le. pose proof (COS_bound q). lra.
Qed.
Lemma o_abs : Rabs (1 - cos q) <= 2. Proof. apply Rabs_le. pose proof (COS_bound q). lra. Qed.
(** one product of axis components, times [1 - cos] *)
Lemma kko_err x' x y' y : Rabs (x' - x) <= 1 * eps -> Rabs (y' - y) <= 1 * eps -> Rabs x <= 1 -> Rabs y <= 1 ->
  Rabs (fmul rnd (fmul rnd x' y') (fsub rnd 1 (fcos q)) - x * y * (1 - cos q)) <= (127 / 10) * eps.
Proof.
  intros H1 H2 H3 H4.
  assert (K : Rabs (fmul rnd x' y' - x * y) <= (31 / 10) * eps).
  { eapply st_le; [|apply (st_rnd (2 + 1 / 100) 1); [lra|lra| |]].
    - lra.
    - eapply st_le; [|apply (st_mul 1 1 1 1); try assumption; lra]. lra.
    - rewrite <- (Rmult_1_r 1). apply abs_mul_le; assumption. }
  eapply st_le; [|apply (st_rnd (4 + 62 / 10 + 4 * (31 / 10) / 100) 2); [lra|lra| |]].
  - lra.
  - eapply st_le; [|apply (st_mul (31 / 10) 4 1 2); try lra; [apply o_err| |apply o_abs]].
    + lra.
    + rewrite <- (Rmult_1_r 1). apply abs_mul_le; assumption.
  - replace 2 with ((1 * 1) * 2) by ring. apply abs_mul_le; [apply abs_mul_le; assumption|apply o_abs].
Qed.
Lemma kko_abs x y : Rabs x <= 1 -> Rabs y <= 1 -> Rabs (x * y * (1 - cos q)) <= 2.
Proof. intros. replace 2 with ((1 * 1) * 2) by ring. apply abs_mul_le; [apply abs_mul_le; assumption|apply o_abs]. Qed.
Lemma ks_err x' x : Rabs (x' - x) <= 1 * eps -> Rabs x <= 1 -> Rabs (fmul rnd x' (fsin q) - x * sin q) <= (31 / 10) * eps.
Proof.
  intros H1 H2. eapply st_le; [|apply (st_rnd (2 + 1 / 100) 1); [lra|lra| |]].
  - lra.
  - eapply st_le; [|apply (st_mul 1 1 1 1); try assumption; try lra; [apply s_err|apply sin_abs]]. lra.
  - rewrite <- (Rmult_1_r 1). apply abs_mul_le; [assumption|apply sin_abs].
Qed.
Lemma ks_abs x : Rabs x <= 1 -> Rabs (x * sin q) <= 1.
Proof. intros. rewrite <- (Rmult_1_r 1). apply abs_mul_le; [assumption|apply sin_abs]. Qed.
Lemma diag_err x' x : Rabs (x' - x) <= 1 * eps -> Rabs x <= 1 ->
  Rabs (fadd rnd (fcos q) (fmul rnd (fmul rnd x' x') (fsub rnd 1 (fcos q))) - (cos q + x * x * (1 - cos q))) <= 20 * eps.
Proof.
  intros H1 H2. eapply st_le; [|apply (st_rnd (1 + 127 / 10) 3); [lra|lra| |]].
  - lra.
  - apply st_add; [apply c_err|apply kko_err; assumption].
  - replace 3 with (1 + 2) by ring. apply abs_add_le; [apply cos_abs|apply kko_abs; assumption].
Qed.
Lemma off_add_err x' x y' y z' z : Rabs (x' - x) <= 1 * eps -> Rabs (y' - y) <= 1 * eps -> Rabs (z' - z) <= 1 * eps -> Rabs x <= 1 -> Rabs y <= 1 -> Rabs z <= 1 ->
  Rabs (fadd rnd (fmul rnd (fmul rnd x' y') (fsub rnd 1 (fcos q))) (fmul rnd z' (fsin q)) - (x * y * (1 - cos q) + z * sin q)) <= 20 * eps.
Proof.
  intros. eapply st_le; [|apply (st_rnd (127 / 10 + 31 / 10) 3); [lra|lra| |]].
  - lra.
  - apply st_add; [apply kko_err; assumption|apply ks_err; assumption].
  - replace 3 with (2 + 1) by ring. apply abs_add_le; [apply kko_abs; assumption|apply ks_abs; assumption].
Qed.
Lemma off_sub_err x' x y' y z' z : Rabs (x' - x) <= 1 * eps -> Rabs (y' - y) <= 1 * eps -> Rabs (z' - z) <= 1 * eps -> Rabs x <= 1 -> Rabs y <= 1 -> Rabs z <= 1 ->
  Rabs (fsub rnd (fmul rnd (fmul rnd x' y') (fsub rnd 1 (fcos q))) (fmul rnd z' (fsin q)) - (x * y * (1 - cos q) - z * sin q)) <= 20 * eps.
Proof.
  intros. eapply st_le; [|apply (st_rnd (127 / 10 + 31 / 10) 3); [lra|lra| |]].
  - lra.
  - apply st_sub; [apply kko_err; assumption|apply ks_err; assumption].
  - replace 3 with (2 + 1) by ring. apply abs_sub_le; [apply kko_abs; assumption|apply ks_abs; assumption].
Qed.
End Entries.

Lemma fl_motions st : accurate_motions a (1 + 60 * eps) (fl_ops rnd fcos fsin st).
Proof.
  intros k' k q Hk Hx Hy Hz. destruct (unit_entries k Hk) as (Bx & By & Bz). pose proof eps_nonneg as He.
  assert (Ex : Rabs (vx k' - vx k) <= 1 * eps) by lra. assert (Ey : Rabs (vy k' - vy k) <= 1 * eps) by lra. assert (Ez : Rabs (vz k' - vz k) <= 1 * eps) by lra.
  cbn [t_rev t_pris fl_ops]. split.
  - rewrite rot44_aff. unfold fl_rot44. split; [apply affine_aff|]. split; [apply is_rigid_aff, rot33_rot, Hk|].
    rewrite !rotp_aff, !trp_aff. split; [|split].
    + intros v. rewrite <- m3sub_vec. eapply Rle_trans; [apply fnorm_vec|]. apply Rmult_le_compat_r; [apply vnorm_nonneg|].
      replace (1 + 60 * eps - 1) with (3 * (20 * eps)) by ring. apply fnorm_entries; [lra|].
      unfold m3le, fl_rot33, axis_and_angle_to_matrix_33. cbv zeta.
      cbn [m00 m01 m02 m10 m11 m12 m20 m21 m22 m3abs m3sub m3add m3opp].
      split; [split; [|split]|split; [split; [|split]|split; [|split]]].
      all: first [apply (diag_err q); assumption|apply (off_add_err q); assumption|apply (off_sub_err q); assumption].
    + rewrite vsub_self. replace (vnorm vzero) with 0 by (symmetry; apply vnorm_zero_iff; reflexivity). lra.
    + replace (vnorm vzero) with 0 by (symmetry; apply vnorm_zero_iff; reflexivity). lra.
  - rewrite pris_aff. unfold fl_pris. split; [apply affine_aff|]. split; [apply is_rigid_aff, is_rot_I|].
    rewrite !rotp_aff, !trp_aff.
    assert (Hn : vnorm (vscale q k) = Rabs q) by (rewrite vnorm_scale, (unit3_norm k Hk); ring).
    split; [|split].
    + intros v. rewrite vsub_self. replace (vnorm vzero) with 0 by (symmetry; apply vnorm_zero_iff; reflexivity).
      apply Rmult_le_pos; [lra|apply vnorm_nonneg].
    + assert (HE : forall x' x, Rabs (x' - x) <= 1 * eps -> Rabs x <= 1 -> Rabs (fmul rnd x' q - q * x) <= 3 * eps * Rabs q).
      { intros x' x H1 H2. unfold fmul. replace (rnd (x' * q) - q * x) with ((rnd (x' * q) - x' * q) + (x' - x) * q) by ring.
        eapply Rle_trans; [apply Rabs_triang|]. rewrite (Rabs_mult (x' - x)).
        assert (K1 : Rabs x' <= 2). { replace x' with (x + (x' - x)) by ring. eapply Rle_trans; [apply Rabs_triang|]. lra. }
        pose proof (proj2 Hr (x' * q)) as K2. rewrite Rabs_mult in K2.
        assert (K3 : u * (Rabs x' * Rabs q) <= eps * (2 * Rabs q)).
        { apply Rmult_le_compat; [apply (u_nonneg u rnd Hr)|apply Rmult_le_pos; apply Rabs_pos|exact Hu|].
          apply Rmult_le_compat_r; [apply Rabs_pos|exact K1]. }
        assert (K4 : Rabs (x' - x) * Rabs q <= eps * Rabs q) by (apply Rmult_le_compat_r; [apply Rabs_pos|lra]).
        lra. }
      pose proof (Rmult_le_pos _ _ He (Rabs_pos q)) as Hpos.
      eapply Rle_trans; [apply (vnorm_entries _ (3 * eps * Rabs q)); [lra|]|lra].
      unfold vle. cbn [vx vy vz vabs vsub vscale]. repeat split; apply HE; assumption.
    + rewrite Hn. lra.
Qed.
End Motions.

(** entry-by-entry rounding of a rigid matrix *)
Lemma round_m4_close u rnd M : rounding u rnd -> is_rigid M -> close (1 + 3 * u) (round_m4 rnd M) M (vnorm (trp M)).
Proof.
  intros Hr [Ha Hrot]. pose proof (u_nonneg u rnd Hr) as Hu. split; [|split; [split; assumption|]].
  - destruct Ha as (E0 & E1 & E2 & E3). unfold affine, round_m4. cbn [a30 a31 a32 a33]. rewrite E0, E1, E2, E3.
    rewrite (rnd_0 u rnd Hr). repeat split. apply Hr.
  - split; [|split; [|lra]].
    + intros v. rewrite <- m3sub_vec. eapply Rle_trans; [apply fnorm_vec|]. apply Rmult_le_compat_r; [apply vnorm_nonneg|].
      replace (1 + 3 * u - 1) with (u * 3) by ring. eapply Rle_trans.
      * apply (m3le_fnorm _ (m3scale u (m3abs (rotp M)))). unfold m3le, m3scale.
        cbn [m00 m01 m02 m10 m11 m12 m20 m21 m22 m3abs m3sub m3add m3opp rotp round_m4 a00 a01 a02 a10 a11 a12 a20 a21 a22].
        repeat split; apply Hr.
      * rewrite fnorm_scale, fnorm_abs by exact Hu. apply Rmult_le_compat_l; [exact Hu|].
        pose proof (fnorm_stretch (rotp M) 1 ltac:(lra)) as H. rewrite Rmult_1_r in H. pose proof sqrt3_le2.
        eapply Rle_trans; [apply H|lra]. intros w. rewrite rot_vnorm by exact Hrot. lra.
    + eapply Rle_trans; [apply (vle_norm _ (vscale u (vabs (trp M))))|].
      * unfold vle, vscale. cbn [vx vy vz vabs vsub trp round_m4 a03 a13 a23]. repeat split; apply Hr.
      * rewrite vnorm_scale, vabs_norm, (Rabs_pos_eq u Hu). apply Rmult_le_compat_r; [apply vnorm_nonneg|lra].
Qed.
