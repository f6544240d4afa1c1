(** Limits, wrapping, line search and sampling. *)
From Coq Require Import Reals Lra Bool Arith Lia List ZArith.
From Verif Require Import Prelude ExtF IKModel IKProofs IKMore.
Import ListNotations.
Local Open Scope nat_scope.
Local Open Scope list_scope.

Lemma hist_at pt rt o l a qe b : e_conv o = false -> l = a ++ qe :: b -> (forall x, In x a -> ok pt rt (snd x) = false) -> (ok pt rt (snd qe) = true \/ b = []) ->
  e_q (hist pt rt o l) = fst qe /\ e_pos (hist pt rt o l) = pos_err (snd qe) /\ e_rot (hist pt rt o l) = rot_err (snd qe) /\ e_conv (hist pt rt o l) = ok pt rt (snd qe).
Proof.
  intros H -> Ha Hb. rewrite hist_app. destruct (hist_flags pt rt a o) as (_ & _ & C).
  assert (C' : e_conv (hist pt rt o a) = false).
  { rewrite C, H. cbn [orb]. apply not_true_iff_false. intros Q. apply existsb_exists in Q. destruct Q as (x & Hx & Q). rewrite Ha in Q by exact Hx. discriminate. }
  set (o' := hist pt rt o a) in *. change (qe :: b) with ([qe] ++ b). rewrite hist_app.
  assert (V : e_q (hist pt rt o' [qe]) = fst qe /\ e_pos (hist pt rt o' [qe]) = pos_err (snd qe) /\ e_rot (hist pt rt o' [qe]) = rot_err (snd qe) /\ e_conv (hist pt rt o' [qe]) = ok pt rt (snd qe)).
  { unfold hist; cbn [fold_left]; unfold upd_entry; cbn [e_q e_pos e_rot e_conv]. rewrite C'. auto. }
  destruct Hb as [Hb| ->]; [|exact V]. destruct V as (V1 & V2 & V3 & V4). rewrite Hb in V4.
  destruct (hist_frozen pt rt b _ V4) as (F1 & F2 & F3 & F4). rewrite F1, F2, F3, F4, V1, V2, V3, Hb. auto.
Qed.

(** ** Clamping *)
Lemma zip2_nth {A B C} (f : A -> B -> C) a b j x : nth_error (zip_with2 f a b) j = Some x ->
  exists y z, nth_error a j = Some y /\ nth_error b j = Some z /\ x = f y z.
Proof.
  revert b j. induction a as [|y a IH]; intros [|z b] [|j] H; cbn in H; try discriminate.
  - exists y, z. repeat split; auto. congruence.
  - apply IH in H. exact H.
Qed.
Lemma zip2_len {A B C} (f : A -> B -> C) a b : length (zip_with2 f a b) = Nat.min (length a) (length b).
Proof. revert b. induction a as [|y a IH]; intros [|z b]; cbn; auto. Qed.
Lemma combine_nth_error {A B} (a : list A) (b : list B) j x y : nth_error (combine a b) j = Some (x, y) -> nth_error a j = Some x /\ nth_error b j = Some y.
Proof.
  revert b j. induction a as [|u a IH]; intros [|v b] [|j] H; cbn in H; try discriminate.
  - split; cbn; congruence.
  - apply IH in H. exact H.
Qed.
Definition in_range (lo hi x : F) : Prop := x = NaN \/ (fle lo x = true /\ fle x hi = true).
Lemma clamp_row_range low high q j x lo hi : nth_error (clamp_row low high q) j = Some x -> nth_error low j = Some lo -> nth_error high j = Some hi ->
  fle lo hi = true -> in_range lo hi x.
Proof.
  intros H Hl Hh Hle. unfold clamp_row in H. apply zip2_nth in H. destruct H as (y & [l h] & Hy & Hc & ->). apply combine_nth_error in Hc.
  destruct Hc as [Hc1 Hc2]. rewrite Hl in Hc1. rewrite Hh in Hc2. cbn [fst snd]. assert (l = lo) by congruence. assert (h = hi) by congruence. subst l h.
  destruct (isnan y) eqn:N; [left; destruct y; try discriminate; reflexivity|]. right. apply fclamp_range; [exact Hle|]. intros Q. rewrite Q in N. discriminate.
Qed.
Section Lim.
Variable kern : nat -> list F -> list F * list F.
Variable k : ik.
Notation nr := (ik_nr k).
Lemma refs_clamped n : forall Q, (forall i, exists y, Q i = clamp_row (ik_low k) (ik_high k) y) -> forall i, exists y, refs kern k n Q i = clamp_row (ik_low k) (ik_high k) y.
Proof. induction n as [|n IH]; intros Q H i; [apply H|]. cbn [refs]. apply IH. intros l. eexists. reflexivity. Qed.
Lemma enf_clamped E i : exists y, enf_q kern k E i = clamp_row (ik_low k) (ik_high k) y.
Proof. apply refs_clamped. intros l. eexists. reflexivity. Qed.

(** *** finite values stay finite *)
Definition all_fin (l : list F) : Prop := forall x, In x l -> isfinite x = true.
Lemma all_fin_nth l j x : all_fin l -> nth_error l j = Some x -> exists r, x = Fin r.
Proof. intros H Hx. specialize (H x (nth_error_In _ _ Hx)). destruct x; try discriminate. eauto. Qed.
Lemma zip2_fin {A B} (f : A -> B -> F) a b : (forall j x y, nth_error a j = Some x -> nth_error b j = Some y -> isfinite (f x y) = true) -> all_fin (zip_with2 f a b).
Proof.
  intros H x Hx. apply In_nth_error in Hx. destruct Hx as (j & Hj). apply zip2_nth in Hj. destruct Hj as (y & z & H1 & H2 & ->). apply (H j); assumption.
Qed.
Definition fin_row (q : list F) : Prop := length q = ik_dof k /\ all_fin q.
Definition good_limits : Prop := length (ik_low k) = ik_dof k /\ length (ik_high k) = ik_dof k /\ length (ik_rev k) = ik_dof k /\
  forall j lo hi, nth_error (ik_low k) j = Some lo -> nth_error (ik_high k) j = Some hi -> fle lo hi = true /\ lo <> PInf /\ hi <> NInf /\
    (nth_error (ik_rev k) j = Some true -> isfinite lo = true /\ isfinite hi = true).
Lemma step_row_fin lr q dq : isfinite lr = true -> fin_row q -> length dq = ik_dof k -> all_fin dq -> fin_row (step_row lr q dq).
Proof.
  intros Hl [Hq1 Hq2] Hd1 Hd2. split; [unfold step_row; rewrite zip2_len; lia|]. apply zip2_fin. intros j x y Hx Hy.
  destruct (all_fin_nth _ _ _ Hq2 Hx) as [r1 ->]. destruct (all_fin_nth _ _ _ Hd2 Hy) as [r2 ->]. destruct lr; try discriminate. reflexivity.
Qed.
Lemma clamp_fin x lo hi : isfinite x = true -> fle lo hi = true -> lo <> PInf -> hi <> NInf -> isfinite (fclamp x lo hi) = true.
Proof.
  intros Hx Hle Hl Hh. destruct x as [x| | |]; try discriminate. destruct lo as [l| | |], hi as [h| | |]; try contradiction; try discriminate Hle;
    unfold fclamp, fmin, fmax; cbn [isnan orb flt]; repeat (match goal with |- context [if Rltb ?a ?b then _ else _] => destruct (Rltb a b) end; cbn [isnan orb flt]); reflexivity.
Qed.
Lemma clamp_row_fin q : good_limits -> fin_row q -> fin_row (clamp_row (ik_low k) (ik_high k) q).
Proof.
  intros (L1 & L2 & L3 & L4) [Hq1 Hq2]. split; [unfold clamp_row; rewrite zip2_len, combine_length; lia|]. apply zip2_fin. intros j x [lo hi] Hx Hy.
  apply combine_nth_error in Hy. destruct Hy as [H1 H2]. destruct (L4 j lo hi H1 H2) as (A & B & C & _). cbn [fst snd].
  destruct (all_fin_nth _ _ _ Hq2 Hx) as [r ->]. apply clamp_fin; auto.
Qed.
Lemma wrap_row_fin q : good_limits -> fin_row q -> fin_row (wrap_row k q).
Proof.
  intros (L1 & L2 & L3 & L4) [Hq1 Hq2]. split; [unfold wrap_row; rewrite zip2_len, !combine_length; lia|]. apply zip2_fin. intros j x [b [lo hi]] Hx Hy.
  apply combine_nth_error in Hy. destruct Hy as [H0 Hy]. apply combine_nth_error in Hy. destruct Hy as [H1 H2]. destruct (L4 j lo hi H1 H2) as (_ & _ & _ & D). cbn [fst snd].
  destruct (all_fin_nth _ _ _ Hq2 Hx) as [r ->]. destruct b; [|reflexivity]. destruct (D H0) as [D1 D2]. destruct lo; try discriminate. destruct hi; try discriminate.
  unfold wrap1, fdivr. cbn [fadd fsub fopp]. unfold Reqb. destruct (Req_EM_T 2 0); [exfalso; lra|]. cbn [fadd fsub fopp].
  destruct (Req_EM_T (2 * PI) 0); [exfalso; pose proof PI_RGT_0; lra|]. reflexivity.
Qed.
Hypothesis Hkern : forall p q, fin_row q -> length (fst (kern p q)) = ik_dof k /\ all_fin (fst (kern p q)).
Hypothesis Hlr : isfinite (ik_lr k) = true.
Hypothesis Hlim : good_limits.
Lemma refs_fin n : forall Q, (forall i, fin_row (Q i)) -> forall i, fin_row (refs kern k n Q i).
Proof.
  induction n as [|n IH]; intros Q H i; [apply H|]. cbn [refs]. apply IH. intros l. unfold ref1. destruct (Hkern (l / nr) (Q l) (H l)) as [K1 K2].
  apply clamp_row_fin; [exact Hlim|]. apply step_row_fin; auto.
Qed.
Lemma enf_fin E : (forall p r, fin_row (e_q (E p r))) -> forall i, fin_row (enf_q kern k E i).
Proof. intros H. apply refs_fin. intros i. apply clamp_row_fin; [exact Hlim|]. apply wrap_row_fin; [exact Hlim|]. apply H. Qed.
Variable np : nat.
Hypothesis Hls : forall f, ik_ls k = Some f -> forall q dq dx rem, length dq = length q -> length dx = length q -> length (f q dq dx rem) = length q /\ all_fin (f q dq dx rem).
Lemma iter_fin Q0 : (forall i, i < np * nr -> fin_row (Q0 i)) -> forall m i, i < np * nr -> fin_row (Qj kern k np Q0 m i).
Proof.
  intros H m. induction m as [|m IH]; intros i Hi; [apply H, Hi|]. unfold Qj. cbn [iter fbody f_q].
  set (a := iter kern k np m (finit k Q0)) in *. assert (Ha : fin_row (f_q a i)) by (apply IH, Hi). destruct (Hkern (i / nr) (f_q a i) Ha) as [K1 K2].
  assert (Hs : forall q dq dx rem, length q = np * nr -> length dq = length q -> length dx = length q -> isfinite (lrs k q dq dx rem i) = true).
  { intros q dq dx rem Hq Hq1 Hq2. unfold lrs. destruct (ik_ls k) as [f|] eqn:El; [|exact Hlr]. destruct (Hls f eq_refl q dq dx rem Hq1 Hq2) as [S1 S2]. apply S2, nth_In. lia. }
  unfold clampq. destruct (ik_clamp k); [apply clamp_row_fin; [exact Hlim|]|]; apply step_row_fin; auto; apply Hs; rewrite !vec_len; reflexivity.
Qed.
End Lim.

(** ** Rounding and wrapping *)
Lemma rround_spec x : (Rabs (IZR (rround x) - x) <= / 2)%R.
Proof.
  unfold rround. destruct (archimed (x - / 2)) as [A B]. set (u := up (x - / 2)) in *. destruct (Req_EM_T (x - / 2) (IZR (u - 1))) as [E|E].
  - rewrite minus_IZR in E. destruct (Z.even (u - 1)); apply Rabs_le; rewrite ?plus_IZR, minus_IZR; lra.
  - rewrite minus_IZR in E. apply Rabs_le. rewrite plus_IZR, minus_IZR. lra.
Qed.
Lemma fround_le_others x m : (Rabs (IZR (rround x) - x) <= Rabs (IZR m - x))%R.
Proof.
  pose proof (rround_spec x) as H. set (n := rround x) in *. destruct (Z.eq_dec m n) as [->|N]; [lra|].
  assert (1 <= Rabs (IZR m - IZR n))%R.
  { rewrite <- minus_IZR, <- abs_IZR. apply IZR_le. lia. }
  pose proof (Rabs_triang (IZR m - x) (x - IZR n)) as T. replace (IZR m - x + (x - IZR n))%R with (IZR m - IZR n)%R in T by ring.
  rewrite (Rabs_minus_sym x (IZR n)) in T. lra.
Qed.
Lemma wrap1_fin lo hi q : let n := rround (((lo + hi) / 2 - q) / (2 * PI)) in wrap1 true (Fin lo) (Fin hi) (Fin q) = Fin (q + 2 * PI * IZR n)%R.
Proof.
  intros n. unfold wrap1, fdivr. unfold Reqb. destruct (Req_EM_T 2 0); [exfalso; lra|]. cbn [fadd fsub fopp].
  destruct (Req_EM_T 2 0); [exfalso; lra|]. cbn [fadd fsub fopp].
  destruct (Req_EM_T (2 * PI) 0); [exfalso; pose proof PI_RGT_0; lra|]. cbn [fround fmul fadd].
  replace ((lo + hi) / 2 + - q)%R with ((lo + hi) / 2 - q)%R by ring. fold n. f_equal. ring.
Qed.
Lemma wrap_centre lo hi q (n := rround (((lo + hi) / 2 - q) / (2 * PI))) :
  (Rabs (q + 2 * PI * IZR n - (lo + hi) / 2) <= PI)%R /\
  forall m, (Rabs (q + 2 * PI * IZR n - (lo + hi) / 2) <= Rabs (q + 2 * PI * IZR m - (lo + hi) / 2))%R.
Proof.
  set (c := ((lo + hi) / 2)%R). set (x := ((c - q) / (2 * PI))%R) in *. pose proof PI_RGT_0 as P.
  assert (K : forall z, (q + 2 * PI * z - c = 2 * PI * (z - x))%R) by (intros z; unfold x; field; lra).
  assert (A : forall z, (Rabs (q + 2 * PI * z - c) = 2 * PI * Rabs (z - x))%R).
  { intros z. rewrite K, Rabs_mult. f_equal. apply Rabs_pos_eq. lra. }
  split.
  - rewrite A. pose proof (rround_spec x) as H. change (rround x) with n in H. apply Rle_trans with (2 * PI * / 2)%R; [apply Rmult_le_compat_l; lra | lra].
  - intros m. rewrite !A. apply Rmult_le_compat_l; [lra|]. apply fround_le_others.
Qed.
Lemma wrap_in lo hi q m (n := rround (((lo + hi) / 2 - q) / (2 * PI))) :
  (lo <= q + 2 * PI * IZR m <= hi)%R -> (lo <= q + 2 * PI * IZR n <= hi)%R.
Proof.
  intros H. destruct (wrap_centre lo hi q) as [_ W]. specialize (W m). fold n in W.
  assert (Rabs (q + 2 * PI * IZR m - (lo + hi) / 2) <= (hi - lo) / 2)%R by (apply Rabs_le; lra).
  assert (B : (Rabs (q + 2 * PI * IZR n - (lo + hi) / 2) <= (hi - lo) / 2)%R) by lra.
  unfold Rabs in B. destruct (Rcase_abs (q + 2 * PI * IZR n - (lo + hi) / 2)); lra.
Qed.

(** ** Line search *)
Section Line.
Variable errf : nat -> list F -> F.
Variable ls : lsearch.
Variables (n : nat) (q dq : nat -> list F) (e0 : nat -> F).
(** row [i] makes enough progress with the [j]-th step size *)
Definition lrj (j : nat) : F := Fin (ls_lr ls * ls_factor ls ^ j).
Definition suff (i j : nat) : bool := flt (Fin (ls_suff ls)) (fsub (e0 i) (errf i (step_row (lrj j) (q i) (dq i)))).
(** the row after [m] iterations *)
Fixpoint rowj (rem : nat -> bool) (i m : nat) : lrow :=
  match m with 0 => mkLrow (lrj 0) (rem i) (Fin 0%R) | S m => ls_row errf ls i (q i) (dq i) (e0 i) (rowj rem i m) end.
Lemma ls_step_vec (r : nat -> lrow) : ls_step errf ls (vec n q) (vec n dq) (vec n e0) (vec n r) = vec n (fun i => ls_row errf ls i (q i) (dq i) (e0 i) (r i)).
Proof. unfold ls_step. rewrite !combine_vec, mapi_vec. reflexivity. Qed.
Lemma ls_loop_rows rem c : forall m, exists m', m <= m' <= m + c /\
  ls_loop errf ls c (vec n q) (vec n dq) (vec n e0) (vec n (fun i => rowj rem i m)) = vec n (fun i => rowj rem i m') /\
  (m' < m + c -> forall i, i < n -> l_rem (rowj rem i m') = false).
Proof.
  induction c as [|c IH]; intros m; [exists m; split; [lia|]; split; [reflexivity | lia]|]. cbn [ls_loop].
  destruct (existsb l_rem (vec n (fun i => rowj rem i m))) eqn:E.
  - rewrite ls_step_vec. destruct (IH (S m)) as (m' & H1 & H2 & H3). exists m'. split; [lia|]. split; [exact H2|]. intros. apply H3; [lia | assumption].
  - exists m. split; [lia|]. split; [reflexivity|]. intros _ i Hi. apply not_true_iff_false. intros Q. apply not_true_iff_false in E. apply E.
    apply existsb_vec. exists i. auto.
Qed.
Lemma rowj_spec rem i m : exists j, j <= m /\ l_lr (rowj rem i m) = lrj j /\ (forall l, l < j -> suff i l = false) /\ (j < m -> suff i j = true) /\
  l_rem (rowj rem i m) = rem i && (j =? m).
Proof.
  induction m as [|m (j & Hj & L & H1 & H2 & H3)].
  - exists 0. repeat split; auto; try (intros; lia). cbn. rewrite andb_true_r. reflexivity.
  - cbn [rowj]. unfold ls_row. cbn [l_lr l_rem]. rewrite L. fold (suff i j). destruct (suff i j) eqn:Es.
    + exists j. repeat split; auto. rewrite H3. destruct (Nat.eqb_spec j (Datatypes.S m)); [lia|]. rewrite !andb_false_r. reflexivity.
    + assert (j = m) by (destruct (Nat.eq_dec j m); [assumption | assert (Hlt : j < m) by lia; specialize (H2 Hlt); congruence]). subst j.
      exists (Datatypes.S m). repeat split; try lia.
      * unfold lrj. cbn [fmul pow]. f_equal. ring.
      * intros l Hl. destruct (Nat.eq_dec l m) as [->|]; [exact Es | apply H1; lia].
      * rewrite H3, !Nat.eqb_refl, !andb_true_r. reflexivity.
Qed.
End Line.

Lemma search_rows errf ls nr n (q dq dx : nat -> list F) rem :
  do_line_search errf ls nr (vec n q) (vec n dq) (vec n dx) rem =
  ls_loop errf ls (ls_iter ls) (vec n q) (vec n dq) (vec n (fun i => fnorm (dx i))) (vec n (fun i => rowj errf ls q dq (fun i => fnorm (dx i)) (fun i => nth (i / nr) rem false) i 0)).
Proof.
  unfold do_line_search. rewrite map_vec, mapi_vec. f_equal. apply vec_ext. intros i _. cbn [rowj]. unfold lrj. cbn [pow]. rewrite Rmult_1_r. reflexivity.
Qed.

(** ** Starting configurations *)
Lemma concat_repeat_vec {A} (d : nat -> A) w np : 0 < w -> concat (repeat (vec w d) np) = vec (np * w) (fun i => d (i mod w)).
Proof.
  intros Hw. pose proof (concat_tab np w (fun _ i => d i) Hw) as H. rewrite <- H. f_equal. apply repeat_vec.
Qed.
Lemma reshape_dof {A} m dof (d : nat -> A) : 0 < dof -> reshape dof (vec (m * dof) d) = Ok (vec m (fun i => vec dof (fun j => d (i * dof + j)))).
Proof. intros H. apply reshape_vec, H. Qed.

(** 2-D configurations: problem [p], retry [r] starts from row [r] *)
Lemma start_2d dof nr np d : 0 < dof -> 0 < nr ->
  start_configs dof nr np (mkTens [nr; dof] (vec (nr * dof) d)) = Ok (vec (np * nr) (fun i => vec dof (fun j => d ((i mod nr) * dof + j)))).
Proof.
  intros Hd Hn. unfold start_configs, numel. cbn [t_shape t_data fold_right length last]. rewrite Nat.mul_1_r.
  destruct (Nat.eqb_spec (nr * dof) (np * dof * nr)) as [E|E].
  - assert (np = 1).
    { assert ((nr * dof) * 1 = (nr * dof) * np) by lia. apply Nat.mul_cancel_l in H; [lia|]. apply Nat.neq_mul_0. lia. }
    subst np. rewrite reshape_dof by exact Hd. rewrite Nat.mul_1_l. f_equal. apply vec_ext. intros i Hi. rewrite Nat.mod_small by exact Hi. reflexivity.
  - rewrite (Nat.mul_comm dof nr), Nat.eqb_refl. cbn [Nat.leb]. rewrite concat_repeat_vec by (apply Nat.mul_pos_pos; assumption).
    replace (np * (nr * dof)) with (np * nr * dof) by lia. rewrite reshape_dof by exact Hd. f_equal. apply vec_ext. intros i Hi. apply vec_ext. intros j Hj. f_equal.
    rewrite (Nat.mul_comm nr dof), Nat.mod_mul_r by lia.
    replace (i * dof + j) with (j + i * dof) by lia. rewrite Nat.mod_add, Nat.div_add, Nat.mod_small, Nat.div_small by lia. cbn [plus]. lia.
Qed.
(** 3-D configurations, when they get this far: problem [p], retry [r] starts from entry [p][r] *)
Lemma start_3d dof nr np d : 0 < dof ->
  start_configs dof nr np (mkTens [np; nr; dof] (vec (np * nr * dof) d)) = Ok (vec (np * nr) (fun i => vec dof (fun j => d (i * dof + j)))).
Proof.
  intros Hd. unfold start_configs, numel. cbn [t_shape t_data fold_right]. replace (np * (nr * (dof * 1))) with (np * dof * nr) by lia. rewrite Nat.eqb_refl.
  apply reshape_dof, Hd.
Qed.

Lemma mapi_from_len {A B} (f : nat -> A -> B) l k : length (mapi_from f k l) = length l.
Proof. revert k. induction l; intros k; simpl; [reflexivity | rewrite IHl; reflexivity]. Qed.
Lemma nth_error_mapi_from {A B} (f : nat -> A -> B) l k i : nth_error (mapi_from f k l) i = option_map (f (k + i)) (nth_error l i).
Proof.
  revert k i. induction l as [|x l IH]; intros k [|i]; simpl; try reflexivity; [rewrite Nat.add_0_r; reflexivity|].
  rewrite IH, Nat.add_succ_r. reflexivity.
Qed.
