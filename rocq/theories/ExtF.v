(** Reals extended with the non-finite floating-point values.

    One tensor element that may be infinite or NaN.  Finite values are exact reals
    (no rounding, no overflow, no signed zero); the rules for [inf] and [NaN] are those of
    IEEE 754 as implemented by torch. *)
From Coq Require Import Reals Lra Bool.
Open Scope R_scope.

Inductive F := Fin (r : R) | PInf | NInf | NaN.

Definition Rltb (a b : R) : bool := if Rlt_dec a b then true else false.
Definition Rleb (a b : R) : bool := if Rle_dec a b then true else false.
Definition Reqb (a b : R) : bool := if Req_EM_T a b then true else false.

Lemma Rltb_true a b : Rltb a b = true <-> a < b.
Proof. unfold Rltb; destruct (Rlt_dec a b); split; intros; auto; discriminate. Qed.
Lemma Rltb_false a b : Rltb a b = false <-> b <= a.
Proof. unfold Rltb; destruct (Rlt_dec a b); split; intros; auto; try discriminate; lra. Qed.
Lemma Rleb_true a b : Rleb a b = true <-> a <= b.
Proof. unfold Rleb; destruct (Rle_dec a b); split; intros; auto; discriminate. Qed.
Lemma Rleb_false a b : Rleb a b = false <-> b < a.
Proof. unfold Rleb; destruct (Rle_dec a b); split; intros; auto; try discriminate; lra. Qed.
Lemma Reqb_true a b : Reqb a b = true <-> a = b.
Proof. unfold Reqb; destruct (Req_EM_T a b); split; intros; auto; discriminate. Qed.
Lemma Reqb_false a b : Reqb a b = false <-> a <> b.
Proof. unfold Reqb; destruct (Req_EM_T a b); split; intros; auto; try discriminate; contradiction. Qed.

(** [a < b], [a <= b]: false as soon as one side is NaN *)
Definition flt (a b : F) : bool :=
  match a, b with
  | NaN, _ | _, NaN => false
  | Fin x, Fin y => Rltb x y
  | PInf, _ => false
  | _, PInf => true
  | _, NInf => false
  | NInf, _ => true
  end.
Definition fle (a b : F) : bool :=
  match a, b with
  | NaN, _ | _, NaN => false
  | Fin x, Fin y => Rleb x y
  | NInf, _ => true
  | _, PInf => true
  | PInf, _ => false
  | _, NInf => false
  end.
Definition isnan (a : F) : bool := match a with NaN => true | _ => false end.
(** [torch.isfinite] *)
Definition isfinite (a : F) : bool := match a with Fin _ => true | _ => false end.

Definition fopp (a : F) : F :=
  match a with Fin x => Fin (- x) | PInf => NInf | NInf => PInf | NaN => NaN end.
Definition fadd (a b : F) : F :=
  match a, b with
  | NaN, _ | _, NaN => NaN
  | Fin x, Fin y => Fin (x + y)
  | PInf, NInf | NInf, PInf => NaN
  | PInf, _ | _, PInf => PInf
  | NInf, _ | _, NInf => NInf
  end.
Definition fsub (a b : F) : F := fadd a (fopp b).
Definition fmul (a b : F) : F :=
  match a, b with
  | NaN, _ | _, NaN => NaN
  | Fin x, Fin y => Fin (x * y)
  | PInf, Fin y | Fin y, PInf => if Rltb 0 y then PInf else if Rltb y 0 then NInf else NaN
  | NInf, Fin y | Fin y, NInf => if Rltb 0 y then NInf else if Rltb y 0 then PInf else NaN
  | PInf, PInf | NInf, NInf => PInf
  | PInf, NInf | NInf, PInf => NaN
  end.
(** division by a finite number; dividing by zero gives NaN for 0/0 and the infinity with the sign
    of the numerator otherwise (the zero is taken as +0: signed zeros are not modelled) *)
Definition fdivr (a : F) (y : R) : F :=
  if Reqb y 0 then
    match a with
    | NaN => NaN
    | Fin x => if Rltb 0 x then PInf else if Rltb x 0 then NInf else NaN
    | PInf => PInf | NInf => NInf
    end
  else match a with
    | NaN => NaN
    | Fin x => Fin (x / y)
    | PInf => if Rltb 0 y then PInf else NInf
    | NInf => if Rltb 0 y then NInf else PInf
    end.

(** [torch.maximum], [torch.minimum]: NaN if either side is NaN *)
Definition fmax (a b : F) : F := if isnan a || isnan b then NaN else if flt a b then b else a.
Definition fmin (a b : F) : F := if isnan a || isnan b then NaN else if flt b a then b else a.
(** [torch.clamp(x, lo, hi)] with tensor bounds: [min(max(x, lo), hi)] *)
Definition fclamp (x lo hi : F) : F := fmin (fmax x lo) hi.

Lemma fle_refl a : a <> NaN -> fle a a = true.
Proof. destruct a; simpl; intros H; try reflexivity; try contradiction. apply Rleb_true; lra. Qed.
Lemma fle_trans a b c : fle a b = true -> fle b c = true -> fle a c = true.
Proof.
  destruct a, b, c; simpl; auto; try discriminate.
  rewrite !Rleb_true; lra.
Qed.
Lemma fle_antisym a b : fle a b = true -> fle b a = true -> a = b.
Proof.
  destruct a, b; simpl; auto; try discriminate.
  rewrite !Rleb_true; intros; f_equal; lra.
Qed.
Lemma flt_fle a b : flt a b = true -> fle a b = true.
Proof. destruct a, b; simpl; auto; try discriminate. rewrite Rltb_true, Rleb_true; lra. Qed.
Lemma flt_not_fle a b : a <> NaN -> b <> NaN -> flt a b = false -> fle b a = true.
Proof.
  destruct a, b; simpl; intros; auto; try contradiction; try discriminate.
  apply Rltb_false in H1; apply Rleb_true; assumption.
Qed.
Lemma flt_le_absurd a b : flt a b = true -> fle b a = true -> False.
Proof.
  destruct a, b; simpl; auto; try discriminate. rewrite Rltb_true, Rleb_true; lra.
Qed.

Lemma fmax_spec a b : a <> NaN -> b <> NaN ->
  fmax a b <> NaN /\ fle a (fmax a b) = true /\ fle b (fmax a b) = true /\ (fmax a b = a \/ fmax a b = b).
Proof.
  intros Ha Hb. unfold fmax.
  replace (isnan a) with false by (destruct a; auto; contradiction).
  replace (isnan b) with false by (destruct b; auto; contradiction). simpl.
  destruct (flt a b) eqn:E.
  - repeat split; auto using flt_fle, fle_refl.
  - repeat split; auto using flt_not_fle, fle_refl.
Qed.
Lemma fmin_spec a b : a <> NaN -> b <> NaN ->
  fmin a b <> NaN /\ fle (fmin a b) a = true /\ fle (fmin a b) b = true /\ (fmin a b = a \/ fmin a b = b).
Proof.
  intros Ha Hb. unfold fmin.
  replace (isnan a) with false by (destruct a; auto; contradiction).
  replace (isnan b) with false by (destruct b; auto; contradiction). simpl.
  destruct (flt b a) eqn:E.
  - repeat split; auto using flt_fle, fle_refl.
  - repeat split; auto using flt_not_fle, fle_refl.
Qed.

Lemma fclamp_nan lo hi : fclamp NaN lo hi = NaN.
Proof. reflexivity. Qed.

Lemma fle_not_nan_l a b : fle a b = true -> a <> NaN.
Proof. destruct a; simpl; congruence. Qed.
Lemma fle_not_nan_r a b : fle a b = true -> b <> NaN.
Proof. destruct a, b; simpl; congruence. Qed.

Lemma fclamp_range x lo hi : fle lo hi = true -> x <> NaN ->
  fle lo (fclamp x lo hi) = true /\ fle (fclamp x lo hi) hi = true.
Proof.
  intros H Hx. pose proof (fle_not_nan_l _ _ H) as Hl. pose proof (fle_not_nan_r _ _ H) as Hh.
  unfold fclamp. destruct (fmax_spec x lo Hx Hl) as (N & _ & L & _).
  destruct (fmin_spec (fmax x lo) hi N Hh) as (N2 & M1 & M2 & [E|E]).
  - split; [rewrite E; exact L | exact M2].
  - split; [rewrite E; exact H | exact M2].
Qed.

Lemma fclamp_id x lo hi : fle lo x = true -> fle x hi = true -> fclamp x lo hi = x.
Proof.
  intros H1 H2. pose proof (fle_not_nan_l _ _ H1) as Hl. pose proof (fle_not_nan_r _ _ H1) as Hx.
  pose proof (fle_not_nan_r _ _ H2) as Hh.
  unfold fclamp, fmax.
  replace (isnan x) with false by (destruct x; auto; contradiction).
  replace (isnan lo) with false by (destruct lo; auto; contradiction). simpl.
  destruct (flt x lo) eqn:E.
  - exfalso; eapply flt_le_absurd; eauto.
  - unfold fmin. replace (isnan x) with false by (destruct x; auto; contradiction).
    replace (isnan hi) with false by (destruct hi; auto; contradiction). simpl.
    destruct (flt hi x) eqn:E2; [exfalso; eapply flt_le_absurd; eauto | reflexivity].
Qed.
