(** Joint-value inputs: [ensure_tensor], [clamp], and forward kinematics on any input form. *)
From Coq Require Import String Bool Arith Lia List Permutation.
From Verif Require Import Prelude ExtF Tree ChainModel SpecFK ChainProofs.
Import ListNotations.

Section Input.
Context {S : Type} (nan : S) (is_nan : S -> bool).

(** torch tensors of rank 0, 1 and 2 *)
Inductive tens := T0 (x : S) | T1 (l : list S) | T2 (cols : nat) (rows : list (list S)).

(** A dictionary value: a number or 0-d tensor (shape ()), or a 1-d tensor (shape (B,)).
    numpy arrays and tensors of higher rank as dictionary values are not modelled. *)
Inductive dval := DS (x : S) | DV (l : list S).

(** chain.py:213-220 [get_dict_elem_shape]: shape of the first value; an empty dictionary raises IndexError *)
Definition get_dict_elem_shape (d : dict (option string) dval) : res (option nat) :=
  match d with
  | [] => Err IndexError
  | (_, DS _) :: _ => Ok None
  | (_, DV l) :: _ => Ok (Some (length l))
  end.

(** the value broadcast to B entries, as [th[..., i] = value] does *)
Definition expand (B : nat) (v : dval) : res (list S) :=
  match v with
  | DS x => Ok (repeat x B)
  | DV l => if Nat.eqb (length l) B then Ok l
            else match l with [x] => Ok (repeat x B) | _ => Err RuntimeError end
  end.

Definition set_col (j : nat) (vals : list S) (rows : list (list S)) : list (list S) :=
  zip_with (fun x row => set_nth j x row) vals rows.

(** chain.py:580-582: the loop over dictionary items *)
Fixpoint fill (names : list (option string)) (B : nat) (d : dict (option string) dval) (rows : list (list S))
  : res (list (list S)) :=
  match d with
  | [] => Ok rows
  | (k, v) :: r =>
      do j <- of_opt ValueError (index_of oseqb k names);
      do vals <- expand B v;
      fill names B r (set_col j vals rows)
  end.

(** chain.py:583-587: building the message concatenates joint names, and a joint name of [None] raises TypeError;
    [zip] stops at the shorter of the names and the first dimension of [th] *)
Definition missing_error (names : list (option string)) (dim0 : nat) : exn :=
  if existsb (fun o => match o with None => true | Some _ => false end) (firstn dim0 names)
  then TypeError else ValueError.

(** chain.py:574-588 *)
Definition ensure_dict (names : list (option string)) (d : dict (option string) dval) : res tens :=
  do shape <- get_dict_elem_shape d;
  let n := length names in
  let B := match shape with None => 1 | Some b => b end in
  do rows <- fill names B d (repeat (repeat nan n) B);
  if existsb (existsb is_nan) rows
  then Err (missing_error names (match shape with None => n | Some b => b end))
  else match shape with
       | None => Ok (T1 (match rows with [r] => r | _ => [] end))
       | Some _ => Ok (T2 n rows)
       end.

(** chain.py:566-589 [ensure_tensor]: lists and numpy arrays are copied into a tensor *)
Inductive input := InTensor (t : tens) | InNumpy (t : tens) | InList (t : tens) | InDict (d : dict (option string) dval).
Definition ensure_tensor (names : list (option string)) (i : input) : res tens :=
  match i with
  | InTensor t | InNumpy t | InList t => Ok t
  | InDict d => ensure_dict names d
  end.

(** [torch.atleast_2d], chain.py:559 *)
Definition atleast_2d (t : tens) : thT S :=
  match t with
  | T0 x => mkTh 1 [[x]]
  | T1 l => mkTh (length l) [l]
  | T2 c rows => mkTh c rows
  end.

(** chain.py:542-564 with its input conversion *)
Definition fk_any {T A} (O : Ops T A S) (c : chain T A) (i : input) (idxs : option (list nat))
  : res (dict string (list T)) :=
  do t <- ensure_tensor (c_names c) i;
  forward_kinematics O c (atleast_2d t) idxs.

(** ** Lemmas on the dictionary loop *)
Lemma set_col_length j vals rows : length vals = length rows -> length (set_col j vals rows) = length rows.
Proof. intros H. unfold set_col. rewrite zip_with_length. lia. Qed.

(** value that row [b] of a dictionary entry contributes *)
Definition dval_at (v : dval) (b : nat) : option S :=
  match v with DS x => Some x | DV l => match l with [x] => Some x | _ => nth_error l b end end.
(** the value fits the batch *)
Definition fits (B : nat) (v : dval) : Prop :=
  match v with DS _ => True | DV l => length l = B \/ length l = 1 end.

Lemma nth_repeat_error {X} (x : X) n i : i < n -> nth_error (repeat x n) i = Some x.
Proof. intros H. rewrite (nth_error_nth' _ x) by (rewrite repeat_length; exact H). rewrite nth_repeat; reflexivity. Qed.

Lemma expand_ok B v : fits B v -> exists vals, expand B v = Ok vals /\ length vals = B /\
  forall b, b < B -> nth_error vals b = dval_at v b.
Proof.
  destruct v as [x|l]; simpl.
  - intros _. exists (repeat x B). rewrite repeat_length. repeat split; auto. intros; apply nth_repeat_error; assumption.
  - intros H. destruct (Nat.eqb_spec (length l) B) as [E|E].
    + exists l. repeat split; auto. intros b Hb.
      destruct l as [|x [|y l]]; auto. simpl in E; subst. destruct b; [reflexivity | lia].
    + destruct H as [H|H]; [contradiction|]. destruct l as [|x [|y l]]; try discriminate.
      exists (repeat x B). rewrite repeat_length. repeat split; auto. intros; apply nth_repeat_error; assumption.
Qed.

Lemma expand_bad B v : ~ fits B v -> expand B v = Err RuntimeError.
Proof.
  destruct v as [x|l]; simpl; intros H; [tauto|]. destruct (Nat.eqb_spec (length l) B) as [E|E]; [tauto|].
  destruct l as [|x [|y l]]; auto. simpl in H; tauto.
Qed.

Definition cell (rows : list (list S)) (b j : nat) : option S :=
  match nth_error rows b with Some r => nth_error r j | None => None end.

Lemma cell_set_col rows n B j vals b k : length vals = B -> length rows = B -> (forall r, In r rows -> length r = n) ->
  j < n -> b < B -> k < n ->
  cell (set_col j vals rows) b k = if Nat.eqb j k then nth_error vals b else cell rows b k.
Proof.
  intros Hv Hr Hw Hj Hb Hk. unfold cell, set_col.
  destruct (nth_error vals b) as [x|] eqn:Ev; [|apply nth_error_None in Ev; lia].
  destruct (nth_error rows b) as [r|] eqn:Er; [|apply nth_error_None in Er; lia].
  rewrite (zip_with_nth _ _ _ _ _ _ Ev Er).
  destruct (Nat.eqb_spec j k) as [->|Hne].
  - apply set_nth_same. rewrite (Hw r); [exact Hk | eapply nth_error_In; eauto].
  - apply set_nth_other; exact Hne.
Qed.

Lemma set_col_width rows n j vals : (forall r, In r rows -> length r = n) -> forall r, In r (set_col j vals rows) -> length r = n.
Proof.
  unfold set_col. revert vals. induction rows as [|r0 rows IH]; destruct vals as [|v vals]; simpl; intros Hw r Hin; try contradiction.
  destruct Hin as [<-|Hin].
  - rewrite set_nth_length. apply Hw; auto.
  - eapply IH; eauto.
Qed.

Lemma fill_ok names n B : n = length names -> NoDup names -> forall d rows,
  NoDup (map fst d) ->
  (forall k, In k (map fst d) -> In k names) -> (forall k v, In (k, v) d -> fits B v) ->
  length rows = B -> (forall r, In r rows -> length r = n) ->
  exists rows', fill names B d rows = Ok rows' /\ length rows' = B /\ (forall r, In r rows' -> length r = n) /\
    forall b j nm, b < B -> nth_error names j = Some nm ->
      cell rows' b j = match dget oseqb nm d with Some v => dval_at v b | None => cell rows b j end.
Proof.
  intros Hn Hnd. induction d as [|[k v] d IH]; intros rows Hk Hin Hf Hl Hw; simpl.
  - exists rows. repeat split; auto.
  - inversion Hk as [|? ? Hnk Hk']; subst.
    assert (Hkin : In k names) by (apply Hin; left; reflexivity).
    destruct (index_of_in oseqb oseqb_eq k names Hkin) as [j Hj]. rewrite Hj. cbn [of_opt rbind].
    destruct (expand_ok (length rows) v) as (vals & Hv & Hvl & Hvn); [eapply Hf; left; reflexivity|].
    rewrite Hv. cbn [rbind].
    assert (Hjl : j < length names) by (eapply (index_of_lt oseqb oseqb_eq); exact Hj).
    destruct (IH (set_col j vals rows)) as (rows' & Hr & Hrl & Hrw & Hc); auto.
    + intros; eapply Hin; right; assumption.
    + intros; eapply Hf; right; eassumption.
    + apply set_col_length, Hvl.
    + apply set_col_width, Hw.
    + exists rows'. split; [exact Hr|]. split; [exact Hrl|]. split; [exact Hrw|].
      intros b i nm Hb Hi. rewrite (Hc b i nm Hb Hi).
      assert (Hil : i < length names) by (apply nth_error_Some; congruence).
      rewrite (cell_set_col rows (length names) (length rows)) by auto.
      destruct (oseqb nm k) eqn:E.
      * apply oseqb_eq in E; subst.
        replace (dget oseqb k d) with (@None dval) by (symmetry; apply (dget_none oseqb oseqb_eq); exact Hnk).
        rewrite (index_of_nodup oseqb oseqb_eq k names i Hnd Hi) in Hj. inversion Hj; subst.
        rewrite Nat.eqb_refl. apply Hvn, Hb.
      * destruct (dget oseqb nm d); [reflexivity|]. destruct (Nat.eqb_spec j i) as [->|]; [|reflexivity].
        exfalso. apply (index_of_some oseqb oseqb_eq) in Hj as [Hj _]. rewrite Hi in Hj. inversion Hj; subst.
        rewrite (proj2 (oseqb_eq k k) eq_refl) in E. discriminate.
Qed.

Lemma fill_unknown names B : forall d rows,
  (exists k, In k (map fst d) /\ ~ In k names) -> (forall k v, In (k, v) d -> fits B v) ->
  fill names B d rows = Err ValueError.
Proof.
  induction d as [|[k v] d IH]; intros rows (k0 & Hk & Hno) Hf; simpl in *; [contradiction|].
  destruct (index_of oseqb k names) as [j|] eqn:Hj; [|reflexivity]. cbn [of_opt rbind].
  destruct (expand_ok B v) as (vals & Hv & _); [eapply Hf; left; reflexivity|]. rewrite Hv. cbn [rbind].
  apply IH.
  - destruct Hk as [<-|Hk]; [|eauto]. exfalso. apply Hno.
    apply (index_of_some oseqb oseqb_eq) in Hj as [Hj _]. eapply nth_error_In; eauto.
  - intros; eapply Hf; right; eassumption.
Qed.

(** the batch size set by the first value *)
Definition first_batch (d : dict (option string) dval) : option nat :=
  match d with (_, DV l) :: _ => Some (length l) | _ => None end.

Lemma repeat_rows n B (r : list S) : In r (repeat (repeat nan n) B) -> length r = n.
Proof. intros H. apply repeat_spec in H. subst. apply repeat_length. Qed.

Lemma existsb_cells rows n : (forall r, In r rows -> length r = n) ->
  (existsb (existsb is_nan) rows = true <->
   exists b j x, b < length rows /\ j < n /\ cell rows b j = Some x /\ is_nan x = true).
Proof.
  intros Hw. rewrite existsb_exists. split.
  - intros (r & Hr & E). apply existsb_exists in E as (x & Hx & E).
    apply In_nth_error in Hr as [b Hb]. apply In_nth_error in Hx as [j Hj].
    exists b, j, x. unfold cell. rewrite Hb. repeat split; auto.
    + apply nth_error_Some; congruence.
    + rewrite <- (Hw r) by (eapply nth_error_In; eauto). apply nth_error_Some; congruence.
  - intros (b & j & x & Hb & Hj & Hc & E). unfold cell in Hc.
    destruct (nth_error rows b) as [r|] eqn:Er; [|discriminate]. exists r.
    split; [eapply nth_error_In; eauto|]. apply existsb_exists. exists x. split; [eapply nth_error_In; eauto | exact E].
Qed.

(** A complete dictionary: exactly the joint names as keys, values that fit, none of them NaN. *)
Theorem ensure_dict_complete names d :
  NoDup names -> NoDup (map fst d) -> d <> [] ->
  (forall k, In k (map fst d) <-> In k names) ->
  let B := match first_batch d with Some b => b | None => 1 end in
  (forall k v, In (k, v) d -> fits B v) ->
  (forall k v b x, In (k, v) d -> dval_at v b = Some x -> is_nan x = false) ->
  exists rows, ensure_dict names d = Ok (match first_batch d with None => T1 (match rows with [r] => r | _ => [] end)
                                                                | Some _ => T2 (length names) rows end) /\
    length rows = B /\ (forall r, In r rows -> length r = length names) /\
    forall b j nm, b < B -> nth_error names j = Some nm ->
      exists v x, In (nm, v) d /\ dval_at v b = Some x /\ cell rows b j = Some x.
Proof.
  intros Hnd Hkd Hne Hk B Hf Hnn.
  assert (Hs : get_dict_elem_shape d = Ok (first_batch d)).
  { destruct d as [|[k [x|l]] d]; [contradiction | reflexivity | reflexivity]. }
  destruct (fill_ok names (length names) B eq_refl Hnd d (repeat (repeat nan (length names)) B)) as (rows & Hr & Hl & Hw & Hc); auto.
  { intros k Hki. apply Hk, Hki. }
  { apply repeat_length. }
  { intros; eapply repeat_rows; eauto. }
  assert (Hcell : forall b j nm, b < B -> nth_error names j = Some nm ->
     exists v x, In (nm, v) d /\ dval_at v b = Some x /\ cell rows b j = Some x).
  { intros b j nm Hb Hj. specialize (Hc b j nm Hb Hj).
    destruct (dget oseqb nm d) as [v|] eqn:Ed.
    - apply (dget_in oseqb oseqb_eq) in Ed. destruct (expand_ok B v) as (vals & _ & Hvl & Hvn); [eapply Hf; eauto|].
      destruct (nth_error vals b) as [x|] eqn:Ex; [|apply nth_error_None in Ex; lia].
      exists v, x. rewrite <- Hvn, Ex by exact Hb. rewrite Hc, <- Hvn, Ex by exact Hb. auto.
    - apply (dget_none oseqb oseqb_eq) in Ed. exfalso. apply Ed, Hk. eapply nth_error_In; eauto. }
  exists rows. split; [|split; [exact Hl | split; [exact Hw | exact Hcell]]].
  unfold ensure_dict. rewrite Hs. cbn [rbind]. fold B. rewrite Hr. cbn [rbind].
  destruct (existsb (existsb is_nan) rows) eqn:E.
  - apply (existsb_cells rows (length names) Hw) in E as (b & j & x & Hb & Hj & Hx & Enan).
    destruct (nth_error names j) as [nm|] eqn:En; [|apply nth_error_None in En; lia].
    rewrite Hl in Hb. destruct (Hcell b j nm Hb En) as (v & y & Hin & Hy & Hy2). rewrite Hx in Hy2. inversion Hy2; subst.
    rewrite (Hnn _ _ _ _ Hin Hy) in Enan. discriminate.
  - destruct (first_batch d); reflexivity.
Qed.

(** An unknown key is rejected. *)
Theorem ensure_dict_unknown names d :
  (exists k, In k (map fst d) /\ ~ In k names) ->
  (forall k v, In (k, v) d -> fits (match first_batch d with Some b => b | None => 1 end) v) ->
  ensure_dict names d = Err ValueError.
Proof.
  intros Hk Hf.
  assert (Hs : get_dict_elem_shape d = Ok (first_batch d)).
  { destruct Hk as (k & Hk & _). destruct d as [|[k' [x|l]] d]; [contradiction | reflexivity | reflexivity]. }
  unfold ensure_dict. rewrite Hs. cbn [rbind]. rewrite fill_unknown; auto.
Qed.

(** A missing joint is rejected, never filled in. *)
Theorem ensure_dict_missing names d : is_nan nan = true ->
  NoDup names -> NoDup (map fst d) -> d <> [] ->
  (forall k, In k (map fst d) -> In k names) ->
  (exists k, In k names /\ ~ In k (map fst d)) ->
  let B := match first_batch d with Some b => b | None => 1 end in
  B <> 0 ->
  (forall k v, In (k, v) d -> fits B v) ->
  exists e, ensure_dict names d = Err e /\ (e = ValueError \/ e = TypeError) /\
    ((forall k, In k names -> k <> None) -> e = ValueError).
Proof.
  intros Hnan Hnd Hkd Hne Hk (k & Hkn & Hkm) B HB Hf.
  assert (Hs : get_dict_elem_shape d = Ok (first_batch d)).
  { destruct d as [|[k' [x|l]] d]; [contradiction | reflexivity | reflexivity]. }
  destruct (fill_ok names (length names) B eq_refl Hnd d (repeat (repeat nan (length names)) B)) as (rows & Hr & Hl & Hw & Hc); auto.
  { apply repeat_length. }
  { intros; eapply repeat_rows; eauto. }
  unfold ensure_dict. rewrite Hs. cbn [rbind]. fold B. rewrite Hr. cbn [rbind].
  assert (E : existsb (existsb is_nan) rows = true).
  { apply (existsb_cells rows (length names) Hw). apply In_nth_error in Hkn as [j Hj].
    assert (Hjl : j < length names) by (apply nth_error_Some; congruence).
    exists 0, j, nan. split; [lia|]. split; [exact Hjl|]. split; [|exact Hnan].
    rewrite (Hc 0 j k) by (auto; lia).
    replace (dget oseqb k d) with (@None dval) by (symmetry; apply (dget_none oseqb oseqb_eq); exact Hkm).
    unfold cell. rewrite nth_repeat_error by lia. apply nth_repeat_error; exact Hjl. }
  rewrite E. eexists. split; [reflexivity|]. unfold missing_error.
  destruct (existsb _ (firstn _ names)) eqn:Ex; [|auto]. split; [auto|].
  intros Hall. apply existsb_exists in Ex as (o & Ho & E2). destruct o; [discriminate|].
  exfalso. apply (Hall None); [|reflexivity].
  match type of Ho with In _ (firstn ?m _) => rewrite <- (firstn_skipn m names) end. apply in_or_app; left; exact Ho.
Qed.

(** key order is irrelevant *)
Theorem ensure_dict_order names d d' :
  NoDup names -> NoDup (map fst d) -> Permutation d d' ->
  first_batch d = first_batch d' ->
  (forall k, In k (map fst d) <-> In k names) -> d <> [] ->
  let B := match first_batch d with Some b => b | None => 1 end in
  (forall k v, In (k, v) d -> fits B v) ->
  (forall k v b x, In (k, v) d -> dval_at v b = Some x -> is_nan x = false) ->
  ensure_dict names d = ensure_dict names d'.
Proof.
  intros Hnd Hkd HP HB Hk Hne B Hf Hnn.
  pose proof (Permutation_map fst HP) as HPk.
  destruct (ensure_dict_complete names d Hnd Hkd Hne Hk Hf Hnn) as (rows & -> & Hl & Hw & Hc).
  destruct (ensure_dict_complete names d') as (rows' & -> & Hl' & Hw' & Hc'); auto.
  - eapply Permutation_NoDup; eauto.
  - intros ->. apply Permutation_sym, Permutation_nil in HP. contradiction.
  - intros k. rewrite <- Hk. split; apply Permutation_in; auto using Permutation_sym.
  - rewrite <- HB. intros k v Hin. eapply Hf. eapply Permutation_in; [apply Permutation_sym, HP | exact Hin].
  - intros k v b x Hin. eapply Hnn. eapply Permutation_in; [apply Permutation_sym, HP | exact Hin].
  - rewrite <- HB in *. fold B in Hl', Hc'.
    replace rows' with rows; [reflexivity|].
    apply list_ext. intros b. destruct (Nat.lt_ge_cases b B) as [Hb|Hb].
    + destruct (nth_error rows b) as [r|] eqn:Er; [|apply nth_error_None in Er; lia].
      destruct (nth_error rows' b) as [r'|] eqn:Er'; [|apply nth_error_None in Er'; lia].
      f_equal. apply list_ext. intros j.
      assert (L1 : length r = length names) by (apply Hw; eapply nth_error_In; eauto).
      assert (L2 : length r' = length names) by (apply Hw'; eapply nth_error_In; eauto).
      destruct (nth_error names j) as [nm|] eqn:En.
      * destruct (Hc b j nm Hb En) as (v & x & Hin & Hx & Hcx).
        destruct (Hc' b j nm Hb En) as (v' & x' & Hin' & Hx' & Hcx').
        assert (v = v').
        { apply (Permutation_in _ (Permutation_sym HP)) in Hin'.
          apply (dget_nodup oseqb oseqb_eq) in Hin; [|exact Hkd].
          apply (dget_nodup oseqb oseqb_eq) in Hin'; [|exact Hkd]. congruence. }
        subst. unfold cell in *. rewrite Er in Hcx. rewrite Er' in Hcx'. congruence.
      * apply nth_error_None in En. rewrite (proj2 (nth_error_None r j)), (proj2 (nth_error_None r' j)) by lia. reflexivity.
    + rewrite (proj2 (nth_error_None rows b)), (proj2 (nth_error_None rows' b)) by lia. reflexivity.
Qed.
End Input.
Arguments tens : clear implicits.
Arguments dval : clear implicits.
Arguments input : clear implicits.

(** ** clamp *)
(** One row of [torch.clamp(th, self.low, self.high)] (chain.py:604-605): equal widths pair up, a single
    column or a single limit is broadcast, other widths raise RuntimeError. *)
Fixpoint clamp3 (row lo hi : list F) : list F :=
  match row, lo, hi with
  | x :: r, l :: lr, h :: hr => fclamp x l h :: clamp3 r lr hr
  | _, _, _ => []
  end.
Definition clamp_row (lo hi row : list F) : res (list F) :=
  let n := length lo in
  if Nat.eqb (length row) n then Ok (clamp3 row lo hi)
  else match row with
       | [x] => Ok (clamp3 (repeat x n) lo hi)
       | _ => match lo, hi with
              | [l], [h] => Ok (map (fun x => fclamp x l h) row)
              | _, _ => Err RuntimeError
              end
       end.
(** chain.py:595-605 [Chain.clamp] *)
Definition clamp {T A} (c : chain T A) (i : input F) : res (tens F) :=
  do t <- ensure_tensor NaN isnan (c_names c) i;
  match t with
  | T0 x => do r <- clamp_row (c_low c) (c_high c) [x];
            (* a 0-d input keeps rank 1 after broadcasting against the limits *)
            Ok (T1 r)
  | T1 l => do r <- clamp_row (c_low c) (c_high c) l; Ok (T1 r)
  | T2 w rows => do r <- rmap (clamp_row (c_low c) (c_high c)) rows;
                 Ok (T2 (if Nat.eqb w 1 then length (c_low c) else w) r)
  end.

(** a row lies within the limits, entry by entry *)
Fixpoint in_limits (lo hi row : list F) : Prop :=
  match lo, hi, row with
  | [], [], [] => True
  | l :: lr, h :: hr, x :: r => fle l x = true /\ fle x h = true /\ in_limits lr hr r
  | _, _, _ => False
  end.

Lemma clamp3_in lo : forall hi row, length hi = length lo -> length row = length lo ->
  Forall2 (fun l h => fle l h = true) lo hi -> (forall x, In x row -> x <> NaN) ->
  in_limits lo hi (clamp3 row lo hi) /\ length (clamp3 row lo hi) = length row.
Proof.
  induction lo as [|l lo IH]; intros [|h hi] [|x row] Hh Hr HF Hn; simpl in *; try discriminate; auto.
  inversion HF; subst. destruct (IH hi row) as [I1 I2]; auto.
  destruct (fclamp_range x l h) as [R1 R2]; auto.
Qed.
Lemma clamp3_id lo : forall hi row, in_limits lo hi row -> clamp3 row lo hi = row.
Proof.
  induction lo as [|l lo IH]; intros [|h hi] [|x row] H; simpl in *; try contradiction; auto.
  destruct H as (H1 & H2 & H3). rewrite fclamp_id by assumption. f_equal; auto.
Qed.
Lemma clamp3_nth row lo hi i x l h : nth_error row i = Some x -> nth_error lo i = Some l -> nth_error hi i = Some h ->
  nth_error (clamp3 row lo hi) i = Some (fclamp x l h).
Proof.
  revert lo hi i; induction row as [|y row IH]; destruct lo as [|l0 lo], hi as [|h0 hi], i; simpl; intros H1 H2 H3; try discriminate.
  - congruence.
  - eauto.
Qed.
Lemma in_limits_length lo hi row : in_limits lo hi row -> length row = length lo.
Proof. revert hi row; induction lo; destruct hi, row; simpl; try tauto. intros (_ & _ & H). f_equal; eauto. Qed.
