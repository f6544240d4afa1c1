(** [Chain.clamp] on a chain built from a tree, and forward kinematics from dictionaries. *)
From Coq Require Import String Bool Arith Lia List Permutation.
From Verif Require Import Prelude ExtF Tree ChainModel SpecFK ChainProofs ChainTables Input.
Import ListNotations.

Section Clamp.
Context {T A S : Type} (O : Ops T A S).
Notation frame := (frame T A).

(** declared limits are ordered, and none of them is NaN *)
Definition ordered_limits (root : frame) : Prop :=
  forall f l h, In f (preorder root) -> moving f = true -> j_lim (f_joint f) = Some (l, h) -> fle l h = true.

(** the limits a joint declares, infinite if it declares none *)
Definition lim_lo (f : frame) : F := match j_lim (f_joint f) with Some (l, _) => l | None => NInf end.
Definition lim_hi (f : frame) : F := match j_lim (f_joint f) with Some (_, h) => h | None => PInf end.
(** row [x] respects the limits of the moving joints, in joint order *)
Definition within (root : frame) (row : list F) : Prop :=
  Forall2 (fun f x => fle (lim_lo f) x = true /\ fle x (lim_hi f) = true) (filter moving (preorder root)) row.

Lemma in_limits_forall2 (fs : list frame) : forall row,
  in_limits (map lim_lo fs) (map lim_hi fs) row <->
  Forall2 (fun f x => fle (lim_lo f) x = true /\ fle x (lim_hi f) = true) fs row.
Proof.
  induction fs as [|f fs IH]; intros [|x row]; simpl; split; intros H; try contradiction; auto; try (inversion H; fail).
  - destruct H as (H1 & H2 & H3). constructor; [auto | apply IH; exact H3].
  - inversion H as [|? ? ? ? [H1 H2] H3]; subst. repeat split; auto. apply IH; exact H3.
Qed.

Lemma chain_limits (root : frame) c : CTab O root c ->
  c_low c = map lim_lo (filter moving (preorder root)) /\ c_high c = map lim_hi (filter moving (preorder root)).
Proof.
  intros HC. rewrite (ct_low _ _ _ HC), (ct_high _ _ _ HC). unfold get_joint_limits. rewrite limits_spec. split; reflexivity.
Qed.

Lemma limits_ordered (root : frame) c : ordered_limits root -> CTab O root c ->
  Forall2 (fun l h => fle l h = true) (c_low c) (c_high c).
Proof.
  intros Ho HC. destruct (chain_limits root c HC) as [-> ->].
  assert (H : forall f, In f (filter moving (preorder root)) -> fle (lim_lo f) (lim_hi f) = true).
  { intros f Hf. apply filter_In in Hf as [Hf Hm]. unfold lim_lo, lim_hi.
    destruct (j_lim (f_joint f)) as [[l h]|] eqn:E; [eapply Ho; eauto | reflexivity]. }
  induction (filter moving (preorder root)) as [|f fs IH]; simpl; constructor; auto.
  - apply H; left; reflexivity.
  - apply IH. intros; apply H; right; assumption.
Qed.

Lemma clamp_row_spec (root : frame) c row : chain_init O root = Ok c -> ordered_limits root ->
  length row = length (moving_names root) -> (forall x, In x row -> x <> NaN) ->
  exists row', clamp_row (c_low c) (c_high c) row = Ok row' /\ within root row' /\
    (within root row -> row' = row) /\
    clamp_row (c_low c) (c_high c) row' = Ok row' /\
    (forall j f x, nth_error (filter moving (preorder root)) j = Some f -> nth_error row j = Some x ->
       (j_lim (f_joint f) = None -> nth_error row' j = Some x) /\
       (fle (lim_lo f) x = true -> fle x (lim_hi f) = true -> nth_error row' j = Some x) /\
       (flt x (lim_lo f) = true -> nth_error row' j = Some (lim_lo f)) /\
       (flt (lim_hi f) x = true -> nth_error row' j = Some (lim_hi f))).
Proof.
  intros Hc Ho Hl Hn. destruct (chain_init_ok O root) as (c' & Hc' & HC). rewrite Hc in Hc'; inversion Hc'; subst c'.
  pose proof (limits_ordered root c Ho HC) as HF. destruct (chain_limits root c HC) as [El Eh].
  assert (L1 : length row = length (c_low c)) by (rewrite El, map_length; unfold moving_names in Hl; rewrite map_length in Hl; exact Hl).
  assert (L2 : length (c_high c) = length (c_low c)) by (rewrite El, Eh, !map_length; reflexivity).
  destruct (clamp3_in (c_low c) (c_high c) row L2 L1 HF Hn) as [HI HL].
  exists (clamp3 row (c_low c) (c_high c)).
  assert (Ew : forall r, length r = length (c_low c) -> clamp_row (c_low c) (c_high c) r = Ok (clamp3 r (c_low c) (c_high c))).
  { intros r Hr. unfold clamp_row. rewrite Hr, Nat.eqb_refl. reflexivity. }
  split; [apply Ew, L1|]. split; [unfold within; rewrite <- in_limits_forall2, <- El, <- Eh; exact HI|].
  split; [unfold within; rewrite <- in_limits_forall2, <- El, <- Eh; apply clamp3_id|].
  split; [rewrite Ew by (rewrite HL; exact L1); f_equal; apply clamp3_id, HI|].
  intros j f x Hf Hx.
  assert (Hj : nth_error (clamp3 row (c_low c) (c_high c)) j = Some (fclamp x (lim_lo f) (lim_hi f))).
  { apply clamp3_nth; [exact Hx | rewrite El, nth_error_map, Hf; reflexivity | rewrite Eh, nth_error_map, Hf; reflexivity]. }
  assert (Hord : fle (lim_lo f) (lim_hi f) = true).
  { unfold lim_lo, lim_hi. destruct (j_lim (f_joint f)) as [[l h]|] eqn:E; [|reflexivity].
    apply nth_error_In, filter_In in Hf as [Hf Hm]. eapply Ho; eauto. }
  assert (Hxn : x <> NaN) by (apply Hn; eapply nth_error_In; eauto).
  rewrite Hj. repeat split; intros.
  - f_equal. unfold lim_lo, lim_hi. rewrite H. apply fclamp_id; destruct x; auto; contradiction.
  - f_equal. apply fclamp_id; assumption.
  - f_equal. destruct (fclamp_range x _ _ Hord Hxn) as [R1 R2].
    unfold fclamp, fmax. rewrite H.
    pose proof (fle_not_nan_l _ _ Hord) as N1. pose proof (fle_not_nan_r _ _ Hord) as N2.
    destruct (isnan x) eqn:E1; [destruct x; try discriminate; contradiction|].
    destruct (isnan (lim_lo f)) eqn:E2; [destruct (lim_lo f); try discriminate; contradiction|]. simpl.
    apply fle_antisym.
    + apply (fmin_spec (lim_lo f) (lim_hi f) N1 N2).
    + destruct (fmin_spec (lim_lo f) (lim_hi f) N1 N2) as (_ & _ & _ & [E|E]); rewrite E; [apply fle_refl; exact N1 | exact Hord].
  - f_equal. pose proof (fle_not_nan_l _ _ Hord) as N1. pose proof (fle_not_nan_r _ _ Hord) as N2.
    unfold fclamp. destruct (fmax_spec x (lim_lo f) Hxn N1) as (N3 & M1 & M2 & _).
    destruct (fmin_spec (fmax x (lim_lo f)) (lim_hi f) N3 N2) as (_ & _ & K & [E|E]); [|exact E].
    exfalso. rewrite E in K. eapply flt_le_absurd; [exact H|]. eapply fle_trans; eauto.
Qed.

(** rows of the right width *)
Lemma clamp_vec (root : frame) c row : chain_init O root = Ok c ->
  clamp c (InTensor (T1 row)) = (do r <- clamp_row (c_low c) (c_high c) row; Ok (T1 r)).
Proof. reflexivity. Qed.

(** forward kinematics from a complete dictionary of numbers *)
Theorem fk_dict_numbers (nan : S) (is_nan : S -> bool) (root : frame) c (v : config) d idxs :
  distinct_joints root -> chain_init O root = Ok c -> d <> [] ->
  NoDup (map fst d) -> (forall k, In k (map fst d) <-> In k (moving_names root)) ->
  (forall k x, In (k, x) d -> x = DS (v k) /\ is_nan (v k) = false) ->
  fk_any nan is_nan O c (InDict d) idxs = forward_kinematics O c (config_tensor root [v]) idxs.
Proof.
  intros Hd Hc Hne Hnd Hk Hv. destruct (chain_init_ok O root) as (c' & Hc' & HC). rewrite Hc in Hc'; inversion Hc'; subst c'.
  unfold fk_any, ensure_tensor. rewrite (ct_names _ _ _ HC).
  assert (Hfb : first_batch d = None).
  { destruct d as [|[k [x|l]] d]; try reflexivity. destruct (Hv k (DV l)) as [E _]; [left; reflexivity | discriminate]. }
  destruct (ensure_dict_complete nan is_nan (moving_names root) d) as (rows & -> & Hl & Hw & Hcell); auto.
  { intros k x Hin. destruct (Hv k x Hin) as [-> _]. simpl; auto. }
  { intros k x b y Hin Hy. destruct (Hv k x Hin) as [-> E]. simpl in Hy. inversion Hy; subst. exact E. }
  rewrite Hfb in *. destruct rows as [|r [|r2 rows]]; try discriminate. cbn [rbind atleast_2d].
  assert (Er : r = map v (moving_names root)).
  { apply list_ext. intros j. rewrite nth_error_map. destruct (nth_error (moving_names root) j) as [nm|] eqn:En; simpl.
    - destruct (Hcell 0 j nm (Nat.lt_0_succ _) En) as (x & y & Hin & Hy & Hcy). unfold cell in Hcy; simpl in Hcy.
      destruct (Hv _ _ Hin) as [-> _]. simpl in Hy. congruence.
    - apply nth_error_None in En. apply nth_error_None. rewrite (Hw r) by (left; reflexivity). exact En. }
  unfold config_tensor. rewrite Er, map_length. reflexivity.
Qed.

(** forward kinematics from a complete dictionary of batched values *)
Theorem fk_dict_batch (nan : S) (is_nan : S -> bool) (root : frame) c (vs : list config) d idxs :
  distinct_joints root -> chain_init O root = Ok c -> d <> [] ->
  NoDup (map fst d) -> (forall k, In k (map fst d) <-> In k (moving_names root)) ->
  (forall k x, In (k, x) d -> x = DV (map (fun v => v k) vs) /\ (forall v, In v vs -> is_nan (v k) = false)) ->
  fk_any nan is_nan O c (InDict d) idxs = forward_kinematics O c (config_tensor root vs) idxs.
Proof.
  unfold config in *. intros Hd Hc Hne Hnd Hk Hv. destruct (chain_init_ok O root) as (c' & Hc' & HC). rewrite Hc in Hc'; inversion Hc'; subst c'.
  unfold fk_any, ensure_tensor. rewrite (ct_names _ _ _ HC).
  assert (Hfb : first_batch d = Some (length vs)).
  { destruct d as [|[k x] d]; [contradiction|]. destruct (Hv k x (or_introl eq_refl)) as [-> _]. simpl. rewrite map_length; reflexivity. }
  assert (Hat : forall k b, b < length vs -> dval_at (DV (map (fun v => v k) vs)) b = option_map (fun v => v k) (nth_error vs b)).
  { intros k b Hb. unfold dval_at. rewrite <- nth_error_map. destruct vs as [|v0 [|v1 vs']]; try reflexivity.
    destruct b; [reflexivity | simpl in Hb; lia]. }
  destruct (ensure_dict_complete nan is_nan (moving_names root) d) as (rows & -> & Hl & Hw & Hcell); auto.
  { rewrite Hfb. intros k x Hin. destruct (Hv k x Hin) as [-> _]. simpl. rewrite map_length; auto. }
  { intros k x b y Hin Hy. destruct (Hv k x Hin) as [-> E]. unfold dval_at in Hy.
    assert (Hin2 : In y (map (fun v => v k) vs)).
    { destruct vs as [|v0 [|v1 vs']]; simpl in Hy.
      - destruct b; discriminate.
      - inversion Hy; left; reflexivity.
      - eapply nth_error_In; exact Hy. }
    apply in_map_iff in Hin2 as (v & <- & Hv2). apply E, Hv2. }
  rewrite Hfb in *. cbn [rbind atleast_2d]. f_equal. unfold config_tensor. f_equal.
  apply list_ext. intros b. rewrite nth_error_map. destruct (nth_error vs b) as [v|] eqn:Ev; simpl.
  - assert (Hb : b < length vs) by (apply nth_error_Some; congruence).
    destruct (nth_error rows b) as [r|] eqn:Er; [|apply nth_error_None in Er; lia]. f_equal.
    apply list_ext. intros j. rewrite nth_error_map. destruct (nth_error (moving_names root) j) as [nm|] eqn:En; simpl.
    + destruct (Hcell b j nm Hb En) as (x & y & Hin & Hy & Hcy). unfold cell in Hcy. rewrite Er in Hcy.
      destruct (Hv _ _ Hin) as [-> _]. rewrite Hat, Ev in Hy by exact Hb. simpl in Hy. congruence.
    + apply nth_error_None in En. apply nth_error_None. rewrite (Hw r) by (eapply nth_error_In; eauto). exact En.
  - apply nth_error_None in Ev. apply nth_error_None. lia.
Qed.
End Clamp.
