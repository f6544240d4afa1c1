(** The analytical backward pass of forward kinematics is the vector-Jacobian product. *)
From Coq Require Import Reals Lra String Bool Arith Lia List Permutation.
From Coquelicot Require Import Coquelicot.
From Verif Require Import Prelude ExtF Tree ChainModel SpecFK ChainProofs ChainTables Input Lin Trig RotModel RotBasic ChainInst
  SerialModel SerialProofs Deriv JacModel JacProofs.
Import ListNotations.
Local Open Scope nat_scope.

Section Back.
Variables (root : mframe) (c : chain M4 V3).
Hypothesis (HC : CTab mops root c) (Hdj : distinct_joints root) (Hrt : rigid_tree root).

Definition fr (k : nat) : mframe := qf (nth k (items root) (root, None, 0)).
Definition par (i : nat) : list nat := nth i (c_parents c) [].
(** the pose of the frame with index [i] *)
Definition wpose (v : config (S := R)) (i : nat) : M4 := pose v (map fr (par i)).

Lemma par_spec i it : nth_error (items root) i = Some it ->
  par i = match qpar it with None => [] | Some p => par p end ++ [i] /\ nth_error (c_parents c) i = Some (par i).
Proof.
  intros H. destruct (ct_parents _ _ _ HC i it H) as (ps & E & Q). unfold par. rewrite (nth_error_nth _ _ _ E), E. split; [|reflexivity].
  f_equal. destruct (qpar it) as [p|]; [|exact Q]. rewrite (nth_error_nth _ _ _ Q). reflexivity.
Qed.
Lemma par_bound i : i < length (items root) -> (forall k, In k (par i) -> k <= i) /\ NoDup (par i).
Proof.
  induction i as [i IH] using lt_wf_ind. intros Hi. destruct (nth_error (items root) i) as [[[f [p|]] d]|] eqn:E; [| |apply nth_error_None in E; lia].
  - destruct (par_spec i _ E) as [-> _]. cbn [qpar snd fst]. destruct (items_some _ _ _ _ _ E) as (Hlt & _).
    destruct (IH p Hlt) as [B N]; [lia|]. split.
    + intros k Hk. apply in_app_or in Hk as [Hk|[<-|[]]]; [specialize (B k Hk); lia | lia].
    + clear IH. assert (Hn : ~ In i (par p)) by (intros Hx; specialize (B i Hx); lia). revert N Hn. generalize (par p). clear.
      induction l as [|x l IH]; intros N Hn; cbn [app]; [repeat constructor; auto|]. inversion N as [|? ? N1 N2]; subst. constructor.
      * intros Hx. apply in_app_or in Hx as [Hx|[<-|[]]]; [auto|]. apply Hn; left; reflexivity.
      * apply IH; [exact N2|]. intros Hx. apply Hn; right; exact Hx.
  - destruct (par_spec i _ E) as [-> _]. cbn. split; [intros k [<-|[]]; lia | repeat constructor; auto].
Qed.
Lemma par_split i : i < length (items root) -> forall p d s, par i = p ++ d :: s -> par d = p ++ [d].
Proof.
  induction i as [i IH] using lt_wf_ind. intros Hi p d s. destruct (nth_error (items root) i) as [[[f [q|]] dd]|] eqn:E; [| |apply nth_error_None in E; lia].
  - destruct (par_spec i _ E) as [Ei _]. cbn [qpar snd fst] in Ei. destruct (items_some _ _ _ _ _ E) as (Hlt & _). intros Hs.
    destruct (exists_last (l := d :: s)) as (s' & e & Es); [discriminate|]. rewrite Ei in Hs. rewrite Es, app_assoc in Hs. apply app_inj_tail in Hs as [H1 H2].
    destruct s' as [|x s']; cbn [app] in Es.
    + assert (d = e) by congruence. subst e d. rewrite app_nil_r in H1. rewrite Ei, H1. reflexivity.
    + assert (x = d) by congruence. subst x. apply (IH q Hlt ltac:(lia) p d s' H1).
  - destruct (par_spec i _ E) as [Ei _]. cbn [qpar snd fst app] in Ei. rewrite Ei. intros Hs. destruct p as [|x p]; cbn [app] in *.
    + assert (i = d) by congruence. subst d. exact Ei.
    + assert (Hn : [] = p ++ d :: s) by congruence. destruct p; discriminate.
Qed.
Lemma fr_nth i it : nth_error (items root) i = Some it -> fr i = qf it.
Proof. intros H. unfold fr. rewrite (nth_error_nth _ _ _ H). reflexivity. Qed.
Lemma world_pose vs i : i < length (items root) -> World mops (items root) (loc_of mops root vs) i (map (fun v => wpose v i) vs).
Proof.
  induction i as [i IH] using lt_wf_ind. intros Hi. destruct (nth_error (items root) i) as [[[f [p|]] d]|] eqn:E; [| |apply nth_error_None in E; lia].
  - destruct (items_some _ _ _ _ _ E) as (Hlt & _). destruct (par_spec i _ E) as [Ei _]. cbn [qpar snd fst] in Ei.
    replace (map (fun v => wpose v i) vs) with (zip_with (t_mul mops) (map (fun v => wpose v p) vs) (loc_of mops root vs i)).
    + eapply W_child; [exact E|]. apply IH; [exact Hlt | lia].
    + rewrite (loc_of_nth mops root vs i _ E), zip_with_map. apply map_ext. intros v. unfold wpose. rewrite Ei, map_app. cbn [map].
      rewrite pose_app, pose_cons, pose_nil, m4mul_1_r, (fr_nth i _ E). reflexivity.
  - destruct (par_spec i _ E) as [Ei _]. cbn [qpar snd fst app] in Ei.
    replace (map (fun v => wpose v i) vs) with (loc_of mops root vs i); [eapply W_root, E|].
    rewrite (loc_of_nth mops root vs i _ E). apply map_ext. intros v. unfold wpose. rewrite Ei. cbn [map].
    rewrite pose_cons, pose_nil, m4mul_1_r, (fr_nth i _ E). reflexivity.
Qed.
Lemma fk_tensor_poses vs : forward_kinematics_tensor mops c (config_tensor root vs) = Ok (map (fun i => Some (map (fun v => wpose v i) vs)) (seq 0 (size root))).
Proof.
  destruct (fk_tensor_world mops root c vs Hdj HC) as (arr & Ha & Hl & Hw). rewrite Ha. f_equal.
  apply list_ext. intros i. rewrite nth_error_map. destruct (lt_dec i (size root)) as [Hi|Hi].
  - rewrite (nth_error_nth' (seq 0 (size root)) 0) by (rewrite seq_length; exact Hi). rewrite seq_nth by exact Hi. cbn [option_map].
    rewrite <- items_length in Hi. destruct (Hw i Hi) as (w & E & HW). rewrite E. do 2 f_equal. eapply world_fun; [exact HW | apply world_pose, Hi].
  - rewrite (proj2 (nth_error_None arr i)) by (rewrite Hl, items_length; lia). rewrite (proj2 (nth_error_None (seq 0 (size root)) i)) by (rewrite seq_length; lia). reflexivity.
Qed.

(** ** derivative of every frame pose with respect to one joint *)
Lemma fr_in k : k < length (items root) -> In (fr k) (preorder root).
Proof. intros H. apply items_in_preorder. apply nth_In. exact H. Qed.
Definition mask_of (d i : nat) : bool := existsb (Nat.eqb d) (par i).
Definition dpose (v : config (S := R)) (d i : nat) : M4 :=
  if mask_of d i then geo (j_type (f_joint (fr d))) (m3vec (rotp (wpose v d)) (j_axis (f_joint (fr d)))) (trp (wpose v d)) (wpose v i) else lin4 Z3 vzero.
Lemma wpose_deriv v d i : d < length (items root) -> moving (fr d) = true -> i < length (items root) ->
  is_derive4 (fun x => wpose (upd v (j_name (f_joint (fr d))) x) i) (v (j_name (f_joint (fr d)))) (dpose v d i).
Proof.
  intros Hd Hm Hi. destruct (par_bound i Hi) as [B N].
  assert (Hrig : forall f, In f (map fr (par i)) -> rigid_frame f).
  { intros f Hf. apply in_map_iff in Hf as (k & <- & Hk). apply Hrt. apply fr_in. specialize (B k Hk). lia. }
  assert (Huniq : forall k, In k (par i) -> moving (fr k) = true -> j_name (f_joint (fr k)) = j_name (f_joint (fr d)) -> k = d).
  { intros k Hk Mk E. specialize (B k Hk). apply (items_uniq_moving root k d (nth k (items root) (root, None, 0)) (nth d (items root) (root, None, 0)) Hdj); auto; apply nth_error_nth'; lia. }
  unfold dpose, mask_of. destruct (existsb (Nat.eqb d) (par i)) eqn:E.
  - apply existsb_exists in E as (k & Hk & Ek). apply Nat.eqb_eq in Ek. subst k. destruct (in_split _ _ Hk) as (p & s & Es).
    unfold wpose. rewrite (par_split i Hi p d s Es), Es in *. rewrite !map_app in *. cbn [map] in *.
    apply path_deriv; [exact Hrig | exact Hm|]. intros f Hf Mf En. rewrite <- map_app in Hf. apply in_map_iff in Hf as (k & <- & Hk2).
    apply NoDup_remove_2 in N. apply N. rewrite <- (Huniq k); auto. apply in_app_or in Hk2. apply in_or_app. cbn [In]. tauto.
  - apply path_deriv_other. intros f Hf Mf En. apply in_map_iff in Hf as (k & <- & Hk). assert (k = d) by auto. subst k.
    assert (X : existsb (Nat.eqb d) (par i) = true) by (apply existsb_exists; exists d; split; [exact Hk | apply Nat.eqb_refl]). congruence.
Qed.

(** ** inner products *)
Local Open Scope R_scope.
Definition frob (G T : M4) : R :=
  a00 G * a00 T + a01 G * a01 T + a02 G * a02 T + a03 G * a03 T + (a10 G * a10 T + a11 G * a11 T + a12 G * a12 T + a13 G * a13 T) +
  (a20 G * a20 T + a21 G * a21 T + a22 G * a22 T + a23 G * a23 T) + (a30 G * a30 T + a31 G * a31 T + a32 G * a32 T + a33 G * a33 T).
Fixpoint rsum (l : list R) : R := match l with [] => 0 | x :: r => x + rsum r end.

Lemma frob_deriv G f x D : is_derive4 f x D -> is_derive (fun t => frob G (f t)) x (frob G D).
Proof.
  intros ((H00 & H01 & H02 & H03) & (H10 & H11 & H12 & H13) & (H20 & H21 & H22 & H23) & (H30 & H31 & H32 & H33)). unfold frob.
  repeat (apply @is_derive_plus || apply is_derive_scal); assumption.
Qed.
Lemma rsum_deriv (f : nat -> R -> R) (D : nat -> R) x L : (forall i, In i L -> is_derive (f i) x (D i)) ->
  is_derive (fun t => rsum (map (fun i => f i t) L)) x (rsum (map D L)).
Proof.
  induction L as [|i L IH]; intros H; cbn [map rsum]; [apply @is_derive_const|]. apply @is_derive_plus; [apply H; left; reflexivity|].
  apply IH. intros k Hk. apply H. right; exact Hk.
Qed.

Lemma rev_term (z o : V3) (T G : M4) : frob G (geo Revolute z o T) =
  vdot z (vsub (vadd (axial (m3mul (rotp T) (m3tr (rotp G)))) (vcross (trp T) (trp G))) (vcross o (trp G))).
Proof. lin_destr. unfold geo, frob, lin4, axial. lin_simpl. ring. Qed.
Lemma pris_term (z o : V3) (T G : M4) : frob G (geo Prismatic z o T) = vdot z (trp G).
Proof. lin_destr. unfold geo, frob, lin4. lin_simpl. ring. Qed.
Lemma zero_term G : frob G (lin4 Z3 vzero) = 0.
Proof. lin_destr. unfold frob, lin4. lin_simpl. ring. Qed.

Lemma masked_cons m x l mk : masked_sum (m :: mk) (x :: l) = vadd (vscale (if m then 1 else 0) x) (masked_sum mk l).
Proof. reflexivity. Qed.
Lemma rev_sum (L : list nat) (mk : nat -> bool) (T G : nat -> M4) z o :
  vdot z (vsub (vadd (masked_sum (map mk L) (map (fun i => axial (m3mul (rotp (T i)) (m3tr (rotp (G i))))) L))
                     (masked_sum (map mk L) (map (fun i => vcross (trp (T i)) (trp (G i))) L)))
               (vcross o (masked_sum (map mk L) (map (fun i => trp (G i)) L)))) =
  rsum (map (fun i => frob (G i) (if mk i then geo Revolute z o (T i) else lin4 Z3 vzero)) L).
Proof.
  induction L as [|i L IH]; cbn [map rsum]; [unfold masked_sum; cbn; lin_destr; lin_simpl; ring|]. rewrite <- IH. rewrite !masked_cons.
  replace (frob (G i) (if mk i then geo Revolute z o (T i) else lin4 Z3 vzero)) with ((if mk i then 1 else 0) * frob (G i) (geo Revolute z o (T i))) by (destruct (mk i); [ring | rewrite zero_term; ring]).
  rewrite rev_term. generalize (if mk i then 1 else 0) (axial (m3mul (rotp (T i)) (m3tr (rotp (G i))))) (trp (T i)) (trp (G i)).
  generalize (masked_sum (map mk L) (map (fun i => axial (m3mul (rotp (T i)) (m3tr (rotp (G i))))) L)) (masked_sum (map mk L) (map (fun i => vcross (trp (T i)) (trp (G i))) L)) (masked_sum (map mk L) (map (fun i => trp (G i)) L)).
  clear. intros. lin_destr. lin_simpl. ring.
Qed.
Lemma pris_sum (L : list nat) (mk : nat -> bool) (T G : nat -> M4) z o :
  vdot z (masked_sum (map mk L) (map (fun i => trp (G i)) L)) =
  rsum (map (fun i => frob (G i) (if mk i then geo Prismatic z o (T i) else lin4 Z3 vzero)) L).
Proof.
  induction L as [|i L IH]; cbn [map rsum]; [unfold masked_sum; cbn; lin_destr; lin_simpl; ring|]. rewrite <- IH. rewrite !masked_cons.
  replace (frob (G i) (if mk i then geo Prismatic z o (T i) else lin4 Z3 vzero)) with ((if mk i then 1 else 0) * frob (G i) (geo Prismatic z o (T i))) by (destruct (mk i); [ring | rewrite zero_term; ring]).
  rewrite pris_term. generalize (if mk i then 1 else 0) (trp (G i)). generalize (masked_sum (map mk L) (map (fun i => trp (G i)) L)). clear. intros. lin_destr. lin_simpl. ring.
Qed.
Local Open Scope nat_scope.

(** ** the code *)
(** the index of the frame moved by each joint, and the tables of that joint *)
Lemma dof_spec j n : nth_error (c_names c) j = Some n -> exists d, nth_error (c_dof_frame c) j = Some d /\ d < length (items root) /\ moving (fr d) = true /\
  j_name (f_joint (fr d)) = n /\ nth_error (c_axes c) j = Some (j_axis (f_joint (fr d))) /\
  nth_error (c_dof_rev c) j = Some (jtype_eqb (j_type (f_joint (fr d))) Revolute).
Proof.
  intros Hn. rewrite (ct_names _ _ _ HC) in Hn.
  assert (Hnn := Hn). apply nth_error_In in Hnn. unfold moving_names in Hnn. apply in_map_iff in Hnn as (f & E & Hf). apply filter_In in Hf as [Hf Hm].
  destruct (preorder_in_items root f Hf) as (i & it & Hi & Eq).
  destruct (jix_moving root f Hf Hm) as (j' & Hj & _). destruct (jix_some _ _ _ Hj) as [_ Hn'].
  assert (Ej : j' = j) by (eapply (NoDup_nth_inj _ j' j n Hdj); [rewrite Hn', E; reflexivity | exact Hn]). subst j'.
  assert (Hlt : i < length (items root)) by (apply nth_error_Some; congruence).
  assert (Efr : fr i = f) by (rewrite (fr_nth i it Hi); exact Eq).
  assert (Hdof : nth_error (c_dof_frame c) j = Some i) by (apply (proj2 (dof_frame_own mops root c Hdj HC)) with (it := it); [exact Hi | rewrite Eq; exact Hj]).
  exists i. rewrite Efr. repeat (split; [first [assumption | reflexivity]|]).
  split; [exact (axes_own mops root c f j Hdj HC Hf Hj)|].
  rewrite (ct_dof_rev _ _ _ HC), nth_error_map, Hdof. cbn [option_map]. f_equal. rewrite (ct_jtype _ _ _ HC).
  rewrite (nth_error_nth _ i 0 (x := type_index (j_type (f_joint f)))).
  - destruct (j_type (f_joint f)); reflexivity.
  - rewrite nth_error_map, Hi. simpl. rewrite Eq. reflexivity.
Qed.
Lemma dof_lengths : length (c_dof_frame c) = length (c_names c) /\ length (c_axes c) = length (c_names c) /\ length (c_dof_rev c) = length (c_names c) /\
  length (c_mask c) = length (c_names c).
Proof.
  rewrite (ct_dof_rev _ _ _ HC), (ct_mask _ _ _ HC), (ct_names _ _ _ HC), (ct_alen _ _ _ HC). unfold ancestor_mask. rewrite !map_length.
  rewrite (proj1 (dof_frame_own mops root c Hdj HC)). auto.
Qed.
Lemma parents_list : c_parents c = map par (seq 0 (size root)).
Proof.
  apply list_ext. intros i. rewrite nth_error_map. destruct (lt_dec i (size root)) as [Hi|Hi].
  - rewrite (nth_error_nth' (seq 0 (size root)) 0) by (rewrite seq_length; exact Hi). rewrite seq_nth by exact Hi. cbn [option_map plus].
    rewrite <- items_length in Hi. destruct (nth_error (items root) i) as [it|] eqn:E; [|apply nth_error_None in E; lia]. apply (par_spec i it E).
  - rewrite (proj2 (nth_error_None (c_parents c) i)) by (rewrite (ct_plen _ _ _ HC), items_length; lia). rewrite (proj2 (nth_error_None (seq 0 (size root)) i)) by (rewrite seq_length; lia). reflexivity.
Qed.

(** gradient entry [j] of one row, through a list of joints described by frame indices *)
Definition grad_of (v : config (S := R)) (G : nat -> M4) (d : nat) : R :=
  rsum (map (fun i => frob (G i) (dpose v d i)) (seq 0 (size root))).

Lemma zip_map_r {X Y Z W} (h : X -> Y -> Z) (g : W -> Y) (a : list X) (l : list W) : zip_with h a (map g l) = zip_with (fun x w => h x (g w)) a l.
Proof. revert a. induction l as [|w l IH]; intros [|x a]; cbn [map zip_with]; try reflexivity. rewrite IH. reflexivity. Qed.

Lemma dof_tables_list : c_axes c = map (fun d => j_axis (f_joint (fr d))) (c_dof_frame c) /\
  c_dof_rev c = map (fun d => jtype_eqb (j_type (f_joint (fr d))) Revolute) (c_dof_frame c) /\
  (forall d, In d (c_dof_frame c) -> d < size root /\ moving (fr d) = true) /\
  map (fun d => j_name (f_joint (fr d))) (c_dof_frame c) = c_names c.
Proof.
  destruct dof_lengths as (L1 & L2 & L3 & _).
  assert (K : forall j, j < length (c_names c) -> exists n, nth_error (c_names c) j = Some n).
  { intros j Hj. destruct (nth_error (c_names c) j) eqn:E; [eauto | apply nth_error_None in E; lia]. }
  split; [|split; [|split]].
  - apply list_ext. intros j. rewrite nth_error_map. destruct (lt_dec j (length (c_names c))) as [Hj|Hj].
    + destruct (K j Hj) as (n & Hn). destruct (dof_spec j n Hn) as (d & E1 & _ & _ & _ & E2 & _). rewrite E1, E2. reflexivity.
    + rewrite (proj2 (nth_error_None (c_axes c) j)), (proj2 (nth_error_None (c_dof_frame c) j)) by lia. reflexivity.
  - apply list_ext. intros j. rewrite nth_error_map. destruct (lt_dec j (length (c_names c))) as [Hj|Hj].
    + destruct (K j Hj) as (n & Hn). destruct (dof_spec j n Hn) as (d & E1 & _ & _ & _ & _ & E2). rewrite E1, E2. reflexivity.
    + rewrite (proj2 (nth_error_None (c_dof_rev c) j)), (proj2 (nth_error_None (c_dof_frame c) j)) by lia. reflexivity.
  - intros d Hd. apply In_nth_error in Hd as [j Ej]. assert (Hj : j < length (c_names c)) by (rewrite <- L1; apply nth_error_Some; congruence).
    destruct (K j Hj) as (n & Hn). destruct (dof_spec j n Hn) as (d' & E1 & Hlt & Hm & _). rewrite <- items_length. assert (d' = d) by congruence. subst. auto.
  - apply list_ext. intros j. rewrite nth_error_map. destruct (lt_dec j (length (c_names c))) as [Hj|Hj].
    + destruct (K j Hj) as (n & Hn). destruct (dof_spec j n Hn) as (d & E1 & _ & _ & E2 & _). rewrite E1, Hn, <- E2. reflexivity.
    + rewrite (proj2 (nth_error_None (c_names c) j)), (proj2 (nth_error_None (c_dof_frame c) j)) by lia. reflexivity.
Qed.

Lemma backward_row_eq v (G : nat -> M4) :
  backward_row (map (wpose v) (seq 0 (size root))) (map G (seq 0 (size root))) (c_dof_frame c) (c_mask c) (c_dof_rev c) (c_axes c) =
  Ok (map (grad_of v G) (c_dof_frame c)).
Proof.
  destruct dof_tables_list as (-> & -> & Hd & _). unfold backward_row.
  rewrite (rmap_ok _ _ (wpose v)).
  2: { intros d Hin. destruct (Hd d Hin) as [Hlt _]. apply get_ok. rewrite nth_error_map, (nth_error_nth' _ 0) by (rewrite seq_length; exact Hlt). rewrite seq_nth by exact Hlt. reflexivity. }
  cbn [rbind]. f_equal. rewrite (ct_mask _ _ _ HC). unfold ancestor_mask. rewrite parents_list, !map_map.
  repeat first [rewrite zip_with_map | rewrite map_map]. apply map_ext_in. intros d Hin. destruct (Hd d Hin) as [Hlt Hm].
  assert (EM : map (fun ps => existsb (Nat.eqb d) ps) (map par (seq 0 (size root))) = map (mask_of d) (seq 0 (size root))) by (rewrite map_map; reflexivity).
  rewrite EM. cbn [fst snd]. unfold grad_of, dpose, moving in *. destruct (j_type (f_joint (fr d))) eqn:Et; [discriminate| |]; cbn [jtype_eqb].
  - rewrite <- (rev_sum (seq 0 (size root)) (mask_of d) (wpose v) G). reflexivity.
  - rewrite <- (pris_sum (seq 0 (size root)) (mask_of d) (wpose v) G _ (trp (wpose v d))). reflexivity.
Qed.

Theorem backward_eq (vs : list (config (S := R))) (Gs : list (nat -> M4)) : length Gs = length vs ->
  backward c (length vs) (map (fun i => map (fun v => wpose v i) vs) (seq 0 (size root))) (map (fun i => map (fun G => G i) Gs) (seq 0 (size root))) =
  Ok (zip_with (fun v G => map (grad_of v G) (c_dof_frame c)) vs Gs).
Proof.
  intros Hl. unfold backward. apply rmap_ok_forall2.
  assert (G : forall k vs' Gs', length Gs' = length vs' -> (forall i x, nth_error vs' i = Some x -> nth_error vs (k + i) = Some x) -> (forall i x, nth_error Gs' i = Some x -> nth_error Gs (k + i) = Some x) ->
    Forall2 (fun b y => (do Tb <- rmap (fun w => get w b) (map (fun i => map (fun v => wpose v i) vs) (seq 0 (size root)));
      do Gb <- rmap (fun w => get w b) (map (fun i => map (fun G => G i) Gs) (seq 0 (size root)));
      backward_row Tb Gb (c_dof_frame c) (c_mask c) (c_dof_rev c) (c_axes c)) = Ok y) (seq k (length vs')) (zip_with (fun v G => map (grad_of v G) (c_dof_frame c)) vs' Gs')).
  { intros k vs'. revert k. induction vs' as [|v vs' IH]; intros k [|G Gs'] Hl' H1 H2; cbn [length zip_with seq] in *; try lia; [constructor|]. constructor.
    - assert (E1 : nth_error vs k = Some v) by (rewrite <- (Nat.add_0_r k); apply (H1 0); reflexivity).
      assert (E2 : nth_error Gs k = Some G) by (rewrite <- (Nat.add_0_r k); apply (H2 0); reflexivity).
      assert (R1 : forall L, rmap (fun w => get w k) (map (fun i => map (fun v => wpose v i) vs) L) = Ok (map (wpose v) L)).
      { clear -E1. induction L as [|y L IH]; [reflexivity|]. cbn [map rmap]. rewrite (get_map (fun v => wpose v y) vs k v E1). cbn [rbind]. rewrite IH. reflexivity. }
      assert (R2 : forall L, rmap (fun w => get w k) (map (fun i => map (fun G => G i) Gs) L) = Ok (map G L)).
      { clear -E2. induction L as [|y L IH]; [reflexivity|]. cbn [map rmap]. rewrite (get_map (fun G : nat -> M4 => G y) Gs k G E2). cbn [rbind]. rewrite IH. reflexivity. }
      rewrite R1. cbn [rbind]. rewrite R2. cbn [rbind]. apply backward_row_eq.
    - apply IH; [lia| |]; intros i z Hz; replace (Datatypes.S k + i) with (k + Datatypes.S i) by lia; [apply H1 | apply H2]; exact Hz. }
  apply (G 0 vs Gs); auto.
Qed.

Theorem grad_deriv v (G : nat -> M4) d : In d (c_dof_frame c) ->
  is_derive (fun x => rsum (map (fun i => frob (G i) (wpose (upd v (j_name (f_joint (fr d))) x) i)) (seq 0 (size root)))) (v (j_name (f_joint (fr d)))) (grad_of v G d).
Proof.
  intros Hd. destruct dof_tables_list as (_ & _ & H & _). destruct (H d Hd) as [Hlt Hm].
  apply (rsum_deriv (fun i x => frob (G i) (wpose (upd v (j_name (f_joint (fr d))) x) i)) (fun i => frob (G i) (dpose v d i))).
  intros i Hi. apply in_seq in Hi. apply (frob_deriv (G i) (fun x => wpose (upd v (j_name (f_joint (fr d))) x) i)). apply wpose_deriv; rewrite ?items_length; auto. lia.
Qed.
End Back.
