(** Rounding errors of the Jacobian along a serial chain. *)
From Coq Require Import Reals Lra Psatz String Bool Arith Lia List Permutation.
From Verif Require Import Prelude ExtF Tree ChainModel SpecFK ChainProofs ChainTables TreeQueries Input Lin Trig RotModel RotBasic ChainInst
  Examples SerialModel SerialProofs SerialMore Deriv JacModel JacProofs SpecRound RoundNorm RoundModel RoundProofs RoundChain RoundJacModel SpecRoundJac RoundJacProofs.
Import ListNotations.
Local Open Scope R_scope.

(** ** slots of the frame tensor, whatever the arithmetic *)
Section Raw.
Variable O : Ops M4 V3 R.
Lemma slot_raw (root : mframe) c vs arr : distinct_joints root -> distinct_frames root -> clean_names root -> chain_init O root = Ok c ->
  forward_kinematics_tensor O c (config_tensor root vs) = Ok arr ->
  forall l g i, root_path root (l ++ [g]) -> dget String.eqb (f_name g) (c_f2i c) = Some i ->
  read_slot arr i = Ok (map (fun v => path_pose1 O v (l ++ [g])) vs).
Proof.
  intros Hj Hd Hcl Hc Ha l g i Hp Hi. pose proof (chain_root O root c Hc) as HC.
  destruct (fk_tensor_world O root c vs Hj HC) as (arr' & Ha' & _ & Hw).
  assert (HX : forall X (a b : X), Ok a = Ok b -> a = b) by (intros; congruence).
  rewrite Ha in Ha'. apply HX in Ha'. subst arr'.
  destruct (path_world1 O root vs l g Hp) as (k & par & Hit & HW).
  assert (Hlt : (k < length (items root))%nat) by (apply nth_error_Some; congruence).
  destruct (frame_index_spec O root c Hd Hcl Hc) as (_ & Hiff & _).
  assert (Hk : dget Nat.eqb k (c_i2f c) = Some (f_name g)).
  { rewrite <- (Hcl g (root_path_in _ _ _ Hp)). apply (dget_nodup Nat.eqb neqb_eq).
    - rewrite (ct_i2f _ _ _ HC), map_fst_combine by (rewrite map_length; apply seq_length). apply seq_NoDup.
    - rewrite (ct_i2f _ _ _ HC). rewrite <- (map_length (fun it => strip_nl (f_name (qf it))) (items root)).
      apply combine_seq_nth. split; [lia|]. rewrite Nat.sub_0_r, nth_error_map, Hit. reflexivity. }
  apply Hiff in Hk. rewrite Hi in Hk. assert (Ek : k = i) by congruence. subst k.
  destruct (Hw i Hlt) as (w & H & HW2). unfold read_slot, get. rewrite H. cbn [of_opt rbind]. assert (Ew : w = map (fun v => path_pose1 O v (l ++ [g])) vs) by (eapply world_fun; [exact HW2|exact HW]). rewrite Ew. reflexivity.
Qed.
Lemma pose1_map v (l1 l2 : list mframe) : map (rel_pose O v) l1 = map (rel_pose O v) l2 -> path_pose1 O v l1 = path_pose1 O v l2.
Proof.
  destruct l1 as [|x l1], l2 as [|y l2]; cbn [map]; intros E; try discriminate; [reflexivity|]. cbn [path_pose1].
  assert (E1 : rel_pose O v x = rel_pose O v y) by congruence. rewrite E1. assert (E2 : map (rel_pose O v) l1 = map (rel_pose O v) l2) by congruence.
  clear E E1. generalize (rel_pose O v y). revert l2 E2. induction l1 as [|a l1 IH]; intros [|b l2] E m; cbn [map] in E; try discriminate; [reflexivity|].
  cbn [fold_left]. assert (E1 : rel_pose O v a = rel_pose O v b) by congruence. rewrite E1. apply IH. congruence.
Qed.
Lemma serial_prefix_raw (r : mframe) p f q : exists l g, root_path (sroot zax r (p ++ f :: q)) (l ++ [g]) /\ f_name g = f_name f /\
  forall v, path_pose1 O v (l ++ [g]) = path_pose1 O v ((sroot zax r (p ++ f :: q) :: p) ++ [f]).
Proof.
  set (fs := p ++ f :: q). set (t := firstn (length p + 1) (stail fs)).
  assert (K : forall X (h : string -> link M4 -> mjoint -> X), map (fun g => h (f_name g) (f_link g) (f_joint g)) t = map (fun g => h (f_name g) (f_link g) (f_joint g)) (p ++ [f])).
  { intros X h. unfold t. rewrite <- firstn_map, stail_map. unfold fs. change (p ++ f :: q) with (p ++ [f] ++ q). rewrite app_assoc, map_app, firstn_app.
    rewrite map_length, app_length. cbn [length]. rewrite Nat.sub_diag, firstn_O, app_nil_r. apply firstn_all2. rewrite map_length, app_length. simpl. lia. }
  assert (Et : map f_name t = map f_name (p ++ [f])) by exact (K string (fun n _ _ => n)).
  assert (Ht : length t = (length p + 1)%nat) by (rewrite <- (map_length f_name), Et, map_length, app_length; reflexivity).
  destruct (exists_last (l := t)) as (l & g & Eg); [intros Z; rewrite Z in Ht; simpl in Ht; lia|].
  exists (sroot zax r fs :: l), g. split; [|split].
  - apply (rp_prefix _ _ (skipn (length p + 1) (stail fs))); [|discriminate].
    cbn [app]. rewrite <- Eg. unfold t. rewrite firstn_skipn. apply sroot_path.
  - rewrite Eg, !map_app in Et. apply app_inj_tail in Et as [_ Et]. exact Et.
  - intros v. apply pose1_map. cbn [app map]. f_equal. rewrite <- Eg.
    apply (K M4 (fun _ l j => t_mul O (t_mul O (or_one O (l_off l)) (or_one O (j_off j))) (joint_motion O v j))).
Qed.

(** what the code computes *)
Definition col_raw (o : jops) (v : config (S := R)) (sr : mframe) (T : M4) (pg : list mframe * mframe) : V3 * V3 :=
  let W := path_pose1 O v ((sr :: fst pg) ++ [snd pg]) in
  let z := jo_vec o (rotp W) (j_axis (f_joint (snd pg))) in
  if jtype_eqb (j_type (f_joint (snd pg))) Revolute then (jo_cross o z (jo_sub o (trp T) (trp W)), z) else (z, vzero).

Section Jac.
Variables (o : jops) (root r : mframe) (fs : list mframe) (s : schain M4 V3) (vs : list (config (S := R))).
Hypothesis (Hin : In r (preorder root)) (Hdj : distinct_joints root) (Hdf : distinct_frames root) (Hcl : clean_names root)
  (Hp : root_path r (r :: fs)) (Ht : serial_tables O zax s r fs).
Let sr := sroot zax r fs.
Let E v := path_pose1 O v (sr :: fs).

Lemma serial_hyps_raw : distinct_joints (sroot zax r fs) /\ distinct_frames (sroot zax r fs) /\ clean_names (sroot zax r fs).
Proof.
  split; [apply (serial_moving zax r fs root); assumption|]. split.
  - apply sroot_distinct_frames. apply (path_nodup f_name r); [apply (sub_distinct_frames root); assumption | exact Hp].
  - apply sroot_clean. intros f Hf. apply Hcl. eapply sub_preorder; [exact Hin|]. exact (path_incl r _ Hp f Hf).
Qed.
Lemma serial_slots_raw : exists arr, forward_kinematics_tensor O (s_chain s) (path_tensor fs vs) = Ok arr /\
  read_slot arr (s_eef s) = Ok (map E vs) /\
  rmap (read_slot arr) (s_dof_idx s) = Ok (map (fun pg => map (fun v => path_pose1 O v ((sr :: fst pg) ++ [snd pg])) vs) (mov [] fs)).
Proof.
  destruct serial_hyps_raw as (Hj & Hd & Hc2). destruct Ht as (Hc & Hfr & _ & _ & Hidx & Heef & Hend).
  destruct (fk_tensor_world O (sroot zax r fs) (s_chain s) vs Hj (chain_root O _ _ Hc)) as (arr & Ha & _).
  exists arr. rewrite (path_tensor_eq zax r). split; [exact Ha|].
  assert (K : forall p f q i, fs = p ++ f :: q -> dget String.eqb (f_name f) (c_f2i (s_chain s)) = Some i ->
    read_slot arr i = Ok (map (fun v => path_pose1 O v ((sr :: p) ++ [f])) vs)).
  { intros p f q i Ef Hi. destruct (serial_prefix_raw r p f q) as (l & g & E1 & E2 & E3). rewrite <- Ef in E1, E3. rewrite <- E2 in Hi.
    rewrite (slot_raw _ _ vs arr Hj Hd Hc2 Hc Ha l g i E1 Hi). f_equal. apply map_ext. exact E3. }
  split.
  - rewrite Hend in Heef. destruct (exists_last (l := r :: fs)) as (p & e & Ee); [discriminate|]. destruct p as [|x p].
    + cbn [app] in Ee. assert (Er : r = e) by congruence. assert (Ef : fs = []) by congruence.
      assert (El : last (r :: fs) r = r) by (rewrite Ef; reflexivity). rewrite El, <- (sroot_name zax r fs) in Heef.
      rewrite (slot_raw _ _ vs arr Hj Hd Hc2 Hc Ha [] (sroot zax r fs) _ (rp_here _) Heef).
      f_equal. apply map_ext. intros v. unfold E. cbn [app]. fold sr. rewrite Ef. reflexivity.
    + cbn [app] in Ee. assert (Ef : fs = p ++ [e]) by congruence.
      assert (El : last (r :: fs) r = e) by (rewrite Ef; change (r :: p ++ [e]) with ((r :: p) ++ [e]); apply last_last).
      rewrite El in Heef. rewrite (K p e [] _ Ef Heef). f_equal. apply map_ext. intros v. unfold E. cbn [app]. rewrite <- Ef. reflexivity.
  - apply rmap_ok_forall2. rewrite <- (mov_snd fs []) in Hidx.
    assert (G : forall L, (forall p g, In (p, g) L -> exists q, fs = p ++ g :: q) -> forall idx,
      Forall2 (fun g i => dget String.eqb (f_name g) (c_f2i (s_chain s)) = Some i) (map snd L) idx ->
      Forall2 (fun x y => read_slot arr x = Ok y) idx (map (fun pg => map (fun v => path_pose1 O v ((sr :: fst pg) ++ [snd pg])) vs) L)).
    { induction L as [|[p g] L IH]; intros HL idx HF; cbn [map] in HF; inversion HF as [|? i ? idx' H1 H2]; subst; [constructor|].
      cbn [map fst snd] in *. constructor; [|apply IH; auto with datatypes]. destruct (HL p g (or_introl eq_refl)) as (q & Eq). exact (K p g q i Eq H1). }
    apply G; [|exact Hidx]. intros p g HI. destruct (mov_split fs [] p g HI) as (_ & q & Eq). exists q. exact Eq.
Qed.
Lemma is_rev_raw : map (Nat.eqb 1) (s_dof_types s) = map (fun pg => jtype_eqb (j_type (f_joint (snd pg))) Revolute) (mov [] fs).
Proof.
  destruct Ht as (_ & _ & _ & -> & _). rewrite <- (mov_snd fs []), !map_map. apply map_ext. intros [p g]. cbn [snd]. destruct (jtype_eqb _ _); reflexivity.
Qed.
Lemma jacobian_raw : jacobian_with O o s (path_tensor fs vs) = Ok (map (fun v => map (col_raw o v sr (E v)) (mov [] fs)) vs, map E vs).
Proof.
  destruct serial_slots_raw as (arr & Ha & E1 & E2). unfold jacobian_with. rewrite Ha. cbn [rbind]. unfold jacobian_from_with. rewrite E1, E2. cbn [rbind].
  rewrite is_rev_raw. destruct Ht as (_ & _ & -> & _). rewrite <- (mov_snd fs []), !map_map, !(zip_with_map _ _ (fun pg => j_axis (f_joint (snd pg)))).
  rewrite !(zip_with_map (zip_with (jo_cross o))), !map_map, !where_dof_map, (zip_with_map (zip_with pair)), map_length.
  set (cols := map _ (mov [] fs)).
  assert (EC : cols = map (fun pg => map (fun v => col_raw o v sr (E v) pg) vs) (mov [] fs)).
  { unfold cols. apply map_ext. intros [p g]. unfold col_raw. cbn [fst snd]. rewrite !map_map, !zip_with_map.
    destruct (jtype_eqb (j_type (f_joint g)) Revolute); rewrite zip_with_map; reflexivity. }
  rewrite EC, (batch_major_map vs (mov [] fs) (fun pg v => col_raw o v sr (E v) pg)). reflexivity.
Qed.
End Jac.
End Raw.

(** ** the serial chains of close trees *)
Lemma close_tree_sub a o : forall p f' f r, close_tree a o f' f -> root_path f (p ++ [r]) ->
  exists p' r', root_path f' (p' ++ [r']) /\ close_tree a o r' r /\ (p = [] -> p' = []).
Proof.
  induction p as [|x p IH]; intros f' f r H Hp.
  - cbn [app] in Hp. inversion Hp as [|? c ? Hc Hp']; subst; [|inversion Hp'].
    exists [], f'. split; [constructor|]. split; [exact H|reflexivity].
  - cbn [app] in Hp. inversion Hp as [? E1 E2|? c ? Hc Hp' E1]; subst; [destruct p; discriminate|]. inversion H as [? ? Hn Hcs]; subst.
    destruct (forall2_in_left _ _ _ _ Hcs Hc) as (c' & Hin' & Hcc). destruct (IH c' c r Hcc Hp') as (p' & r' & H1 & H2 & _).
    exists (f' :: p'), r'. split; [cbn [app]; econstructor; eassumption|]. split; [exact H2|discriminate].
Qed.
Lemma close_node_sroot a o (r' r : mframe) fs' fs : f_name r' = f_name r -> close_node a o (sroot zax r' fs') (sroot zax r fs).
Proof.
  intros E. unfold close_node. rewrite !sroot_name. split; [exact E|]. unfold sroot.
  destruct (reset_parts zax (nest r' fs')) as (_ & L' & J' & _). destruct (reset_parts zax (nest r fs)) as (_ & L & J & _).
  rewrite L', L, J', J. cbn. split; [exact I|]. split; [exact I|]. split; [reflexivity|]. split; [reflexivity|].
  unfold moving. rewrite J. cbn. discriminate.
Qed.
Lemma reach_sroot v (r : mframe) fs : reach v (sroot zax r fs) = 0.
Proof. unfold reach, sroot. destruct (reset_parts zax (nest r fs)) as (_ & L & J & _). rewrite L, J. cbn. ring. Qed.
Lemma reach_nonneg v f : 0 <= reach v f.
Proof.
  unfold reach.
  assert (K : forall x : option M4, 0 <= match x with Some m => vnorm (trp m) | None => 0 end) by (intros [m|]; [apply vnorm_nonneg|lra]).
  pose proof (K (l_off (f_link f))). pose proof (K (j_off (f_joint f))). destruct (j_type (f_joint f)); try lra. pose proof (Rabs_pos (v (j_name (f_joint f)))). lra.
Qed.
Lemma path_reach_app v l m : path_reach v (l ++ m) = path_reach v l + path_reach v m.
Proof. unfold path_reach. induction l as [|x l IH]; simpl; [ring|]. rewrite IH; ring. Qed.
Lemma path_reach_nonneg v l : 0 <= path_reach v l.
Proof. unfold path_reach. induction l as [|x l IH]; simpl; [lra|]. pose proof (reach_nonneg v x). lra. Qed.
Lemma mov_close a o : forall fs' fs p' p, Forall2 (close_node a o) fs' fs -> Forall2 (close_node a o) p' p ->
  Forall2 (fun x y => Forall2 (close_node a o) (fst x) (fst y) /\ close_node a o (snd x) (snd y)) (mov p' fs') (mov p fs).
Proof.
  intros fs' fs p' p H. revert p' p. induction H as [|x y l m Hxy _ IH]; intros p' p Hp; cbn [mov]; [constructor|].
  rewrite (close_node_moving _ _ _ _ Hxy). assert (Hs : Forall2 (close_node a o) (p' ++ [x]) (p ++ [y])) by (apply Forall2_app; [exact Hp|constructor; [exact Hxy|constructor]]).
  destruct (moving y); [constructor; [split; assumption|]|]; apply IH; exact Hs.
Qed.
Lemma close_node_rigid a o f' f : close_node a o f' f -> rigid_frame f.
Proof.
  intros (_ & H1 & H2 & _ & _ & H3).
  assert (K : forall x y, close_offset o x y -> rigid_opt y) by (intros [x|] [y|] H; cbn [close_offset rigid_opt] in *; try exact I; try contradiction; apply H).
  split; [eapply K, H1|]. split; [eapply K, H2|]. intros Hm. apply (H3 Hm).
Qed.
Lemma forall2_in_right {X Y} (P : X -> Y -> Prop) l m : Forall2 P l m -> forall y, In y m -> exists x, P x y.
Proof. induction 1 as [|a b l m H _ IH]; intros y Hy; [contradiction|]. destruct Hy as [<-|Hy]; eauto. Qed.

Lemma exists_last_or {X} (l : list X) : l = [] \/ exists p x, l = p ++ [x].
Proof. destruct l as [|y l]; [left; reflexivity|]. right. destruct (exists_last (l := y :: l)) as (p & x & E); [discriminate|]. eauto. Qed.

Section Err.
Variables (O : Ops M4 V3 R) (jo : jops) (g a o j gv us h : R).
Hypotheses (Hg : 0 <= g) (Ho : 1 <= o) (Hj : 1 <= j) (Ha : 0 <= a) (Hgv : 0 <= gv) (Hus : 0 <= us) (Hh : 0 <= h).
Hypothesis Hmul : rounded_product g (t_mul O).
Hypothesis Hone : t_one O = I4.
Hypothesis Hmot : accurate_motions a j O.
Hypothesis Hjo : rounded_jops gv us h jo.

Lemma path_factor_mono m n : (1 <= m <= n)%nat -> path_factor g o j m <= path_factor g o j n.
Proof.
  intros H. unfold path_factor.
  assert (B1 : 1 <= o * o * j). { assert (1 <= o * o) by nra. nra. }
  assert (B2 : 1 <= 1 + 3 * g) by lra.
  apply Rmult_le_compat; try (apply pow_le; lra); apply Rle_pow; try assumption; lia.
Qed.

Section Path.
Variables (r' r : mframe) (fs' fs : list mframe) (v : config (S := R)).
Hypothesis (Er : f_name r' = f_name r) (Hfs : Forall2 (close_node a o) fs' fs).
Let x := path_factor g o j (S (length fs)).
Let P := path_reach v fs.
Lemma close_prefix p' p f' f q : fs = p ++ f :: q -> Forall2 (close_node a o) p' p -> close_node a o f' f ->
  close x (path_pose1 O v ((sroot zax r' fs' :: p') ++ [f'])) (pose v (p ++ [f])) P.
Proof.
  intros E Hp Hf.
  pose proof (close_path O g a o j Hg Ho Hj Hmul Hone Hmot v (sroot zax r fs :: p) (sroot zax r' fs' :: p') f' f
    (Forall2_cons _ _ (close_node_sroot a o r' r fs' fs Er) Hp) Hf) as H.
  cbn [app] in H. rewrite pose_cons, rel_sroot, m4mul_1_l in H. cbn [length] in H.
  eapply close_weaken; [exact H| |].
  - apply path_factor_mono. rewrite E, app_length. cbn [length]. lia.
  - unfold P. rewrite E. unfold path_reach at 1. cbn [fold_right]. fold (path_reach v (p ++ [f])). rewrite reach_sroot.
    replace (p ++ f :: q) with ((p ++ [f]) ++ q) by (rewrite <- app_assoc; reflexivity). rewrite (path_reach_app v (p ++ [f])). pose proof (path_reach_nonneg v q). lra.
Qed.
Lemma close_whole : close x (path_pose1 O v (sroot zax r' fs' :: fs')) (pose v fs) P.
Proof.
  destruct (exists_last_or fs) as [E|(p & f & E)].
  - assert (E' : fs' = []) by (rewrite E in Hfs; inversion Hfs; reflexivity).
    pose proof (close_path O g a o j Hg Ho Hj Hmul Hone Hmot v [] [] (sroot zax r' fs') (sroot zax r fs) (Forall2_nil _) (close_node_sroot a o r' r fs' fs Er)) as H.
    cbn [app] in H. rewrite pose_cons, rel_sroot, m4mul_1_l in H. cbn [length] in H.
    unfold path_reach in H. cbn [fold_right] in H. rewrite reach_sroot in H.
    replace (sroot zax r' fs' :: fs') with [sroot zax r' fs'] by (rewrite E' at 3; reflexivity).
    rewrite E at 1. eapply close_weaken; [exact H| |].
    + apply path_factor_mono. lia.
    + pose proof (path_reach_nonneg v fs). unfold P. lra.
  - rewrite E in Hfs. destruct (forall2_snoc _ _ _ _ Hfs) as (p' & f' & E' & H1 & H2). rewrite E at 1. rewrite E'.
    replace (sroot zax r' (p' ++ [f']) :: p' ++ [f']) with ((sroot zax r' fs' :: p') ++ [f']) by (rewrite E'; reflexivity).
    apply (close_prefix p' p f' f [] E H1 H2).
Qed.
Let Z := x * (1 + 2 * gv) * (1 + 2 * a).
Lemma x_ge1 : 1 <= x. Proof. apply (close_ge1 _ _ _ _ close_whole). Qed.
Lemma Z_ge1 : 1 <= Z.
Proof. pose proof x_ge1. unfold Z. assert (1 <= x * (1 + 2 * gv)) by nra. nra. Qed.
Lemma col_err p' p f' f q : fs = p ++ f :: q -> moving f = true -> Forall2 (close_node a o) p' p -> close_node a o f' f ->
  col_within (2 * P * ((1 + 2 * h) * Z * ((1 + us) * x) - 1)) (Z - 1) f
    (col_raw O jo v (sroot zax r' fs') (path_pose1 O v (sroot zax r' fs' :: fs')) (p', f')) (col_of v (pose v fs) (p, f)).
Proof.
  intros E Hm Hp Hf. pose proof Hf as (_ & _ & _ & _ & Et & Hax). destruct (Hax Hm) as (Hk & A1 & A2 & A3).
  pose proof (axis_norm a _ _ Hk Ha A1 A2 A3) as Hd.
  pose proof (close_prefix p' p f' f q E Hp Hf) as HW. pose proof close_whole as HT.
  unfold col_within, col_raw, col_of. cbn [fst snd]. rewrite Et.
  destruct (z_err jo gv us h a x Hgv Hjo _ _ P _ _ HW Hk Hd) as (Ez & Lz). fold Z in Ez, Lz.
  destruct (jtype_eqb (j_type (f_joint f)) Revolute) eqn:Ej; rewrite ?Ej; cbn [fst snd].
  - split; [|exact Ez].
    destruct (dp_err jo gv us h x Hus Hjo _ _ _ _ P HW HT) as (Ed & Ld & L0).
    apply (cross_err jo gv us h Hh Hjo); try assumption.
    + pose proof (close_P _ _ _ _ HT). lra.
    + apply Z_ge1.
    + pose proof x_ge1. nra.
    + rewrite rot_vnorm by apply HW. apply (unit3_norm _ Hk).
  - split; [exact Ez|]. split; reflexivity.
Qed.
Lemma jac_err : jac_within (2 * P * ((1 + 2 * h) * Z * ((1 + us) * x) - 1)) (Z - 1) (filter moving fs)
  (map (col_raw O jo v (sroot zax r' fs') (path_pose1 O v (sroot zax r' fs' :: fs'))) (mov [] fs')) (map (col_of v (pose v fs)) (mov [] fs)).
Proof.
  rewrite <- (mov_snd fs []). pose proof (mov_close a o _ _ [] [] Hfs (Forall2_nil _)) as HM.
  assert (HL : forall p f, In (p, f) (mov [] fs) -> moving f = true /\ exists q, fs = p ++ f :: q) by (intros p f Hi; apply (mov_split fs [] p f Hi)).
  revert HL HM. generalize (mov [] fs') (mov [] fs). intros l0 m0 HL HM. revert HL. induction HM as [|[p' f'] [p f] l m (H1 & H2) _ IH]; intros HL; cbn [map]; constructor.
  - cbn [fst snd] in *. destruct (HL p f (or_introl eq_refl)) as (Hm & q & E). apply (col_err p' p f' f q); assumption.
  - apply IH. intros p0 f0 Hi. apply HL. right; exact Hi.
Qed.
End Path.
End Err.
