(** The Jacobian code returns, for every joint of the path, the geometric column of that joint. *)
From Coq Require Import Reals Lra String Bool Arith Lia List Permutation.
From Coquelicot Require Import Coquelicot.
From Verif Require Import Prelude ExtF Tree ChainModel SpecFK ChainProofs ChainTables TreeQueries Input Lin Trig RotModel RotBasic ChainInst
  Examples SerialModel SerialProofs SerialMore Deriv JacModel.
Import ListNotations.
Local Open Scope nat_scope.
Local Open Scope string_scope.
Local Open Scope list_scope.

(** ** slots of the frame tensor *)
Lemma slot_named (root : mframe) c vs arr : distinct_joints root -> distinct_frames root -> clean_names root -> chain_init mops root = Ok c ->
  forward_kinematics_tensor mops c (config_tensor root vs) = Ok arr ->
  forall l g i, root_path root (l ++ [g]) -> dget String.eqb (f_name g) (c_f2i c) = Some i ->
  read_slot arr i = Ok (map (fun v => pose v (l ++ [g])) vs).
Proof.
  intros Hj Hd Hcl Hc Ha l g i Hp Hi.
  destruct (fk_tensor_spec mops root c vs mlaws Hj Hc) as (arr' & Ha' & _ & _ & Hs).
  assert (HX : forall X (a b : X), Ok a = Ok b -> a = b) by (intros; congruence).
  rewrite Ha in Ha'. apply HX in Ha'. subst arr'.
  destruct (Hs l g Hp) as (k & _ & Hk & Hn). rewrite (Hcl g (root_path_in _ _ _ Hp)) in Hk.
  destruct (frame_index_spec mops root c Hd Hcl Hc) as (_ & Hiff & _). apply Hiff in Hk. rewrite Hi in Hk.
  assert (Ek : k = i) by congruence. subst k. unfold read_slot, get. rewrite Hn. reflexivity.
Qed.

Lemma rp_prefix (root : mframe) l q : root_path root (l ++ q) -> l <> [] -> root_path root l.
Proof.
  revert root. induction l as [|x l IH]; intros root H N; [contradiction|]. destruct l as [|y l].
  - inversion H; subst; constructor.
  - cbn [app] in H. inversion H as [|? c ? Hc Hp]; subst. econstructor; [exact Hc|]. apply IH; [exact Hp | discriminate].
Qed.
Lemma pose_map v (l1 l2 : list mframe) : map (rel_pose mops v) l1 = map (rel_pose mops v) l2 -> pose v l1 = pose v l2.
Proof.
  unfold path_pose. generalize (t_one mops). revert l2. induction l1 as [|x l1 IH]; intros [|y l2] m E; cbn [map] in E; try discriminate; [reflexivity|].
  cbn [fold_left]. assert (E1 : rel_pose mops v x = rel_pose mops v y) by congruence. rewrite E1. apply IH. congruence.
Qed.
Lemma rel_sroot v (r : mframe) fs : rel_pose mops v (sroot zax r fs) = I4.
Proof. apply (rel_pose_sroot mops zax v r fs mlaws). Qed.

(** every frame of the path is a frame of the serial chain, with the same name and the pose relative to the root *)
Lemma serial_prefix (r : mframe) p f q : exists l g, root_path (sroot zax r (p ++ f :: q)) (l ++ [g]) /\ f_name g = f_name f /\
  forall v, pose v (l ++ [g]) = pose v (p ++ [f]).
Proof.
  set (fs := p ++ f :: q). set (t := firstn (length p + 1) (stail fs)).
  assert (K : forall X (h : string -> link M4 -> mjoint -> X), map (fun g => h (f_name g) (f_link g) (f_joint g)) t = map (fun g => h (f_name g) (f_link g) (f_joint g)) (p ++ [f])).
  { intros X h. unfold t. rewrite <- firstn_map, stail_map. unfold fs. change (p ++ f :: q) with (p ++ [f] ++ q). rewrite app_assoc, map_app, firstn_app.
    rewrite map_length, app_length. cbn [length]. rewrite Nat.sub_diag, firstn_O, app_nil_r. apply firstn_all2. rewrite map_length, app_length. simpl. lia. }
  assert (Et : map f_name t = map f_name (p ++ [f])) by exact (K string (fun n _ _ => n)).
  assert (Ht : length t = length p + 1) by (rewrite <- (map_length f_name), Et, map_length, app_length; reflexivity).
  destruct (exists_last (l := t)) as (l & g & Eg); [intros Z; rewrite Z in Ht; simpl in Ht; lia|].
  exists (sroot zax r fs :: l), g. split; [|split].
  - apply (rp_prefix _ _ (skipn (length p + 1) (stail fs))); [|discriminate].
    cbn [app]. rewrite <- Eg. unfold t. rewrite firstn_skipn. apply sroot_path.
  - rewrite Eg, !map_app in Et. apply app_inj_tail in Et as [_ Et]. exact Et.
  - intros v. cbn [app]. rewrite pose_cons, rel_sroot, m4mul_1_l, <- Eg. apply pose_map.
    apply (K M4 (fun _ l j => m4mul (m4mul (or_one mops (l_off l)) (or_one mops (j_off j))) (joint_motion mops v j))).
Qed.

(** ** the moving frames of a path with what precedes each *)
Fixpoint mov (p : list mframe) (fs : list mframe) : list (list mframe * mframe) :=
  match fs with [] => [] | g :: s => if moving g then (p, g) :: mov (p ++ [g]) s else mov (p ++ [g]) s end.
Lemma mov_snd fs : forall p, map snd (mov p fs) = filter moving fs.
Proof. induction fs as [|g s IH]; intros p; [reflexivity|]. cbn [mov filter]. destruct (moving g); cbn [map snd]; rewrite IH; reflexivity. Qed.
Lemma mov_split fs : forall acc p g, In (p, g) (mov acc fs) -> moving g = true /\ exists s, acc ++ fs = p ++ g :: s.
Proof.
  induction fs as [|x s IH]; intros acc p g H; [contradiction|]. cbn [mov] in H.
  assert (K : In (p, g) (mov (acc ++ [x]) s) -> moving g = true /\ exists s0, acc ++ x :: s = p ++ g :: s0).
  { intros H'. destruct (IH _ _ _ H') as (M & s' & E). split; [exact M|]. exists s'. rewrite <- E, <- app_assoc. reflexivity. }
  destruct (moving x) eqn:E; [|auto]. destruct H as [H|H]; [|auto]. assert (E1 : acc = p) by congruence. assert (E2 : x = g) by congruence. subst. eauto.
Qed.

Lemma where_dof_map {X Y} (L : list X) (m : X -> bool) (f1 f2 : X -> list Y) :
  where_dof (map m L) (map f1 L) (map f2 L) = map (fun x => if m x then f1 x else f2 x) L.
Proof. unfold where_dof. rewrite (zip_with_map pair), (zip_with_map _ m). reflexivity. Qed.
Lemma get_map {X Y} (h : X -> Y) l b x : nth_error l b = Some x -> get (map h l) b = Ok (h x).
Proof. intros H. apply get_ok. rewrite nth_error_map, H. reflexivity. Qed.
Lemma batch_major_map {X Y Z} (vs : list X) (L : list Y) (h : Y -> X -> Z) :
  batch_major (length vs) (map (fun y => map (h y) vs) L) = Ok (map (fun x => map (fun y => h y x) L) vs).
Proof.
  unfold batch_major. apply rmap_ok_forall2.
  assert (G : forall k l, (forall i x, nth_error l i = Some x -> nth_error vs (k + i) = Some x) ->
    Forall2 (fun b y => rmap (fun col => get col b) (map (fun y => map (h y) vs) L) = Ok y) (seq k (length l)) (map (fun x => map (fun y => h y x) L) l)).
  { intros k l. revert k. induction l as [|x l IH]; intros k H; [constructor|]. cbn [length seq map]. constructor.
    - assert (E : nth_error vs k = Some x) by (rewrite <- (Nat.add_0_r k); apply (H 0); reflexivity). clear -E.
      induction L as [|y L IH]; [reflexivity|]. cbn [map rmap]. rewrite (get_map (h y) vs k x E). cbn [rbind]. rewrite IH. reflexivity.
    - apply IH. intros i z Hz. replace (Datatypes.S k + i) with (k + Datatypes.S i) by lia. apply H. exact Hz. }
  apply (G 0 vs). auto.
Qed.

(** ** what the Jacobian code computes *)
Definition col_of (v : config (S := R)) (T : M4) (pg : list mframe * mframe) : V3 * V3 :=
  let W := pose v (fst pg ++ [snd pg]) in
  let z := m3vec (rotp W) (j_axis (f_joint (snd pg))) in
  if jtype_eqb (j_type (f_joint (snd pg))) Revolute then (vcross z (vsub (trp T) (trp W)), z) else (z, vzero).

Section Jac.
Variables (root r : mframe) (fs : list mframe) (s : schain M4 V3) (vs : list (config (S := R))).
Hypothesis (Hin : In r (preorder root)) (Hdj : distinct_joints root) (Hdf : distinct_frames root) (Hcl : clean_names root)
  (Hp : root_path r (r :: fs)) (Ht : serial_tables mops zax s r fs).

Lemma serial_hyps : distinct_joints (sroot zax r fs) /\ distinct_frames (sroot zax r fs) /\ clean_names (sroot zax r fs).
Proof.
  split; [apply (serial_moving zax r fs root); assumption|]. split.
  - apply sroot_distinct_frames. apply (path_nodup f_name r); [apply (sub_distinct_frames root); assumption | exact Hp].
  - apply sroot_clean. intros f Hf. apply Hcl. eapply sub_preorder; [exact Hin|]. exact (path_incl r _ Hp f Hf).
Qed.

Lemma serial_slots : exists arr, forward_kinematics_tensor mops (s_chain s) (path_tensor fs vs) = Ok arr /\
  read_slot arr (s_eef s) = Ok (map (fun v => pose v fs) vs) /\
  rmap (read_slot arr) (s_dof_idx s) = Ok (map (fun pg => map (fun v => pose v (fst pg ++ [snd pg])) vs) (mov [] fs)).
Proof.
  destruct serial_hyps as (Hj & Hd & Hc2). destruct Ht as (Hc & Hfr & _ & _ & Hidx & Heef & Hend).
  destruct (fk_tensor_spec mops (sroot zax r fs) (s_chain s) vs mlaws Hj Hc) as (arr & Ha & _).
  exists arr. rewrite (path_tensor_eq zax r). split; [exact Ha|].
  assert (K : forall p f q i, fs = p ++ f :: q -> dget String.eqb (f_name f) (c_f2i (s_chain s)) = Some i -> read_slot arr i = Ok (map (fun v => pose v (p ++ [f])) vs)).
  { intros p f q i E Hi. destruct (serial_prefix r p f q) as (l & g & E1 & E2 & E3). rewrite <- E in E1. rewrite <- E2 in Hi.
    rewrite (slot_named _ _ vs arr Hj Hd Hc2 Hc Ha l g i E1 Hi). f_equal. apply map_ext. exact E3. }
  split.
  - rewrite Hend in Heef. destruct (exists_last (l := r :: fs)) as (p & e & E); [discriminate|]. destruct p as [|x p].
    + cbn [app] in E. assert (Er : r = e) by congruence. assert (Ef : fs = []) by congruence. rewrite Ef in Heef. cbn [last] in Heef.
      rewrite <- (sroot_name zax r fs) in Heef.
      rewrite (slot_named _ _ vs arr Hj Hd Hc2 Hc Ha [] (sroot zax r fs) _ (rp_here _) Heef).
      f_equal. apply map_ext. intros v. cbn [app]. rewrite pose_cons, rel_sroot, m4mul_1_l, Ef. reflexivity.
    + cbn [app] in E. assert (Ef : fs = p ++ [e]) by congruence.
      assert (Ee : last (r :: fs) r = e) by (rewrite Ef; change (r :: p ++ [e]) with ((r :: p) ++ [e]); apply last_last).
      rewrite Ee in Heef. rewrite (K p e [] _ Ef Heef). rewrite <- Ef. reflexivity.
  - apply rmap_ok_forall2. rewrite <- (mov_snd fs []) in Hidx.
    assert (G : forall L, (forall p g, In (p, g) L -> exists q, fs = p ++ g :: q) -> forall idx,
      Forall2 (fun g i => dget String.eqb (f_name g) (c_f2i (s_chain s)) = Some i) (map snd L) idx ->
      Forall2 (fun x y => read_slot arr x = Ok y) idx (map (fun pg => map (fun v => pose v (fst pg ++ [snd pg])) vs) L)).
    { induction L as [|[p g] L IH]; intros HL idx HF; cbn [map] in HF; inversion HF as [|? i ? idx' H1 H2]; subst; [constructor|].
      cbn [map fst snd] in *. constructor; [|apply IH; auto with datatypes]. destruct (HL p g (or_introl eq_refl)) as (q & E). exact (K p g q i E H1). }
    apply G; [|exact Hidx]. intros p g HI. destruct (mov_split fs [] p g HI) as (_ & q & E). exists q. exact E.
Qed.

Lemma world_axes_eq : world_axes (map (fun pg => map (fun v => pose v (fst pg ++ [snd pg])) vs) (mov [] fs)) (s_dof_axes s) =
  map (fun pg => map (fun v => m3vec (rotp (pose v (fst pg ++ [snd pg]))) (j_axis (f_joint (snd pg)))) vs) (mov [] fs).
Proof.
  destruct Ht as (_ & _ & -> & _). unfold world_axes. rewrite <- (mov_snd fs []), map_map, zip_with_map. apply map_ext. intros [p g]. rewrite map_map. reflexivity.
Qed.
Lemma is_rev_eq : map (Nat.eqb 1) (s_dof_types s) = map (fun pg => jtype_eqb (j_type (f_joint (snd pg))) Revolute) (mov [] fs).
Proof.
  destruct Ht as (_ & _ & _ & -> & _). rewrite <- (mov_snd fs []), !map_map. apply map_ext. intros [p g]. cbn [snd]. destruct (jtype_eqb _ _); reflexivity.
Qed.

Lemma jacobian_from_eq arr : read_slot arr (s_eef s) = Ok (map (fun v => pose v fs) vs) ->
  rmap (read_slot arr) (s_dof_idx s) = Ok (map (fun pg => map (fun v => pose v (fst pg ++ [snd pg])) vs) (mov [] fs)) ->
  jacobian_from s arr = Ok (map (fun v => map (col_of v (pose v fs)) (mov [] fs)) vs, map (fun v => pose v fs) vs).
Proof.
  intros E1 E2. unfold jacobian_from. rewrite E1, E2. cbn [rbind]. rewrite world_axes_eq, is_rev_eq, !map_map.
  rewrite !(zip_with_map (zip_with vcross)), where_dof_map, where_dof_map, (zip_with_map (zip_with pair)).
  rewrite map_length.
  set (cols := map _ (mov [] fs)).
  assert (EC : cols = map (fun pg => map (fun v => col_of v (pose v fs) pg) vs) (mov [] fs)).
  { unfold cols. apply map_ext. intros [p g]. unfold col_of. cbn [fst snd]. rewrite !map_map, !zip_with_map.
    destruct (jtype_eqb (j_type (f_joint g)) Revolute); rewrite zip_with_map; reflexivity. }
  rewrite EC, (batch_major_map vs (mov [] fs) (fun pg v => col_of v (pose v fs) pg)). reflexivity.
Qed.

Theorem jacobian_tensor_eq : jacobian_tensor s (path_tensor fs vs) =
  Ok (map (fun v => map (col_of v (pose v fs)) (mov [] fs)) vs, map (fun v => pose v fs) vs).
Proof.
  destruct serial_slots as (arr & Ha & E1 & E2). unfold jacobian_tensor. rewrite Ha. cbn [rbind]. apply jacobian_from_eq; assumption.
Qed.

(** the tool of each row: one per configuration, or one for all *)
Definition row_tools (t : list M4) : option (list M4) :=
  if Nat.eqb (length t) (length vs) then Some t else match t with [m] => Some (repeat m (length vs)) | _ => None end.

Theorem jacobian_tool_eq i t tools : jac_input i = Ok (path_tensor fs vs) -> row_tools (tool_matrix t) = Some tools ->
  jacobian s i (Some t) = Ok (zip_with (fun v m => map (col_of v (m4mul (pose v fs) m)) (mov [] fs)) vs tools,
    zip_with (fun v m => m4mul (pose v fs) m) vs tools).
Proof.
  intros Hi Hr. destruct serial_slots as (arr & Ha & E1 & E2). unfold jacobian. rewrite Hi. cbn [rbind]. rewrite Ha. cbn [rbind].
  rewrite (jacobian_from_eq arr E1 E2). cbn [rbind].
  assert (Hl : length tools = length vs).
  { unfold row_tools in Hr. destruct (Nat.eqb_spec (length (tool_matrix t)) (length vs)) as [E|E]; [congruence|].
    destruct (tool_matrix t) as [|m [|m' l]]; try discriminate. assert (X : repeat m (length vs) = tools) by congruence. rewrite <- X. apply repeat_length. }
  assert (EB : bmatmul (map (fun v => pose v fs) vs) (tool_matrix t) = Ok (zip_with (fun v m => m4mul (pose v fs) m) vs tools)).
  { unfold bmatmul, row_tools in *. rewrite map_length, Nat.eqb_sym.
    assert (Z : forall l, zip_with m4mul (map (fun v => pose v fs) vs) l = zip_with (fun v m => m4mul (pose v fs) m) vs l).
    { clear. induction vs as [|v l IH]; intros [|m ms]; cbn [map zip_with]; try reflexivity. rewrite IH. reflexivity. }
    destruct (Nat.eqb (length (tool_matrix t)) (length vs)) eqn:E.
    - assert (X : tool_matrix t = tools) by congruence. rewrite X, Z. reflexivity.
    - destruct (tool_matrix t) as [|m [|m' l]]; try discriminate. assert (X : repeat m (length vs) = tools) by congruence. rewrite <- X. f_equal.
      clear. induction vs as [|v l IH]; [reflexivity|]. cbn [map length repeat zip_with]. rewrite IH. reflexivity. }
  rewrite EB. cbn [rbind]. rewrite E2. cbn [rbind]. rewrite world_axes_eq, is_rev_eq, !map_length.
  assert (ED : bsub (map trp (zip_with (fun v m => m4mul (pose v fs) m) vs tools)) (map trp (map (fun v => pose v fs) vs)) =
    zip_with (fun v m => vsub (trp (m4mul (pose v fs) m)) (trp (pose v fs))) vs tools).
  { assert (Z : forall ms, length ms = length vs -> length (zip_with (fun (v : config) m => m4mul (pose v fs) m) vs ms) = length vs).
    { clear. induction vs as [|v l IH]; intros [|m ms] H; cbn [zip_with length] in *; try lia. rewrite IH; lia. }
    unfold bsub. rewrite !map_length, (Z _ Hl), Nat.eqb_refl. clear -Hl. revert tools Hl. induction vs as [|v l IH]; intros [|m ms] H; cbn [map zip_with length] in *; try lia; [reflexivity|].
    rewrite IH by lia. reflexivity. }
  rewrite ED. unfold expand_batch.
  assert (EL : length (zip_with (fun v m => vsub (trp (m4mul (pose v fs) m)) (trp (pose v fs))) vs tools) = length vs).
  { clear -Hl. revert tools Hl. induction vs as [|v l IH]; intros [|m ms] H; cbn [zip_with length] in *; try lia. rewrite IH; lia. }
  rewrite EL, Nat.eqb_refl. cbn [rbind].
  set (vt := combine vs tools).
  assert (Ev : vs = map fst vt) by (unfold vt; symmetry; apply map_fst_combine; congruence).
  assert (Em : tools = map snd vt).
  { unfold vt. clear -Hl. revert tools Hl. induction vs as [|v l IH]; intros [|m ms] H; cbn [length combine map snd] in *; try lia; [reflexivity|]. f_equal. apply IH. lia. }
  clearbody vt. clear ED EL EB Hl Hr. revert Ev Em. generalize vs tools. intros vs0 tools0 -> ->.
  rewrite !map_length, !(zip_with_map _ fst snd), !map_map.
  match goal with |- context [batch_major _ ?c] => assert (EC : c = map (fun pg => map (fun x : config * M4 =>
     if jtype_eqb (j_type (f_joint (snd pg))) Revolute then vcross (m3vec (rotp (pose (fst x) (fst pg ++ [snd pg]))) (j_axis (f_joint (snd pg)))) (vsub (trp (m4mul (pose (fst x) fs) (snd x))) (trp (pose (fst x) fs))) else vzero) vt) (mov [] fs)) end.
  { rewrite where_dof_map. apply map_ext. intros [p g]. cbn [fst snd]. rewrite map_map, !zip_with_map, !map_map. destruct (jtype_eqb (j_type (f_joint g)) Revolute); reflexivity. }
  rewrite EC. rewrite <- (map_length fst vt), map_length.
  match goal with |- context [map (fun pg => map (@?h pg) vt) (mov [] fs)] => rewrite (batch_major_map vt (mov [] fs) h) end.
  cbn [rbind]. f_equal. f_equal. rewrite zip_with_map. apply map_ext_in. intros [v m] Hx. cbn [fst snd]. rewrite zip_with_map. apply map_ext. intros [p g].
  unfold col_of. cbn [fst snd]. destruct (jtype_eqb (j_type (f_joint g)) Revolute); cbn [fst snd].
  - f_equal. generalize (m3vec (rotp (pose v (p ++ [g]))) (j_axis (f_joint g))) (trp (pose v (p ++ [g]))) (trp (m4mul (pose v fs) m)) (trp (pose v fs)). clear. intros; lin.
  - f_equal. generalize (m3vec (rotp (pose v (p ++ [g]))) (j_axis (f_joint g))). clear. intros; lin.
Qed.
End Jac.
