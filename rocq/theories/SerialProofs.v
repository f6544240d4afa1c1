(** C11 - C13: serial chains. *)
From Coq Require Import String Bool Arith Lia List Permutation Sorted.
From Verif Require Import Prelude ExtF Tree ChainModel SpecFK ChainProofs ChainTables TreeQueries Input Widths SerialModel.
Import ListNotations.

Section SerialProofs.
Context {T A S : Type} (O : Ops T A S) (ax_z : A).
Notation frame := (frame T A).
Local Arguments rel_pose : simpl never.
Local Open Scope string_scope.
Local Open Scope list_scope.
Local Open Scope nat_scope.

(** ** spines *)
Lemma nest_name (f : frame) r : f_name (nest f r) = f_name f.
Proof. destruct f; destruct r; reflexivity. Qed.
Lemma nest_link (f : frame) r : f_link (nest f r) = f_link f.
Proof. destruct f; destruct r; reflexivity. Qed.
Lemma nest_joint (f : frame) r : f_joint (nest f r) = f_joint f.
Proof. destruct f; destruct r; reflexivity. Qed.
Lemma nest_children (f : frame) r : f_children (nest f r) = match r with [] => [] | g :: r' => [nest g r'] end.
Proof. destruct f; destruct r; reflexivity. Qed.
Lemma spine_unfold (f : frame) : spine f = f :: match f_children f with [] => [] | c :: _ => spine c end.
Proof. destruct f; reflexivity. Qed.
(** a chain without branches: its frames depth first are its spine, and the spine is a root path *)
Lemma nest_preorder r : forall f : frame, preorder (nest f r) = spine (nest f r).
Proof.
  induction r as [|g r IH]; intros f; rewrite preorder_unfold, spine_unfold, nest_children; simpl; [reflexivity|].
  rewrite app_nil_r, IH. reflexivity.
Qed.
Lemma nest_path r : forall f : frame, root_path (nest f r) (spine (nest f r)).
Proof.
  induction r as [|g r IH]; intros f; rewrite spine_unfold, nest_children; [constructor|].
  econstructor; [|apply IH]. rewrite nest_children. left; reflexivity.
Qed.
Lemma nest_spine_map {X} (h : string -> link T -> joint T A -> X) r : forall f : frame,
  map (fun g => h (f_name g) (f_link g) (f_joint g)) (spine (nest f r)) = map (fun g => h (f_name g) (f_link g) (f_joint g)) (f :: r).
Proof.
  induction r as [|g r IH]; intros f; rewrite spine_unfold, nest_children; cbn [map]; rewrite nest_name, nest_link, nest_joint; [reflexivity|].
  f_equal. apply IH.
Qed.
Lemma reset_parts (f : frame) : f_name (reset_root ax_z f) = f_name f /\ f_link (reset_root ax_z f) = mkLink (l_name (f_link f)) None /\
  f_joint (reset_root ax_z f) = default_joint ax_z /\ f_children (reset_root ax_z f) = f_children f.
Proof. destruct f; repeat split. Qed.

Definition sroot (f : frame) (r : list frame) : frame := reset_root ax_z (nest f r).
Definition stail (r : list frame) : list frame := match r with [] => [] | g :: r' => spine (nest g r') end.
Lemma sroot_children f r : f_children (sroot f r) = match r with [] => [] | g :: r' => [nest g r'] end.
Proof. unfold sroot. destruct (reset_parts (nest f r)) as (_ & _ & _ & E). rewrite E. apply nest_children. Qed.
Lemma sroot_spine f r : spine (sroot f r) = sroot f r :: stail r.
Proof. rewrite spine_unfold, sroot_children. destruct r; reflexivity. Qed.
Lemma sroot_preorder f r : preorder (sroot f r) = sroot f r :: stail r.
Proof.
  rewrite preorder_unfold, sroot_children. destruct r as [|g r]; [reflexivity|]. cbn [flat_map stail]. rewrite app_nil_r, nest_preorder. reflexivity.
Qed.
Lemma sroot_path f r : root_path (sroot f r) (sroot f r :: stail r).
Proof.
  destruct r as [|g r]; [constructor|]. econstructor; [|apply nest_path]. rewrite sroot_children. left; reflexivity.
Qed.
Lemma stail_map {X} (h : string -> link T -> joint T A -> X) r :
  map (fun g => h (f_name g) (f_link g) (f_joint g)) (stail r) = map (fun g => h (f_name g) (f_link g) (f_joint g)) r.
Proof. destruct r as [|g r]; [reflexivity|]. apply nest_spine_map. Qed.
Lemma stail_names r : map f_name (stail r) = map f_name r.
Proof. apply (stail_map (fun n _ _ => n)). Qed.
Lemma stail_joints r : map f_joint (stail r) = map f_joint r.
Proof. apply (stail_map (fun _ _ j => j)). Qed.
Lemma filter_moving_joints (l l' : list frame) : map f_joint l = map f_joint l' ->
  map f_joint (filter moving l) = map f_joint (filter moving l').
Proof.
  revert l'. induction l as [|x l IH]; intros [|y l'] E; simpl in *; try discriminate; [reflexivity|].
  injection E as E1 E2. specialize (IH l' E2). unfold moving in *. rewrite E1. destruct (j_type (f_joint y)); simpl; rewrite ?E1, IH; reflexivity.
Qed.
Lemma sroot_fixed f r : moving (sroot f r) = false.
Proof. unfold sroot, moving. destruct (reset_parts (nest f r)) as (_ & _ & E & _). rewrite E. reflexivity. Qed.
Lemma sroot_name f r : f_name (sroot f r) = f_name f.
Proof. unfold sroot. destruct (reset_parts (nest f r)) as (E & _). rewrite E. apply nest_name. Qed.
Lemma sroot_moving_names f r : moving_names (sroot f r) = map (fun g => j_name (f_joint g)) (filter moving r).
Proof.
  unfold moving_names. rewrite sroot_preorder. cbn [filter]. rewrite sroot_fixed.
  pose proof (filter_moving_joints _ _ (stail_joints r)) as E. apply (f_equal (map (@j_name T A))) in E. rewrite !map_map in E. exact E.
Qed.
Lemma last_map {X Y} (h : X -> Y) (l : list X) d : h (last l d) = last (map h l) (h d).
Proof. induction l as [|x l IH]; [reflexivity|]. destruct l as [|y l]; [reflexivity|]. exact IH. Qed.
Lemma stail_last r d : r <> [] -> f_name (last (stail r) d) = f_name (last r d).
Proof.
  intros N. rewrite !(last_map f_name), stail_names. reflexivity.
Qed.

(** ** subtrees inherit the hypotheses *)
Lemma sub_preorder (root g : frame) : In g (preorder root) -> forall f, In f (preorder g) -> In f (preorder root).
Proof.
  revert g. induction root as [n l j cs IH] using frame_rect'. intros g Hg f Hf. cbn [preorder] in Hg. destruct Hg as [<-|Hg]; [exact Hf|].
  apply in_flat_map in Hg as (c & Hc & Hg). rewrite Forall_forall in IH. right. apply in_flat_map. exists c. split; [exact Hc|]. eapply IH; eauto.
Qed.
Lemma NoDup_app_inv {X} (a b : list X) : NoDup (a ++ b) -> NoDup a /\ NoDup b.
Proof.
  induction a as [|x a IH]; simpl; intros H; [split; [constructor|exact H]|]. inversion H as [|? ? H1 H2]; subst. destruct (IH H2).
  split; [|assumption]. constructor; [|assumption]. intros Hi. apply H1, in_or_app; auto.
Qed.
Lemma sub_nodup {X} (h : frame -> list X) (root g : frame) : NoDup (flat_map h (preorder root)) -> In g (preorder root) -> NoDup (flat_map h (preorder g)).
Proof.
  revert g. induction root as [n l j cs IH] using frame_rect'. intros g N Hg. cbn [preorder] in *. destruct Hg as [<-|Hg]; [exact N|].
  cbn [flat_map] in N. apply NoDup_app_inv in N as [_ N]. apply in_flat_map in Hg as (c & Hc & Hg). rewrite Forall_forall in IH.
  apply (IH c Hc); [|exact Hg]. clear -N Hc. induction cs as [|x cs IHc]; [contradiction|]. cbn [flat_map] in N. rewrite flat_map_app in N.
  apply NoDup_app_inv in N as [N1 N2]. destruct Hc as [->|Hc]; auto.
Qed.
Lemma flat_map_single {X Y} (h : X -> Y) l : flat_map (fun x => [h x]) l = map h l.
Proof. induction l; simpl; congruence. Qed.
Lemma flat_map_filter {X Y} (p : X -> bool) (h : X -> Y) l : flat_map (fun x => if p x then [h x] else []) l = map h (filter p l).
Proof. induction l as [|x l IH]; simpl; [reflexivity|]. destruct (p x); simpl; congruence. Qed.
Lemma sub_distinct_frames (root g : frame) : distinct_frames root -> In g (preorder root) -> distinct_frames g.
Proof. unfold distinct_frames. rewrite <- !flat_map_single. apply sub_nodup. Qed.
Lemma sub_distinct_joints (root g : frame) : distinct_joints root -> In g (preorder root) -> distinct_joints g.
Proof. unfold distinct_joints, moving_names. rewrite <- !flat_map_filter. apply sub_nodup. Qed.
Lemma sub_clean (root g : frame) : clean_names root -> In g (preorder root) -> clean_names g.
Proof. intros H Hg f Hf. apply H. eapply sub_preorder; eauto. Qed.

Lemma find_frame_own (root f : frame) : distinct_frames root -> In f (preorder root) -> find_frame (f_name f) root = Some f.
Proof.
  intros D I. rewrite find_frame_spec. unfold distinct_frames in D. induction (preorder root) as [|x l IH]; [contradiction|].
  simpl in *. inversion D as [|? ? N D']; subst. destruct (String.eqb_spec (f_name x) (f_name f)) as [E|E].
  - destruct I as [->|I]; [reflexivity|]. exfalso. apply N. rewrite E. apply in_map, I.
  - destruct I as [->|I]; [congruence|]. auto.
Qed.
Lemma find_frame_none (root : frame) n : ~ In n (map f_name (preorder root)) -> find_frame n root = None.
Proof.
  intros N. rewrite find_frame_spec. induction (preorder root) as [|x l IH]; [reflexivity|]. simpl in *.
  destruct (String.eqb_spec (f_name x) n) as [E|E]; [exfalso; auto|]. apply IH. auto.
Qed.

(** ** sub-lists of a path *)
Lemma path_nodup {X} (h : frame -> X) (root : frame) : NoDup (map h (preorder root)) -> forall fs, root_path root fs -> NoDup (map h fs).
Proof.
  induction root as [n l j cs IH] using frame_rect'. intros N fs H. inversion H as [|? c r Hc Hp]; subst; [repeat constructor; auto|].
  cbn [f_children] in Hc. cbn [preorder map] in N. inversion N as [|? ? N1 N2]; subst. cbn [map]. constructor.
  - intros Hi. apply N1. apply in_map_iff in Hi as (g & <- & Hg). apply in_map. apply in_flat_map. exists c. split; [exact Hc|].
    clear -Hp Hg. revert Hg. induction Hp as [f|f c' fs Hc' _ IHp]; intros [<-|Hg]; rewrite preorder_unfold; try (left; reflexivity); [contradiction|].
    right. apply in_flat_map. eauto.
  - rewrite Forall_forall in IH. apply (IH c Hc); [|exact Hp]. clear -N2 Hc. induction cs as [|x cs IHc]; [contradiction|].
    cbn [flat_map] in N2. rewrite map_app in N2. apply NoDup_app_inv in N2 as [A1 A2]. destruct Hc as [->|Hc]; auto.
Qed.
Lemma path_incl (root : frame) fs : root_path root fs -> forall f, In f fs -> In f (preorder root).
Proof.
  induction 1 as [f|f c fs Hc _ IH]; intros g [<-|H]; rewrite preorder_unfold; try (left; reflexivity); [contradiction|].
  right. apply in_flat_map. eauto.
Qed.
Lemma path_head (root : frame) fs : root_path root fs -> exists r, fs = root :: r.
Proof. intros H. inversion H; eauto. Qed.
Lemma path_moving_nodup (root : frame) fs : distinct_joints root -> root_path root fs ->
  NoDup (map (fun g => j_name (f_joint g)) (filter moving fs)).
Proof.
  intros D H. assert (K : forall l : list frame, (forall f, In f l -> In f (preorder root)) -> NoDup l ->
    NoDup (map (fun g => j_name (f_joint g)) (filter moving l))).
  { induction l as [|x l IH]; intros Hi Hn; [constructor|]. inversion Hn as [|? ? N1 N2]; subst. simpl.
    destruct (moving x) eqn:Em; [|apply IH; auto with datatypes]. simpl. constructor; [|apply IH; auto with datatypes].
    intros Hc. apply in_map_iff in Hc as (y & E & Hy). apply filter_In in Hy as [Hy My]. apply N1.
    replace x with y; [exact Hy|]. eapply (moving_inj root); eauto with datatypes. }
  apply K; [apply path_incl, H|].
  (* no frame occurs twice on a path: sizes decrease *)
  clear -H. induction H as [f|f c fs Hc Hp IH]; [repeat constructor; auto|]. constructor; [|exact IH].
  intros Hi. pose proof (path_incl _ _ Hp _ Hi) as Hin.
  assert (Hle : forall a b : frame, In a (preorder b) -> size a <= size b).
  { intros a b. induction b as [n l j cs IHb] using frame_rect'. cbn [preorder]. intros [<-|H]; [simpl; lia|].
    apply in_flat_map in H as (z & Hz & Ha). rewrite Forall_forall in IHb. specialize (IHb z Hz Ha).
    assert (size z <= list_sum (map size cs)); [|simpl; lia].
    clear - Hz. induction cs as [|w cs IHc]; [contradiction|]. destruct Hz as [->|Hz]; simpl; [lia|]. specialize (IHc Hz). lia. }
  specialize (Hle f c Hin). rewrite (size_unfold f) in Hle.
  assert (size c <= list_sum (map size (f_children f))); [|lia].
  clear - Hc. induction (f_children f) as [|w cs IHc]; [contradiction|]. destruct Hc as [->|Hc]; simpl; [lia|]. specialize (IHc Hc). lia.
Qed.

(** ** the constructor *)
Lemma chain_root (root : frame) c : chain_init O root = Ok c -> CTab O root c.
Proof.
  intros H. destruct (chain_init_ok O root) as (c' & H' & HC). rewrite H in H'.
  assert (HX : forall X (a b : X), Ok a = Ok b -> a = b) by (intros; congruence). apply HX in H'. subst. exact HC.
Qed.
Lemma rmap_ok_forall2 {X Y} (g : X -> res Y) l ys : Forall2 (fun x y => g x = Ok y) l ys -> rmap g l = Ok ys.
Proof. induction 1 as [|x y l ys H1 H2 IH]; simpl; [reflexivity|]. rewrite H1, IH. reflexivity. Qed.

Definition root_choice (root r : frame) (rn : string) : Prop := (rn = "" /\ r = root) \/ (rn <> "" /\ rn = f_name r /\ In r (preorder root)).

(** the index data computed for the Jacobian *)
Definition serial_tables (s : schain T A) (r : frame) (fs : list frame) : Prop :=
  chain_init O (sroot r fs) = Ok (s_chain s) /\ s_frames s = sroot r fs :: stail fs /\
  s_dof_axes s = map (fun g => j_axis (f_joint g)) (filter moving fs) /\
  s_dof_types s = map (fun g => if jtype_eqb (j_type (f_joint g)) Revolute then 1 else 2) (filter moving fs) /\
  Forall2 (fun g i => dget String.eqb (f_name g) (c_f2i (s_chain s)) = Some i) (filter moving fs) (s_dof_idx s) /\
  dget String.eqb (s_end s) (c_f2i (s_chain s)) = Some (s_eef s) /\
  s_end s = f_name (last (r :: fs) r).

Lemma sroot_distinct_frames (r : frame) fs : NoDup (map f_name (r :: fs)) -> distinct_frames (sroot r fs).
Proof. unfold distinct_frames. rewrite sroot_preorder. cbn [map]. rewrite sroot_name, stail_names. auto. Qed.
Lemma sroot_clean (r : frame) fs : (forall f, In f (r :: fs) -> strip_nl (f_name f) = f_name f) -> clean_names (sroot r fs).
Proof.
  intros H f Hf. rewrite sroot_preorder in Hf. destruct Hf as [<-|Hf]; [rewrite sroot_name; apply H; left; reflexivity|].
  assert (Hn : In (f_name f) (map f_name fs)) by (rewrite <- stail_names; apply in_map, Hf).
  apply in_map_iff in Hn as (g & E & Hg). rewrite <- E. apply H. right; exact Hg.
Qed.

Lemma filter_moving_map {X} (h : string -> joint T A -> X) (l l' : list frame) : map f_name l = map f_name l' -> map f_joint l = map f_joint l' ->
  map (fun g => h (f_name g) (f_joint g)) (filter moving l) = map (fun g => h (f_name g) (f_joint g)) (filter moving l').
Proof.
  revert l'. induction l as [|x l IH]; intros [|y l'] E0 E; simpl in *; try discriminate; [reflexivity|].
  injection E as E1 E2. injection E0 as E3 E4. specialize (IH l' E4 E2). unfold moving in *. rewrite E1.
  destruct (j_type (f_joint y)); simpl; rewrite ?E1, ?E3, IH; reflexivity.
Qed.
Lemma filter_moving_neg (l : list frame) : filter (fun g => negb (is_fixed (j_type (f_joint g)))) l = filter moving l.
Proof. apply filter_ext. intros g. unfold moving. destruct (j_type (f_joint g)); reflexivity. Qed.

Theorem serial_ok (root : frame) c rn r fs : chain_init O root = Ok c ->
  distinct_frames root -> clean_names root -> root_choice root r rn ->
  root_path r (r :: fs) ->
  exists s, serial_init O ax_z c (f_name (last (r :: fs) r)) rn = Ok s /\ serial_tables s r fs.
Proof.
  intros Hc Hd Hcl Hr Hp. pose proof (chain_root _ _ Hc) as HC.
  assert (Hin : In r (preorder root)).
  { destruct Hr as [[_ ->]|[_ [_ H]]]; [rewrite preorder_unfold; left; reflexivity | exact H]. }
  assert (Hrf : (if String.eqb rn "" then Ok (c_root c) else of_opt ValueError (find_frame rn (c_root c))) = Ok r).
  { rewrite (ct_root _ _ _ HC). destruct Hr as [[-> ->]|[Hne [-> _]]]; [reflexivity|].
    destruct (String.eqb_spec (f_name r) "") as [E|E]; [contradiction|]. rewrite find_frame_own by assumption. reflexivity. }
  pose proof (sub_distinct_frames _ _ Hd Hin) as Hdr. pose proof (sub_clean _ _ Hcl Hin) as Hclr.
  destruct (chain_init_ok O r) as (c1 & Hc1 & HC1).
  unfold serial_init. rewrite Hrf. cbn [rbind]. rewrite Hc1. cbn [rbind].
  destruct (frame_index_spec O r c1 Hdr Hclr Hc1) as (_ & _ & _ & _ & Hanc).
  assert (exists p e, r :: fs = p ++ [e]) as (p & e & Ep).
  { destruct (exists_last (l := r :: fs)) as (p & e & E); [discriminate|]. eauto. }
  assert (El : last (r :: fs) r = e) by (rewrite Ep; apply last_last). rewrite El.
  assert (Hp' := Hp). rewrite Ep in Hp'. destruct (Hanc p e Hp') as (i & is & H1 & H2 & H3 & _).
  unfold get_frame_indices. cbn [rmap]. rewrite H1. cbn [of_opt rbind get nth_error].
  unfold get at 1. rewrite H2. cbn [of_opt rbind].
  assert (HF : rmap (fun i => do n <- of_opt KeyError (dget Nat.eqb i (c_i2f c1)); of_opt AttributeError (find_frame n (c_root c1))) (is ++ [i]) = Ok (r :: fs)).
  { rewrite Ep. apply rmap_ok_forall2. rewrite (ct_root _ _ _ HC1).
    assert (Hall : forall g, In g (p ++ [e]) -> In g (preorder r)) by (apply path_incl, Hp').
    revert H3 Hall. generalize (is ++ [i]) (p ++ [e]). clear -Hdr. intros l. induction l as [|k l IH]; intros [|g gs] E Hall; simpl in E; try discriminate; constructor.
    - injection E as E _. rewrite E. cbn [of_opt rbind]. rewrite find_frame_own; auto with datatypes.
    - apply IH; [injection E; auto | auto with datatypes]. }
  rewrite HF. cbn [rbind]. fold (sroot r fs).
  destruct (chain_init_ok O (sroot r fs)) as (c2 & Hc2 & HC2). rewrite Hc2. cbn [rbind]. rewrite sroot_spine.
  assert (Hn : NoDup (map f_name (r :: fs))) by (apply (path_nodup f_name r); assumption).
  assert (Hd2 : distinct_frames (sroot r fs)) by (apply sroot_distinct_frames, Hn).
  assert (Hcl2 : clean_names (sroot r fs)).
  { apply sroot_clean. intros f Hf. apply Hclr. exact (path_incl r _ Hp f Hf). }
  destruct (frame_index_spec O _ c2 Hd2 Hcl2 Hc2) as (_ & _ & _ & Hnames & _).
  rewrite filter_moving_neg. cbn [filter]. rewrite sroot_fixed.
  assert (Hidx : exists idx, rmap (fun g => of_opt KeyError (dget String.eqb (f_name g) (c_f2i c2))) (filter moving (stail fs)) = Ok idx /\
     Forall2 (fun g i => dget String.eqb (f_name g) (c_f2i c2) = Some i) (filter moving (stail fs)) idx).
  { assert (Ha : forall g, In g (filter moving (stail fs)) -> exists i, dget String.eqb (f_name g) (c_f2i c2) = Some i).
    { intros g Hg. apply filter_In in Hg as [Hg _]. apply Hnames. rewrite sroot_preorder. cbn [map]. right. apply in_map, Hg. }
    revert Ha. generalize (filter moving (stail fs)). clear. intros l. induction l as [|g l IH]; intros Ha; [exists []; split; constructor|].
    destruct (Ha g (or_introl eq_refl)) as [i Hi]. destruct IH as (idx & E & F); [auto with datatypes|].
    exists (i :: idx). split; [simpl; rewrite Hi, E; reflexivity | constructor; assumption]. }
  destruct Hidx as (idx & Ei & Fi). rewrite Ei. cbn [rbind].
  assert (Elast : f_name (last (sroot r fs :: stail fs) (sroot r fs)) = f_name e).
  { rewrite <- El, !(last_map f_name), sroot_name. cbn [map]. rewrite sroot_name, stail_names. reflexivity. }
  rewrite Elast.
  assert (exists eef, dget String.eqb (f_name e) (c_f2i c2) = Some eef) as [eef Ee].
  { apply Hnames. rewrite sroot_preorder. cbn [map]. rewrite sroot_name, stail_names. change (In (f_name e) (map f_name (r :: fs))). rewrite Ep. apply in_map, in_or_app. right; left; reflexivity. }
  rewrite Ee. cbn [of_opt rbind]. eexists. split; [reflexivity|]. unfold serial_tables, s_end. cbn [s_chain s_frames s_dof_idx s_dof_axes s_dof_types s_eef].
  rewrite (ct_root _ _ _ HC2), El, Elast. split; [exact Hc2|]. split; [reflexivity|].
  split; [apply (filter_moving_map (fun _ j => j_axis j)); [apply stail_names | apply stail_joints]|].
  split; [apply (filter_moving_map (fun _ j => if jtype_eqb (j_type j) Revolute then 1 else 2)); [apply stail_names | apply stail_joints]|].
  split; [|split; [exact Ee | reflexivity]].
  assert (En : map f_name (filter moving (stail fs)) = map f_name (filter moving fs)).
  { apply (filter_moving_map (fun n _ => n)); [apply stail_names | apply stail_joints]. }
  clear -Fi En. revert En. generalize (filter moving fs). induction Fi as [|g i l idx H Fi IH]; intros [|g' l'] En; simpl in En; try discriminate; constructor.
  - injection En as E _. rewrite <- E. exact H.
  - apply IH. injection En; auto.
Qed.

(** ** forward kinematics *)
Lemma rel_pose_sroot (v : config (S := S)) (r : frame) fs : MonoidLaws O -> rel_pose O v (sroot r fs) = t_one O.
Proof.
  intros L. unfold rel_pose, sroot. destruct (reset_parts (nest r fs)) as (_ & E1 & E2 & _). rewrite E1, E2. cbn.
  rewrite !(law_1_r _ L). reflexivity.
Qed.
Lemma path_pose_stail (v : config (S := S)) fs : path_pose O v (stail fs) = path_pose O v fs.
Proof.
  unfold path_pose. generalize (t_one O).
  assert (H : map (rel_pose O v) (stail fs) = map (rel_pose O v) fs).
  { apply (stail_map (fun _ l j => t_mul O (t_mul O (or_one O (l_off l)) (or_one O (j_off j))) (joint_motion O v j))). }
  revert H. generalize (stail fs). intros l. revert fs. induction l as [|x l IH]; intros [|y fs] E m; simpl in *; try discriminate; [reflexivity|].
  assert (E1 : rel_pose O v x = rel_pose O v y) by congruence. rewrite E1. apply IH. congruence.
Qed.
Lemma path_pose_cons (v : config (S := S)) f fs : MonoidLaws O -> path_pose O v (f :: fs) = t_mul O (rel_pose O v f) (path_pose O v fs).
Proof.
  intros L. unfold path_pose. cbn [fold_left]. rewrite (law_1_l _ L).
  assert (G : forall l m, fold_left (fun acc f => t_mul O acc (rel_pose O v f)) l m = t_mul O m (fold_left (fun acc f => t_mul O acc (rel_pose O v f)) l (t_one O))).
  { induction l as [|x l IH]; intros m; cbn [fold_left]; [symmetry; apply (law_1_r _ L)|]. rewrite IH. symmetry. rewrite IH, (law_1_l _ L). apply (law_assoc _ L). }
  apply G.
Qed.
Lemma path_pose_app (v : config (S := S)) a b : MonoidLaws O -> path_pose O v (a ++ b) = t_mul O (path_pose O v a) (path_pose O v b).
Proof.
  intros L. induction a as [|f a IH]; cbn [app]; [symmetry; apply (law_1_l _ L)|]. rewrite !path_pose_cons, IH by exact L. apply (law_assoc _ L).
Qed.

Lemma serial_moving (r : frame) fs root : In r (preorder root) -> distinct_joints root -> root_path r (r :: fs) -> distinct_joints (sroot r fs).
Proof.
  intros Hin Hd Hp. unfold distinct_joints. rewrite sroot_moving_names.
  pose proof (path_moving_nodup r (r :: fs) (sub_distinct_joints _ _ Hd Hin) Hp) as N. cbn [filter] in N. destruct (moving r); [|exact N].
  cbn [map] in N. inversion N; assumption.
Qed.

(** the joints of the serial chain, the values it is given, and the pose it reports *)
Definition path_tensor (fs : list frame) (vs : list (config (S := S))) : thT S :=
  let names := map (fun g => j_name (f_joint g)) (filter moving fs) in
  mkTh (length names) (map (fun v => map v names) vs).
Lemma path_tensor_eq (r : frame) fs vs : path_tensor fs vs = config_tensor (sroot r fs) vs.
Proof. unfold path_tensor, config_tensor. rewrite sroot_moving_names. reflexivity. Qed.

Variable nan : S.
Variable is_nan : S -> bool.

Lemma serial_fk_tensor (root r : frame) fs s vs : MonoidLaws O -> In r (preorder root) ->
  distinct_joints root -> distinct_frames root -> clean_names root -> root_path r (r :: fs) -> serial_tables s r fs ->
  (exists fi, get_frame_indices (s_chain s) [s_end s] = Ok fi /\
   (do mat <- forward_kinematics O (s_chain s) (path_tensor fs vs) (Some fi); of_opt KeyError (dget String.eqb (s_end s) mat)) = Ok (map (fun v => path_pose O v fs) vs)) /\
  exists d, forward_kinematics O (s_chain s) (path_tensor fs vs) None = Ok d /\ map fst d = map f_name (r :: fs) /\
    forall p f q, r :: fs = r :: p ++ f :: q -> dget String.eqb (f_name f) d = Some (map (fun v => path_pose O v (p ++ [f])) vs).
Proof.
  intros L Hin Hdj Hdf Hcl Hp (Hc & Hfr & _ & _ & _ & _ & Hend).
  pose proof (serial_moving r fs root Hin Hdj Hp) as Hj.
  assert (Hn : NoDup (map f_name (r :: fs))) by (apply (path_nodup f_name r); [apply (sub_distinct_frames root); assumption | exact Hp]).
  assert (Hd2 : distinct_frames (sroot r fs)) by (apply sroot_distinct_frames, Hn).
  assert (Hcl2 : clean_names (sroot r fs)).
  { apply sroot_clean. intros f Hf. apply Hcl. eapply sub_preorder; [exact Hin|]. exact (path_incl r _ Hp f Hf). }
  rewrite (path_tensor_eq r).
  assert (Hpath : forall p f q, fs = p ++ f :: q -> exists l g, sroot r fs :: stail fs = (l ++ [g]) ++ skipn (length p + 2) (sroot r fs :: stail fs) /\ f_name g = f_name f /\
      (forall v, path_pose O v (l ++ [g]) = path_pose O v (p ++ [f]))).
  { intros p f q E. assert (El : length (stail fs) = length fs) by (rewrite <- (map_length f_name), stail_names, map_length; reflexivity).
    set (t := firstn (length p + 1) (stail fs)).
    assert (Et : map f_name t = map f_name (p ++ [f])).
    { unfold t. rewrite <- firstn_map, stail_names, E. change (p ++ f :: q) with (p ++ [f] ++ q). rewrite app_assoc, map_app, firstn_app.
      rewrite map_length, app_length. cbn [length]. rewrite Nat.sub_diag, firstn_O, app_nil_r. apply firstn_all2. rewrite map_length, app_length. simpl. lia. }
    assert (Ht : length t = length p + 1) by (rewrite <- (map_length f_name), Et, map_length, app_length; reflexivity).
    destruct (exists_last (l := t)) as (l & g & Eg); [intros Z; rewrite Z in Ht; simpl in Ht; lia|].
    exists (sroot r fs :: l), g. split; [|split].
    - replace (length p + 2) with (Datatypes.S (length p + 1)) by lia. cbn [skipn app]. f_equal. rewrite <- Eg. symmetry. apply firstn_skipn.
    - rewrite Eg, !map_app in Et. apply app_inj_tail in Et as [_ Et]. exact Et.
    - intros v. cbn [app]. rewrite path_pose_cons, rel_pose_sroot, (law_1_l _ L), <- Eg by exact L. unfold path_pose.
      assert (H : map (rel_pose O v) t = map (rel_pose O v) (p ++ [f])).
      { unfold t. rewrite <- firstn_map.
        rewrite (stail_map (fun _ l j => t_mul O (t_mul O (or_one O (l_off l)) (or_one O (j_off j))) (joint_motion O v j)) fs : map (rel_pose O v) (stail fs) = map (rel_pose O v) fs).
        rewrite E. change (p ++ f :: q) with (p ++ [f] ++ q). rewrite app_assoc, map_app, firstn_app.
        rewrite map_length, app_length. cbn [length]. rewrite Nat.sub_diag, firstn_O, app_nil_r. apply firstn_all2. rewrite map_length, app_length. simpl. lia. }
      generalize (t_one O). revert H. generalize t (p ++ [f]). clear. intros l1. induction l1 as [|x l1 IH]; intros [|y l2] E m; simpl in *; try discriminate; [reflexivity|].
      assert (E1 : rel_pose O v x = rel_pose O v y) by congruence. rewrite E1. apply IH. congruence. }
  assert (Hprefix : forall (root : frame) l q, root_path root (l ++ q) -> l <> [] -> root_path root l).
  { clear. intros root l q. revert root. induction l as [|x l IH]; intros root H N; [contradiction|]. destruct l as [|y l].
    - inversion H; subst; constructor.
    - cbn [app] in H. inversion H as [|? c ? Hc Hp]; subst. econstructor; [exact Hc|]. apply IH; [exact Hp | discriminate]. }
  split.
  - destruct (fk_names_spec O (sroot r fs) (s_chain s) vs [s_end s] L Hj Hd2 Hcl2 Hc) as (idxs & d & H1 & H2 & _ & _ & H3).
    { intros n [<-|[]]. rewrite Hend, sroot_preorder. cbn [map]. rewrite sroot_name, stail_names. change (In (f_name (last (r :: fs) r)) (map f_name (r :: fs))).
      apply in_map. destruct (exists_last (l := r :: fs)) as (p & e & E); [discriminate|]. rewrite E, last_last. apply in_or_app; right; left; reflexivity. }
    exists idxs. split; [exact H1|]. rewrite H2. cbn [rbind].
    destruct (exists_last (l := r :: fs)) as (p & e & E); [discriminate|].
    destruct p as [|x p].
    + cbn [app] in E. assert (Er : r = e) by congruence. assert (Ef : fs = []) by congruence. subst e fs. rewrite Hend. cbn [last].
      pose proof (H3 [] (sroot r []) (sroot_path r [])) as K. rewrite sroot_name in K. rewrite K by (rewrite Hend; left; reflexivity).
      cbn [of_opt]. f_equal. apply map_ext. intros v. cbn [app]. rewrite path_pose_cons, rel_pose_sroot by exact L. apply (law_1_r _ L).
    + cbn [app] in E. assert (Ef : fs = p ++ [e]) by congruence. destruct (Hpath p e [] Ef) as (l & g & E1 & E2 & E3).
      assert (Hpp : root_path (sroot r fs) (l ++ [g])) by (eapply Hprefix; [rewrite <- E1; apply sroot_path | destruct l; discriminate]).
      assert (Ee : last (r :: fs) r = e) by (rewrite Ef; change (r :: p ++ [e]) with ((r :: p) ++ [e]); apply last_last).
      pose proof (H3 l g Hpp) as K. rewrite E2 in K. rewrite Hend, Ee. rewrite K by (rewrite Hend, Ee; left; reflexivity).
      cbn [of_opt]. f_equal. apply map_ext. intros v. rewrite E3, <- Ef. reflexivity.
  - destruct (fk_all_spec O (sroot r fs) (s_chain s) vs L Hj Hd2 Hcl2 Hc) as (d & H1 & H2 & H3).
    exists d. split; [exact H1|]. split; [rewrite H2, sroot_preorder; cbn [map]; rewrite sroot_name, stail_names; reflexivity|].
    intros p f q E. assert (Ef : fs = p ++ f :: q) by congruence. destruct (Hpath p f q Ef) as (l & g & E1 & E2 & E3).
    assert (Hpp : root_path (sroot r fs) (l ++ [g])) by (eapply Hprefix; [rewrite <- E1; apply sroot_path | destruct l; discriminate]).
    rewrite <- E2, (H3 l g Hpp). f_equal. apply map_ext. exact E3.
Qed.
End SerialProofs.
