(** Serial chains built from robot descriptions. *)
From Coq Require Import Reals Lra String Bool Arith Lia List Permutation.
From Verif Require Import Prelude ExtF Tree ChainModel SpecFK ChainProofs Input Lin Trig RotModel RotBasic RotFinal EulerProofs
  T3dModel T3dProofs T3dMore ChainInst SerialModel SerialProofs SerialMore SerialFinal Examples LoaderModel LoaderTree RobotModel RobotProofs
  LoaderProofs LoaderMore SdfProofs MjcfModel MjcfProofs SpecSerialLoad.
Import ListNotations.
Local Open Scope nat_scope.
Local Open Scope string_scope.
Local Open Scope list_scope.

(** urdf.py:127-146 after the document is read: the chain, then chain.SerialChain. [root or ''] and the empty string coincide. *)
Definition urdf_serial (limit : nat) (r : urobot) (e rn : string) : res (schain M4 V3) :=
  do c <- urdf_chain limit r; serial_init mops zax c e rn.
(** sdf.py:105-108 after the document is read *)
Definition sdf_serial (limit : nat) (r : srobot) (e rn : string) : res (schain M4 V3) :=
  do c <- sdf_chain limit r; serial_init mops zax c e rn.
(** mjcf.py:90-110 after the document is compiled: always from body 0 *)
Definition mjcf_serial (limit : nat) (m : mjmodel) (e rn : string) : res (schain M4 V3) :=
  do c <- build_chain_from_mjcf limit m BodyNone; serial_init mops zax c e rn.

Lemma last_default {X} (l : list X) : forall x a b, last (x :: l) a = last (x :: l) b.
Proof. induction l as [|y l IH]; intros x a b; [reflexivity|]. apply (IH y). Qed.

Section Gen.
Context {J K : Type} (par chi : J -> K) (keqb : K -> K -> bool).
Hypothesis keqb_eq : forall x y, keqb x y = true <-> x = y.
Variables (joints : list J) (made : J -> mframe -> Prop) (root : K) (rn : string).
Variables (nm : J -> string) (kn : K -> string) (jn : J -> option string) (mv : J -> bool) (rel : @config R -> J -> M4).
Hypothesis Hkr : kn root = rn.
Hypothesis Hkj : forall j, In j joints -> kn (chi j) = nm j.
Hypothesis Hnd : NoDup (map chi joints).
Hypothesis Hroot : ~ In root (map chi joints).
Hypothesis Hmade : forall j f, In j joints -> made j f ->
  f_name f = nm j /\ j_name (f_joint f) = jn j /\ moving f = mv j /\ forall v, rel_pose mops v f = rel v j.
Hypothesis Hdj : forall j j', In j joints -> In j' joints -> mv j = true -> mv j' = true -> jn j = jn j' -> j = j'.
Hypothesis Hdn : forall j j', In j joints -> In j' joints -> nm j = nm j' -> j = j'.
Hypothesis Hrn : forall j, In j joints -> nm j <> rn.
Hypothesis Hcl : strip_nl rn = rn /\ forall j, In j joints -> strip_nl (nm j) = nm j.

(** a path of edges is a path of frames, and what hangs below its end is again built *)
Lemma built_at l : forall x y k f, Built par chi keqb joints made k x (f_children f) -> jpath par chi joints x l y ->
  exists fs n, root_path f (f :: fs) /\ Forall2 made l fs /\ Built par chi keqb joints made n y (f_children (last (f :: fs) f)).
Proof.
  induction l as [|j l IH]; intros x y k f Hb Hp.
  - assert (E : x = y) by (inversion Hp; congruence). subst y. exists [], k. split; [constructor|]. split; [constructor|]. exact Hb.
  - inversion Hp as [|? ? ? ? Hj Hx Hr]; subst. destruct k as [|k]; [destruct Hb|]. cbn [Built] in Hb.
    destruct (forall2_in_l _ _ _ j Hb) as (c & Hc & Hm & Hbc); [apply filter_In; rewrite keqb_eq; auto|].
    destruct (IH _ _ _ _ Hbc Hr) as (fs & n & H1 & H2 & H3). exists (c :: fs), n.
    split; [econstructor; [exact Hc | exact H1]|]. split; [constructor; auto|].
    replace (last (f :: c :: fs) f) with (last (c :: fs) c); [exact H3|].
    change (last (f :: c :: fs) f) with (last (c :: fs) f). apply last_default.
Qed.

Lemma last_name rf l x y fs : f_name rf = kn x -> jpath par chi joints x l y -> Forall2 made l fs -> f_name (last (rf :: fs) rf) = kn y.
Proof.
  intros Hr Hp H. destruct l as [|j l _] using rev_ind.
  - inversion H; subst. assert (E : x = y) by (inversion Hp; congruence). subst y. exact Hr.
  - apply Forall2_app_inv_l in H as (f1 & f2 & H1 & H2 & ->). inversion H2 as [|? g ? ? Hm Hn]; subst. inversion Hn; subst.
    apply jpath_snoc in Hp as (_ & Hj & ->). rewrite app_comm_cons, last_last, (Hkj j Hj). apply (Hmade j g Hj Hm).
Qed.

Theorem built_serial k cs rl rj c : Built par chi keqb joints made k root cs -> j_type rj = Fixed ->
  chain_init mops (Frame rn rl rj cs) = Ok c ->
  (forall l1 x rname, jpath par chi joints root l1 x -> (rname = "" /\ x = root) \/ (rname <> "" /\ rname = kn x) ->
     (forall l2 y, jpath par chi joints x l2 y ->
        serves (serial_init mops zax c (kn y) rname) (map jn (filter mv l2)) (fun v => fold_left m4mul (map (rel v) l2) I4)) /\
     (forall e, (forall l2 y, jpath par chi joints x l2 y -> kn y <> e) -> serial_init mops zax c e rname = Err KeyError)) /\
  (forall e rname, rname <> "" -> (forall l y, jpath par chi joints root l y -> kn y <> rname) ->
     serial_init mops zax c e rname = Err ValueError).
Proof.
  intros Hb Hfix Hc. set (rf := Frame rn rl rj cs) in *.
  assert (Flat : forall n l1 x ds, jpath par chi joints root l1 x -> Built par chi keqb joints made n x ds ->
    exists jl, Forall2 made jl (flat_map preorder ds) /\ NoDup jl /\ (forall j, In j jl -> In j joints) /\
      map f_name (flat_map preorder ds) = map nm jl /\ (forall j, In j jl -> exists q, jpath par chi joints x (q ++ [j]) (chi j))).
  { intros n l1 x ds Hx Hd.
    destruct (built_flat par chi keqb keqb_eq joints made root Hnd Hroot n l1 x ds Hx Hd) as (jl & Hf2 & Hjnd & Hjl).
    assert (Hincl : forall j, In j jl -> In j joints).
    { intros j Hj. apply Hjl in Hj as (q & Hq). apply jpath_snoc in Hq. tauto. }
    exists jl. split; [exact Hf2|]. split; [exact Hjnd|]. split; [exact Hincl|]. split; [|intros j Hj; apply Hjl, Hj].
    clear -Hf2 Hmade Hincl. induction Hf2 as [|j f l fs H _ IH]; [reflexivity|]. simpl.
    destruct (Hmade j f (Hincl j (or_introl eq_refl)) H) as (E & _). rewrite E, IH; [reflexivity|]. intros; apply Hincl; right; auto. }
  destruct (Flat k [] root cs (jp_here _ _ _ _) Hb) as (jl & Hf2 & Hjnd & Hincl & Hnames & Hreach).
  assert (Hpre : preorder rf = rf :: flat_map preorder cs) by reflexivity.
  assert (Hmov : moving_names rf = map jn (filter mv jl)).
  { unfold moving_names. rewrite Hpre. cbn [filter]. unfold moving at 1, rf at 1. cbn [f_joint]. rewrite Hfix.
    apply (moving_map joints made nm jn mv rel Hmade); auto. }
  assert (D1 : distinct_joints rf).
  { unfold distinct_joints. rewrite Hmov. apply NoDup_map_in; [apply NoDup_filter, Hjnd|].
    intros x y Hx Hy. apply filter_In in Hx as [Hx Hmx]. apply filter_In in Hy as [Hy Hmy]. apply Hdj; auto. }
  assert (D2 : distinct_frames rf).
  { unfold distinct_frames. rewrite Hpre. cbn [map]. rewrite Hnames. cbn [f_name rf]. constructor.
    - intros Hin. apply in_map_iff in Hin as (j & E & Hj). apply (Hrn j); auto.
    - apply NoDup_map_in; [exact Hjnd|]. intros x y Hx Hy. apply Hdn; auto. }
  assert (D3 : clean_names rf).
  { intros f Hf. rewrite Hpre in Hf. destruct Hf as [<-|Hf]; [apply Hcl|].
    apply (in_map f_name) in Hf. rewrite Hnames in Hf. apply in_map_iff in Hf as (j & E & Hj). rewrite <- E. apply Hcl. auto. }
  split.
  - intros l1 x rname Hx Hrx. destruct (built_at l1 root x k rf Hb Hx) as (f1 & n & Hp1 & H1 & Hb1).
    set (r := last (rf :: f1) rf) in *.
    assert (Hrname : f_name r = kn x) by (apply (last_name rf l1 root x f1); auto).
    assert (Hpr : exists p, root_path rf (p ++ [r])).
    { exists (removelast (rf :: f1)). unfold r. rewrite <- app_removelast_last by discriminate. exact Hp1. }
    destruct Hpr as (p & Hpr).
    assert (Hch : (rname = "" /\ r = rf) \/ (rname <> "" /\ rname = f_name r)).
    { destruct Hrx as [[-> ->]|[Ha Hb']]; [left | right; split; congruence]. split; [reflexivity|].
      assert (El : l1 = []) by (apply (jpath_unique par chi joints root Hnd Hroot _ _ root); [exact Hx | constructor]).
      rewrite El in H1. assert (Ef : f1 = []) by (inversion H1; congruence). unfold r. rewrite Ef. reflexivity. }
    split.
    + intros l2 y Hy. destruct (built_at l2 x y n r Hb1 Hy) as (f2 & n' & Hp2 & H2 & _).
      assert (En : f_name (last (r :: f2) r) = kn y) by (apply (last_name r l2 x y f2); auto).
      destruct (l12_joint_names rf r c rname p f2 Hc D2 D3 Hpr Hch Hp2) as (s & Hs & Hn & _). rewrite En in Hs.
      assert (Hj2 : forall j, In j l2 -> In j joints) by (intros j Hj; apply (jpath_incl _ _ _ _ _ _ Hy), Hj).
      rewrite (moving_map joints made nm jn mv rel Hmade l2 f2 Hj2 H2) in Hn.
      exists s. split; [exact Hs|]. split; [exact Hn|]. intros nan is_nan vs i G.
      assert (W : works is_nan f2 vs i).
      { assert (Ep : path_names f2 = map jn (filter mv l2)) by (apply (moving_map joints made nm jn mv rel Hmade l2 f2 Hj2 H2)).
        rewrite <- Ep in G. destruct G; constructor; auto. }
      destruct (l13_accepted nan is_nan rf r c rname p f2 vs i Hc D1 D2 D3 Hpr Hch Hp2 W) as (s' & d & Hs' & Hfk & _).
      rewrite En, Hs in Hs'. assert (E : s = s') by congruence. subst s'. rewrite Hfk. f_equal. apply map_ext. intros v.
      apply (rel_product joints made nm jn mv rel Hmade v l2 f2 Hj2 H2).
    + intros e He. apply (l12_accepted_pairs rf r c e rname Hc D2 D3); [eapply root_path_in; exact Hpr | exact Hch |].
      destruct (Flat n l1 x (f_children r) Hx Hb1) as (jl' & _ & _ & Hin' & Hnames' & Hreach').
      assert (Hpre' : preorder r = r :: flat_map preorder (f_children r)) by (destruct r; reflexivity).
      rewrite Hpre'. cbn [map]. rewrite Hnames'. intros [E|Hin].
      * apply (He [] x); [constructor | congruence].
      * apply in_map_iff in Hin as (j & E & Hj). destruct (Hreach' j Hj) as (q & Hq). apply (He _ _ Hq).
        rewrite (Hkj j) by auto. exact E.
  - intros e rname Hne Hno. apply (unknown_root mops zax rf); auto. rewrite Hpre. cbn [map]. rewrite Hnames. intros [E|Hin].
    + apply (Hno [] root); [constructor | rewrite Hkr; exact E].
    + apply in_map_iff in Hin as (j & E & Hj). destruct (Hreach j Hj) as (q & Hq). apply (Hno _ _ Hq). rewrite (Hkj j) by auto. exact E.
Qed.
End Gen.

(** ** URDF and SDF *)
Section Str.
Context {J : Type} (par chi : J -> string) (mk : J -> res (@link M4 * mjoint)).
Variables (joints : list J) (root : string) (jn : J -> string) (mv : J -> bool).
Variable rel : @config R -> J -> M4.
Hypothesis HT : tree_shaped par chi joints root.
Hypothesis Hmk : forall j, In j joints -> exists l jt, mk j = Ok (l, jt) /\ l_name l = Some (chi j) /\
  j_name jt = Some (jn j) /\ negb (is_fixed (j_type jt)) = mv j /\
  (forall v, rel_pose mops v (Frame (chi j) l jt []) = rel v j).
Hypothesis Hdj : NoDup (map jn (filter mv joints)).
Hypothesis Hcl : forall x, x = root \/ In x (map chi joints) -> strip_nl x = x.

Lemma built_serial_str limit rl rj : length joints < limit -> j_type rj = Fixed ->
  exists cs c, build_rec par chi mk joints limit (Some root) = Ok cs /\ chain_init mops (Frame root rl rj cs) = Ok c /\
    serial_spec par chi joints root jn mv rel (serial_init mops zax c).
Proof.
  intros Hlim Hfix. pose proof HT as (_ & Hn & Hr & Hreach).
  assert (Hmk' : forall j, In j joints -> exists l jn, mk j = Ok (l, jn) /\ l_name l = Some (chi j)) by (apply (Hmk' _ _ _ _ _ _ Hmk)).
  destruct (build_total par chi joints root HT mk Hmk' limit [] root (jp_here _ _ _ _)) as (cs & Hcs); [simpl; lia|].
  pose proof (build_built par chi joints mk Hmk' limit root cs Hcs) as Hb.
  destruct (chain_init_ok mops (Frame root rl rj cs)) as (c & Hc & _).
  exists cs, c. split; [exact Hcs|]. split; [exact Hc|].
  destruct (built_serial par chi String.eqb String.eqb_eq joints (made chi mk) root root chi (fun x => x) (fun j => Some (jn j)) mv rel
    eq_refl (fun _ _ => eq_refl) Hn Hr (made_facts _ _ _ _ _ _ Hmk)) with (k := limit) (cs := cs) (rl := rl) (rj := rj) (c := c) as (H1 & H2); auto.
  - intros j j' Hj Hj' Hm Hm' E. apply (nodup_map_inj jn (filter mv joints)); auto; [apply filter_In | apply filter_In |]; auto. congruence.
  - intros j j'. apply (nodup_map_inj chi joints j j' Hn).
  - intros j Hj E. apply Hr. rewrite <- E. apply in_map, Hj.
  - split; [apply Hcl; auto|]. intros j Hj. apply Hcl. right. apply in_map, Hj.
  - split.
    + intros l1 x rname Hx Hrx. destruct (H1 l1 x rname Hx Hrx) as (A & B). split; [exact A|]. intros e He. apply B.
      intros l2 y Hy E. subst y. apply (He l2), Hy.
    + intros e rname Hne Hno. apply H2; [exact Hne|]. intros l y Hy E. subst y. apply (Hno l), Hy.
Qed.
End Str.

Theorem urdf_serial_ok es top limit :
  tree_shaped uj_parent uj_child (joints_of es) top ->
  (forall x, x = top \/ In x (map uj_child (joints_of es)) -> In x (map uk_name (links_of es))) ->
  (forall l, In l (links_of es) -> uk_origin l = None) ->
  (forall j, In j (joints_of es) -> exists k, urdf_kind (uj_type j) = Some k /\ (k <> Fixed -> exists a, uj_axis j = Some a /\ a <> vzero)) ->
  NoDup (map uj_name (filter urdf_moves (joints_of es))) ->
  (forall x, x = top \/ In x (map uj_child (joints_of es)) -> strip_nl x = x) ->
  length (joints_of es) < limit ->
  serial_spec uj_parent uj_child (joints_of es) top uj_name urdf_moves urdf_rel (urdf_serial limit (urobot_of es)).
Proof.
  intros HT Hl Ho Hk Hdj Hcl Hlim.
  assert (Hmk : forall j, In j (joints_of es) -> exists l jt, urdf_mk (rb_link_map (urobot_of es)) j = Ok (l, jt) /\ l_name l = Some (uj_child j) /\
    j_name jt = Some (uj_name j) /\ negb (is_fixed (j_type jt)) = urdf_moves j /\
    (forall v, rel_pose mops v (Frame (uj_child j) l jt []) = urdf_rel v j)).
  { intros j Hj. destruct (Hk j Hj) as (k & Ek & Ha). destruct (link_found es (uj_child j)) as (lk & E & En & Hin); [apply Hl; right; apply in_map, Hj|].
    rewrite (urdf_mk_ok _ _ _ _ Ek E). eexists. eexists. split; [reflexivity|]. cbn [l_name]. rewrite En.
    split; [reflexivity|]. split; [reflexivity|]. split; [apply kind_fixed, Ek|]. intros v. apply urdf_rel_ok; [exact Ek| |].
    - intros Hf. destruct (Ha Hf) as (a & Ea & _). eauto.
    - cbn [l_off]. rewrite (Ho _ Hin). reflexivity. }
  destruct (link_found es top) as (rl & Er & Ern & Hrin); [apply Hl; auto|].
  destruct (joint_init None None "fixed" (Some (mkV3 0 0 1)) None None None) as [rj|] eqn:Erj; [|discriminate].
  assert (Hrf : j_type rj = Fixed).
  { unfold joint_init in Erj. cbn in Erj. inversion Erj. reflexivity. }
  set (rlk := mkLink (Some (uk_name rl)) (Some (urdf_origin (uk_origin rl)))).
  destruct (built_serial_str _ _ _ _ _ _ _ _ HT Hmk Hdj Hcl limit rlk rj Hlim Hrf) as (cs & c & Hcs & Hc & HS).
  assert (Hu : urdf_chain limit (urobot_of es) = Ok c).
  { unfold urdf_chain, build_chain_from_urdf, urdf_tree. rewrite urobot_joints, (find_root_ok _ _ _ _ HT). cbn [rbind].
    rewrite Er. cbn [of_opt rbind]. rewrite Erj. cbn [rbind]. rewrite urdf_transform_ok. cbn [rbind]. rewrite Ern at 1.
    rewrite Hcs. cbn [rbind]. fold rlk. rewrite Ern. exact Hc. }
  unfold urdf_serial. rewrite Hu. exact HS.
Qed.

Theorem sdf_serial_ok es top limit :
  tree_shaped sj_parent sj_child (joints_of es) top ->
  (forall x, x = top \/ In x (map sj_child (joints_of es)) -> In x (map sk_name (links_of es))) ->
  (forall j, In j (joints_of es) -> complete j /\ exists k, sdf_kind (sj_type j) = Some k /\ (k <> Fixed -> sj_axis j <> vzero)) ->
  NoDup (map sj_name (filter sdf_moves (joints_of es))) ->
  (forall x, x = top \/ In x (map sj_child (joints_of es)) -> strip_nl x = x) ->
  length (joints_of es) < limit ->
  serial_spec sj_parent sj_child (joints_of es) top sj_name sdf_moves (sdf_rel es) (sdf_serial limit (srobot_of es)).
Proof.
  intros HT Hl Hk Hdj Hcl Hlim.
  assert (Hpar : forall j, In j (joints_of es) -> In (sj_parent j) (map sk_name (links_of es))).
  { intros j Hj. apply Hl. destruct (par_root_or_child _ _ _ _ HT j Hj); auto. }
  assert (Hmk : forall j, In j (joints_of es) -> exists l jt, sdf_mk (rb_link_map (srobot_of es)) j = Ok (l, jt) /\ l_name l = Some (sj_child j) /\
    j_name jt = Some (sj_name j) /\ negb (is_fixed (j_type jt)) = sdf_moves j /\
    (forall v, rel_pose mops v (Frame (sj_child j) l jt []) = sdf_rel es v j)).
  { intros j Hj. destruct (Hk j Hj) as (Hc & k & Ek & Ha).
    destruct (sdf_mk_ok es j k Ek Hc (Hpar j Hj)) as (l & jt & E & H1 & H2 & H3 & H4 & H5 & H6 & _); [apply Hl; right; apply in_map, Hj|].
    exists l, jt. split; [exact E|]. split; [exact H1|]. split; [exact H3|]. split.
    - rewrite H4. unfold sdf_moves. rewrite Ek. destruct k; reflexivity.
    - intros v. eapply sdf_rel_ok; eauto. }
  destruct (slink_found es top) as (rl & Er & Ern & Hrp); [apply Hl; auto|].
  destruct (joint_init None (Some (swapped_pose (declared es top))) "fixed" (Some (mkV3 0 0 1)) None None None) as [rj|] eqn:Erj; [|discriminate].
  assert (Hrf : j_type rj = Fixed).
  { unfold joint_init in Erj. cbn [joint_type_of String.eqb Ascii.eqb Bool.eqb rbind] in Erj.
    assert (HX : forall X (a b : X), Ok a = Ok b -> a = b) by (intros; congruence).
    apply HX in Erj. rewrite <- Erj. reflexivity. }
  set (rlk := mkLink (Some (sk_name rl)) (Some I4)).
  destruct (built_serial_str _ _ _ _ _ _ _ _ HT Hmk Hdj Hcl limit rlk rj Hlim Hrf) as (cs & c & Hcs & Hc & HS).
  assert (Hu : sdf_chain limit (srobot_of es) = Ok c).
  { unfold sdf_chain, build_chain_from_sdf, sdf_tree. rewrite srobot_joints, (find_root_ok _ _ _ _ HT). cbn [rbind].
    rewrite Er. cbn [of_opt rbind]. rewrite Hrp, sdf_transform_ok. cbn [rbind]. unfold the_matrix at 1, get at 1. cbn [tm nth_error of_opt rbind].
    rewrite Erj. cbn [rbind]. unfold the_matrix. change (transform3d_init (MNone 1) PosNone RotNone) with (Ok (mkT KBase [I4])).
    cbn [rbind]. unfold get. cbn [tm nth_error of_opt rbind]. rewrite Ern at 1.
    rewrite Hcs. cbn [rbind]. fold rlk. rewrite Ern. exact Hc. }
  unfold sdf_serial. rewrite Hu. exact HS.
Qed.

(** ** MJCF *)
Section MjSerial.
Variable m : mjmodel.
Notation body i := (nth_error (mm_bodies m) i).
Hypothesis Hwf : wf_model m.
Hypothesis Hsup : forall i b, body i = Some b -> 0 < i -> supported m b.
Notation epath := (jpath (mpar m) (fun e => e) (edges m 0)).

Lemma body_some i : i < length (mm_bodies m) -> exists b, body i = Some b.
Proof. intros H. destruct (body i) eqn:E; eauto. apply nth_error_None in E. lia. Qed.
Lemma body_lt i b : body i = Some b -> i < length (mm_bodies m).
Proof. intros H. apply nth_error_Some. congruence. Qed.

Lemma mj_path_ge x y l : mj_path m x y l -> x <= y.
Proof.
  induction 1 as [|y b l Hb Hne _ IH]; [lia|]. destruct (Nat.eq_dec y 0) as [->|H0].
  - destruct (wf_world _ Hwf) as (b0 & E0 & P0). rewrite E0 in Hb. inversion Hb; subst. rewrite P0 in IH. lia.
  - pose proof (wf_parent _ Hwf y b Hb H0). lia.
Qed.

Lemma mj_path_edges x y l : mj_path m x y l -> exists es, epath (MBody x) es (MBody y) /\
  (forall v, map (erel m v) es = map (code_local m v) l) /\ map (ejn m) (filter (emv m) es) = mj_names m l.
Proof.
  induction 1 as [|y b l Hb Hne Hp (es & H1 & H2 & H3)].
  - exists []. split; [constructor|]. split; reflexivity.
  - exists (es ++ [MBody y]). split; [|split].
    + apply jpath_snoc. cbn [mpar]. rewrite Hb. split; [exact H1|]. split; [|reflexivity]. apply in_edges_body.
      split; [|eapply body_lt; eauto]. assert (x <= y) by (apply (mj_path_ge x y (l ++ [b])); econstructor; eauto). lia.
    + intros v. rewrite !map_app, H2. f_equal. cbn [map erel]. rewrite Hb. unfold code_local.
      rewrite qrot_eq by (eapply wf_quat; eauto). reflexivity.
    + unfold mj_names. rewrite filter_app, flat_map_app, map_app, H3. f_equal. cbn [filter emv flat_map app]. rewrite Hb.
      destruct (joint_of m b) eqn:E; [|reflexivity]. cbn [map ejn app]. rewrite Hb, E. reflexivity.
Qed.
Lemma edges_mj_path x es : forall y, epath (MBody x) es (MBody y) -> exists l, mj_path m x y l.
Proof.
  induction es as [|e es IH] using rev_ind; intros y H.
  - assert (E : MBody x = MBody y) by (inversion H; congruence). inversion E. exists []. constructor.
  - apply jpath_snoc in H as (H1 & H2 & H3). subst e. apply in_edges_body in H2. destruct (body_some y) as (b & Hb); [lia|].
    cbn [mpar] in H1. rewrite Hb in H1. destruct (IH _ H1) as (l & Hl). exists (l ++ [b]). econstructor; eauto.
    pose proof (wf_parent _ Hwf y b Hb ltac:(lia)). apply mj_path_ge in Hl. lia.
Qed.
Lemma path_to_site x es s : epath x es (MSite s) -> x = MSite s /\ es = [] \/
  exists es' t, es = es' ++ [MSite s] /\ nth_error (mm_sites m) s = Some t /\ epath x es' (MBody (ms_bodyid t)).
Proof.
  destruct es as [|e es _] using rev_ind; intros H; [left; split; [inversion H; congruence | reflexivity]|]. right.
  apply jpath_snoc in H as (H1 & H2 & H3). subst e. apply in_edges_site in H2. destruct (nth_error (mm_sites m) s) as [t|] eqn:E; [|apply nth_error_None in E; lia].
  cbn [mpar] in H1. rewrite E in H1. eauto.
Qed.
Lemma path_from_site s es : forall y, epath (MSite s) es y -> es = [] /\ y = MSite s.
Proof.
  intros y H. destruct es as [|e es]; [split; [reflexivity | inversion H; congruence]|]. exfalso.
  inversion H as [|? ? ? ? _ Hp _]; subst. destruct e; discriminate.
Qed.
Lemma path_root i : i < length (mm_bodies m) -> exists es, epath (MBody 0) es (MBody i).
Proof.
  intros Hi. assert (G : forall n i, i < n -> i < length (mm_bodies m) -> exists l, mj_path m 0 i l).
  { induction n as [|n IH]; intros k Hk Hl; [lia|]. destruct (Nat.eq_dec k 0) as [->|H0]; [exists []; constructor|].
    destruct (body_some k Hl) as (b & Hb). pose proof (wf_parent _ Hwf k b Hb H0). destruct (IH (mb_parentid b)) as (l & Hp); [lia|lia|].
    exists (l ++ [b]). econstructor; eauto. }
  destruct (G (S i) i (Nat.lt_succ_diag_r i) Hi) as (l & Hl). apply mj_path_edges in Hl as (es & H & _). eauto.
Qed.

Theorem mjcf_serial_ok limit :
  NoDup (map mb_name (mm_bodies m) ++ map ms_name (mm_sites m)) ->
  (forall i i' b b' j j', body i = Some b -> body i' = Some b' -> 0 < i -> 0 < i' ->
     joint_of m b = Some j -> joint_of m b' = Some j' -> mn_name j = mn_name j' -> i = i') ->
  (forall x, In x (map mb_name (mm_bodies m) ++ map ms_name (mm_sites m)) -> strip_nl x = x) ->
  length (mm_bodies m) < limit ->
  (forall x bx rname, body x = Some bx -> (rname = "" /\ x = 0) \/ (rname <> "" /\ rname = mb_name bx) ->
     (forall y b l, body y = Some b -> mj_path m x y l ->
        serves (mjcf_serial limit m (mb_name b) rname) (mj_names m l) (fun v => fold_left m4mul (map (code_local m v) l) I4)) /\
     (forall t l, In t (mm_sites m) -> mj_path m x (ms_bodyid t) l ->
        serves (mjcf_serial limit m (ms_name t) rname) (mj_names m l)
          (fun v => m4mul (fold_left m4mul (map (code_local m v) l) I4) (aff (qrot (ms_quat t)) (ms_pos t)))) /\
     (forall e, (forall y b l, body y = Some b -> mj_path m x y l -> mb_name b <> e) ->
        (forall t l, In t (mm_sites m) -> mj_path m x (ms_bodyid t) l -> ms_name t <> e) ->
        mjcf_serial limit m e rname = Err KeyError)) /\
  (forall t e, In t (mm_sites m) -> ms_name t <> "" ->
     (e = ms_name t -> serves (mjcf_serial limit m e (ms_name t)) [] (fun _ => I4)) /\
     (e <> ms_name t -> mjcf_serial limit m e (ms_name t) = Err KeyError)) /\
  (forall e rname, rname <> "" -> ~ In rname (map mb_name (mm_bodies m) ++ map ms_name (mm_sites m)) ->
     mjcf_serial limit m e rname = Err ValueError).
Proof.
  intros Hnames Hjn Hclean Hlim.
  destruct (wf_world _ Hwf) as (rb & Erb & _). assert (H0 : 0 < length (mm_bodies m)) by (eapply body_lt; eauto).
  destruct (mjcf_total m Hwf 0 H0 Hsup limit 0 (le_n _)) as (cs & Hcs); [lia|lia|].
  pose proof (mjcf_built m Hwf 0 H0 limit 0 cs (le_n _) Hcs) as Hb.
  destruct (joint_init None None "fixed" (Some (mkV3 0 0 1)) None None None) as [rj|] eqn:Erj; [|discriminate].
  assert (HX : forall X (a b : X), Ok a = Ok b -> a = b) by (intros; congruence).
  assert (Hrf : j_type rj = Fixed).
  { unfold joint_init in Erj. cbn [joint_type_of String.eqb Ascii.eqb Bool.eqb rbind] in Erj. apply HX in Erj. rewrite <- Erj. reflexivity. }
  assert (Esite : forall s, s < length (mm_sites m) -> exists t, nth_error (mm_sites m) s = Some t).
  { intros s Hs. destruct (nth_error (mm_sites m) s) eqn:E; eauto. apply nth_error_None in E. lia. }
  set (rlk := mkLink (Some (mb_name rb)) (Some (aff (quaternion_to_matrix (mb_quat rb)) (mb_pos rb)))).
  destruct (chain_init_ok mops (Frame (mb_name rb) rlk rj cs)) as (c & Hc & _).
  assert (Hu : forall e rname, mjcf_serial limit m e rname = serial_init mops zax c e rname).
  { intros e rname. unfold mjcf_serial. replace (build_chain_from_mjcf limit m BodyNone) with (Ok c); [reflexivity|]. symmetry.
    unfold build_chain_from_mjcf, mjcf_tree. cbn [root_body rbind]. unfold get. rewrite Erb. cbn [of_opt rbind].
    rewrite placed_ok. cbn [rbind]. rewrite Erj. cbn [rbind]. rewrite Hcs. cbn [rbind]. exact Hc. }
  assert (Eb : forall i b, body i = Some b -> enm m (MBody i) = mb_name b) by (intros i b E; cbn [enm]; rewrite E; reflexivity).
  assert (Es : forall s t, nth_error (mm_sites m) s = Some t -> enm m (MSite s) = ms_name t) by (intros s t E; cbn [enm]; rewrite E; reflexivity).
  destruct (built_serial (mpar m) (fun e => e) medge_eqb medge_eqb_eq (edges m 0) (emade m) (MBody 0) (mb_name rb) (enm m) (enm m) (ejn m) (emv m) (erel m))
    with (k := S limit) (cs := cs) (rl := rlk) (rj := rj) (c := c) as (G1 & G2); auto.
  - rewrite map_id. apply edges_nodup.
  - rewrite map_id. intros H. apply in_edges_body in H. lia.
  - intros e f. apply emade_facts; auto.
  - intros [i|s] [i'|s'] He He' Hm Hm' E; cbn [emv ejn] in *; try discriminate.
    apply in_edges_body in He, He'. destruct (body i) as [b|] eqn:E1; [|discriminate]. destruct (body i') as [b'|] eqn:E2; [|discriminate].
    destruct (joint_of m b) as [j|] eqn:E3; [|discriminate]. destruct (joint_of m b') as [j'|] eqn:E4; [|discriminate].
    f_equal. eapply (Hjn i i' b b' j j'); eauto; try lia. congruence.
  - intros [i|s] [i'|s'] He He' E; cbn [enm] in *.
    + apply in_edges_body in He, He'. destruct (body_some i) as (b & E1); [lia|]. destruct (body_some i') as (b' & E2); [lia|].
      rewrite E1, E2 in E. f_equal. apply (proj1 (names_split m 0 H0 i b Hnames E1) i' b' E2 E).
    + apply in_edges_body in He. apply in_edges_site in He'. destruct (body_some i) as (b & E1); [lia|]. destruct (Esite s') as (t & E2); [lia|].
      rewrite E1, E2 in E. exfalso. apply (proj2 (names_split m 0 H0 i b Hnames E1) s' t E2 E).
    + apply in_edges_body in He'. apply in_edges_site in He. destruct (body_some i') as (b & E1); [lia|]. destruct (Esite s) as (t & E2); [lia|].
      rewrite E1, E2 in E. exfalso. apply (proj2 (names_split m 0 H0 i' b Hnames E1) s t E2). congruence.
    + apply in_edges_site in He, He'. destruct (Esite s) as (t & E1); [lia|]. destruct (Esite s') as (t' & E2); [lia|].
      rewrite E1, E2 in E. f_equal. apply NoDup_app_r in Hnames. apply (proj1 (NoDup_nth_error _) Hnames); [rewrite map_length; exact He|].
      rewrite (map_nth_error _ _ _ E1), (map_nth_error _ _ _ E2). congruence.
  - intros [i|s] He E; cbn [enm] in *.
    + apply in_edges_body in He. destruct (body_some i) as (b & E1); [lia|]. rewrite E1 in E.
      pose proof (proj1 (names_split m 0 H0 i b Hnames E1) 0 rb Erb E). lia.
    + apply in_edges_site in He. destruct (Esite s) as (t & E1); [lia|]. rewrite E1 in E.
      apply (proj2 (names_split m 0 H0 0 rb Hnames Erb) s t E1). congruence.
  - split; [apply Hclean, in_app_iff; left; apply in_map; eapply nth_error_In; eauto|].
    intros [i|s] He; cbn [enm].
    + apply in_edges_body in He. destruct (body_some i) as (b & E1); [lia|]. rewrite E1. apply Hclean, in_app_iff. left. apply in_map. eapply nth_error_In; eauto.
    + apply in_edges_site in He. destruct (Esite s) as (t & E1); [lia|]. rewrite E1. apply Hclean, in_app_iff. right. apply in_map. eapply nth_error_In; eauto.
  - assert (Sroot : forall s t, nth_error (mm_sites m) s = Some t -> exists es, epath (MBody 0) es (MSite s)).
    { intros s t Et. destruct (path_root (ms_bodyid t)) as (es & Hes).
      - apply (wf_site _ Hwf). eapply nth_error_In; eauto.
      - exists (es ++ [MSite s]). apply jpath_snoc. cbn [mpar]. rewrite Et. split; [exact Hes|]. split; [|reflexivity].
        apply in_edges_site, nth_error_Some. congruence. }
    split; [|split].
    + intros x bx rname Hx Hr. destruct (path_root x) as (l1 & Hl1); [eapply body_lt; eauto|].
      destruct (G1 l1 (MBody x) rname Hl1) as (A & B).
      { destruct Hr as [[-> ->]|[H1 ->]]; [left | right]; split; auto. symmetry. apply Eb, Hx. }
      split; [|split].
      * intros y b l Hy Hl. apply mj_path_edges in Hl as (es & H1 & H2 & H3). rewrite Hu, <- (Eb y b Hy), <- H3.
        destruct (A _ _ H1) as (s & S1 & S2 & S3). exists s. split; [exact S1|]. split; [exact S2|]. intros nan is_nan vs i G.
        rewrite (S3 nan is_nan vs i G). f_equal. apply map_ext. intros v. rewrite H2. reflexivity.
      * intros t l Ht Hl. apply In_nth_error in Ht as (k & Ek). apply mj_path_edges in Hl as (es & H1 & H2 & H3).
        assert (H1' : epath (MBody x) (es ++ [MSite k]) (MSite k)).
        { apply jpath_snoc. cbn [mpar]. rewrite Ek. split; [exact H1|]. split; [|reflexivity]. apply in_edges_site, nth_error_Some. congruence. }
        rewrite Hu, <- (Es k t Ek). destruct (A _ _ H1') as (s & S1 & S2 & S3).
        rewrite filter_app in S2, S3. cbn [filter emv] in S2, S3. rewrite app_nil_r, H3 in S2, S3.
        exists s. split; [exact S1|]. split; [exact S2|]. intros nan is_nan vs i G.
        rewrite (S3 nan is_nan vs i G). f_equal. apply map_ext. intros v. rewrite map_app, fold_left_app, H2. cbn [map fold_left erel].
        rewrite Ek. rewrite qrot_eq; [reflexivity|]. apply (wf_site _ Hwf). eapply nth_error_In; eauto.
      * intros e H1 H2. rewrite Hu. apply B. intros l2 [y|k] Hy E.
        -- assert (Hyl : exists b, body y = Some b).
           { destruct l2 as [|e2 l2 _] using rev_ind; [assert (EE : MBody x = MBody y) by (inversion Hy; congruence); inversion EE; subst; eauto|].
             apply jpath_snoc in Hy as (_ & Hi & <-). apply in_edges_body in Hi. apply body_some. lia. }
           destruct Hyl as (b & Hb'). apply edges_mj_path in Hy as (l & Hl). apply (H1 y b l Hb' Hl). rewrite <- (Eb y b Hb'). exact E.
        -- apply path_to_site in Hy as [[Hy _]|(es' & t & -> & Et & Hp)]; [discriminate|]. apply edges_mj_path in Hp as (l & Hl).
           apply (H2 t l); [eapply nth_error_In; eauto | exact Hl |]. rewrite <- (Es k t Et). exact E.
    + intros t e Ht Hne. apply In_nth_error in Ht as (k & Ek). destruct (Sroot k t Ek) as (l1 & Hl1).
      destruct (G1 l1 (MSite k) (ms_name t) Hl1) as (A & B); [right; split; [exact Hne | symmetry; apply Es, Ek]|]. split.
      * intros ->. rewrite Hu, <- (Es k t Ek) at 1. apply (A [] (MSite k)). constructor.
      * intros He. rewrite Hu. apply B. intros l2 y Hy E. apply path_from_site in Hy as [_ ->]. rewrite (Es k t Ek) in E. congruence.
    + intros e rname Hne Hno. rewrite Hu. apply G2; [exact Hne|]. intros l [y|k] Hy E; apply Hno; rewrite <- E, in_app_iff.
      * left. destruct l as [|e2 l _] using rev_ind.
        -- assert (EE : MBody 0 = MBody y) by (inversion Hy; congruence). inversion EE; subst y. rewrite (Eb 0 rb Erb). apply in_map. eapply nth_error_In; eauto.
        -- apply jpath_snoc in Hy as (_ & Hi & <-). apply in_edges_body in Hi. destruct (body_some y) as (b & Hb'); [lia|].
           rewrite (Eb y b Hb'). apply in_map. eapply nth_error_In; eauto.
      * right. apply path_to_site in Hy as [[Hy _]|(es' & t & -> & Et & Hp)]; [discriminate|]. rewrite (Es k t Et). apply in_map. eapply nth_error_In; eauto.
Qed.
End MjSerial.
