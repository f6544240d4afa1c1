(** Forward kinematics of the chains built from URDF and SDF descriptions. *)
From Coq Require Import Reals Lra String Bool Arith Lia List Permutation.
From Verif Require Import Prelude ExtF Tree ChainModel SpecFK ChainProofs Lin Trig RotModel RotBasic RotFinal EulerProofs
  T3dModel T3dProofs T3dMore ChainInst LoaderModel LoaderTree RobotModel RobotProofs.
Import ListNotations.
Local Open Scope nat_scope.

(** ** Rotations about the coordinate axes and about a unit axis, written out *)
Definition rotx (t : R) : M3 := mkM3 1 0 0 0 (cos t) (- sin t) 0 (sin t) (cos t).
Definition roty (t : R) : M3 := mkM3 (cos t) 0 (sin t) 0 1 0 (- sin t) 0 (cos t).
Definition rotz (t : R) : M3 := mkM3 (cos t) (- sin t) 0 (sin t) (cos t) 0 0 0 1.
(** fixed-axis roll, pitch, yaw *)
Definition rpy_matrix (e : V3) : M3 := m3mul (rotz (vz e)) (m3mul (roty (vy e)) (rotx (vx e))).
(** cos t I + (1 - cos t) k k^T + sin t [k]x *)
Definition rodrigues (k : V3) (t : R) : M3 :=
  m3add (m3scale (cos t) I3)
    (m3add (m3scale (1 - cos t) (mkM3 (vx k * vx k) (vx k * vy k) (vx k * vz k)
                                      (vy k * vx k) (vy k * vy k) (vy k * vz k)
                                      (vz k * vx k) (vz k * vy k) (vz k * vz k)))
           (m3scale (sin t) (mkM3 0 (- vz k) (vy k) (vz k) 0 (- vx k) (- vy k) (vx k) 0))).

Lemma rodrigues_eq k t : axis_and_angle_to_matrix_33 k t = rodrigues k t.
Proof.
  unfold axis_and_angle_to_matrix_33, rodrigues. destruct k. lin_simpl.
  set (c := cos t). set (s := sin t). clearbody c s. apply mkM3_eq; ring.
Qed.
Lemma rotx_eq t : axis_and_angle_to_matrix_33 (mkV3 1 0 0) t = rotx t.
Proof.
  unfold axis_and_angle_to_matrix_33, rotx. lin_simpl. set (c := cos t). set (s := sin t). clearbody c s. apply mkM3_eq; ring.
Qed.
Lemma roty_eq t : axis_and_angle_to_matrix_33 (mkV3 0 1 0) t = roty t.
Proof.
  unfold axis_and_angle_to_matrix_33, roty. lin_simpl. set (c := cos t). set (s := sin t). clearbody c s. apply mkM3_eq; ring.
Qed.
Lemma rotz_eq t : axis_and_angle_to_matrix_33 (mkV3 0 0 1) t = rotz t.
Proof.
  unfold axis_and_angle_to_matrix_33, rotz. lin_simpl. set (c := cos t). set (s := sin t). clearbody c s. apply mkM3_eq; ring.
Qed.
Lemma unit_x : unit3 (mkV3 1 0 0). Proof. lin_simpl. ring. Qed.
Lemma unit_y : unit3 (mkV3 0 1 0). Proof. lin_simpl. ring. Qed.
Lemma unit_z : unit3 (mkV3 0 0 1). Proof. lin_simpl. ring. Qed.
Lemma rpy_rot e : is_rot (rpy_matrix e).
Proof.
  unfold rpy_matrix. rewrite <- rotx_eq, <- roty_eq, <- rotz_eq.
  apply is_rot_mul; [|apply is_rot_mul]; apply rot33_rot; auto using unit_x, unit_y, unit_z.
Qed.

(** ** What a description says *)
(** a pose given by a position and fixed-axis angles; a missing one is the identity *)
Definition urdf_origin (o : option upose) : M4 :=
  match o with Some p => aff (rpy_matrix (p_rpy p)) (p_xyz p) | None => I4 end.
Definition unit_of (a : V3) : V3 := vscale (/ vnorm a) a.
(** the motion of a joint of a given type *)
Definition turn (a : V3) (q : R) : M4 := aff (rodrigues (unit_of a) q) vzero.
Definition slide (a : V3) (q : R) : M4 := aff I3 (vscale q (unit_of a)).

Lemma urdf_transform_ok o : urdf_transform o = Ok (urdf_origin o).
Proof.
  destruct o as [[xyz [r p y]]|]; [|reflexivity]. cbn [urdf_transform p_xyz p_rpy].
  destruct (l25_default r p y) as (q & e' & Hq & Hm). rewrite Hq. cbn [rbind fst].
  rewrite init_quat. cbn [rbind]. unfold the_matrix, get. cbn [tm nth_error of_opt].
  rewrite Hm. unfold urdf_origin, rpy_matrix. cbn [p_rpy p_xyz Lin.vx Lin.vy Lin.vz].
  rewrite rotx_eq, roty_eq, rotz_eq. reflexivity.
Qed.

(** ** Forward kinematics of a tree of frames made for the edges of a tree *)
Section FK.
Context {J K : Type} (par chi : J -> K) (keqb : K -> K -> bool).
Hypothesis keqb_eq : forall x y, keqb x y = true <-> x = y.
Variables (joints : list J) (made : J -> mframe -> Prop) (root : K) (rn : string).
Variables (nm : J -> string) (jn : J -> option string) (mv : J -> bool) (rel : @config R -> J -> M4).
Hypothesis Hnd : NoDup (map chi joints).
Hypothesis Hroot : ~ In root (map chi joints).
Hypothesis Hmade : forall j f, In j joints -> made j f ->
  f_name f = nm j /\ j_name (f_joint f) = jn j /\ moving f = mv j /\ forall v, rel_pose mops v f = rel v j.
Notation reach j := (exists l, jpath par chi joints root l (par j)).
(** joint names and frame names of the edges that can be reached *)
Hypothesis Hdj : forall j j', In j joints -> In j' joints -> mv j = true -> mv j' = true -> jn j = jn j' -> j = j'.
Hypothesis Hdn : forall j j', In j joints -> In j' joints -> nm j = nm j' -> j = j'.
Hypothesis Hrn : forall j, In j joints -> nm j <> rn.
Hypothesis Hcl : strip_nl rn = rn /\ forall j, In j joints -> strip_nl (nm j) = nm j.

Lemma rel_product v l fs : (forall j, In j l -> In j joints) -> Forall2 made l fs ->
  pose v fs = fold_left m4mul (map (rel v) l) I4.
Proof.
  intros Hl H.
  assert (G : forall M, m4mul M (pose v fs) = fold_left m4mul (map (rel v) l) M).
  { induction H as [|j f l fs Hjf H IH]; intros M.
    - rewrite pose_nil, m4mul_1_r. reflexivity.
    - rewrite pose_cons, m4mul_assoc. cbn [map fold_left].
      destruct (Hmade j f (Hl j (or_introl eq_refl)) Hjf) as (_ & _ & _ & Hr). rewrite <- Hr.
      apply IH. intros k Hk. apply Hl. right; auto. }
  rewrite <- G. symmetry. apply m4mul_1_l.
Qed.

Lemma moving_map jl fs : (forall j, In j jl -> In j joints) -> Forall2 made jl fs ->
  map (fun f => j_name (f_joint f)) (filter moving fs) = map jn (filter mv jl).
Proof.
  intros Hl H. induction H as [|j f l fs Hjf H IH]; [reflexivity|].
  destruct (Hmade j f (Hl j (or_introl eq_refl)) Hjf) as (_ & Hn & Hm & _).
  cbn [filter]. rewrite Hm. destruct (mv j); cbn [map]; rewrite ?Hn, IH; auto; intros k Hk; apply Hl; right; auto.
Qed.

Lemma NoDup_map_in {A B} (f : A -> B) l : NoDup l -> (forall x y, In x l -> In y l -> f x = f y -> x = y) -> NoDup (map f l).
Proof.
  induction 1 as [|x l Hx Hn IH]; simpl; intros Hf; constructor.
  - intros Hin. apply in_map_iff in Hin as (y & E & Hy). apply Hx. rewrite <- (Hf y x); auto.
  - apply IH. intros; apply Hf; auto.
Qed.

Theorem built_fk_gen k cs rl rj vs : Built par chi keqb joints made k root cs -> j_type rj = Fixed ->
  let rf := Frame rn rl rj cs in
  exists c d jl, chain_init mops rf = Ok c /\ c_root c = rf /\
    forward_kinematics mops c (config_tensor rf vs) None = Ok d /\
    NoDup jl /\ (forall j, In j jl <-> In j joints /\ reach j) /\ Forall2 made jl (flat_map preorder cs) /\
    map fst d = rn :: map nm jl /\ moving_names rf = map jn (filter mv jl) /\
    dget String.eqb rn d = Some (map (fun v => rel_pose mops v (Frame rn rl rj [])) vs) /\
    forall l j, jpath par chi joints root (l ++ [j]) (chi j) ->
      dget String.eqb (nm j) d = Some (map (fun v => m4mul (rel_pose mops v (Frame rn rl rj []))
        (fold_left m4mul (map (rel v) (l ++ [j])) I4)) vs).
Proof.
  intros Hb Hfix rf.
  destruct (built_flat par chi keqb keqb_eq joints made root Hnd Hroot k [] root cs (jp_here _ _ _ _) Hb) as (jl & Hf2 & Hjnd & Hjl).
  destruct (chain_init_ok mops rf) as (c & Hc & HC).
  assert (Hincl : forall j, In j jl -> In j joints).
  { intros j Hj. apply Hjl in Hj as (q & Hq). apply jpath_snoc in Hq. tauto. }
  assert (Hpre : preorder rf = rf :: flat_map preorder cs) by reflexivity.
  assert (Hnames : map f_name (flat_map preorder cs) = map nm jl).
  { clear -Hf2 Hmade Hincl. induction Hf2 as [|j f l fs H _ IH]; [reflexivity|]. simpl.
    destruct (Hmade j f (Hincl j (or_introl eq_refl)) H) as (E & _). rewrite E, IH; [reflexivity|]. intros; apply Hincl; right; auto. }
  assert (Hmov : moving_names rf = map jn (filter mv jl)).
  { unfold moving_names. rewrite Hpre. cbn [filter]. unfold moving at 1, rf at 1. cbn [f_joint]. rewrite Hfix.
    apply moving_map; auto. }
  assert (D1 : distinct_joints rf).
  { unfold distinct_joints. rewrite Hmov. apply NoDup_map_in; [apply NoDup_filter, Hjnd|].
    intros x y Hx Hy. apply filter_In in Hx as [Hx Hmx]. apply filter_In in Hy as [Hy Hmy]. apply Hdj; auto. }
  assert (D2 : distinct_frames rf).
  { unfold distinct_frames. rewrite Hpre. cbn [map]. rewrite Hnames. cbn [f_name rf]. constructor.
    - intros Hin. apply in_map_iff in Hin as (j & E & Hj). apply (Hrn j); auto.
    - apply NoDup_map_in; [exact Hjnd|]. intros x y Hx Hy. apply Hdn; auto. }
  assert (D3 : clean_names rf).
  { intros f Hf. rewrite Hpre in Hf. destruct Hf as [<-|Hf]; [apply Hcl|].
    apply (in_map f_name) in Hf. rewrite Hnames in Hf. apply in_map_iff in Hf as (j & E & Hj). rewrite <- E. apply Hcl. auto. }
  destruct (fk_all_spec mops rf c vs mlaws D1 D2 D3 Hc) as (d & Hd & Hk & Hp).
  assert (Hrel : forall v, rel_pose mops v (Frame rn rl rj []) = rel_pose mops v rf) by reflexivity.
  exists c, d, jl. split; [exact Hc|]. split; [apply (ct_root _ _ _ HC)|]. split; [exact Hd|]. split; [exact Hjnd|]. split.
  { intros j. rewrite Hjl. split.
    - intros (q & Hq). apply jpath_snoc in Hq as (H1 & H2 & _). eauto.
    - intros (H1 & l & H2). exists l. apply jpath_snoc; auto. }
  split; [exact Hf2|]. split; [rewrite Hk, Hpre; cbn [map]; rewrite Hnames; reflexivity|]. split; [exact Hmov|]. split.
  - change rn with (f_name rf). rewrite (Hp [] rf) by constructor. f_equal. apply map_ext. intros v.
    cbn [app]. rewrite pose_cons, pose_nil, m4mul_1_r. rewrite Hrel. reflexivity.
  - intros l j Hl. destruct (l ++ [j]) as [|j0 q] eqn:El; [destruct l; discriminate|].
    destruct (built_path par chi keqb keqb_eq joints made _ _ _ _ _ _ Hb Hl) as (cc & fs & Hin & Hrp & H2).
    assert (Hrf : root_path rf (rf :: fs)) by (econstructor; [exact Hin | exact Hrp]).
    rewrite <- El in *.
    apply Forall2_app_inv_l in H2 as (l1 & l2 & Ha & Hb2 & E). inversion Hb2 as [|? f0 ? l3 Hm Hn E1 E2]; subst l2.
    inversion Hn; subst l3. subst fs.
    assert (Hj : In j joints) by (apply jpath_snoc in Hl; tauto).
    destruct (Hmade j f0 Hj Hm) as (En & _). rewrite <- En. rewrite (Hp (rf :: l1) f0) by exact Hrf. f_equal. apply map_ext. intros v.
    cbn [app]. rewrite pose_cons, Hrel. f_equal. apply rel_product; [|apply Forall2_app; [exact Ha | constructor; auto]].
    intros z Hz. apply (jpath_incl _ _ _ _ _ _ Hl), Hz.
Qed.
End FK.

(** ** the trees built by urdf.py and sdf.py *)
Section FKString.
Context {J : Type} (par chi : J -> string) (mk : J -> res (@link M4 * mjoint)).
Variables (joints : list J) (root : string) (jn : J -> string) (mv : J -> bool).
Variable rel : @config R -> J -> M4.
Hypothesis HT : tree_shaped par chi joints root.
Hypothesis Hmk : forall j, In j joints -> exists l jt, mk j = Ok (l, jt) /\ l_name l = Some (chi j) /\
  j_name jt = Some (jn j) /\ negb (is_fixed (j_type jt)) = mv j /\
  (forall v, rel_pose mops v (Frame (chi j) l jt []) = rel v j).
Hypothesis Hdj : NoDup (map jn (filter mv joints)).
Hypothesis Hcl : forall x, x = root \/ In x (map chi joints) -> strip_nl x = x.

Lemma Hmk' : forall j, In j joints -> exists l jn, mk j = Ok (l, jn) /\ l_name l = Some (chi j).
Proof. intros j Hj. destruct (Hmk j Hj) as (l & jt & H1 & H2 & _). eauto. Qed.

Lemma made_facts j f : In j joints -> made chi mk j f -> f_name f = chi j /\ j_name (f_joint f) = Some (jn j) /\
  moving f = mv j /\ forall v, rel_pose mops v f = rel v j.
Proof.
  intros Hj [H1 H2]. destruct (Hmk j Hj) as (l & jt & E & _ & En & Et & Er). rewrite E in H1. inversion H1; subst.
  split; [exact H2|]. split; [exact En|]. split.
  - unfold moving. rewrite <- Et. destruct (j_type (f_joint f)); reflexivity.
  - intros v. rewrite <- Er. reflexivity.
Qed.

Lemma nodup_map_inj {A} (f : A -> string) l x y : NoDup (map f l) -> In x l -> In y l -> f x = f y -> x = y.
Proof.
  induction l as [|a l IH]; simpl; [tauto|]. intros Hn Hx Hy E. inversion Hn; subst.
  destruct Hx as [->|Hx], Hy as [->|Hy]; auto.
  - exfalso. apply H1. rewrite E. apply in_map, Hy.
  - exfalso. apply H1. rewrite <- E. apply in_map, Hx.
Qed.

Theorem built_fk limit rl rj vs : length joints < limit -> j_type rj = Fixed ->
  exists cs c d, build_rec par chi mk joints limit (Some root) = Ok cs /\
    let rf := Frame root rl rj cs in
    chain_init mops rf = Ok c /\
    forward_kinematics mops c (config_tensor rf vs) None = Ok d /\
    (exists jl, Permutation jl joints /\ Forall2 (made chi mk) jl (flat_map preorder cs) /\
       map fst d = root :: map chi jl /\ moving_names rf = map (fun j => Some (jn j)) (filter mv jl)) /\
    forall l x, jpath par chi joints root l x ->
      dget String.eqb x d = Some (map (fun v => m4mul (rel_pose mops v (Frame root rl rj []))
        (fold_left m4mul (map (rel v) l) I4)) vs).
Proof.
  intros Hlim Hfix. pose proof HT as (_ & Hn & Hr & Hreach).
  destruct (build_total par chi joints root HT mk Hmk' limit [] root (jp_here _ _ _ _)) as (cs & Hcs); [simpl; lia|].
  pose proof (build_built par chi joints mk Hmk' limit root cs Hcs) as Hb.
  destruct (built_fk_gen par chi String.eqb String.eqb_eq joints (made chi mk) root root chi (fun j => Some (jn j)) mv rel
    Hn Hr made_facts) with (k := limit) (cs := cs) (rl := rl) (rj := rj) (vs := vs)
    as (c & d & jl & Hc & Hcr & Hd & Hjnd & Hjl & Hf2 & Hkeys & Hmov & Hrd & Hp); auto.
  - intros j j' Hj Hj' Hm Hm' E. apply (nodup_map_inj jn (filter mv joints)); auto; [apply filter_In | apply filter_In |]; auto. congruence.
  - intros j j'. apply (nodup_map_inj chi joints j j' Hn).
  - intros j Hj E. apply Hr. rewrite <- E. apply in_map, Hj.
  - split; [apply Hcl; auto|]. intros j Hj. apply Hcl. right. apply in_map, Hj.
  - exists cs, c, d. split; [exact Hcs|]. split; [exact Hc|]. split; [exact Hd|]. split.
    + exists jl. split; [|auto]. apply NoDup_Permutation; [exact Hjnd | apply (joints_nodup _ _ Hn) |].
      intros j. rewrite Hjl. split; [tauto|]. intros Hj. split; auto.
    + intros l x Hl. destruct l as [|j l _] using rev_ind.
      * assert (Ex : x = root) by (inversion Hl; congruence). rewrite Ex, Hrd. f_equal. apply map_ext. intros v.
        cbn [map fold_left]. rewrite m4mul_1_r. reflexivity.
      * pose proof Hl as Hl'. apply jpath_snoc in Hl' as (_ & _ & ->). apply Hp, Hl.
Qed.
End FKString.
