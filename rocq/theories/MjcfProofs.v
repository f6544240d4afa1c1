(** Body poses of the chain built from a MuJoCo model. *)
From Coq Require Import Reals Lra String Bool Arith Lia List Permutation.
From Verif Require Import Prelude ExtF Tree ChainModel SpecFK ChainProofs Lin Trig RotModel RotBasic
  T3dModel T3dProofs T3dMore ChainInst LoaderModel LoaderTree LoaderProofs MjcfModel.
Import ListNotations.
Local Open Scope nat_scope.

(** ** What MuJoCo computes *)
(** the rotation of a unit quaternion (w, x, y, z) *)
Definition qrot (q : Q) : M3 :=
  let w := qw q in let x := qx q in let y := qy q in let z := qz q in
  (mkM3 (1 - 2 * (y * y + z * z)) (2 * (x * y - w * z)) (2 * (x * z + w * y))
        (2 * (x * y + w * z)) (1 - 2 * (x * x + z * z)) (2 * (y * z - w * x))
        (2 * (x * z - w * y)) (2 * (y * z + w * x)) (1 - 2 * (x * x + y * y)))%R.
Lemma qrot_eq q : (qnorm2 q = 1)%R -> quaternion_to_matrix q = qrot q.
Proof.
  intros H. unfold quaternion_to_matrix, qrot, qnorm2 in *. destruct q as [w x y z]. cbn [qw qx qy qz] in *.
  rewrite H. apply mkM3_eq; field.
Qed.

Definition opp (p : V3) : V3 := vscale (-1) p.
(** a hinge turns about its axis through its anchor, a slide moves along its axis; both from the reference value *)
Definition mj_joint_motion (v : @config R) (j : mjnt) : M4 :=
  let q := (v (Some (mn_name j)) - mn_qpos0 j)%R in
  match mn_type j with
  | mjHinge => m4mul (m4mul (aff I3 (mn_pos j)) (turn (mn_axis j) q)) (aff I3 (opp (mn_pos j)))
  | mjSlide => slide (mn_axis j) q
  | _ => I4
  end.
Section Mj.
Variable m : mjmodel.
Notation body i := (nth_error (mm_bodies m) i).
(** the joint of a body that has one *)
Definition joint_of (b : mbody) : option mjnt := if mb_jntnum b =? 1 then nth_error (mm_joints m) (mb_jntadr b) else None.
Definition mj_local (v : @config R) (b : mbody) : M4 :=
  m4mul (aff (qrot (mb_quat b)) (mb_pos b)) (match joint_of b with Some j => mj_joint_motion v j | None => I4 end).
(** world poses of the bodies below body r, whose own pose is taken from its position and quaternion; [loc] is the
    pose of a body in its parent *)
Inductive pose_below (loc : mbody -> M4) (r : nat) : nat -> M4 -> Prop :=
| pb_root b : body r = Some b -> pose_below loc r r (aff (qrot (mb_quat b)) (mb_pos b))
| pb_body i b W : body i = Some b -> i <> r -> pose_below loc r (mb_parentid b) W -> pose_below loc r i (m4mul W (loc b)).

(** body i is r or below it *)
Inductive descends (r : nat) : nat -> Prop :=
| de_root : descends r r
| de_body i b : body i = Some b -> i <> r -> descends r (mb_parentid b) -> descends r i.

(** ** What a compiled model is, and what the loader supports *)
Record wf_model : Prop := mkWf {
  wf_world : exists b, body 0 = Some b /\ mb_parentid b = 0;
  wf_parent : forall i b, body i = Some b -> i <> 0 -> mb_parentid b < i;
  wf_quat : forall i b, body i = Some b -> qnorm2 (mb_quat b) = 1%R;
  wf_site : forall s, In s (mm_sites m) -> qnorm2 (ms_quat s) = 1%R /\ ms_bodyid s < length (mm_bodies m) }.
Definition supported (b : mbody) : Prop :=
  mb_jntnum b = 0 \/ (mb_jntnum b = 1 /\ exists j, nth_error (mm_joints m) (mb_jntadr b) = Some j /\
    (mn_type j = mjHinge \/ mn_type j = mjSlide) /\ mn_axis j <> vzero).

(** ** Edges *)
Inductive medge := MBody (i : nat) | MSite (s : nat).
Definition medge_eqb (a b : medge) : bool :=
  match a, b with MBody i, MBody j => i =? j | MSite i, MSite j => i =? j | _, _ => false end.
Lemma medge_eqb_eq a b : medge_eqb a b = true <-> a = b.
Proof. destruct a, b; simpl; rewrite ?Nat.eqb_eq; split; intros H; try discriminate; congruence. Qed.
Definition mpar (e : medge) : medge :=
  match e with
  | MBody i => MBody (match body i with Some b => mb_parentid b | None => 0 end)
  | MSite s => MBody (match nth_error (mm_sites m) s with Some t => ms_bodyid t | None => 0 end)
  end.
Definition edges (r : nat) : list medge :=
  map MBody (filter (fun i => r <? i) (seq 0 (length (mm_bodies m)))) ++
  map MSite (seq 0 (length (mm_sites m))).
Lemma in_edges_body r i : In (MBody i) (edges r) <-> r < i < length (mm_bodies m).
Proof.
  unfold edges. rewrite in_app_iff. split.
  - intros [H|H]; [|apply in_map_iff in H as (? & E & _); discriminate].
    apply in_map_iff in H as (k & E & Hk). inversion E; subst. apply filter_In in Hk as [Hk Hf].
    apply in_seq in Hk. apply Nat.ltb_lt in Hf. lia.
  - intros (H1 & H2). left. apply in_map. apply filter_In. split; [apply in_seq; lia|]. apply Nat.ltb_lt, H1.
Qed.
Lemma in_edges_site r s : In (MSite s) (edges r) <-> s < length (mm_sites m).
Proof.
  unfold edges. rewrite in_app_iff. split.
  - intros [H|H]; [apply in_map_iff in H as (? & E & _); discriminate|].
    apply in_map_iff in H as (k & E & Hk). inversion E; subst. apply in_seq in Hk. lia.
  - intros H. right. apply in_map, in_seq. lia.
Qed.
Lemma edges_nodup r : NoDup (edges r).
Proof.
  unfold edges. apply NoDup_app_disj.
  - apply FinFun.Injective_map_NoDup; [intros ? ? E; congruence | apply NoDup_filter, seq_NoDup].
  - apply FinFun.Injective_map_NoDup; [intros ? ? E; congruence | apply seq_NoDup].
  - intros x H1 H2. apply in_map_iff in H1 as (? & <- & _). apply in_map_iff in H2 as (? & E & _). discriminate.
Qed.

(** the name, joint name, mobility and relative pose of an edge, as the loader makes them *)
Definition enm (e : medge) : string :=
  match e with
  | MBody i => match body i with Some b => mb_name b | None => EmptyString end
  | MSite s => match nth_error (mm_sites m) s with Some t => ms_name t | None => EmptyString end
  end.
Definition ejn (e : medge) : option string :=
  match e with
  | MBody i => match body i with
               | Some b => match joint_of b with Some j => Some (mn_name j) | None => Some (mb_name b ++ "_fixed_joint")%string end
               | None => None end
  | MSite _ => None
  end.
Definition emv (e : medge) : bool :=
  match e with
  | MBody i => match body i with Some b => match joint_of b with Some _ => true | None => false end | None => false end
  | MSite _ => false
  end.
Definition code_motion (v : @config R) (j : mjnt) : M4 :=
  m4mul (aff I3 (mn_pos j))
    (match mn_type j with
     | mjHinge => turn (mn_axis j) (v (Some (mn_name j)))
     | _ => slide (mn_axis j) (v (Some (mn_name j)))
     end).
Definition erel (v : @config R) (e : medge) : M4 :=
  match e with
  | MBody i => match body i with
               | Some b => m4mul (aff (quaternion_to_matrix (mb_quat b)) (mb_pos b))
                                 (match joint_of b with Some j => code_motion v j | None => I4 end)
               | None => I4 end
  | MSite s => match nth_error (mm_sites m) s with
               | Some t => aff (quaternion_to_matrix (ms_quat t)) (ms_pos t) | None => I4 end
  end.

Definition emade (e : medge) (f : mframe) : Prop :=
  match e with
  | MBody i => exists b, body i = Some b /\ f_name f = mb_name b /\ mjcf_body_frame m b = Ok (f_link f, f_joint f)
  | MSite s => exists t, nth_error (mm_sites m) s = Some t /\ mjcf_site_frame t = Ok f
  end.

Lemma placed_ok q p : placed q p = Ok (aff (quaternion_to_matrix q) p). Proof. reflexivity. Qed.

Lemma body_frame_ok b : supported b -> exists jt, mjcf_body_frame m b =
    Ok (mkLink (Some (mb_name b)) (Some (aff (quaternion_to_matrix (mb_quat b)) (mb_pos b))), jt) /\
  j_name jt = match joint_of b with Some j => Some (mn_name j) | None => Some (mb_name b ++ "_fixed_joint")%string end /\
  negb (is_fixed (j_type jt)) = match joint_of b with Some _ => true | None => false end /\
  forall v, m4mul (or_one mops (j_off jt)) (joint_motion mops v jt) =
    match joint_of b with Some j => code_motion v j | None => I4 end.
Proof.
  intros H. unfold mjcf_body_frame, mjcf_joint, joint_of. destruct H as [H|(H & j & Hj & Ht & Ha)]; rewrite H.
  - cbn [Nat.ltb Nat.leb Nat.eqb]. cbn [joint_init joint_type_of String.eqb Ascii.eqb Bool.eqb rbind]. rewrite placed_ok. cbn [rbind].
    eexists. split; [reflexivity|]. split; [reflexivity|]. split; [reflexivity|]. intros v. unfold joint_motion.
    cbn [j_off j_type or_one mops t_one]. apply m4mul_1_l.
  - cbn [Nat.ltb Nat.leb Nat.eqb]. unfold get. rewrite Hj. cbn [of_opt rbind].
    change (transform3d_init (MNone 1) (Pos1 (mn_pos j)) RotNone) with (Ok (mkT KBase [set_pos I4 (mn_pos j)])).
    cbn [rbind]. unfold the_matrix, get. cbn [tm nth_error of_opt rbind].
    assert (Es : set_pos I4 (mn_pos j) = aff I3 (mn_pos j)) by (destruct (mn_pos j); reflexivity). rewrite Es.
    destruct Ht as [Ht|Ht]; rewrite Ht; cbn [mjcf_joint_type_map rbind]; unfold joint_init;
      cbn [joint_type_of String.eqb Ascii.eqb Bool.eqb rbind]; rewrite placed_ok; cbn [rbind];
      (eexists; split; [reflexivity|]; split; [reflexivity|]; split; [reflexivity|]; intros v; unfold joint_motion, code_motion; rewrite Ht;
       cbn [j_off j_type j_axis j_name or_one mops t_one t_rev t_pris t_mul]; f_equal).
    + rewrite rot44_aff, rodrigues_eq. reflexivity.
    + rewrite pris_aff. reflexivity.
Qed.

Lemma site_frame_ok t : exists f, mjcf_site_frame t = Ok f /\ f_name f = ms_name t /\ f_children f = [] /\
  j_name (f_joint f) = None /\ moving f = false /\
  forall v, rel_pose mops v f = aff (quaternion_to_matrix (ms_quat t)) (ms_pos t).
Proof.
  unfold mjcf_site_frame. rewrite placed_ok. cbn [rbind joint_init joint_type_of String.eqb Ascii.eqb Bool.eqb].
  eexists. split; [reflexivity|]. repeat split. intros v. unfold rel_pose, joint_motion. cbn [f_link f_joint l_off j_off j_type or_one mops t_one t_mul].
  rewrite !m4mul_1_r. reflexivity.
Qed.

Hypothesis Hwf : wf_model.
Variable r : nat.
Hypothesis Hrn : r < length (mm_bodies m).
Hypothesis Hsup : forall i b, body i = Some b -> r < i -> supported b.

Lemma emade_facts e f : In e (edges r) -> emade e f -> f_name f = enm e /\ j_name (f_joint f) = ejn e /\ moving f = emv e /\
  forall v, rel_pose mops v f = erel v e.
Proof.
  destruct e as [i|s]; simpl.
  - intros He (b & Hb & Hn & Hf). apply in_edges_body in He. rewrite Hb. destruct (body_frame_ok b (Hsup i b Hb (proj1 He))) as (jt & E & H1 & H2 & H3).
    rewrite E in Hf. assert (HX : forall X Y (a a' : X) (b b' : Y), Ok (a, b) = Ok (a', b') -> a = a' /\ b = b') by (intros; split; congruence).
    apply HX in Hf as [Hl Hjt]. split; [exact Hn|]. rewrite <- Hjt. split; [rewrite H1; destruct (joint_of b); reflexivity|].
    split; [unfold moving; rewrite <- Hjt, <- H2; destruct (j_type jt); reflexivity|].
    intros v. unfold rel_pose. rewrite <- Hl, ?Hjt, <- ?Hjt. cbn [l_off or_one mops t_mul].
    specialize (H3 v). cbn [mops t_mul] in H3. rewrite <- H3. symmetry. apply m4mul_assoc.
  - intros _ (t & Ht & Hf). rewrite Ht. destruct (site_frame_ok t) as (f' & E & H1 & _ & H2 & H3 & H4).
    rewrite E in Hf. assert (HX : forall X (a b : X), Ok a = Ok b -> a = b) by (intros; congruence). apply HX in Hf. subst f'. auto.
Qed.

(** ** The recursion *)
Lemma child_filter pid : r <= pid ->
  filter (fun e => medge_eqb (mpar e) (MBody pid)) (edges r) =
  map MBody (child_ids m pid) ++
  map MSite (filter (fun s => match nth_error (mm_sites m) s with Some t => ms_bodyid t =? pid | None => false end) (seq 0 (length (mm_sites m)))).
Proof.
  intros Hr. unfold edges. rewrite filter_app. f_equal.
  - unfold child_ids.
    assert (G : forall l, (forall i, In i l -> i < length (mm_bodies m)) ->
      filter (fun e => medge_eqb (mpar e) (MBody pid)) (map MBody (filter (fun i => r <? i) l)) =
      map MBody (filter (fun i => match body i with Some b => (mb_parentid b =? pid) && negb (i =? pid) | None => false end) l)).
    { induction l as [|i l IH]; intros Hl; [reflexivity|]. specialize (IH (fun k Hk => Hl k (or_intror Hk))).
      assert (Hi : i < length (mm_bodies m)) by (apply Hl; left; auto).
      destruct (body i) as [b|] eqn:Eb; [|apply nth_error_None in Eb; lia].
      cbn [filter]. rewrite Eb.
      destruct (Nat.ltb_spec r i) as [Hi0|Hi0].
      - pose proof (wf_parent Hwf i b Eb ltac:(lia)) as Hp. cbn [map filter mpar medge_eqb]. rewrite Eb.
        destruct (Nat.eqb_spec (mb_parentid b) pid) as [E|E]; cbn [andb].
        + destruct (Nat.eqb_spec i pid) as [E2|E2]; [lia|]. cbn [negb map]. rewrite IH. reflexivity.
        + exact IH.
      - destruct (Nat.eq_dec i 0) as [->|Hi1].
        + destruct (wf_world Hwf) as (b0 & E0 & P0). rewrite E0 in Eb. inversion Eb; subst b0. rewrite P0.
          destruct (Nat.eqb_spec 0 pid) as [<-|]; cbn [negb andb]; exact IH.
        + pose proof (wf_parent Hwf i b Eb Hi1) as Hp.
          destruct (Nat.eqb_spec (mb_parentid b) pid) as [E|E]; cbn [andb]; [lia | exact IH]. }
    apply G. intros i Hi. apply in_seq in Hi. lia.
  - assert (G : forall l, (forall i, In i l -> i < length (mm_sites m)) ->
      filter (fun e => medge_eqb (mpar e) (MBody pid)) (map MSite l) =
      map MSite (filter (fun s => match nth_error (mm_sites m) s with Some t => ms_bodyid t =? pid | None => false end) l)).
    { induction l as [|i l IH]; intros Hl; [reflexivity|]. specialize (IH (fun k Hk => Hl k (or_intror Hk))).
      cbn [map filter mpar medge_eqb]. destruct (nth_error (mm_sites m) i) as [t|] eqn:Et.
      - destruct (ms_bodyid t =? pid); cbn [map]; rewrite IH; reflexivity.
      - apply nth_error_None in Et. specialize (Hl i (or_introl eq_refl)). lia. }
    apply G. intros i Hi. apply in_seq in Hi. lia.
Qed.

Lemma child_ids_in pid i : In i (child_ids m pid) <-> exists b, body i = Some b /\ mb_parentid b = pid /\ i <> pid.
Proof.
  unfold child_ids. rewrite filter_In, in_seq. split.
  - intros [_ H]. destruct (body i) as [b|]; [|discriminate]. apply andb_true_iff in H as [H1 H2].
    apply Nat.eqb_eq in H1. apply negb_true_iff, Nat.eqb_neq in H2. eauto.
  - intros (b & Hb & H1 & H2). split; [assert (body i <> None) by congruence; apply nth_error_Some in H; lia|].
    rewrite Hb. apply andb_true_iff. split; [apply Nat.eqb_eq, H1 | apply negb_true_iff, Nat.eqb_neq, H2].
Qed.
Lemma child_ids_gt pid i : In i (child_ids m pid) -> pid < i < length (mm_bodies m).
Proof.
  intros H. apply child_ids_in in H as (b & Hb & Hp & Hne).
  assert (body i <> None) by congruence. apply nth_error_Some in H.
  destruct (Nat.eq_dec i 0) as [->|Hi].
  - destruct (wf_world Hwf) as (b0 & E0 & P0). rewrite E0 in Hb. inversion Hb; subst. congruence.
  - pose proof (wf_parent Hwf i b Hb Hi). lia.
Qed.

Lemma mjcf_total k : forall pid, r <= pid -> length (mm_bodies m) < k + pid -> pid < length (mm_bodies m) -> exists cs, mjcf_rec m k pid = Ok cs.
Proof.
  induction k as [|k IH]; intros pid Hr Hk Hp; [lia|]. cbn [mjcf_rec].
  destruct (rmap_total (fun i => do b <- get (mm_bodies m) i; do lj <- mjcf_body_frame m b; do cs <- mjcf_rec m k i;
     Ok (Frame (mb_name b) (fst lj) (snd lj) cs)) (child_ids m pid)) as (bs & Hbs).
  { intros i Hi. pose proof (child_ids_gt _ _ Hi) as Hlt. apply child_ids_in in Hi as (b & Hb & _).
    unfold get. rewrite Hb. cbn [of_opt rbind]. destruct (body_frame_ok b (Hsup i b Hb ltac:(lia))) as (jt & E & _). rewrite E. cbn [rbind].
    destruct (IH i) as (cs & Hcs); [lia|lia|lia|]. rewrite Hcs. cbn [rbind]. eauto. }
  rewrite Hbs. cbn [rbind].
  destruct (rmap_total mjcf_site_frame (filter (fun s => ms_bodyid s =? pid) (mm_sites m))) as (ss & Hss).
  { intros t _. destruct (site_frame_ok t) as (f & E & _). eauto. }
  rewrite Hss. cbn [rbind]. eauto.
Qed.

Lemma site_ids pid ss : Forall2 (fun t f => mjcf_site_frame t = Ok f) (filter (fun s => ms_bodyid s =? pid) (mm_sites m)) ss ->
  Forall2 (fun s f => exists t, nth_error (mm_sites m) s = Some t /\ mjcf_site_frame t = Ok f)
    (filter (fun s => match nth_error (mm_sites m) s with Some t => ms_bodyid t =? pid | None => false end) (seq 0 (length (mm_sites m)))) ss.
Proof.
  assert (G : forall l o, (forall i t, nth_error l i = Some t -> nth_error (mm_sites m) (o + i) = Some t) ->
    forall ss, Forall2 (fun t f => mjcf_site_frame t = Ok f) (filter (fun s => ms_bodyid s =? pid) l) ss ->
    Forall2 (fun s f => exists t, nth_error (mm_sites m) s = Some t /\ mjcf_site_frame t = Ok f)
    (filter (fun s => match nth_error (mm_sites m) s with Some t => ms_bodyid t =? pid | None => false end) (seq o (length l))) ss).
  { induction l as [|t l IH]; intros o Ho ss' H; [simpl in *; inversion H; constructor|].
    cbn [length seq filter] in *. pose proof (Ho 0 t eq_refl) as H0. rewrite Nat.add_0_r in H0. rewrite H0.
    assert (Ho' : forall i t, nth_error l i = Some t -> nth_error (mm_sites m) (S o + i) = Some t).
    { intros i t' Hi. replace (S o + i) with (o + S i) by lia. apply Ho, Hi. }
    destruct (ms_bodyid t =? pid).
    - inversion H; subst. constructor; [eauto | apply IH; auto].
    - apply IH; auto. }
  apply (G _ 0). intros i t H. exact H.
Qed.

Lemma mjcf_built k : forall pid cs, r <= pid -> mjcf_rec m k pid = Ok cs ->
  Built mpar (fun e => e) medge_eqb (edges r) emade (S k) (MBody pid) cs.
Proof.
  induction k as [|k IH]; intros pid cs Hr H; [discriminate|]. cbn [mjcf_rec] in H.
  apply rbind_ok in H as (bs & Hbs & H). apply rbind_ok in H as (ss & Hss & H).
  assert (HX : forall X (a b : X), Ok a = Ok b -> a = b) by (intros; congruence). apply HX in H. subst cs.
  change (Forall2 (fun j f => emade j f /\ Built mpar (fun e => e) medge_eqb (edges r) emade (S k) j (f_children f))
    (filter (fun j => medge_eqb (mpar j) (MBody pid)) (edges r)) (bs ++ ss)).
  rewrite (child_filter pid Hr). apply Forall2_app.
  - apply rmap_forall2 in Hbs.
    assert (G : forall l bs, (forall i, In i l -> pid < i) ->
      Forall2 (fun i y => (do b <- get (mm_bodies m) i; do lj <- mjcf_body_frame m b; do cs <- mjcf_rec m k i;
        Ok (Frame (mb_name b) (fst lj) (snd lj) cs)) = Ok y) l bs ->
      Forall2 (fun j f => emade j f /\ Built mpar (fun e => e) medge_eqb (edges r) emade (S k) j (f_children f)) (map MBody l) bs).
    { clear Hbs bs. intros l bs Hl H. induction H as [|i f l bs Hi H IHl]; [constructor|]. cbn [map]. constructor.
      - apply rbind_ok in Hi as (b & Hb & Hi). apply get_ok in Hb. apply rbind_ok in Hi as ((lk & jt) & Hlj & Hi).
        apply rbind_ok in Hi as (cs & Hcs & Hi). apply HX in Hi. subst f. cbn [f_children fst snd] in *. split.
        + exists b. auto.
        + apply IH; [|exact Hcs]. specialize (Hl i (or_introl eq_refl)). lia.
      - apply IHl. intros; apply Hl; right; auto. }
    apply G; [|exact Hbs]. intros i Hi. apply child_ids_gt in Hi. lia.
  - apply rmap_forall2, site_ids in Hss.
    assert (G : forall l ss, Forall2 (fun s f => exists t, nth_error (mm_sites m) s = Some t /\ mjcf_site_frame t = Ok f) l ss ->
      Forall2 (fun j f => emade j f /\ Built mpar (fun e => e) medge_eqb (edges r) emade (S k) j (f_children f)) (map MSite l) ss).
    { clear -r. intros l ss H. induction H as [|s f l ss Hs H IHl]; [constructor|]. cbn [map]. constructor; [|exact IHl]. split; [exact Hs|].
      destruct Hs as (t & _ & Hf). destruct (site_frame_ok t) as (f' & E & _ & Ec & _). rewrite E in Hf.
      assert (HX : forall X (a b : X), Ok a = Ok b -> a = b) by (intros; congruence). apply HX in Hf. subst f'. rewrite Ec.
      assert (En : filter (fun j => medge_eqb (mpar j) (MSite s)) (edges r) = []).
      { clear -r. induction (edges r) as [|e l IH]; [reflexivity|]. cbn [filter]. destruct e; cbn [mpar medge_eqb]; exact IH. }
      cbn [Built]. rewrite En. constructor. }
    apply G. exact Hss.
Qed.

Definition code_local (v : @config R) (b : mbody) : M4 :=
  m4mul (aff (qrot (mb_quat b)) (mb_pos b)) (match joint_of b with Some j => code_motion v j | None => I4 end).

Lemma descends_ge i : descends r i -> r <= i.
Proof.
  induction 1 as [|i b Hb Hi H IH]; [lia|]. destruct (Nat.eq_dec i 0) as [->|H0].
  - destruct (wf_world Hwf) as (b0 & E0 & P0). rewrite E0 in Hb. inversion Hb; subst. rewrite P0 in IH. lia.
  - pose proof (wf_parent Hwf i b Hb H0). lia.
Qed.
Lemma descends_path i : descends r i -> exists l, jpath (mpar) (fun e => e) (edges r) (MBody r) l (MBody i).
Proof.
  intros H. induction H as [|i b Hb Hi H (l & IH)]; [exists []; constructor|]. exists (l ++ [MBody i]). apply jpath_snoc.
  assert (Hlt : r < i) by (assert (descends r i) by (econstructor; eauto); apply descends_ge in H0; lia).
  cbn [mpar]. rewrite Hb. split; [exact IH|]. split; [|reflexivity]. apply in_edges_body. split; [exact Hlt|].
  apply nth_error_Some. congruence.
Qed.
Lemma path_descends l : forall i, jpath (mpar) (fun e => e) (edges r) (MBody r) l (MBody i) -> descends r i.
Proof.
  induction l as [|e l IH] using rev_ind; intros i H.
  - assert (E : MBody r = MBody i) by (inversion H; congruence). inversion E. constructor.
  - apply jpath_snoc in H as (H1 & H2 & H3). subst e. pose proof H2 as Hin. apply in_edges_body in H2. cbn [mpar] in H1.
    destruct (body i) as [b|] eqn:Eb; [|apply nth_error_None in Eb; lia]. apply (de_body r i b Eb); [lia|]. apply IH, H1.
Qed.
Lemma root_pose_rel n b lk jt v : j_type jt = Fixed -> j_off jt = None ->
  l_off lk = Some (aff (quaternion_to_matrix (mb_quat b)) (mb_pos b)) ->
  rel_pose mops v (Frame n lk jt []) = aff (quaternion_to_matrix (mb_quat b)) (mb_pos b).
Proof.
  intros H1 H2 H3. unfold rel_pose, joint_motion. cbn [f_link f_joint]. rewrite H1, H2, H3.
  cbn [or_one mops t_one t_mul]. rewrite !m4mul_1_r. reflexivity.
Qed.
Lemma path_pose rb v l : body r = Some rb -> forall i, jpath mpar (fun e => e) (edges r) (MBody r) l (MBody i) ->
  pose_below (code_local v) r i
    (m4mul (aff (quaternion_to_matrix (mb_quat rb)) (mb_pos rb)) (fold_left m4mul (map (erel v) l) I4)).
Proof.
  intros Hrb. induction l as [|e l IH] using rev_ind; intros i H.
  - assert (E : MBody r = MBody i) by (inversion H; congruence). inversion E. cbn [map fold_left]. rewrite m4mul_1_r.
    rewrite qrot_eq by (eapply wf_quat; eauto). subst i. constructor. exact Hrb.
  - apply jpath_snoc in H as (H1 & H2 & H3). subst e. apply in_edges_body in H2. cbn [mpar] in H1.
    destruct (body i) as [b|] eqn:Eb; [|apply nth_error_None in Eb; lia].
    rewrite map_app, fold_left_app. cbn [map fold_left]. rewrite m4mul_assoc.
    cbn [erel]. rewrite Eb, qrot_eq with (q := mb_quat b) by (eapply wf_quat; eauto). fold (code_local v b).
    apply pb_body; [exact Eb | lia |]. apply IH, H1.
Qed.
Lemma pose_ext loc loc' i M : (forall i b, body i = Some b -> r < i -> loc b = loc' b) ->
  pose_below loc r i M -> pose_below loc' r i M.
Proof.
  intros He H. assert (G : descends r i /\ pose_below loc' r i M); [|tauto].
  induction H as [b Hb | i b W Hb Hi H [IH1 IH2]]; [split; constructor; auto|].
  assert (Hd : descends r i) by (econstructor; eauto). split; [exact Hd|]. rewrite (He i b Hb); [constructor; auto|].
  apply descends_ge in Hd. lia.
Qed.
Lemma code_mj_local v b : (forall j, joint_of b = Some j -> mn_pos j = vzero /\ mn_qpos0 j = 0%R /\ (mn_type j = mjHinge \/ mn_type j = mjSlide)) ->
  code_local v b = mj_local v b.
Proof.
  intros H. unfold code_local, mj_local. f_equal. destruct (joint_of b) as [j|]; [|reflexivity].
  destruct (H j eq_refl) as (Hp & Hq & Ht). unfold code_motion, mj_joint_motion. rewrite Hp, Hq.
  assert (Ez : aff I3 vzero = I4) by reflexivity. assert (Eo : aff I3 (opp vzero) = I4).
  { unfold opp, vscale, vzero, aff, I3, I4. cbn [m00 m01 m02 m10 m11 m12 m20 m21 m22 Lin.vx Lin.vy Lin.vz].
    replace (-1 * 0)%R with 0%R by ring. reflexivity. }
  rewrite Rminus_0_r, Ez, Eo. destruct Ht as [Ht|Ht]; rewrite Ht; rewrite ?m4mul_1_l, ?m4mul_1_r; reflexivity.
Qed.

Lemma names_split i b : NoDup (map mb_name (mm_bodies m) ++ map ms_name (mm_sites m)) -> body i = Some b ->
  (forall k b', body k = Some b' -> mb_name b = mb_name b' -> i = k) /\
  (forall k t, nth_error (mm_sites m) k = Some t -> mb_name b <> ms_name t).
Proof.
  intros Hnd Hb.
  assert (G : forall x k, nth_error (map mb_name (mm_bodies m) ++ map ms_name (mm_sites m)) k = Some x ->
     x = mb_name b -> k = i).
  { intros x k Hk E. subst x. apply (proj1 (NoDup_nth_error _) Hnd); [apply nth_error_Some; congruence|].
    rewrite Hk. symmetry. rewrite nth_error_app1 by (rewrite map_length; apply nth_error_Some; congruence).
    apply map_nth_error, Hb. }
  split.
  - intros k b' Hk E. symmetry. apply (G (mb_name b')); auto. rewrite nth_error_app1 by (rewrite map_length; apply nth_error_Some; congruence).
    apply map_nth_error, Hk.
  - intros k t Hk E. assert (Hx : length (mm_bodies m) + k = i).
    { apply (G (ms_name t)); auto. rewrite nth_error_app2 by (rewrite map_length; lia). rewrite map_length, Nat.add_comm, Nat.add_sub.
      apply map_nth_error, Hk. }
    assert (i < length (mm_bodies m)) by (apply nth_error_Some; congruence). lia.
Qed.
Lemma NoDup_app_r {A} (l l' : list A) : NoDup (l ++ l') -> NoDup l'.
Proof. induction l; simpl; auto. intros H. apply IHl. inversion H; auto. Qed.

Theorem mjcf_fk a limit vs : root_body m a = Ok r ->
  NoDup (map mb_name (mm_bodies m) ++ map ms_name (mm_sites m)) ->
  (forall i i' b b' j j', body i = Some b -> body i' = Some b' -> r < i -> r < i' ->
     joint_of b = Some j -> joint_of b' = Some j' -> mn_name j = mn_name j' -> i = i') ->
  (forall x, In x (map mb_name (mm_bodies m) ++ map ms_name (mm_sites m)) -> strip_nl x = x) ->
  length (mm_bodies m) < limit ->
  exists c d, build_chain_from_mjcf limit m a = Ok c /\
    forward_kinematics mops c (config_tensor (c_root c) vs) None = Ok d /\
    (forall b, body r = Some b -> f_name (c_root c) = mb_name b) /\
    NoDup (map fst d) /\
    (forall x, In x (map fst d) <-> (exists i b, descends r i /\ body i = Some b /\ mb_name b = x) \/
       (exists t, In t (mm_sites m) /\ descends r (ms_bodyid t) /\ ms_name t = x)) /\
    (forall n, In n (moving_names (c_root c)) <->
       exists i b j, descends r i /\ r < i /\ body i = Some b /\ joint_of b = Some j /\ n = Some (mn_name j)) /\
    (forall i b, descends r i -> body i = Some b -> exists Ms, dget String.eqb (mb_name b) d = Some Ms /\
       Forall2 (fun v M => pose_below (code_local v) r i M) vs Ms) /\
    (forall t, In t (mm_sites m) -> descends r (ms_bodyid t) -> exists Ms, dget String.eqb (ms_name t) d = Some Ms /\
       Forall2 (fun v M => exists W, pose_below (code_local v) r (ms_bodyid t) W /\
                                     M = m4mul W (aff (qrot (ms_quat t)) (ms_pos t))) vs Ms).
Proof.
  intros Ha Hnames Hjn Hclean Hlim.
  destruct (body r) as [rb|] eqn:Erb; [|apply nth_error_None in Erb; lia].
  destruct (mjcf_total limit r (le_n _)) as (cs & Hcs); [lia|lia|].
  pose proof (mjcf_built limit r cs (le_n _) Hcs) as Hb.
  destruct (joint_init None None "fixed" (Some (mkV3 0 0 1)) None None None) as [rj|] eqn:Erj; [|discriminate].
  assert (HX : forall X (a b : X), Ok a = Ok b -> a = b) by (intros; congruence).
  assert (Hrj : j_type rj = Fixed /\ j_off rj = None).
  { unfold joint_init in Erj. cbn [joint_type_of String.eqb Ascii.eqb Bool.eqb rbind] in Erj.
    apply HX in Erj. rewrite <- Erj. split; reflexivity. }
  destruct Hrj as [Hrf Hro].
  assert (Esite : forall s, s < length (mm_sites m) -> exists t, nth_error (mm_sites m) s = Some t).
  { intros s Hs. destruct (nth_error (mm_sites m) s) eqn:E; eauto. apply nth_error_None in E. lia. }
  assert (Ebody : forall s, s < length (mm_bodies m) -> exists t, body s = Some t).
  { intros s Hs. destruct (body s) eqn:E; eauto. apply nth_error_None in E. lia. }
  set (rlk := mkLink (Some (mb_name rb)) (Some (aff (quaternion_to_matrix (mb_quat rb)) (mb_pos rb)))).
  destruct (built_fk_gen mpar (fun e => e) medge_eqb medge_eqb_eq (edges r) emade (MBody r) (mb_name rb) enm ejn emv erel)
    with (k := S limit) (cs := cs) (rl := rlk) (rj := rj) (vs := vs)
    as (c & d & jl & Hc & Hcr & Hd & Hjnd & Hjl & Hf2 & Hkeys & Hmov & Hrd & Hp); auto.
  - rewrite map_id. apply edges_nodup.
  - rewrite map_id. intros H. apply in_edges_body in H. lia.
  - intros e f. apply emade_facts.
  - intros [i|s] [i'|s'] He He' Hm Hm' E; cbn [emv ejn] in *; try discriminate.
    apply in_edges_body in He, He'. destruct (body i) as [b|] eqn:E1; [|discriminate]. destruct (body i') as [b'|] eqn:E2; [|discriminate].
    destruct (joint_of b) as [j|] eqn:E3; [|discriminate]. destruct (joint_of b') as [j'|] eqn:E4; [|discriminate].
    f_equal. eapply (Hjn i i' b b' j j'); eauto; try lia. congruence.
  - intros [i|s] [i'|s'] He He' E; cbn [enm] in *.
    + apply in_edges_body in He, He'. destruct (Ebody i) as (b & E1); [lia|]. destruct (Ebody i') as (b' & E2); [lia|].
      rewrite E1, E2 in E. f_equal. apply (proj1 (names_split i b Hnames E1) i' b' E2 E).
    + apply in_edges_body in He. apply in_edges_site in He'. destruct (Ebody i) as (b & E1); [lia|]. destruct (Esite s') as (t & E2); [lia|].
      rewrite E1, E2 in E. exfalso. apply (proj2 (names_split i b Hnames E1) s' t E2 E).
    + apply in_edges_body in He'. apply in_edges_site in He. destruct (Ebody i') as (b & E1); [lia|]. destruct (Esite s) as (t & E2); [lia|].
      rewrite E1, E2 in E. exfalso. apply (proj2 (names_split i' b Hnames E1) s t E2). congruence.
    + apply in_edges_site in He, He'. destruct (Esite s) as (t & E1); [lia|]. destruct (Esite s') as (t' & E2); [lia|].
      rewrite E1, E2 in E. f_equal. apply NoDup_app_r in Hnames. apply (proj1 (NoDup_nth_error _) Hnames); [rewrite map_length; exact He|].
      rewrite (map_nth_error _ _ _ E1), (map_nth_error _ _ _ E2). congruence.
  - intros [i|s] He E; cbn [enm] in *.
    + apply in_edges_body in He. destruct (Ebody i) as (b & E1); [lia|]. rewrite E1 in E.
      pose proof (proj1 (names_split i b Hnames E1) r rb Erb E). lia.
    + apply in_edges_site in He. destruct (Esite s) as (t & E1); [lia|]. rewrite E1 in E.
      apply (proj2 (names_split r rb Hnames Erb) s t E1). congruence.
  - split; [apply Hclean, in_app_iff; left; apply in_map; eapply nth_error_In; eauto|].
    intros [i|s] He; cbn [enm].
    + apply in_edges_body in He. destruct (Ebody i) as (b & E1); [lia|]. rewrite E1. apply Hclean, in_app_iff. left. apply in_map. eapply nth_error_In; eauto.
    + apply in_edges_site in He. destruct (Esite s) as (t & E1); [lia|]. rewrite E1. apply Hclean, in_app_iff. right. apply in_map. eapply nth_error_In; eauto.
  - exists c, d. assert (Hrp : forall v, rel_pose mops v (Frame (mb_name rb) rlk rj []) = aff (quaternion_to_matrix (mb_quat rb)) (mb_pos rb)).
    { intros v. apply root_pose_rel; auto. }
    assert (Hbd : forall i, In (MBody i) jl <-> descends r i /\ r < i).
    { intros i. rewrite Hjl. split.
      - intros [H1 (l & Hl)]. pose proof H1 as H1'. apply in_edges_body in H1. split; [|lia].
        apply (path_descends (l ++ [MBody i])). apply jpath_snoc. auto.
      - intros [H1 H2]. apply descends_path in H1 as (l & Hl). destruct l as [|e l _] using rev_ind.
        + assert (E : MBody r = MBody i) by (inversion Hl; congruence). inversion E. lia.
        + apply jpath_snoc in Hl as (H3 & H4 & <-). eauto. }
    assert (Hsd : forall s, In (MSite s) jl <-> exists t, nth_error (mm_sites m) s = Some t /\ descends r (ms_bodyid t)).
    { intros s. rewrite Hjl. split.
      - intros [H1 (l & Hl)]. apply in_edges_site in H1. destruct (Esite s H1) as (t & Et). exists t. split; [exact Et|].
        cbn [mpar] in Hl. rewrite Et in Hl. eapply path_descends; eauto.
      - intros (t & Et & Hde). split; [apply in_edges_site, nth_error_Some; congruence|]. cbn [mpar]. rewrite Et.
        apply descends_path, Hde. }
    split; [|split; [rewrite Hcr; exact Hd|split; [|split; [|split; [|split; [|split]]]]]].
    + unfold build_chain_from_mjcf, mjcf_tree. rewrite Ha. cbn [rbind]. unfold get. rewrite Erb. cbn [of_opt rbind].
      rewrite placed_ok. cbn [rbind]. rewrite Erj. cbn [rbind]. rewrite Hcs. cbn [rbind]. exact Hc.
    + intros b E. rewrite Hcr. inversion E. reflexivity.
    + rewrite Hkeys. constructor.
      * intros Hin. apply in_map_iff in Hin as ([i|s] & E & Hi); cbn [enm] in E.
        -- apply Hbd in Hi as [H1 H2]. assert (Hi : i < length (mm_bodies m)).
           { inversion H1 as [|i' b' Hb']; subst; [lia|]. apply nth_error_Some. congruence. }
           destruct (Ebody i Hi) as (b & E1). rewrite E1 in E. pose proof (proj1 (names_split i b Hnames E1) r rb Erb E). lia.
        -- apply Hsd in Hi as (t & E1 & _). rewrite E1 in E. apply (proj2 (names_split r rb Hnames Erb) s t E1). congruence.
      * apply NoDup_map_in; [exact Hjnd|]. intros x y Hx Hy E. 
        destruct x as [i|s], y as [i'|s']; cbn [enm] in E.
        -- apply Hbd in Hx as [Hx1 Hx2], Hy as [Hy1 Hy2].
           inversion Hx1 as [|? b1 Hb1 ? ?]; [lia|]. inversion Hy1 as [|? b2 Hb2 ? ?]; [lia|]. subst. rewrite Hb1, Hb2 in E.
           f_equal. apply (proj1 (names_split i b1 Hnames Hb1) i' b2 Hb2 E).
        -- apply Hbd in Hx as [Hx1 Hx2]. apply Hsd in Hy as (t & E1 & _).
           inversion Hx1 as [|? b1 Hb1 ? ?]; [lia|]. subst. rewrite Hb1, E1 in E. exfalso. apply (proj2 (names_split i b1 Hnames Hb1) s' t E1 E).
        -- apply Hbd in Hy as [Hx1 Hx2]. apply Hsd in Hx as (t & E1 & _).
           inversion Hx1 as [|? b1 Hb1 ? ?]; [lia|]. subst. rewrite Hb1, E1 in E. exfalso. apply (proj2 (names_split i' b1 Hnames Hb1) s t E1). congruence.
        -- apply Hsd in Hx as (t & E1 & _), Hy as (t' & E2 & _). rewrite E1, E2 in E. f_equal.
           pose proof (NoDup_app_r _ _ Hnames) as Hn2. apply (proj1 (NoDup_nth_error _) Hn2); [rewrite map_length; apply nth_error_Some; congruence|].
           rewrite (map_nth_error _ _ _ E1), (map_nth_error _ _ _ E2). congruence.
    + intros x. rewrite Hkeys. cbn [In]. split.
      * intros [<-|Hin]; [left; exists r, rb; split; [constructor|auto]|].
        apply in_map_iff in Hin as ([i|s] & E & Hi); cbn [enm] in E.
        -- apply Hbd in Hi as [H1 H2]. left. inversion H1 as [|i' b' Hb' Hne Hde]; [lia|]. subst i'. rewrite Hb' in E. exists i, b'. auto.
        -- apply Hsd in Hi as (t & E1 & Hde). rewrite E1 in E. right. exists t. split; [eapply nth_error_In; eauto | auto].
      * intros [(i & b & Hde & Hbi & E)|(t & Ht & Hde & E)].
        -- destruct (Nat.eq_dec i r) as [->|Hne]; [left; congruence|]. right. apply in_map_iff. exists (MBody i). cbn [enm]. rewrite Hbi.
           split; [exact E|]. apply Hbd. split; [exact Hde|]. apply descends_ge in Hde. lia.
        -- right. apply In_nth_error in Ht as (s & Es). apply in_map_iff. exists (MSite s). cbn [enm]. rewrite Es. split; [exact E|]. apply Hsd. eauto.
    + intros n. rewrite Hcr, Hmov. rewrite in_map_iff. split.
      * intros ([i|s] & E & Hi); apply filter_In in Hi as [Hi Hm]; cbn [emv ejn] in *; [|discriminate].
        apply Hbd in Hi as [H1 H2]. destruct (body i) as [b|] eqn:Eb; [|discriminate]. destruct (joint_of b) as [j|] eqn:Ej; [|discriminate].
        exists i, b, j. repeat (split; [assumption|]). auto.
      * intros (i & b & j & H1 & H2 & Hbi & Hj & ->). exists (MBody i). cbn [ejn]. rewrite Hbi, Hj. split; [reflexivity|].
        apply filter_In. split; [apply Hbd; auto|]. cbn [emv]. rewrite Hbi, Hj. reflexivity.
    + intros i b Hde Hbi. destruct (Nat.eq_dec i r) as [Heq|Hne].
      * rewrite Heq in *. assert (b = rb) by congruence. subst b. rewrite Hrd. eexists. split; [reflexivity|].
        clear -Hrp Erb Hwf. induction vs as [|v vs IH]; [constructor|]. cbn [map]. constructor; [|exact IH].
        rewrite Hrp, qrot_eq by (eapply wf_quat; eauto). constructor. exact Erb.
      * destruct (descends_path i Hde) as (l & Hl). destruct l as [|e l _] using rev_ind.
        -- exfalso. assert (E : MBody r = MBody i) by (inversion Hl; congruence). inversion E. congruence.
        -- pose proof Hl as Hl'. apply jpath_snoc in Hl' as (_ & _ & He). subst e.
           specialize (Hp l (MBody i) Hl). cbn [enm] in Hp. rewrite Hbi in Hp. rewrite Hp. eexists. split; [reflexivity|].
           clear Hp Hd Hrd. induction vs as [|v vs IH]; [constructor|]. cbn [map]. constructor; [|exact IH].
           rewrite Hrp. apply path_pose; [exact Erb | exact Hl].
    + intros t Ht Hde. apply In_nth_error in Ht as (s & Es). destruct (descends_path _ Hde) as (l & Hl).
      assert (Hls : jpath mpar (fun e => e) (edges r) (MBody r) (l ++ [MSite s]) (MSite s)).
      { apply jpath_snoc. cbn [mpar]. rewrite Es. split; [exact Hl|]. split; [|reflexivity]. apply in_edges_site, nth_error_Some. congruence. }
      specialize (Hp l (MSite s) Hls). cbn [enm] in Hp. rewrite Es in Hp. rewrite Hp. eexists. split; [reflexivity|].
      clear Hp Hd Hrd. induction vs as [|v vs IH]; [constructor|]. cbn [map]. constructor; [|exact IH].
      eexists. split; [apply path_pose; [exact Erb | exact Hl]|].
      rewrite Hrp, map_app, fold_left_app. cbn [map fold_left]. rewrite m4mul_assoc. f_equal. cbn [erel]. rewrite Es.
      rewrite qrot_eq; [reflexivity|]. apply (wf_site Hwf t). eapply nth_error_In; eauto.
Qed.
End Mj.
