(** The name maps of a parsed robot describe exactly the added elements. *)
From Coq Require Import Reals String Bool Arith Lia List.
From Verif Require Import Prelude ExtF Tree ChainModel Lin ChainInst LoaderModel LoaderTree RobotModel.
Import ListNotations.
Local Open Scope nat_scope.

Section Robot.
Context {J L : Type}.
Variables (jname jpar jchi : J -> string) (jtyp : J -> string) (lname : L -> string).
Notation robot := (robot J L).
Notation elem := (elem J L).
Notation robot_of := (robot_of jname jpar jchi lname).
Notation add_elem := (add_elem jname jpar jchi lname).

(** the joints and the links of a description, in order *)
Definition joints_of (es : list elem) : list J := flat_map (fun e => match e with EJoint j => [j] | ELink _ => [] end) es.
Definition links_of (es : list elem) : list L := flat_map (fun e => match e with EJoint _ => [] | ELink l => [l] end) es.
(** the last element of a list with a property *)
Definition last_with {A} (p : A -> bool) (l : list A) : option A := find p (rev l).

Lemma robot_of_snoc es e : robot_of (es ++ [e]) = add_elem (robot_of es) e.
Proof. unfold robot_of. rewrite fold_left_app. reflexivity. Qed.
Lemma joints_of_snoc es e : joints_of (es ++ [e]) = joints_of es ++ match e with EJoint j => [j] | ELink _ => [] end.
Proof. unfold joints_of. rewrite flat_map_app. simpl. rewrite app_nil_r. reflexivity. Qed.
Lemma links_of_snoc es e : links_of (es ++ [e]) = links_of es ++ match e with EJoint _ => [] | ELink l => [l] end.
Proof. unfold links_of. rewrite flat_map_app. simpl. rewrite app_nil_r. reflexivity. Qed.
Lemma last_with_snoc {A} (p : A -> bool) l x : last_with p (l ++ [x]) = if p x then Some x else last_with p l.
Proof. unfold last_with. rewrite rev_app_distr. reflexivity. Qed.

Lemma joints_spec es : rb_joints (robot_of es) = joints_of es.
Proof.
  induction es as [|e es IH] using rev_ind; [reflexivity|]. rewrite robot_of_snoc, joints_of_snoc.
  destruct e; simpl; rewrite IH, ?app_nil_r; reflexivity.
Qed.
Lemma links_spec es : rb_links (robot_of es) = links_of es.
Proof.
  induction es as [|e es IH] using rev_ind; [reflexivity|]. rewrite robot_of_snoc, links_of_snoc.
  destruct e; simpl; rewrite IH, ?app_nil_r; reflexivity.
Qed.

Lemma dget_dset {V} k k' (v : V) d : dget String.eqb k (dset String.eqb k' v d) =
  if String.eqb k' k then Some v else dget String.eqb k d.
Proof.
  destruct (String.eqb_spec k' k) as [->|H].
  - apply (dget_dset_same String.eqb String.eqb_eq).
  - apply (dget_dset_other String.eqb String.eqb_eq). congruence.
Qed.

Lemma joint_map_spec es x : dget String.eqb x (rb_joint_map (robot_of es)) =
  last_with (fun j => String.eqb (jname j) x) (joints_of es).
Proof.
  induction es as [|e es IH] using rev_ind; [reflexivity|]. rewrite robot_of_snoc, joints_of_snoc.
  destruct e; cbn [add_elem add_joint add_link rb_joint_map].
  - rewrite dget_dset, last_with_snoc, IH. reflexivity.
  - rewrite app_nil_r. exact IH.
Qed.
Lemma link_map_spec es x : dget String.eqb x (rb_link_map (robot_of es)) =
  last_with (fun l => String.eqb (lname l) x) (links_of es).
Proof.
  induction es as [|e es IH] using rev_ind; [reflexivity|]. rewrite robot_of_snoc, links_of_snoc.
  destruct e; cbn [add_elem add_joint add_link rb_link_map].
  - rewrite app_nil_r. exact IH.
  - rewrite dget_dset, last_with_snoc, IH. reflexivity.
Qed.
Lemma parent_map_spec es x : dget String.eqb x (rb_parent_map (robot_of es)) =
  option_map (fun j => (jname j, jpar j)) (last_with (fun j => String.eqb (jchi j) x) (joints_of es)).
Proof.
  induction es as [|e es IH] using rev_ind; [reflexivity|]. rewrite robot_of_snoc, joints_of_snoc.
  destruct e; cbn [add_elem add_joint add_link rb_parent_map].
  - rewrite dget_dset, last_with_snoc, IH. destruct (String.eqb (jchi j) x); reflexivity.
  - rewrite app_nil_r. exact IH.
Qed.
Lemma child_map_spec es x : dget String.eqb x (rb_child_map (robot_of es)) =
  match filter (fun j => String.eqb (jpar j) x) (joints_of es) with
  | [] => None
  | js => Some (map (fun j => (jname j, jchi j)) js)
  end.
Proof.
  induction es as [|e es IH] using rev_ind; [reflexivity|]. rewrite robot_of_snoc, joints_of_snoc.
  destruct e; cbn [add_elem add_joint add_link rb_child_map]; [|rewrite app_nil_r; exact IH].
  rewrite filter_app. cbn [filter]. destruct (String.eqb_spec (jpar j) x) as [E|E].
  - subst x. rewrite IH. destruct (filter _ (joints_of es)) as [|a r]; rewrite dget_dset, String.eqb_refl; [reflexivity|].
    simpl. rewrite map_app. reflexivity.
  - rewrite app_nil_r. rewrite <- IH.
    destruct (dget String.eqb (jpar j) _); rewrite dget_dset; rewrite (proj2 (String.eqb_neq _ _) E); reflexivity.
Qed.

Lemma last_with_some {A} (p : A -> bool) l x : last_with p l = Some x -> In x l /\ p x = true.
Proof. intros H. apply find_some in H as [H1 H2]. split; [apply in_rev, H1 | exact H2]. Qed.
Lemma last_with_none {A} (p : A -> bool) l : last_with p l = None <-> forall x, In x l -> p x = false.
Proof.
  unfold last_with. split.
  - intros H x Hx. apply (find_none _ _ H). apply in_rev. rewrite rev_involutive. exact Hx.
  - intros H. destruct (find p (rev l)) eqn:E; [|reflexivity]. apply find_some in E as [H1 H2].
    rewrite H in H2; [discriminate | apply in_rev, H1].
Qed.
Lemma last_with_key {A} (key : A -> string) l a : NoDup (map key l) -> In a l ->
  last_with (fun x => String.eqb (key x) (key a)) l = Some a.
Proof.
  intros Hn Ha. destruct (last_with (fun x => String.eqb (key x) (key a)) l) as [b|] eqn:E.
  - apply last_with_some in E as [Hb Hk]. apply String.eqb_eq in Hk. f_equal.
    clear -Hn Ha Hb Hk. induction l as [|c l IH]; [destruct Ha|]. simpl in Hn. inversion Hn; subst.
    destruct Ha as [->|Ha], Hb as [->|Hb]; auto.
    + exfalso. apply H1. rewrite <- Hk. apply in_map, Hb.
    + exfalso. apply H1. rewrite Hk. apply in_map, Ha.
  - apply last_with_none with (x := a) in E; [|exact Ha]. rewrite String.eqb_refl in E. discriminate.
Qed.

Lemma link_map_keys_in es x : In x (map fst (rb_link_map (robot_of es))) <-> In x (map lname (links_of es)).
Proof.
  induction es as [|e es IH] using rev_ind; [reflexivity|]. rewrite robot_of_snoc, links_of_snoc.
  destruct e; cbn [add_elem add_joint add_link rb_link_map].
  - rewrite app_nil_r. exact IH.
  - rewrite (dset_keys_in String.eqb String.eqb_eq), map_app, in_app_iff, IH. simpl. intuition congruence.
Qed.
Lemma link_map_keys_nodup es : NoDup (map fst (rb_link_map (robot_of es))).
Proof.
  induction es as [|e es IH] using rev_ind; [constructor|]. rewrite robot_of_snoc.
  destruct e; cbn [add_elem add_joint add_link rb_link_map]; [exact IH | apply (dset_nodup String.eqb String.eqb_eq), IH].
Qed.

(** ** get_root *)
Lemma parent_map_none es x : dget String.eqb x (rb_parent_map (robot_of es)) = None <-> ~ In x (map jchi (joints_of es)).
Proof.
  rewrite parent_map_spec. split.
  - intros H Hin. apply in_map_iff in Hin as (j & E & Hj).
    destruct (last_with (fun j => String.eqb (jchi j) x) (joints_of es)) eqn:El; [discriminate|].
    apply last_with_none with (x := j) in El; [|exact Hj]. subst x. rewrite String.eqb_refl in El. discriminate.
  - intros H. destruct (last_with (fun j => String.eqb (jchi j) x) (joints_of es)) as [j|] eqn:El; [|reflexivity].
    exfalso. apply last_with_some in El as [Hj E]. apply String.eqb_eq in E. subst x. apply H, in_map, Hj.
Qed.

Lemma get_root_loop_spec pm ls : NoDup ls -> forall o,
  match get_root_loop pm ls o with
  | Ok None => o = None /\ forall l, In l ls -> dget String.eqb l pm <> None
  | Ok (Some x) => (o = Some x /\ forall l, In l ls -> dget String.eqb l pm <> None) \/
                   (o = None /\ In x ls /\ dget String.eqb x pm = None /\
                    forall l, In l ls -> dget String.eqb l pm = None -> l = x)
  | Err e => e = AssertionError /\ ((exists x, o = Some x) /\ (exists l, In l ls /\ dget String.eqb l pm = None) \/
      exists l l', l <> l' /\ In l ls /\ In l' ls /\ dget String.eqb l pm = None /\ dget String.eqb l' pm = None)
  end.
Proof.
  induction 1 as [|a ls Ha Hn IH]; intros o; cbn [get_root_loop].
  - destruct o as [x|]; [left|]; split; auto; intros l [].
  - destruct (dget String.eqb a pm) as [v|] eqn:Ea.
    + specialize (IH o). destruct (get_root_loop pm ls o) as [[x|]|e].
      * destruct IH as [[-> H]|(-> & H1 & H2 & H3)]; [left|right].
        -- split; auto. intros l [<-|Hl]; auto. congruence.
        -- repeat split; auto; [right; auto|]. intros l [<-|Hl] Hd; [congruence | auto].
      * destruct IH as [-> H]. split; auto. intros l [<-|Hl]; [congruence | auto].
      * destruct IH as (-> & IH). split; auto. destruct IH as [(Ho & l & H1 & H2)|(l & l' & H1 & H2 & H3 & H4)].
        -- left. split; auto. exists l. split; [right; auto | auto].
        -- right. exists l, l'. repeat split; try (right; assumption); tauto.
    + destruct o as [y|].
      * split; auto. left. split; [eauto|]. exists a. split; [left; auto | auto].
      * specialize (IH (Some a)). destruct (get_root_loop pm ls (Some a)) as [[x|]|e].
        -- destruct IH as [[E H]|(E & _)]; [|discriminate]. inversion E; subst x. right.
           repeat split; auto; [left; auto|]. intros l [<-|Hl] Hd; [auto|]. exfalso. exact (H l Hl Hd).
        -- destruct IH as [E _]; discriminate.
        -- destruct IH as (-> & IH). split; auto. right. destruct IH as [(_ & l & H1 & H2)|(l & l' & H1 & H2 & H3 & H4)].
           ++ exists a, l. repeat split; auto; [intros ->; contradiction | left; auto | right; auto].
           ++ exists l, l'. repeat split; try (right; assumption); tauto.
Qed.

(** the unique link that is nobody's child, or an AssertionError *)
Lemma get_root_spec es x : get_root (robot_of es) = Ok x <->
  In x (map lname (links_of es)) /\ ~ In x (map jchi (joints_of es)) /\
  (forall y, In y (map lname (links_of es)) -> ~ In y (map jchi (joints_of es)) -> y = x).
Proof.
  unfold get_root.
  pose proof (get_root_loop_spec (rb_parent_map (robot_of es)) (map fst (rb_link_map (robot_of es)))
    (link_map_keys_nodup es) None) as H.
  destruct (get_root_loop (rb_parent_map (robot_of es)) (map fst (rb_link_map (robot_of es))) None) as [[y|]|e];
    cbn [rbind of_opt].
  - destruct H as [[E _]|(_ & H1 & H2 & H3)]; [discriminate|].
    apply link_map_keys_in in H1. apply parent_map_none in H2. split.
    + intros E. inversion E; subst y. repeat split; auto. intros z Hz Hp. apply H3.
      * apply link_map_keys_in, Hz. * apply parent_map_none, Hp.
    + intros (Hx & Hp & Hu). rewrite (Hu y H1 H2). reflexivity.
  - destruct H as [_ H]. split; [discriminate|]. intros (Hx & Hp & _). exfalso.
    apply (H x); [apply link_map_keys_in, Hx | apply parent_map_none, Hp].
  - destruct H as (_ & [((z & E) & _)|(l & l' & Hd & H1 & H2 & H3 & H4)]); [discriminate|].
    split; [discriminate|]. intros (_ & _ & Hu). exfalso. apply Hd.
    rewrite (Hu l), (Hu l'); auto; try (apply link_map_keys_in; assumption); apply parent_map_none; assumption.
Qed.
Lemma get_root_err es e : get_root (robot_of es) = Err e -> e = AssertionError.
Proof.
  unfold get_root.
  pose proof (get_root_loop_spec (rb_parent_map (robot_of es)) (map fst (rb_link_map (robot_of es)))
    (link_map_keys_nodup es) None) as H.
  destruct (get_root_loop (rb_parent_map (robot_of es)) (map fst (rb_link_map (robot_of es))) None) as [[y|]|e'];
    cbn [rbind of_opt]; intros E; inversion E; subst; [reflexivity | tauto].
Qed.

(** ** get_chain *)
(** the alternating list along a path of joints: first link, then joint, link, joint, link ... *)
Fixpoint alternate (joints links fixed : bool) (js : list J) : list string :=
  match js with
  | [] => []
  | j :: r => (if joints && (fixed || negb (String.eqb (jtyp j) "fixed")) then [jname j] else [])
              ++ (if links then [jchi j] else []) ++ alternate joints links fixed r
  end.
Lemma alternate_app a b c l m : alternate a b c (l ++ m) = alternate a b c l ++ alternate a b c m.
Proof. induction l; simpl; auto. rewrite IHl, !app_assoc. reflexivity. Qed.

Lemma get_chain_loop_path es js lk fxd root : NoDup (map jchi (joints_of es)) -> NoDup (map jname (joints_of es)) ->
  forall l x fuel acc, jpath jpar jchi (joints_of es) root l x -> (forall j, In j l -> jchi j <> root) -> length l <= fuel ->
  get_chain_loop jtyp (robot_of es) root js lk fxd fuel x (rev ((if lk then [x] else []) ++ acc)) =
  Ok ((if lk then [root] else []) ++ alternate js lk fxd l ++ acc).
Proof.
  intros Hn Hj. induction l as [|j l IH] using rev_ind; intros x fuel acc Hp Hr Hf.
  - inversion Hp; subst x. destruct fuel; cbn [get_chain_loop]; rewrite String.eqb_refl, rev_involutive; reflexivity.
  - apply jpath_snoc in Hp as (Hp & Hi & ->). rewrite app_length in Hf. simpl in Hf.
    destruct fuel as [|fuel]; [lia|]. cbn [get_chain_loop].
    destruct (String.eqb_spec (jchi j) root) as [E|_]; [exfalso; apply (Hr j); [apply in_or_app; right; left|]; auto|].
    rewrite parent_map_spec, (last_with_key jchi _ _ Hn Hi). cbn [option_map of_opt rbind fst snd].
    rewrite joint_map_spec, (last_with_key jname _ _ Hj Hi). cbn [of_opt rbind].
    set (acc' := (if js && (fxd || negb (String.eqb (jtyp j) "fixed")) then [jname j] else []) ++
                 (if lk then [jchi j] else []) ++ acc).
    specialize (IH (jpar j) fuel acc' Hp (fun k Hk => Hr k (in_or_app _ _ _ (or_introl Hk))) ltac:(lia)).
    assert (G : Ok ((if lk then [root] else []) ++ alternate js lk fxd l ++ acc') =
                Ok ((if lk then [root] else []) ++ alternate js lk fxd (l ++ [j]) ++ acc)).
    { unfold acc'. rewrite alternate_app. cbn [alternate]. rewrite app_nil_r, <- !app_assoc. reflexivity. }
    rewrite <- G, <- IH. unfold acc'. clear IH G.
    destruct js, lk, fxd; cbn [rbind andb orb negb]; try destruct (String.eqb (jtyp j) "fixed"); cbn [rbind negb];
      rewrite ?rev_app_distr; simpl; rewrite ?app_nil_r, <- ?app_assoc; reflexivity.
Qed.

(** in a tree, from any link down to any link below it *)
Lemma get_chain_path es top root tip js lk fxd p l fuel : tree_shaped jpar jchi (joints_of es) top ->
  NoDup (map jname (joints_of es)) ->
  jpath jpar jchi (joints_of es) top p root -> jpath jpar jchi (joints_of es) root l tip -> length l <= fuel ->
  get_chain jtyp fuel (robot_of es) root tip js lk fxd = Ok ((if lk then [root] else []) ++ alternate js lk fxd l).
Proof.
  intros HT Hj Hp Hl Hf. unfold get_chain.
  assert (Hr : forall j, In j l -> jchi j <> root).
  { intros j Hin E. apply in_split in Hin as (l1 & l2 & ->).
    apply jpath_app_inv in Hl as (y & H1 & H2). inversion H2 as [|? ? ? ? Ha Hb Hc]; subst.
    assert (Hq : jpath jpar jchi (joints_of es) top (p ++ l1 ++ [j]) (jchi j)).
    { eapply jpath_app; [exact Hp|]. apply jpath_snoc. auto. }
    pose proof (jpath_unique _ _ _ _ (proj1 (proj2 HT)) (proj1 (proj2 (proj2 HT))) _ _ _ Hp Hq) as Q. apply (f_equal (@length J)) in Q.
    rewrite !app_length in Q. simpl in Q. lia. }
  pose proof (get_chain_loop_path es js lk fxd root (proj1 (proj2 HT)) Hj l tip fuel [] Hl Hr Hf) as H.
  rewrite !app_nil_r in H. rewrite <- H. destruct lk; reflexivity.
Qed.

(** from a link that is not above the tip: KeyError at the top *)
Lemma get_chain_loop_key es js lk fxd top root : tree_shaped jpar jchi (joints_of es) top -> NoDup (map jname (joints_of es)) ->
  root <> top -> forall l x fuel acc, jpath jpar jchi (joints_of es) top l x -> (forall j, In j l -> jchi j <> root) ->
  length l < fuel ->
  get_chain_loop jtyp (robot_of es) root js lk fxd fuel x acc = Err KeyError.
Proof.
  intros HT Hj Hne. pose proof HT as (_ & Hn & Ht & _).
  induction l as [|j l IH] using rev_ind; intros x fuel acc Hp Hr Hf; (destruct fuel as [|fuel]; [simpl in Hf; lia|]); cbn [get_chain_loop].
  - inversion Hp; subst x. rewrite (proj2 (String.eqb_neq _ _)) by congruence.
    rewrite (proj2 (parent_map_none es top) Ht). reflexivity.
  - apply jpath_snoc in Hp as (Hp & Hi & ->). rewrite app_length in Hf. simpl in Hf.
    rewrite (proj2 (String.eqb_neq _ _)) by (apply Hr, in_or_app; right; left; auto).
    rewrite parent_map_spec, (last_with_key jchi _ _ Hn Hi). cbn [option_map of_opt rbind fst snd].
    rewrite joint_map_spec, (last_with_key jname _ _ Hj Hi). cbn [of_opt rbind].
    assert (IH' : forall acc, get_chain_loop jtyp (robot_of es) root js lk fxd fuel (jpar j) acc = Err KeyError).
    { intros acc'. apply IH; auto; [|lia]. intros k Hk. apply Hr, in_or_app; left; auto. }
    destruct js, fxd; cbn [rbind]; apply IH'.
Qed.
End Robot.
