(** Last steps of the proofs quoted in Properties_T3x.v. *)
From Coq Require Import Reals Lra Bool Arith ZArith Lia String List Sorting.Sorted.
From Verif Require Import Prelude ExtF Lin Trig RotModel RotBasic T3dModel T3dProofs T3dMore T3dIndex.
Import ListNotations.
Local Open Scope nat_scope.

Lemma l60_integer : forall t i, (forall k, (i = Z.of_nat k \/ i = Z.of_nat k - Z.of_nat (tlen t))%Z -> k < tlen t ->
    exists A, nth_error (tm t) k = Some A /\ getitem t (IInt i) = Ok (mkT KBase [A])) /\
  ((i < - Z.of_nat (tlen t) \/ Z.of_nat (tlen t) <= i)%Z -> getitem t (IInt i) = Err IndexError).
Proof.
  intros t i. split; [|exact (tgetitem_out t i)]. intros k Hi Hk. cbn [getitem].
  destruct (tgetitem_nonneg t k Hk) as (A & HA & EA). exists A. split; [exact HA|]. destruct Hi as [->| ->]; [exact EA|].
  rewrite <- EA. replace (Z.of_nat k - Z.of_nat (tlen t))%Z with (- Z.of_nat (tlen t - k))%Z by lia.
  rewrite tgetitem_neg by lia. do 2 f_equal. lia.
Qed.

Lemma l60_slice : forall t a b step x y s,
  s = match step with None => 1%Z | Some s => s end -> (1 <= s)%Z ->
  slice_start (tlen t) a 0 x -> slice_start (tlen t) b (Z.of_nat (tlen t)) y ->
  exists ps r, StronglySorted lt ps /\
    (forall p, In p ps <-> (x <= Z.of_nat p < y)%Z /\ exists k, (0 <= k)%Z /\ (Z.of_nat p = x + k * s)%Z) /\
    getitem t (ISlice a b step) = Ok r /\ tm r = map (fun p => nth p (tm t) I4) ps.
Proof.
  intros t a b step x y s Es Hs Hx Hy.
  destruct (py_slice_spec (tm t) a b step x y s I4 Es Hs Hx Hy) as (ps & Ss & Hi & He).
  exists ps, (mkT KBase (map (fun p => nth p (tm t) I4) ps)). split; [exact Ss|]. split; [exact Hi|].
  cbn [getitem]. rewrite He. split; reflexivity.
Qed.

Lemma l60_slice_step : forall t a b s, (s <= 0)%Z -> getitem t (ISlice a b (Some s)) = Err ValueError.
Proof.
  intros t a b s Hs. cbn [getitem]. unfold py_slice. destruct (Z.leb_spec s 0); [reflexivity | lia].
Qed.

Lemma l60_mask : forall t m,
  (length m = tlen t -> exists ps r, StronglySorted lt ps /\ (forall p, In p ps <-> nth_error m p = Some true) /\
     getitem t (IMask m) = Ok r /\ tm r = map (fun p => nth p (tm t) I4) ps) /\
  (length m <> tlen t -> getitem t (IMask m) = Err IndexError).
Proof.
  intros t m. cbn [getitem]. split; intros H.
  - rewrite (proj2 (Nat.eqb_eq _ _) H). destruct (masked_spec m (tm t) I4 H 0) as (ps & Ss & Hi & He).
    exists ps, (mkT KBase (masked m (tm t))). split; [exact Ss|]. split; [|split; [reflexivity|]].
    + intros p. rewrite Hi, Nat.sub_0_r. split; [tauto | intros; split; [lia | assumption]].
    + cbn [tm]. rewrite He. apply map_ext. intros p. rewrite Nat.sub_0_r. reflexivity.
  - rewrite (proj2 (Nat.eqb_neq _ _) H). reflexivity.
Qed.

Lemma l60_list : forall t l,
  match getitem t (IList l) with
  | Ok r => tlen r = length l /\ forall k i, nth_error l k = Some i ->
              exists A, nth_error (tm r) k = Some A /\ getitem t (IInt i) = Ok (mkT KBase [A])
  | Err e => e = IndexError /\ exists i, In i l /\ getitem t (IInt i) = Err IndexError
  end.
Proof.
  intros t l. cbn [getitem]. destruct (rmap (py_index (tm t)) l) as [r|e] eqn:E; cbn [rbind].
  - unfold tlen. cbn [tm]. split; [eapply rmap_length; eauto|]. intros k i Hk.
    destruct (rmap_nth _ _ _ _ _ E Hk) as (A & HA & Hi). exists A. split; [exact HA|]. unfold tgetitem. rewrite Hi. reflexivity.
  - assert (H : exists i, In i l /\ py_index (tm t) i = Err e).
    { revert E. induction l as [|i l IH]; cbn [rmap]; [discriminate|]. destruct (py_index (tm t) i) eqn:Ei; cbn [rbind].
      - destruct (rmap (py_index (tm t)) l); cbn [rbind]; [discriminate|]. intros E. destruct (IH E) as (j & Hj & Ej). exists j. split; [right|]; assumption.
      - intros E. exists i. split; [left; reflexivity | congruence]. }
    destruct H as (i & Hi & Ei).
    assert (He : e = IndexError).
    { unfold py_index in Ei. match type of Ei with (if ?c then _ else _) = _ => destruct c eqn:Ec end; [|congruence].
      unfold get, of_opt in Ei. destruct (nth_error _ _); congruence. }
    split; [exact He|]. exists i. split; [exact Hi|]. unfold tgetitem. rewrite Ei, He. reflexivity.
Qed.

Lemma l60_iteration : forall t, exists xs, iterate (S (tlen t)) t 0 = Ok xs /\ length xs = tlen t /\
  forall i A, nth_error (tm t) i = Some A -> nth_error xs i = Some (mkT KBase [A]).
Proof.
  intros t. rewrite iterate_all. eexists. split; [reflexivity|]. split; [rewrite map_length; reflexivity|].
  intros i A H. rewrite nth_error_map, H. reflexivity.
Qed.

Lemma l61_clone : forall h o t, load h o = Ok t -> exists h' o', clone_obj h o = Ok (h', o') /\
  load h' o = Ok t /\ (exists t', load h' o' = Ok t' /\ tm t' = tm t) /\
  (forall i m, load (write h' (ob_ref o') i m) o = Ok t) /\
  (forall i m, exists t', load (write h' (ob_ref o) i m) o' = Ok t' /\ tm t' = tm t).
Proof.
  intros h o t H. unfold load in H. destruct (get h (ob_ref o)) as [s|] eqn:E; [|discriminate]. cbn [rbind] in H.
  assert (Ht : t = mkT (ob_kind o) (st_data s)) by (injection H as <-; reflexivity). subst t. cbn [tm].
  destruct (clone_obj_spec h o s E) as (h' & o' & Hc & Hl & Hne & Ho & _ & _). exists h', o'. split; [exact Hc|].
  unfold load in *. rewrite Ho. cbn [rbind]. split; [reflexivity|].
  destruct (get h' (ob_ref o')) as [s'|] eqn:E'; [|discriminate]. cbn [rbind tm] in Hl. injection Hl as Hl. cbn [rbind].
  split; [eexists; split; [reflexivity | exact Hl]|]. split; intros i m.
  - rewrite write_other by congruence. rewrite Ho. reflexivity.
  - rewrite write_other by congruence. rewrite E'. cbn [rbind]. eexists. split; [reflexivity | exact Hl].
Qed.

Lemma l61_to_copy_shares : forall h o s i m, get h (ob_ref o) = Ok s -> ob_dev o = DevObj (st_dev s) -> ob_ty o = st_ty s ->
  exists h' o', to_dev h o (ob_dev o) true None = Ok (h', o') /\
    exists t', load (write h' (ob_ref o') i m) o = Ok t' /\ tm t' = set_nth i m (st_data s).
Proof.
  intros h o s i m H Hd Ht. destruct (to_dev_same h o s H Hd Ht) as (h' & o' & E & Hr). exists h', o'. split; [exact E|].
  rewrite Hr. unfold to_dev in E. cbn [negb andb] in E. unfold clone_obj in E. rewrite H in E. cbn [rbind fst snd] in E.
  unfold tensor_to in E. rewrite (get_app_l _ _ _ _ H) in E. cbn [rbind] in E. rewrite Hd in E. cbn [dev_name] in E.
  rewrite !String.eqb_refl in E. cbn [andb rbind fst snd] in E.
  assert (Hh : h' = h ++ [s]) by congruence. subst h'. unfold load.
  rewrite (write_same _ _ _ _ s) by (apply get_app_l, H). cbn [rbind]. eexists. split; reflexivity.
Qed.

Lemma l61_to_copy_refuted : exists h o h' o' i m t, load h o = Ok t /\ to_dev h o (ob_dev o) true None = Ok (h', o') /\
  exists t', load (write h' (ob_ref o') i m) o = Ok t' /\ tm t' <> tm t.
Proof.
  exists [mkStore [I4] "cpu" "float32"], (mkObj KBase 0 (DevObj "cpu") "float32"), [mkStore [I4] "cpu" "float32"; mkStore [I4] "cpu" "float32"],
    (mkObj KBase 0 (DevObj "cpu") "float32"), 0, (translate_matrix (mkV3 1 0 0)), (mkT KBase [I4]).
  split; [reflexivity|]. split; [reflexivity|]. eexists. split; [reflexivity|]. cbn [tm st_data set_nth]. intros H.
  apply (f_equal (fun l => match l with [A] => a03 A | _ => 0%R end)) in H. cbn in H. lra.
Qed.

Lemma l61_cpu_refuted : exists h o t h' o' t', load h o = Ok t /\ to_cpu h o = Ok (h', o') /\ load h' o' = Ok t' /\
  Scale (CScalar 2) None None = Ok t /\ tm t' = tm t /\
  (exists a, compose (inverse t) [t] = Ok a /\ tm a = [I4]) /\ (exists a, compose (inverse t') [t'] = Ok a /\ tm a <> [I4]).
Proof.
  destruct scale_refuted as (s & Hs & (a & Ha & Ea) & (b & Hb & Eb) & _).
  exists [mkStore (tm s) "cpu" "float32"], (mkObj (tk s) 0 (DevStr "cpu") "float32"), s.
  exists [mkStore (tm s) "cpu" "float32"; mkStore (tm s) "cpu" "float32"], (mkObj KBase 0 (DevObj "cpu") "float32"), (T3dModel.clone s).
  split; [destruct s; reflexivity|]. split; [reflexivity|]. split; [destruct s; reflexivity|]. split; [exact Hs|].
  split; [destruct s; reflexivity|]. split; [exists a; split; assumption | exists b; split; assumption].
Qed.
