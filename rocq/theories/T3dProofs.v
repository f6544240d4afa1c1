(** Proofs about transform3d.py. *)
From Coq Require Import Reals Lra String Ascii Bool Arith ZArith Lia List.
From Verif Require Import Prelude ExtF Lin Trig RotModel RotBasic QuatProofs EulerProofs T3dModel.
Import ListNotations.
Local Open Scope R_scope.

(** ** Broadcasting *)
Definition compatible (n m : nat) : Prop := n = m \/ n = 1%nat \/ m = 1%nat.

Lemma zip_repeat_l {A B C} (f : A -> B -> C) x b : zip_with f (repeat x (length b)) b = map (f x) b.
Proof. induction b as [|y b IH]; simpl; [reflexivity | rewrite IH; reflexivity]. Qed.
Lemma zip_repeat_r {A B C} (f : A -> B -> C) a y : zip_with f a (repeat y (length a)) = map (fun x => f x y) a.
Proof. induction a as [|x a IH]; simpl; [reflexivity | rewrite IH; reflexivity]. Qed.

Lemma bb_eq {A B C} (f : A -> B -> C) a b : length a = length b -> broadcast_bmm f a b = Ok (zip_with f a b).
Proof. unfold broadcast_bmm. intros ->. rewrite Nat.eqb_refl. reflexivity. Qed.
Lemma bb_l {A B C} (f : A -> B -> C) x b : broadcast_bmm f [x] b = Ok (map (f x) b).
Proof.
  unfold broadcast_bmm. simpl length. destruct b as [|y [|y' b]].
  - reflexivity.
  - reflexivity.
  - simpl Nat.eqb. simpl negb. cbv iota. simpl expand. f_equal.
    change (zip_with f (repeat x (length (y :: y' :: b))) (y :: y' :: b) = map (f x) (y :: y' :: b)).
    apply zip_repeat_l.
Qed.
Lemma bb_r {A B C} (f : A -> B -> C) a y : broadcast_bmm f a [y] = Ok (map (fun x => f x y) a).
Proof.
  unfold broadcast_bmm. simpl length. destruct a as [|x [|x' a]].
  - reflexivity.
  - reflexivity.
  - simpl Nat.eqb. simpl negb. cbv iota. simpl expand. f_equal.
    change (zip_with f (x :: x' :: a) (repeat y (length (x :: x' :: a))) = map (fun x => f x y) (x :: x' :: a)).
    apply zip_repeat_r.
Qed.
Lemma bb_err {A B C} (f : A -> B -> C) a b : ~ compatible (length a) (length b) -> broadcast_bmm f a b = Err ValueError.
Proof.
  unfold compatible, broadcast_bmm. intros H.
  destruct (length a =? length b)%nat eqn:E; [apply Nat.eqb_eq in E; tauto|].
  destruct (length a =? 1)%nat eqn:E1; [apply Nat.eqb_eq in E1; tauto|].
  destruct (length b =? 1)%nat eqn:E2; [apply Nat.eqb_eq in E2; tauto|]. reflexivity.
Qed.
Lemma len1 {A} (l : list A) : length l = 1%nat -> exists x, l = [x].
Proof. destruct l as [|x [|y l]]; simpl; intros H; try discriminate. exists x; reflexivity. Qed.

(** the view used in all proofs: one of four cases *)
Inductive bb_case {A B C} (f : A -> B -> C) (a : list A) (b : list B) : res (list C) -> Prop :=
| bb_case_l x : a = [x] -> bb_case f a b (Ok (map (f x) b))
| bb_case_r y : b = [y] -> length a <> 1%nat -> bb_case f a b (Ok (map (fun x => f x y) a))
| bb_case_eq : length a = length b -> length a <> 1%nat -> bb_case f a b (Ok (zip_with f a b))
| bb_case_err : length a <> length b -> length a <> 1%nat -> length b <> 1%nat -> bb_case f a b (Err ValueError).
Lemma bb_view {A B C} (f : A -> B -> C) a b : bb_case f a b (broadcast_bmm f a b).
Proof.
  destruct (Nat.eq_dec (length a) 1) as [H1|H1].
  - destruct (len1 a H1) as [x ->]. rewrite bb_l. apply bb_case_l. reflexivity.
  - destruct (Nat.eq_dec (length b) 1) as [H2|H2].
    + destruct (len1 b H2) as [y ->]. rewrite bb_r. apply bb_case_r; [reflexivity | exact H1].
    + destruct (Nat.eq_dec (length a) (length b)) as [H3|H3].
      * rewrite bb_eq by exact H3. apply bb_case_eq; assumption.
      * rewrite bb_err; [apply bb_case_err; assumption | unfold compatible; tauto].
Qed.

(** sizes and entries of a broadcast product *)
Lemma bb_spec {A B C} (f : A -> B -> C) a b :
  (compatible (length a) (length b) ->
   exists c, broadcast_bmm f a b = Ok c /\
     length c = (if (length a =? 1)%nat then length b else length a) /\
     forall i, (i < length c)%nat -> exists x y,
       nth_error a (if (length a =? 1)%nat then 0 else i) = Some x /\
       nth_error b (if (length b =? 1)%nat then 0 else i) = Some y /\ nth_error c i = Some (f x y)) /\
  (~ compatible (length a) (length b) -> broadcast_bmm f a b = Err ValueError).
Proof.
  split; [|apply bb_err].
  intros H. destruct (bb_view f a b) as [x ->|y -> Ha|He Ha|H3 H1 H2].
  - exists (map (f x) b). split; [reflexivity|]. split; [apply map_length|].
    intros i Hi. rewrite map_length in Hi. simpl. exists x.
    destruct (nth_error b i) as [y|] eqn:E; [|apply nth_error_None in E; lia].
    exists y. split; [reflexivity|]. split.
    + destruct (length b =? 1)%nat eqn:Eb; [|exact E]. apply Nat.eqb_eq in Eb. replace i with 0%nat in E by lia. exact E.
    + rewrite nth_error_map, E. reflexivity.
  - eexists. split; [reflexivity|]. apply Nat.eqb_neq in Ha. rewrite Ha, map_length. split; [reflexivity|].
    intros i Hi. destruct (nth_error a i) as [x|] eqn:E; [|apply nth_error_None in E; lia].
    exists x, y. split; [reflexivity|]. split; [reflexivity|]. rewrite nth_error_map, E. reflexivity.
  - eexists. split; [reflexivity|]. apply Nat.eqb_neq in Ha. rewrite Ha.
    rewrite zip_with_length, He, Nat.min_id. rewrite He in Ha. rewrite Ha. split; [reflexivity|].
    intros i Hi. destruct (nth_error a i) as [x|] eqn:E; [|apply nth_error_None in E; lia].
    destruct (nth_error b i) as [y|] eqn:E'; [|apply nth_error_None in E'; lia].
    exists x, y. split; [reflexivity|]. split; [reflexivity|]. apply zip_with_nth; assumption.
  - unfold compatible in H. tauto.
Qed.

Lemma zip_flip {A B C} (f : A -> B -> C) a b : zip_with f a b = zip_with (fun y x => f x y) b a.
Proof. revert b. induction a as [|x a IH]; intros [|y b]; simpl; try reflexivity. rewrite IH; reflexivity. Qed.
Lemma bb_flip {A B C} (f : A -> B -> C) a b : broadcast_bmm f a b = broadcast_bmm (fun y x => f x y) b a.
Proof.
  destruct (bb_view f a b) as [x ->|y -> Ha|He Ha|H3 H1 H2].
  - rewrite bb_r. reflexivity.
  - rewrite bb_l. reflexivity.
  - rewrite bb_eq by congruence. rewrite zip_flip. reflexivity.
  - rewrite bb_err; [reflexivity|]. unfold compatible. intuition.
Qed.

Lemma zip_with_ext {A B C} (f g : A -> B -> C) a b :
  (forall x y, In x a -> In y b -> f x y = g x y) -> zip_with f a b = zip_with g a b.
Proof.
  revert b. induction a as [|x a IH]; intros [|y b] H; simpl; try reflexivity.
  rewrite H by (left; reflexivity). rewrite IH; [reflexivity|]. intros; apply H; right; assumption.
Qed.
Lemma bb_ext {A B C} (f g : A -> B -> C) a b :
  (forall x y, In x a -> In y b -> f x y = g x y) -> broadcast_bmm f a b = broadcast_bmm g a b.
Proof.
  intros H. destruct (bb_view f a b) as [x ->|y -> Ha|He Ha|H3 H1 H2].
  - rewrite bb_l. f_equal. apply map_ext_in. intros; apply H; [left; reflexivity | assumption].
  - rewrite bb_r. f_equal. apply map_ext_in. intros; apply H; [assumption | left; reflexivity].
  - rewrite bb_eq by exact He. f_equal. apply zip_with_ext, H.
  - rewrite bb_err; [reflexivity|]. unfold compatible; tauto.
Qed.

Lemma zip_map_l {A A' B C} (f : A' -> B -> C) (g : A -> A') a b :
  zip_with f (map g a) b = zip_with (fun x y => f (g x) y) a b.
Proof. revert b. induction a as [|x a IH]; intros [|y b]; simpl; try reflexivity. rewrite IH; reflexivity. Qed.
Lemma zip_map_r {A B B' C} (f : A -> B' -> C) (g : B -> B') a b :
  zip_with f a (map g b) = zip_with (fun x y => f x (g y)) a b.
Proof. revert b. induction a as [|x a IH]; intros [|y b]; simpl; try reflexivity. rewrite IH; reflexivity. Qed.
Lemma map_zip {A B C D} (h : C -> D) (f : A -> B -> C) a b :
  map h (zip_with f a b) = zip_with (fun x y => h (f x y)) a b.
Proof. revert b. induction a as [|x a IH]; intros [|y b]; simpl; try reflexivity. rewrite IH; reflexivity. Qed.
Lemma zip_assoc {A B C D E F} (f : A -> B -> D) (g : D -> C -> E) (f' : B -> C -> F) (g' : A -> F -> E) a b c :
  (forall x y z, In x a -> In y b -> In z c -> g (f x y) z = g' x (f' y z)) ->
  zip_with g (zip_with f a b) c = zip_with g' a (zip_with f' b c).
Proof.
  revert b c. induction a as [|x a IH]; intros [|y b] [|z c] H; simpl; try reflexivity.
  rewrite H by (left; reflexivity). rewrite IH; [reflexivity|]. intros; apply H; right; assumption.
Qed.
Lemma bb_map_r {A B B' C} (f : A -> B' -> C) (g : B -> B') a b :
  broadcast_bmm f a (map g b) = broadcast_bmm (fun x y => f x (g y)) a b.
Proof.
  destruct (bb_view (fun x y => f x (g y)) a b) as [x ->|y -> Ha|He Ha|H3 H1 H2].
  - rewrite bb_l, map_map. reflexivity.
  - simpl map. rewrite bb_r. reflexivity.
  - rewrite bb_eq by (rewrite map_length; exact He). rewrite zip_map_r. reflexivity.
  - rewrite bb_err; [reflexivity|]. rewrite map_length. unfold compatible; tauto.
Qed.
Lemma bb_map_out {A B C D} (h : C -> D) (f : A -> B -> C) a b :
  (do c <- broadcast_bmm f a b; Ok (map h c)) = broadcast_bmm (fun x y => h (f x y)) a b.
Proof.
  destruct (bb_view f a b) as [x ->|y -> Ha|He Ha|H3 H1 H2]; simpl.
  - rewrite bb_l, map_map. reflexivity.
  - rewrite bb_r, map_map. reflexivity.
  - rewrite bb_eq by exact He. rewrite map_zip. reflexivity.
  - rewrite bb_err; [reflexivity|]. unfold compatible; tauto.
Qed.
Lemma zip_len_eq {A B C} (f : A -> B -> C) a b : length a = length b -> length (zip_with f a b) = length a.
Proof. intros H. rewrite zip_with_length, H, Nat.min_id. reflexivity. Qed.

(** associativity of broadcast products, errors included *)
Lemma bb_assoc {A B C D E F} (f : A -> B -> D) (g : D -> C -> E) (f' : B -> C -> F) (g' : A -> F -> E) a b c :
  (forall x y z, In x a -> In y b -> In z c -> g (f x y) z = g' x (f' y z)) ->
  (do d <- broadcast_bmm f a b; broadcast_bmm g d c) = (do e <- broadcast_bmm f' b c; broadcast_bmm g' a e).
Proof.
  intros H.
  destruct (bb_view f a b) as [x ->|y -> Ha|He Ha|H3 H1 H2]; simpl.
  - (* a = [x] *)
    destruct (bb_view f' b c) as [y ->|z -> Hb|He Hb|H3 H1 H2]; simpl.
    + rewrite bb_l, bb_l, map_map. f_equal. apply map_ext_in. intros z Hz. apply H; simpl; auto.
    + rewrite bb_r, bb_l, !map_map. f_equal. apply map_ext_in. intros y Hy. apply H; simpl; auto.
    + rewrite bb_eq by (rewrite map_length; exact He). rewrite bb_l, zip_map_l, map_zip. f_equal.
      apply zip_with_ext. intros; apply H; simpl; auto.
    + apply bb_err. rewrite map_length. unfold compatible; tauto.
  - (* b = [y] *)
    rewrite bb_l. simpl.
    destruct (bb_view g' a (map (f' y) c)) as [x ->|w Ew Hb|He Hb|H3 H1 H2].
    + simpl in Ha. congruence.
    + destruct c as [|z [|z' c]]; try discriminate. simpl in Ew. injection Ew as <-.
      rewrite bb_r, map_map. f_equal. apply map_ext_in. intros x Hx. apply H; simpl; auto.
    + rewrite map_length in He. rewrite bb_eq by (rewrite map_length; exact He).
      rewrite zip_map_l, zip_map_r. f_equal. apply zip_with_ext. intros; apply H; simpl; auto.
    + rewrite map_length in *. apply bb_err. rewrite map_length. unfold compatible; tauto.
  - destruct (bb_view f' b c) as [y ->|z -> Hb|He' Hb|H3 H1 H2]; simpl.
    + simpl in He. congruence.
    + rewrite bb_r, bb_eq by (rewrite map_length; exact He). rewrite map_zip, zip_map_r. f_equal.
      apply zip_with_ext. intros; apply H; simpl; auto.
    + rewrite !bb_eq by (rewrite zip_len_eq by assumption; congruence). f_equal. apply zip_assoc. intros; apply H; assumption.
    + apply bb_err. rewrite zip_len_eq by exact He. unfold compatible. rewrite He. tauto.
  - destruct (bb_view f' b c) as [y ->|z -> Hb|He' Hb|H3' H1' H2']; simpl.
    + simpl in H2. congruence.
    + symmetry. apply bb_err. rewrite map_length. unfold compatible; tauto.
    + symmetry. apply bb_err. rewrite zip_len_eq by exact He'. unfold compatible; tauto.
    + reflexivity.
Qed.

Lemma bb_in {A B C} (f : A -> B -> C) a b c z : broadcast_bmm f a b = Ok c -> In z c ->
  exists x y, In x a /\ In y b /\ z = f x y.
Proof.
  intros H Hz. destruct (In_nth_error _ _ Hz) as [i Hi].
  destruct (bb_spec f a b) as [S1 S2].
  assert (Hc : compatible (length a) (length b)).
  { destruct (bb_view f a b) as [x ->|y -> Ha|He Ha|H3 H1 H2]; unfold compatible; simpl; try tauto. discriminate. }
  destruct (S1 Hc) as (c' & E & _ & N). rewrite H in E. assert (c' = c) by congruence. subst c'.
  destruct (N i) as (x & y & Hx & Hy & Hc'); [apply nth_error_Some; congruence|].
  exists x, y. split; [eapply nth_error_In, Hx|]. split; [eapply nth_error_In, Hy|]. congruence.
Qed.

(** ** Points *)
(** the action of one matrix on one point *)
Definition act (M : M4) (p : V3) : V3 := dehom None (v4row (hom p) (m4tr M)).
Definition aff_act (M : M4) (p : V3) : V3 := vadd (m3vec (rotp M) p) (trp M).
Lemma v4row_tr M v : v4row v (m4tr M) = m4vec M v.
Proof. unfold v4row. rewrite m4tr_tr. reflexivity. Qed.
Lemma hom_affine M p : affine M -> m4vec M (hom p) = hom (aff_act M p).
Proof.
  destruct M, p. unfold affine, hom, aff_act. simpl. intros (-> & -> & -> & ->). lin_simpl. apply mkV4_eq; ring.
Qed.
Lemma act_affine M p : affine M -> act M p = aff_act M p.
Proof.
  intros H. unfold act. rewrite v4row_tr, hom_affine by exact H. unfold dehom, hom. cbn [v0 v1 v2 v3].
  destruct (aff_act M p) as [x y z]. cbn [vx vy vz]. apply mkV3_eq; field.
Qed.
Lemma aff_act_mul A B p : affine A -> affine B -> aff_act (m4mul A B) p = aff_act A (aff_act B p).
Proof.
  intros HA HB. unfold aff_act. rewrite rotp_mul, trp_mul, m3vec_mul, m3vec_add by assumption. lin.
Qed.
(** any 4x4 matrices (perspective included), wherever the denominators do not vanish *)
Lemma act_mul A B p : v3 (m4vec B (hom p)) <> 0 -> v3 (m4vec (m4mul A B) (hom p)) <> 0 -> act (m4mul A B) p = act A (act B p).
Proof.
  intros HB HA. unfold act. rewrite m4vec_mul in HA. rewrite !v4row_tr, m4vec_mul.
  set (w := m4vec B (hom p)) in *.
  assert (E : m4vec A (hom (dehom None w)) = mkV4 (v0 (m4vec A w) / v3 w) (v1 (m4vec A w) / v3 w)
     (v2 (m4vec A w) / v3 w) (v3 (m4vec A w) / v3 w)).
  { clearbody w. destruct w as [x y z d]. simpl in HB. unfold dehom, hom. destruct A. lin_simpl. apply mkV4_eq; field; exact HB. }
  rewrite E. unfold dehom. cbn [v0 v1 v2 v3].
  apply mkV3_eq; field; split; assumption.
Qed.

(** transform_points in terms of the action on single points *)
#[global] Arguments unwrap : simpl never.
#[global] Arguments transform_points : simpl never.
#[global] Arguments broadcast_bmm : simpl never.
Definition as_batch {A} (p : tens A) : list (list A) * bool :=
  match p with T2 l => ([l], true) | T3 b => (b, false) | TBad => ([], false) end.
Definition actl (ps : list V3) (M : M4) : list V3 := map (act M) ps.
Lemma transform_points_alt t p : transform_points t None p =
  match p with
  | TBad => Err ValueError
  | _ => do out <- broadcast_bmm actl (fst (as_batch p)) (tm t); Ok (unwrap (snd (as_batch p)) out)
  end.
Proof.
  assert (H : forall b w, (do out <- broadcast_bmm (fun ps M => map (fun q => v4row (hom q) M) ps) b (map m4tr (tm t));
      Ok (unwrap w (map (map (dehom None)) out))) = (do out <- broadcast_bmm actl b (tm t); Ok (unwrap w out))).
  { intros b w. rewrite bb_map_r.
    transitivity (do out <- (do c <- broadcast_bmm (fun ps M => map (fun q => v4row (hom q) (m4tr M)) ps) b (tm t);
                             Ok (map (map (dehom None)) c)); Ok (unwrap w out)).
    + destruct (broadcast_bmm _ b (tm t)); reflexivity.
    + rewrite bb_map_out. f_equal. apply bb_ext. intros x y _ _. apply map_map. }
  destruct p as [l|b|]; [exact (H [l] true) | exact (H b false) | reflexivity].
Qed.

Lemma unwrap_not1 {A} w (out : list (list A)) : length out <> 1%nat -> unwrap w out = T3 out.
Proof. unfold unwrap. destruct w, out as [|x [|y r]]; simpl; intros; congruence. Qed.
Lemma bb_not1 {A B C} (f : A -> B -> C) a b c : length a <> 1%nat -> broadcast_bmm f a b = Ok c -> length c <> 1%nat.
Proof.
  intros Ha. destruct (bb_view f a b) as [x ->|y -> Hb|He Hb|H3 H1 H2]; intros E; try (simpl in Ha; congruence).
  - assert (c = map (fun x => f x y) a) by congruence. subst. rewrite map_length. exact Ha.
  - assert (c = zip_with f a b) by congruence. subst. rewrite zip_len_eq by exact He. exact Ha.
Qed.

Definition all_affine (t : transform) : Prop := forall M, In M (tm t) -> affine M.

Lemma compose1 t1 t2 : compose t1 [t2] = (do ms <- broadcast_bmm m4mul (tm t1) (tm t2); Ok (mkT KBase ms)).
Proof. unfold compose. simpl. destruct (broadcast_bmm m4mul (tm t1) (tm t2)); reflexivity. Qed.

Lemma points_compose_gen t1 t2 p :
  (forall A B x, In A (tm t1) -> In B (tm t2) -> (exists l, In l (fst (as_batch p)) /\ In x l) -> act (m4mul A B) x = act A (act B x)) ->
  (do t <- compose t1 [t2]; transform_points t None p) =
  (do p' <- transform_points t2 None p; transform_points t1 None p').
Proof.
  intros H. rewrite compose1.
  transitivity (match p with TBad => (do ms <- broadcast_bmm m4mul (tm t1) (tm t2); Err ValueError)
    | _ => do out <- (do ms <- broadcast_bmm (fun y x => m4mul x y) (tm t2) (tm t1); broadcast_bmm actl (fst (as_batch p)) ms);
           Ok (unwrap (snd (as_batch p)) out) end).
  { rewrite (bb_flip m4mul). destruct p as [l|b|]; destruct (broadcast_bmm _ (tm t2) (tm t1)) as [ms|e]; cbn [rbind];
      try rewrite transform_points_alt; reflexivity. }
  rewrite transform_points_alt.
  assert (K : forall b w, as_batch p = (b, w) -> (w = true -> length b = 1%nat) ->
    (do out <- (do ms <- broadcast_bmm (fun y x => m4mul x y) (tm t2) (tm t1); broadcast_bmm actl b ms); Ok (unwrap w out)) =
    (do p' <- (do out <- broadcast_bmm actl b (tm t2); Ok (unwrap w out)); transform_points t1 None p')).
  { intros b w Ew Hw.
    rewrite <- (bb_assoc actl actl (fun y x => m4mul x y) actl b (tm t2) (tm t1)).
    2:{ intros l B A Hl HB HA. unfold actl. rewrite map_map. apply map_ext_in. intros x Hx. symmetry.
        apply H; try assumption. exists l. rewrite Ew. split; assumption. }
    destruct (broadcast_bmm actl b (tm t2)) as [d|e] eqn:Ed; [|reflexivity]. simpl.
    rewrite transform_points_alt.
    destruct w.
    - destruct d as [|l [|l' d]].
      + simpl. destruct (broadcast_bmm actl [] (tm t1)) as [o|] eqn:Eo; [|reflexivity]. simpl. f_equal.
        rewrite unwrap_not1; [reflexivity|]. eapply bb_not1; [|exact Eo]. simpl; lia.
      + reflexivity.
      + simpl. destruct (broadcast_bmm actl (l :: l' :: d) (tm t1)) as [o|] eqn:Eo; [|reflexivity]. simpl. f_equal.
        rewrite (unwrap_not1 true); [reflexivity|]. eapply bb_not1; [|exact Eo]. simpl; lia.
    - simpl. reflexivity. }
  destruct p as [l|b|].
  - apply K; reflexivity.
  - apply K; [reflexivity | discriminate].
  - simpl. destruct (broadcast_bmm m4mul (tm t1) (tm t2)) eqn:E; [reflexivity|].
    simpl. destruct (bb_view m4mul (tm t1) (tm t2)); try discriminate E. injection E as <-. reflexivity.
Qed.
Lemma points_compose t1 t2 p : all_affine t1 -> all_affine t2 ->
  (do t <- compose t1 [t2]; transform_points t None p) =
  (do p' <- transform_points t2 None p; transform_points t1 None p').
Proof.
  intros H1 H2. apply points_compose_gen. intros A B x HA HB _.
  specialize (H1 A HA). specialize (H2 B HB).
  rewrite (act_affine (m4mul A B)), (act_affine A), (act_affine B) by (try apply affine_mul; assumption).
  apply aff_act_mul; assumption.
Qed.

(** ** compose *)
Lemma compose_assoc t1 t2 t3 :
  (do t <- compose t1 [t2]; compose t [t3]) = (do t <- compose t2 [t3]; compose t1 [t]).
Proof.
  rewrite !compose1.
  transitivity (do ms <- (do d <- broadcast_bmm m4mul (tm t1) (tm t2); broadcast_bmm m4mul d (tm t3)); Ok (mkT KBase ms)).
  - destruct (broadcast_bmm m4mul (tm t1) (tm t2)); simpl; [rewrite compose1|]; reflexivity.
  - rewrite (bb_assoc m4mul m4mul m4mul m4mul) by (intros; symmetry; apply m4mul_assoc).
    destruct (broadcast_bmm m4mul (tm t2) (tm t3)); simpl; [rewrite compose1|]; reflexivity.
Qed.
Lemma compose_many t t2 r : compose t (t2 :: r) = (do t' <- compose t [t2]; compose t' r).
Proof.
  rewrite compose1. unfold compose. simpl. destruct (broadcast_bmm m4mul (tm t) (tm t2)) as [ms|]; [|reflexivity].
  reflexivity.
Qed.
Definition identity_t : transform := mkT KBase [I4].
Lemma compose_id t : compose t [identity_t] = Ok (mkT KBase (tm t)) /\ compose identity_t [t] = Ok (mkT KBase (tm t)).
Proof.
  rewrite !compose1. unfold identity_t; simpl. rewrite bb_r, bb_l. simpl.
  split; do 2 f_equal.
  - rewrite <- (map_id (tm t)) at 2. apply map_ext. intros; apply m4mul_1_r.
  - rewrite <- (map_id (tm t)) at 2. apply map_ext. intros; apply m4mul_1_l.
Qed.
Lemma compose_affine t1 t2 t : all_affine t1 -> all_affine t2 -> compose t1 [t2] = Ok t -> all_affine t.
Proof.
  intros H1 H2. rewrite compose1. destruct (broadcast_bmm m4mul (tm t1) (tm t2)) as [ms|] eqn:E; [|discriminate].
  simpl. intros K. assert (t = mkT KBase ms) by congruence. subst. intros M HM. simpl in HM.
  destruct (bb_in _ _ _ _ _ E HM) as (A & B & HA & HB & ->). apply affine_mul; auto.
Qed.
Lemma compose_sizes t1 t2 :
  (compatible (tlen t1) (tlen t2) -> exists t, compose t1 [t2] = Ok t /\
     tlen t = (if (tlen t1 =? 1)%nat then tlen t2 else tlen t1) /\
     forall i, (i < tlen t)%nat -> exists A B,
       nth_error (tm t1) (if (tlen t1 =? 1)%nat then 0 else i) = Some A /\
       nth_error (tm t2) (if (tlen t2 =? 1)%nat then 0 else i) = Some B /\ nth_error (tm t) i = Some (m4mul A B)) /\
  (~ compatible (tlen t1) (tlen t2) -> compose t1 [t2] = Err ValueError).
Proof.
  unfold tlen. rewrite compose1. destruct (bb_spec m4mul (tm t1) (tm t2)) as [H1 H2]. split.
  - intros H. destruct (H1 H) as (c & E & L & N). rewrite E. exists (mkT KBase c). split; [reflexivity|]. split; assumption.
  - intros H. rewrite H2 by exact H. reflexivity.
Qed.

(** points of a stack: the concatenation *)
Lemma stack_points t1 t2 x1 x2 : length x1 = tlen t1 -> length x2 = tlen t2 ->
  exists y1 y2, transform_points t1 None (T3 x1) = Ok (T3 y1) /\ transform_points t2 None (T3 x2) = Ok (T3 y2) /\
    transform_points (stack t1 [t2]) None (T3 (x1 ++ x2)) = Ok (T3 (y1 ++ y2)).
Proof.
  unfold tlen. intros H1 H2. rewrite !transform_points_alt. simpl. rewrite app_nil_r.
  rewrite (bb_eq actl x1) by exact H1. rewrite (bb_eq actl x2) by exact H2.
  rewrite (bb_eq actl) by (rewrite !app_length; congruence).
  exists (zip_with actl x1 (tm t1)), (zip_with actl x2 (tm t2)). split; [reflexivity|]. split; [reflexivity|].
  cbn [rbind]. unfold unwrap. do 2 f_equal. revert H1. generalize (tm t1). clear. induction x1 as [|x r IH]; intros [|m ms] H; try discriminate; simpl.
  - reflexivity.
  - rewrite IH by (simpl in H; lia). reflexivity.
Qed.

(** ** Inverse *)
Lemma invert_aff A t : invert_transformation_matrix (aff A t) = aff (m3tr A) (m3vec (m3opp (m3tr A)) t).
Proof. destruct A, t. reflexivity. Qed.
Lemma invert_rigid T : affine T -> invert_transformation_matrix T = rigid_inv T.
Proof.
  intros H. rewrite <- (aff_eta T H) at 1. rewrite invert_aff. unfold rigid_inv. f_equal. lin.
Qed.
(** the base inverse is right exactly when the 3x3 block is orthogonal *)
Lemma invert_iff T : affine T ->
  (m4mul (invert_transformation_matrix T) T = I4 <-> m3mul (rotp T) (m3tr (rotp T)) = I3).
Proof.
  intros H. rewrite invert_rigid by exact H. rewrite <- (aff_eta T H) at 2. unfold rigid_inv. rewrite aff_mul.
  split.
  - intros E. apply m3_inv_comm. rewrite <- aff_I in E. apply (f_equal rotp) in E. rewrite !rotp_aff in E. exact E.
  - intros E. rewrite (m3_inv_comm _ _ E), <- aff_I. f_equal. lin.
Qed.
(** the invariant of each class *)
Definition class_inv (k : tkind) (M : M4) : Prop :=
  match k with
  | KBase => affine M
  | KTranslate => exists v, M = translate_matrix v
  | KScale => exists v, M = scale_matrix v
  | KRotate => exists A, M = rotate_matrix A
  end.
Definition wf (t : transform) : Prop := forall M, In M (tm t) -> class_inv (tk t) M.
Lemma rotate_aff A : rotate_matrix A = aff A vzero. Proof. reflexivity. Qed.
Lemma translate_aff v : translate_matrix v = aff I3 v. Proof. reflexivity. Qed.
Definition diag3 (v : V3) : M3 := mkM3 (vx v) 0 0 0 (vy v) 0 0 0 (vz v).
Lemma scale_aff v : scale_matrix v = aff (diag3 v) vzero. Proof. reflexivity. Qed.
Lemma class_affine k M : class_inv k M -> affine M.
Proof. destruct k; simpl; [tauto | | |]; intros [x ->]; repeat split. Qed.
Lemma wf_affine t : wf t -> all_affine t.
Proof. intros H M HM. eapply class_affine, H, HM. Qed.

Lemma translate_inverse_ok v : m4mul (translate_inverse (translate_matrix v)) (translate_matrix v) = I4 /\
  m4mul (translate_matrix v) (translate_inverse (translate_matrix v)) = I4.
Proof. unfold translate_inverse, translate_matrix. destruct v. split; lin_simpl; apply mkM4_eq; ring. Qed.
Lemma scale_inverse_ok v : vx v <> 0 -> vy v <> 0 -> vz v <> 0 ->
  m4mul (scale_inverse (scale_matrix v)) (scale_matrix v) = I4 /\
  m4mul (scale_matrix v) (scale_inverse (scale_matrix v)) = I4.
Proof.
  unfold scale_inverse, scale_matrix. destruct v as [x y z]. cbn [vx vy vz]. intros Hx Hy Hz.
  split; lin_simpl; apply mkM4_eq; field; repeat split; assumption.
Qed.
Lemma rotate_inverse_eq A : rotate_inverse (rotate_matrix A) = aff (m3tr A) vzero.
Proof. destruct A; reflexivity. Qed.

(** per class, when the matrix is one the class produces: rigid, or a non-degenerate scaling held by a Scale object *)
Definition invertible_by (k : tkind) (M : M4) : Prop :=
  match k with
  | KScale => exists v, M = scale_matrix v /\ vx v <> 0 /\ vy v <> 0 /\ vz v <> 0
  | _ => is_rigid M
  end.
Lemma inverse_one k M : class_inv k M -> invertible_by k M ->
  m4mul (get_matrix_inverse k M) M = I4 /\ m4mul M (get_matrix_inverse k M) = I4 /\
  (k <> KScale -> is_rigid (get_matrix_inverse k M)) /\ affine (get_matrix_inverse k M).
Proof.
  destruct k; simpl.
  - intros H R. rewrite invert_rigid by exact H.
    split; [apply rigid_inv_l, R|]. split; [apply rigid_inv_r, R|]. split; [intros _; apply is_rigid_inv, R|].
    apply is_rigid_inv, R.
  - intros [v ->] R. destruct (translate_inverse_ok v) as [L Rr]. split; [exact L|]. split; [exact Rr|].
    assert (E : translate_inverse (translate_matrix v) = aff I3 (vopp v)).
    { unfold translate_inverse, translate_matrix. destruct v. lin_simpl. apply mkM4_eq; ring. }
    rewrite E. split; [intros _; apply is_rigid_aff, is_rot_I | apply affine_aff].
  - intros _ (v & -> & Hx & Hy & Hz). destruct (scale_inverse_ok v Hx Hy Hz) as [L Rr]. split; [exact L|].
    split; [exact Rr|]. split; [congruence|]. unfold affine, scale_inverse, scale_matrix; simpl. repeat split; lra.
  - intros [A ->] [_ R]. rewrite rotate_inverse_eq. rewrite rotate_aff, rotp_aff in R.
    rewrite rotate_aff, !aff_mul, !m3vec_0, vadd_0_l, is_rot_l, (proj1 R) by exact R.
    split; [exact aff_I|]. split; [exact aff_I|]. split; [intros _; apply is_rigid_aff, is_rot_tr, R | apply affine_aff].
Qed.
Lemma zip_self {A C} (f : A -> A -> C) l : zip_with f l l = map (fun x => f x x) l.
Proof. induction l; simpl; congruence. Qed.
Definition all_identity (t : transform) (n : nat) : Prop := tm t = repeat I4 n.
Lemma map_const {A B} (f : A -> B) c l : (forall x, In x l -> f x = c) -> map f l = repeat c (length l).
Proof.
  induction l as [|x l IH]; simpl; intros H; [reflexivity|]. rewrite H by auto. rewrite IH by auto. reflexivity.
Qed.
Lemma inverse_compose t : wf t -> (forall M, In M (tm t) -> invertible_by (tk t) M) ->
  exists a b, compose (inverse t) [t] = Ok a /\ compose t [inverse t] = Ok b /\
    tm a = repeat I4 (tlen t) /\ tm b = repeat I4 (tlen t).
Proof.
  intros W H. rewrite !compose1. unfold inverse; simpl.
  rewrite !bb_eq by (rewrite map_length; reflexivity). simpl.
  eexists; eexists. split; [reflexivity|]. split; [reflexivity|]. simpl.
  rewrite zip_map_l, zip_map_r, !zip_self. unfold tlen.
  split; apply map_const; intros M HM; apply (inverse_one (tk t) M (W M HM) (H M HM)).
Qed.
Lemma inverse_points t x : wf t -> (forall M, In M (tm t) -> invertible_by (tk t) M) -> length x = tlen t ->
  exists y, transform_points t None (T3 x) = Ok (T3 y) /\ transform_points (inverse t) None (T3 y) = Ok (T3 x).
Proof.
  intros W H L. unfold tlen in L. rewrite transform_points_alt. simpl. rewrite bb_eq by exact L. simpl.
  eexists. split; [reflexivity|]. rewrite transform_points_alt. simpl.
  rewrite bb_eq by (rewrite zip_len_eq, map_length; assumption). cbn [rbind]. unfold unwrap. do 2 f_equal.
  rewrite zip_map_r. revert x L W H. destruct t as [k ms]. simpl. unfold wf; simpl.
  induction ms as [|M ms IH]; intros [|p x] L W H; try discriminate; simpl; [reflexivity|].
  rewrite IH; [|simpl in L; lia | intros; apply W; right; assumption | intros; apply H; right; assumption]. f_equal.
  destruct (inverse_one k M) as (I1 & I2 & _ & Af); [apply W; left; reflexivity | apply H; left; reflexivity|].
  unfold actl. rewrite map_map. rewrite <- (map_id p) at 2. apply map_ext. intros q.
  assert (HM : affine M) by (eapply class_affine, W; left; reflexivity).
  rewrite (act_affine M), (act_affine (get_matrix_inverse k M)), <- aff_act_mul by assumption.
  rewrite I1. unfold aff_act. destruct q. lin_simpl. apply mkV3_eq; ring.
Qed.
