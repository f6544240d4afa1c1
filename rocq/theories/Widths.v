(** Joint tensors of the wrong width. *)
From Coq Require Import String Bool Arith Lia List.
From Verif Require Import Prelude ExtF Tree ChainModel SpecFK ChainProofs.
Import ListNotations.

Section Widths.
Context {T A S : Type} (O : Ops T A S).
Notation frame := (frame T A).

Lemma rmap_ext {X Y} (f g : X -> res Y) l : (forall x, In x l -> f x = g x) -> rmap f l = rmap g l.
Proof.
  induction l as [|x l IH]; simpl; intros H; [reflexivity|]. rewrite H by auto. rewrite IH by auto. reflexivity.
Qed.
Lemma rmap_compose {X Y Z} (f : X -> Y) (g : Y -> res Z) l : rmap g (map f l) = rmap (fun x => g (f x)) l.
Proof. induction l; simpl; [reflexivity|]. rewrite IHl. reflexivity. Qed.

Lemma zip_with_repeat {X Y Z} (g : X -> Y -> Z) l x : zip_with g l (repeat x (length l)) = map (fun a => g a x) l.
Proof. induction l; simpl; f_equal; auto. Qed.

Lemma joint_row_one (motion : A -> S -> T) axes x :
  joint_row motion axes [x] = joint_row motion axes (repeat x (length axes)).
Proof.
  unfold joint_row. rewrite repeat_length, Nat.eqb_refl, zip_with_repeat.
  destruct (Nat.eqb_spec (length [x]) (length axes)) as [E|E]; [|reflexivity].
  destruct axes as [|a [|b r]]; try discriminate. reflexivity.
Qed.

Definition spread (n : nat) (row : list S) : list S := match row with [x] => repeat x n | _ => row end.

Lemma per_frame_one (motion : A -> S -> T) axes jidx n rows : (forall r, In r rows -> length r = 1) ->
  length axes = n ->
  per_frame motion axes jidx (mkTh 1 rows) = per_frame motion axes jidx (mkTh n (map (spread n) rows)).
Proof.
  intros Hr Hn. unfold per_frame. cbn [th_rows]. rewrite rmap_compose.
  rewrite (rmap_ext (joint_row motion axes) (fun x => joint_row motion axes (spread n x)) rows); [reflexivity|].
  intros r Hin. specialize (Hr r Hin). destruct r as [|x [|y r]]; try discriminate. simpl.
  rewrite joint_row_one, Hn. reflexivity.
Qed.

(** one column: the value is silently given to every joint *)
Theorem fk_one_column (root : frame) c rows : chain_init O root = Ok c ->
  moving_names root <> [] -> (forall r, In r rows -> length r = 1) ->
  forward_kinematics_tensor O c (mkTh 1 rows) =
  forward_kinematics_tensor O c (mkTh (length (moving_names root)) (map (spread (length (moving_names root))) rows)).
Proof.
  intros Hc Hn Hr. destruct (chain_init_ok O root) as (c' & Hc' & HC). rewrite Hc in Hc'; inversion Hc'; subst c'.
  unfold forward_kinematics_tensor, fk_impl, joint_transforms. cbn [th_cols th_rows]. rewrite map_length.
  assert (Hlt : (0 <? length (moving_names root)) = true).
  { destruct (moving_names root); [contradiction | reflexivity]. }
  rewrite Hlt. change (0 <? 1) with true.
  rewrite !(per_frame_one _ _ _ (length (moving_names root)) rows) by (auto; apply (ct_alen _ _ _ HC)).
  reflexivity.
Qed.

Lemma rmap_err {X Y} (f : X -> res Y) l e : l <> [] -> (forall x, In x l -> f x = Err e) -> rmap f l = Err e.
Proof. destruct l as [|x l]; intros H1 H2; [contradiction|]. simpl. rewrite H2 by (left; reflexivity). reflexivity. Qed.

Lemma has_moving (root : frame) c : CTab O root c -> moving_names root <> [] ->
  c_has_rev c = true \/ c_has_pris c = true.
Proof.
  intros HC Hn. unfold moving_names in Hn.
  destruct (filter moving (preorder root)) as [|f l] eqn:E; [contradiction|].
  assert (Hf : In f (filter moving (preorder root))) by (rewrite E; left; reflexivity).
  apply filter_In in Hf as [Hf Hm]. destruct (preorder_in_items root f Hf) as (i & it & Hi & Eq).
  apply nth_error_In in Hi.
  rewrite (ct_has_rev _ _ _ HC), (ct_has_pris _ _ _ HC), (ct_jtype _ _ _ HC).
  unfold moving in Hm. destruct (j_type (f_joint f)) eqn:Et; [discriminate | left | right];
    apply existsb_exists; eexists; (split; [apply in_map; exact Hi|]); rewrite Eq, Et; reflexivity.
Qed.

(** no column on a chain with moving joints: UnboundLocalError; any other width but one: RuntimeError *)
Theorem fk_bad_width (root : frame) c w rows : chain_init O root = Ok c ->
  moving_names root <> [] -> rows <> [] -> (forall r, In r rows -> length r = w) ->
  w <> length (moving_names root) -> w <> 1 ->
  forward_kinematics_tensor O c (mkTh w rows) = Err (if Nat.eqb w 0 then UnboundLocalError else RuntimeError).
Proof.
  intros Hc Hn Hne Hr Hw H1. destruct (chain_init_ok O root) as (c' & Hc' & HC). rewrite Hc in Hc'; inversion Hc'; subst c'.
  unfold forward_kinematics_tensor, fk_impl, joint_transforms. cbn [th_cols th_rows].
  assert (Hpf : forall m : A -> S -> T, per_frame m (c_axes c) (c_jclamp c) (mkTh w rows) = Err RuntimeError).
  { intros m. unfold per_frame. cbn [th_rows]. rewrite (rmap_err _ _ RuntimeError); auto.
    intros r Hin. unfold joint_row. rewrite (ct_alen _ _ _ HC), (Hr r Hin).
    destruct (Nat.eqb_spec w (length (moving_names root))); [contradiction|].
    specialize (Hr r Hin). destruct r as [|x [|y r]]; auto. simpl in Hr; congruence. }
  rewrite !Hpf. destruct (has_moving root c HC Hn) as [H|H]; rewrite H;
    destruct w as [|w]; simpl; auto; destruct (c_has_rev c), (c_has_pris c); simpl; auto; discriminate.
Qed.
End Widths.
