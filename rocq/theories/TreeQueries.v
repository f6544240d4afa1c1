(** The printed tree, joint/child-link pairs, and searches by name. *)
From Coq Require Import String Ascii Bool Arith NArith Lia List Permutation.
From Verif Require Import Prelude ExtF Tree ChainModel SpecFK ChainProofs.
Import ListNotations.

Section Queries.
Context {T A : Type}.
Notation frame := (frame T A).
Notation joint := (joint T A).
Notation link := (link T).

(** ** Printing *)
(** A text is a list of Unicode code points. *)
Definition text := list N.
Definition of_str (s : string) : text := map N_of_ascii (list_ascii_of_string s).
Definition nl : N := 10%N.
(** frame.py:92-96: four characters each; U+2502, U+251C, U+2500, U+2514 *)
Definition t_space : text := [32; 32; 32; 32]%N.
Definition t_branch : text := [9474; 32; 32; 32]%N.
Definition t_tee : text := [9500; 9472; 9472; 32]%N.
Definition t_last : text := [9492; 9472; 9472; 32]%N.

(** frame.py:106-118 [Frame.__str__].  [pointers] is [tee] for all children but the last. *)
Fixpoint frame_str (prefix : text) (root : bool) (f : frame) : text :=
  match f with
  | Frame n _ _ cs =>
      (if root then prefix ++ of_str n ++ [nl] else []) ++
      (fix loop (cs : list frame) : text :=
         match cs with
         | [] => []
         | c :: r =>
             let is_tee := match r with [] => false | _ => true end in
             (prefix ++ (if is_tee then t_tee else t_last) ++ of_str (f_name c) ++ [nl])
             ++ (match f_children c with
                 | [] => []
                 | _ => frame_str (prefix ++ (if is_tee then t_branch else t_space)) false c
                 end)
             ++ loop r
         end) cs
  end.
(** chain.py:501-505 [print_tree] returns [str(self._root)] *)
Definition print_tree (root : frame) : text := frame_str [] true root.

(** Specification: the frames depth first, each with its depth. *)
Fixpoint with_depth (d : nat) (f : frame) : list (nat * frame) :=
  match f with Frame _ _ _ cs => (d, f) :: flat_map (with_depth (1 + d)) cs end.
(** a line: a prefix of the given number of characters, the name, a line break *)
Inductive Lines : list (nat * frame) -> text -> Prop :=
| ln_nil : Lines [] []
| ln_cons d f r p t : length p = 4 * d -> ~ In nl p -> Lines r t ->
    Lines ((d, f) :: r) (p ++ of_str (f_name f) ++ [nl] ++ t).

Lemma lines_app a b s t : Lines a s -> Lines b t -> Lines (a ++ b) (s ++ t).
Proof.
  induction 1 as [|d f r p s Hl Hn _ IH]; simpl; intros Hb; [exact Hb|].
  replace ((p ++ of_str (f_name f) ++ nl :: s) ++ t) with (p ++ of_str (f_name f) ++ [nl] ++ (s ++ t)).
  - constructor; auto.
  - rewrite <- !app_assoc. reflexivity.
Qed.

Lemma frame_str_lines (f : frame) : forall d prefix, length prefix = 4 * d -> ~ In nl prefix ->
  Lines (flat_map (with_depth (1 + d)) (f_children f)) (frame_str prefix false f).
Proof.
  induction f as [n l j cs IH] using frame_rect'. intros d prefix Hl Hn. simpl.
  induction cs as [|c r IHr]; simpl; [constructor|].
  inversion IH as [|? ? Hc Hr]; subst. specialize (IHr Hr).
  set (tee := match r with [] => false | _ => true end).
  replace ((prefix ++ (if tee then t_tee else t_last) ++ of_str (f_name c) ++ [nl])
             ++ match f_children c with [] => [] | _ :: _ => frame_str (prefix ++ (if tee then t_branch else t_space)) false c end ++ _)
    with (((prefix ++ (if tee then t_tee else t_last)) ++ of_str (f_name c) ++ [nl] ++
          match f_children c with [] => [] | _ :: _ => frame_str (prefix ++ (if tee then t_branch else t_space)) false c end) ++
          (fix loop (cs0 : list frame) : text :=
              match cs0 with
              | [] => []
              | c0 :: r0 => (prefix ++ (if match r0 with [] => false | _ :: _ => true end then t_tee else t_last) ++ of_str (f_name c0) ++ [nl]) ++
                    match f_children c0 with [] => [] | _ :: _ => frame_str (prefix ++ (if match r0 with [] => false | _ :: _ => true end then t_branch else t_space)) false c0 end ++ loop r0
              end) r).
  2:{ rewrite <- !app_assoc. reflexivity. }
  apply lines_app; [|exact IHr].
  destruct c as [cn cl cj ccs]. cbn [with_depth f_name f_children].
  change (S (d)) with (1 + d).
  constructor.
  - rewrite app_length, Hl. destruct tee; simpl; lia.
  - intros H. apply in_app_or in H as [H|H]; [auto|]. destruct tee; simpl in H; intuition discriminate.
  - destruct ccs as [|x ccs]; [constructor|].
    apply (Hc (1 + d)).
    + rewrite app_length, Hl. destruct tee; simpl; lia.
    + intros H. apply in_app_or in H as [H|H]; [auto|]. destruct tee; simpl in H; intuition discriminate.
Qed.

Theorem print_tree_lines (root : frame) : Lines (with_depth 0 root) (print_tree root).
Proof.
  unfold print_tree. pose proof (frame_str_lines root 0 [] eq_refl (fun x => x)) as H.
  destruct root as [n l j cs]. cbn [with_depth f_children] in *.
  pose proof (ln_cons 0 (Frame n l j cs) _ [] _ eq_refl (fun x => x) H) as H1.
  cbn [f_name app] in H1. cbn [frame_str app] in H1 |- *. rewrite <- app_assoc. exact H1.
Qed.

Lemma with_depth_snd (f : frame) : forall d, map snd (with_depth d f) = preorder f.
Proof.
  induction f as [n l j cs IH] using frame_rect'. intros d. simpl. f_equal.
  induction IH as [|c r Hc _ IHr]; simpl; [reflexivity|]. rewrite map_app, Hc, IHr. reflexivity.
Qed.

(** the depth written on a line is the number of proper ancestors *)
Lemma with_depth_path (f : frame) : forall d k g, In (k, g) (with_depth d f) ->
  exists fs, root_path f (fs ++ [g]) /\ k = d + length fs.
Proof.
  induction f as [n l j cs IH] using frame_rect'. simpl. intros d k g [E|H].
  - inversion E; subst. exists []. split; [constructor | simpl; lia].
  - apply in_flat_map in H as (c & Hc & H). rewrite Forall_forall in IH.
    destruct (IH c Hc _ _ _ H) as (fs & Hp & ->). exists (Frame n l j cs :: fs). split.
    + simpl. econstructor; [exact Hc | exact Hp].
    + simpl. lia.
Qed.

(** reading the text back: the names and depths are determined by the text if no name contains a line break *)
Definition no_nl (f : frame) : Prop := ~ In nl (of_str (f_name f)).
Lemma count_nl_lines a t : Lines a t -> (forall p, In p a -> no_nl (snd p)) ->
  count_occ N.eq_dec t nl = length a.
Proof.
  induction 1 as [|d f r p t Hl Hn _ IH]; intros Ha; [reflexivity|].
  rewrite !count_occ_app. simpl. rewrite IH by (intros q Hq; apply Ha; right; exact Hq).
  rewrite (proj1 (count_occ_not_In N.eq_dec p nl)) by exact Hn.
  rewrite (proj1 (count_occ_not_In N.eq_dec (of_str (f_name f)) nl)) by (apply (Ha (d, f)); left; reflexivity).
  destruct (N.eq_dec nl nl); [lia | congruence].
Qed.

(** ** Joints and child links *)
(** Specification: frames with children before parents *)
Fixpoint postorder (f : frame) : list frame :=
  match f with Frame _ _ _ cs => flat_map postorder cs ++ [f] end.

Lemma child_links_ret (f : frame) : snd (joints_and_child_links_rec f) = map f_link (preorder f).
Proof.
  induction f as [n l j cs IH] using frame_rect'. simpl.
  assert (E : snd ((fix loop (cs0 : list frame) : list (joint * list link) * list link :=
     match cs0 with
     | [] => ([], [])
     | c :: r => let '(y1, m1) := joints_and_child_links_rec c in let '(y2, m2) := loop r in (y1 ++ y2, m1 ++ m2)
     end) cs) = map f_link (flat_map preorder cs)).
  { induction IH as [|c r Hc _ IHr]; simpl; [reflexivity|].
    destruct (joints_and_child_links_rec c) as [y1 m1]. simpl in Hc.
    match goal with |- context [let '(_, _) := ?x in _] => destruct x as [y2 m2] end. simpl in *.
    rewrite map_app. congruence. }
  match goal with |- context [let '(_, _) := ?x in _] => destruct x as [ys ms] end. simpl in *. congruence.
Qed.

Theorem child_links_spec (f : frame) :
  get_joints_and_child_links f =
  map (fun g => (f_joint g, map f_link (preorder g))) (filter moving (postorder f)).
Proof.
  unfold get_joints_and_child_links.
  induction f as [n l j cs IH] using frame_rect'.
  pose proof (child_links_ret (Frame n l j cs)) as Hret. revert Hret. simpl.
  assert (E : fst ((fix loop (cs0 : list frame) : list (joint * list link) * list link :=
     match cs0 with
     | [] => ([], [])
     | c :: r => let '(y1, m1) := joints_and_child_links_rec c in let '(y2, m2) := loop r in (y1 ++ y2, m1 ++ m2)
     end) cs) = map (fun g => (f_joint g, map f_link (preorder g))) (filter moving (flat_map postorder cs))).
  { induction IH as [|c r Hc _ IHr]; simpl; [reflexivity|].
    destruct (joints_and_child_links_rec c) as [y1 m1]. simpl in Hc.
    match goal with |- context [let '(_, _) := ?x in _] => destruct x as [y2 m2] end. simpl in *.
    rewrite filter_app, map_app. congruence. }
  match goal with |- context [let '(_, _) := ?x in _] => destruct x as [ys ms] end. simpl in *.
  intros Hret. rewrite filter_app, map_app, E. f_equal. simpl.
  unfold moving; simpl. destruct (j_type j); simpl; try reflexivity; rewrite <- Hret; reflexivity.
Qed.

Lemma postorder_perm (f : frame) : Permutation (postorder f) (preorder f).
Proof.
  induction f as [n l j cs IH] using frame_rect'. simpl.
  eapply Permutation_trans; [apply Permutation_app_comm|]. simpl. constructor.
  induction IH as [|c r Hc _ IHr]; simpl; [constructor | apply Permutation_app; assumption].
Qed.

(** ** Searches by name return the first hit in depth-first order *)
Lemma find_flat {X Y} (g : X -> list Y) p l x : find p (g x ++ flat_map g l) =
  match find p (g x) with Some y => Some y | None => find p (flat_map g l) end.
Proof. induction (g x) as [|y r IH]; simpl; [reflexivity|]. destruct (p y); auto. Qed.

Theorem find_frame_spec name (root : frame) :
  find_frame name root = find (fun f => String.eqb (f_name f) name) (preorder root).
Proof.
  assert (H : forall f : frame, find_frame_rec name f
     = find (fun f => String.eqb (f_name f) name) (flat_map preorder (f_children f))).
  { intros f. induction f as [n l j cs IH] using frame_rect'. simpl.
    induction IH as [|c r Hc _ IHr]; simpl; [reflexivity|].
    rewrite find_flat, preorder_unfold. simpl. destruct (String.eqb (f_name c) name); [reflexivity|].
    rewrite Hc, IHr. reflexivity. }
  unfold find_frame. rewrite preorder_unfold. simpl. rewrite H. reflexivity.
Qed.
Theorem find_joint_spec name (root : frame) :
  find_joint name root = option_map f_joint (find (fun f => oseqb (j_name (f_joint f)) name) (preorder root)).
Proof.
  assert (H : forall f : frame, find_joint_rec name f
     = option_map f_joint (find (fun f => oseqb (j_name (f_joint f)) name) (flat_map preorder (f_children f)))).
  { intros f. induction f as [n l j cs IH] using frame_rect'. simpl.
    induction IH as [|c r Hc _ IHr]; simpl; [reflexivity|].
    rewrite find_flat, preorder_unfold. simpl. destruct (oseqb (j_name (f_joint c)) name); [reflexivity|].
    rewrite Hc, IHr. destruct (find _ (flat_map preorder (f_children c))); reflexivity. }
  unfold find_joint. rewrite preorder_unfold. simpl. rewrite H. destruct (oseqb _ name); reflexivity.
Qed.
Theorem find_link_spec name (root : frame) :
  find_link name root = option_map f_link (find (fun f => oseqb (l_name (f_link f)) name) (preorder root)).
Proof.
  assert (H : forall f : frame, find_link_rec name f
     = option_map f_link (find (fun f => oseqb (l_name (f_link f)) name) (flat_map preorder (f_children f)))).
  { intros f. induction f as [n l j cs IH] using frame_rect'. simpl.
    induction IH as [|c r Hc _ IHr]; simpl; [reflexivity|].
    rewrite find_flat, preorder_unfold. simpl. destruct (oseqb (l_name (f_link c)) name); [reflexivity|].
    rewrite Hc, IHr. destruct (find _ (flat_map preorder (f_children c))); reflexivity. }
  unfold find_link. rewrite preorder_unfold. simpl. rewrite H. destruct (oseqb _ name); reflexivity.
Qed.

Lemma get_links_spec (root : frame) : get_links root = map f_link (preorder root).
Proof.
  induction root as [n l j cs IH] using frame_rect'. simpl. f_equal.
  induction IH as [|c r Hc _ IHr]; simpl; [reflexivity|]. rewrite map_app. congruence.
Qed.
Lemma get_link_names_rec_spec (root : frame) : get_link_names_rec root = map (fun f => l_name (f_link f)) (preorder root).
Proof.
  induction root as [n l j cs IH] using frame_rect'. simpl. f_equal.
  induction IH as [|c r Hc _ IHr]; simpl; [reflexivity|]. rewrite map_app. congruence.
Qed.
End Queries.
