(** C11 - C13: input forms, errors, and the pose relative to the chosen root. *)
From Coq Require Import Reals Lra String Bool Arith Lia List Permutation Sorted.
From Verif Require Import Prelude ExtF Tree ChainModel SpecFK ChainProofs ChainTables TreeQueries Input Widths Lin Trig RotModel RotBasic ChainInst
  ChainClamp SerialModel SerialProofs.
Import ListNotations.
Local Open Scope nat_scope.
Local Open Scope string_scope.
Local Open Scope list_scope.

Section SerialMore.
Context {T A S : Type} (O : Ops T A S) (ax_z : A) (nan : S) (is_nan : S -> bool).
Notation frame := (frame T A).

(** ** every serial chain is the chain of a spine *)
Lemma serial_shape (c : chain T A) e rn s : serial_init O ax_z c e rn = Ok s ->
  exists f r, chain_init O (sroot ax_z f r) = Ok (s_chain s) /\ s_frames s = sroot ax_z f r :: stail r.
Proof.
  unfold serial_init.
  destruct (if String.eqb rn "" then _ else _) as [rf|]; cbn [rbind]; [|discriminate].
  destruct (chain_init O rf) as [c1|]; cbn [rbind]; [|discriminate].
  destruct (get_frame_indices c1 [e]) as [ei|]; cbn [rbind]; [|discriminate].
  destruct (get ei 0) as [k|]; cbn [rbind]; [|discriminate].
  destruct (get (c_parents c1) k) as [anc|]; cbn [rbind]; [|discriminate].
  destruct (rmap _ anc) as [fs|]; cbn [rbind]; [|discriminate].
  destruct fs as [|f r]; [discriminate|]. fold (sroot ax_z f r). rewrite sroot_spine.
  destruct (chain_init O (sroot ax_z f r)) as [c2|] eqn:E; cbn [rbind]; [|discriminate].
  destruct (rmap _ _) as [idx|]; cbn [rbind]; [|discriminate].
  destruct (of_opt _ _) as [eef|]; cbn [rbind]; [|discriminate].
  intros H. assert (HX : forall X (a b : X), Ok a = Ok b -> a = b) by (intros; congruence). apply HX in H. subst s. cbn [s_chain s_frames].
  exists f, r. split; [exact E | reflexivity].
Qed.
Lemma serial_counts (c : chain T A) e rn s : serial_init O ax_z c e rn = Ok s ->
  length (c_names (s_chain s)) = length (filter (fun g => negb (is_fixed (j_type (f_joint g)))) (s_frames s)).
Proof.
  intros H. destruct (serial_shape c e rn s H) as (f & r & Hc & Hf). rewrite Hf, filter_moving_neg.
  rewrite (ct_names _ _ _ (chain_root O _ _ Hc)). unfold moving_names. rewrite map_length, sroot_preorder. reflexivity.
Qed.

(** a shorter input is always refused, so the code that would spread it is never reached *)
Lemma short_value_error (c : chain T A) e rn s (i : input S) b n eo : serial_init O ax_z c e rn = Ok s ->
  get_batch_size i = Ok b -> get_n_joints i = Ok n -> n < length (c_names (s_chain s)) ->
  exists x, convert_serial_inputs s i eo = Err x /\ (x = ValueError \/ x = KeyError).
Proof.
  intros Hs Hb Hn Hlt. unfold convert_serial_inputs. rewrite Hb, Hn. cbn [rbind].
  assert (Hif : forall fi : option (list nat), exists x, (if Nat.ltb n (length (c_names (s_chain s)))
      then if Nat.eqb n (length (filter (fun g => negb (is_fixed (j_type (f_joint g)))) (s_frames s))) then Err OutOfFuel else Err ValueError
      else Ok (fi, i)) = Err x /\ (x = ValueError \/ x = KeyError)).
  { intros fi. rewrite <- (serial_counts c e rn s Hs). rewrite (proj2 (Nat.ltb_lt _ _) Hlt), (proj2 (Nat.eqb_neq _ _)) by lia. exists ValueError. auto. }
  destruct eo; cbn [rbind]; [|apply Hif].
  unfold get_frame_indices. cbn [rmap]. destruct (dget _ _ _); cbn [of_opt rbind]; [apply Hif | exists KeyError; auto].
Qed.

(** ** accepted forms *)
Lemma serial_forward (c : chain T A) rn e s (i : input S) th idx : serial_init O ax_z c e rn = Ok s ->
  (exists b, get_batch_size i = Ok b) -> (exists n, get_n_joints i = Ok n /\ length (c_names (s_chain s)) <= n) ->
  (forall idxs, fk_any nan is_nan O (s_chain s) i idxs = forward_kinematics O (s_chain s) th idxs) ->
  get_frame_indices (s_chain s) [s_end s] = Ok idx ->
  serial_fk_end O nan is_nan s i = (do mat <- forward_kinematics O (s_chain s) th (Some idx); of_opt KeyError (dget String.eqb (s_end s) mat)) /\
  serial_fk_all O nan is_nan s i = forward_kinematics O (s_chain s) th None.
Proof.
  intros Hs (b & Hb) (n & Hn & Hle) Hfk Hi. unfold serial_fk_end, serial_fk_all, convert_serial_inputs. rewrite Hb, Hn, Hi. cbn [rbind].
  rewrite (proj2 (Nat.ltb_ge _ _) Hle). cbn [rbind fst snd]. rewrite !Hfk. split; reflexivity.
Qed.
Lemma moving_joint_name (r : frame) fs : length (map (fun g : frame => j_name (f_joint g)) (filter moving fs)) = length (moving_names (sroot ax_z r fs)).
Proof. rewrite sroot_moving_names. reflexivity. Qed.

Definition path_names (fs : list frame) : list (option string) := map (fun g => j_name (f_joint g)) (filter moving fs).

(** the documented input forms that do work, for configurations [vs] of the joints of the path *)
Inductive works (fs : list frame) : list (config (S := S)) -> input S -> Prop :=
| w_vector v : works fs [v] (InTensor (T1 (map v (path_names fs))))
| w_numpy v : works fs [v] (InNumpy (T1 (map v (path_names fs))))
| w_list v : works fs [v] (InList (T1 (map v (path_names fs))))
| w_batch vs : works fs vs (InTensor (T2 (length (path_names fs)) (map (fun v => map v (path_names fs)) vs)))
| w_batch_numpy vs : works fs vs (InNumpy (T2 (length (path_names fs)) (map (fun v => map v (path_names fs)) vs)))
| w_list_rows vs : length (path_names fs) <= length vs ->
    works fs vs (InList (T2 (length (path_names fs)) (map (fun v => map v (path_names fs)) vs)))
| w_dict vs d : d <> [] -> NoDup (map fst d) -> (forall k, In k (map fst d) <-> In k (path_names fs)) ->
    (forall k x, In (k, x) d -> x = DV (map (fun v => v k) vs) /\ (forall v, In v vs -> is_nan (v k) = false)) ->
    works fs vs (InDict d).

Lemma works_input (r : frame) fs s vs i : distinct_joints (sroot ax_z r fs) -> serial_tables O ax_z s r fs -> works fs vs i ->
  (exists b, get_batch_size i = Ok b) /\ (exists n, get_n_joints i = Ok n /\ length (c_names (s_chain s)) <= n) /\
  (forall idxs, fk_any nan is_nan O (s_chain s) i idxs = forward_kinematics O (s_chain s) (path_tensor fs vs) idxs).
Proof.
  intros Hj (Hc & _) W.
  assert (Hn : c_names (s_chain s) = path_names fs).
  { rewrite (ct_names _ _ _ (chain_root O _ _ Hc)). apply sroot_moving_names. }
  destruct W as [v|v|v|vs|vs|vs Hl|vs d Hne Hnd Hk Hv]; rewrite Hn;
    try (split; [eexists; reflexivity|]; split; [eexists; split; [reflexivity | first [apply Nat.le_refl | rewrite (map_length (fun v => map v (path_names fs)) vs); exact Hl | rewrite (map_length v (path_names fs)); apply Nat.le_refl]]|]; intros idxs; unfold fk_any; cbn [ensure_tensor rbind atleast_2d]; try rewrite (map_length v (path_names fs)); reflexivity).
  split; [|split].
  - destruct d as [|[k x] d]; [contradiction|]. destruct (Hv k x (or_introl eq_refl)) as [-> _]. eexists. reflexivity.
  - eexists. split; [reflexivity|].
    assert (Hle : length (path_names fs) <= length (map fst d)).
    { apply NoDup_incl_length; [|intros k; apply Hk]. unfold path_names. rewrite <- sroot_moving_names with (ax_z := ax_z) (f := r). exact Hj. }
    rewrite map_length in Hle. exact Hle.
  - intros idxs. rewrite (path_tensor_eq ax_z r). apply (fk_dict_batch O nan is_nan (sroot ax_z r fs)); auto.
    rewrite sroot_moving_names. exact Hk.
Qed.

(** ** errors of the constructor *)
Lemma unknown_root (root : frame) c e rn : chain_init O root = Ok c -> rn <> "" ->
  ~ In rn (map f_name (preorder root)) -> serial_init O ax_z c e rn = Err ValueError.
Proof.
  intros Hc Hn Hi. unfold serial_init. destruct (String.eqb_spec rn "") as [E|_]; [contradiction|].
  rewrite (ct_root _ _ _ (chain_root O _ _ Hc)), find_frame_none by exact Hi. reflexivity.
Qed.
Lemma not_below (root r : frame) c e rn : chain_init O root = Ok c -> distinct_frames root -> clean_names root -> root_choice root r rn ->
  ~ In e (map f_name (preorder r)) -> serial_init O ax_z c e rn = Err KeyError.
Proof.
  intros Hc Hd Hcl Hr Hi.
  assert (Hin : In r (preorder root)).
  { destruct Hr as [[_ ->]|[_ [_ H]]]; [rewrite preorder_unfold; left; reflexivity | exact H]. }
  unfold serial_init.
  assert (Hrf : (if String.eqb rn "" then Ok (c_root c) else of_opt ValueError (find_frame rn (c_root c))) = Ok r).
  { rewrite (ct_root _ _ _ (chain_root O _ _ Hc)). destruct Hr as [[-> ->]|[Hne [-> _]]]; [reflexivity|].
    destruct (String.eqb_spec (f_name r) "") as [E|E]; [contradiction|]. rewrite find_frame_own by assumption. reflexivity. }
  rewrite Hrf. cbn [rbind]. destruct (chain_init_ok O r) as (c1 & Hc1 & HC1). rewrite Hc1. cbn [rbind].
  destruct (frame_index_spec O r c1 (sub_distinct_frames _ _ Hd Hin) (sub_clean _ _ Hcl Hin) Hc1) as (_ & _ & _ & Hk & _).
  unfold get_frame_indices. cbn [rmap]. destruct (dget String.eqb e (c_f2i c1)) as [i|] eqn:E; [|reflexivity].
  exfalso. apply Hi, Hk. eauto.
Qed.
End SerialMore.
