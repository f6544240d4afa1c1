(** C11 - C13: serial chains. *)
From Coq Require Import Reals Lra String Bool Arith Lia List Permutation Sorted.
From Verif Require Import Prelude ExtF Tree ChainModel SpecFK ChainProofs ChainTables TreeQueries Input Widths Lin Trig RotModel RotBasic ChainInst
  ChainClamp Examples SerialModel SerialProofs SerialMore.
From Verif Require Import SerialFinal.
Import ListNotations.
Local Open Scope nat_scope.
Local Open Scope string_scope.
Local Open Scope list_scope.


(** C11.  [r] is the chosen root (the tree's root for the empty name), [r :: fs] the path from it to the end frame.  With the same
    joint values the serial chain returns the pose of the end frame relative to [r], as the full chain reports both. *)
Theorem C11_relative_pose : forall (nan : R) is_nan (root r : mframe) c rn p fs vs,
  chain_init mops root = Ok c -> distinct_joints root -> distinct_frames root -> clean_names root -> rigid_tree root ->
  root_path root (p ++ [r]) -> ((rn = "" /\ r = root) \/ (rn <> "" /\ rn = f_name r)) -> root_path r (r :: fs) ->
  exists s d Tr Te X, serial_init mops zax c (f_name (last (r :: fs) r)) rn = Ok s /\
    forward_kinematics mops c (config_tensor root vs) None = Ok d /\
    dget String.eqb (f_name r) d = Some Tr /\ dget String.eqb (f_name (last (r :: fs) r)) d = Some Te /\
    serial_fk_end mops nan is_nan s (InTensor (T2 (length (c_names (s_chain s))) (map (fun v => map v (c_names (s_chain s))) vs))) = Ok X /\
    length Tr = length vs /\ length Te = length vs /\ length X = length vs /\
    forall k A B M, nth_error Tr k = Some A -> nth_error Te k = Some B -> nth_error X k = Some M ->
      m4mul A M = B /\ M = m4mul (rigid_inv A) B.
Proof. exact l11_relative_pose. Qed.
Print Assumptions C11_relative_pose.

(** C11, all frames: with [end_only=False] the keys are the frames of the path, each with its pose relative to [r]. *)
Theorem C11_every_frame : forall (nan : R) is_nan (root r : mframe) c rn p fs vs,
  chain_init mops root = Ok c -> distinct_joints root -> distinct_frames root -> clean_names root ->
  root_path root (p ++ [r]) -> ((rn = "" /\ r = root) \/ (rn <> "" /\ rn = f_name r)) -> root_path r (r :: fs) ->
  exists s d full, serial_init mops zax c (f_name (last (r :: fs) r)) rn = Ok s /\
    serial_fk_all mops nan is_nan s (InTensor (T2 (length (c_names (s_chain s))) (map (fun v => map v (c_names (s_chain s))) vs))) = Ok d /\
    forward_kinematics mops c (config_tensor root vs) None = Ok full /\
    map fst d = map f_name (r :: fs) /\
    forall q f t, fs = q ++ f :: t -> exists X Tr Tf, dget String.eqb (f_name f) d = Some X /\
      dget String.eqb (f_name r) full = Some Tr /\ dget String.eqb (f_name f) full = Some Tf /\ length X = length vs /\
      forall k M A B, nth_error X k = Some M -> nth_error Tr k = Some A -> nth_error Tf k = Some B -> m4mul A M = B.
Proof. exact l11_every_frame. Qed.
Print Assumptions C11_every_frame.

(** shoulder to hand in the example robot: the shoulder joint and its offset drop out *)
Example C11_example : exists c s, chain_init mops ex_robot = Ok c /\ serial_init mops zax c "hand" "shoulder" = Ok s /\
  exists X, serial_fk_end mops 0%R (fun _ => false) s (InTensor (T1 [5%R])) = Ok [X] /\ trp X = mkV3 4 0 5.
Proof.
  destruct ex_chain as (c & Hc). exists c.
  assert (Hpr : root_path ex_robot ([ex_robot] ++ [ex_shoulder])) by (simpl; apply rp_child with (c := ex_shoulder); [simpl; auto | apply rp_here]).
  assert (Hp : root_path ex_shoulder [ex_shoulder; ex_elbow; ex_hand]).
  { apply rp_child with (c := ex_elbow); [simpl; auto|]. apply rp_child with (c := ex_hand); [simpl; auto|]. apply rp_here. }
  assert (Hin : In ex_shoulder (preorder ex_robot)) by (eapply root_path_in; exact Hpr).
  destruct (serial_ok mops zax ex_robot c "shoulder" ex_shoulder [ex_elbow; ex_hand] Hc ex_distinct_frames ex_clean) as (s & Hs & Ht);
    [right; split; [intros Q; inversion Q | auto] | exact Hp |].
  exists s. split; [exact Hc|]. split; [exact Hs|].
  destruct (serial_fk_tensor mops zax ex_robot ex_shoulder [ex_elbow; ex_hand] s [ex_config] mlaws Hin ex_distinct_joints ex_distinct_frames ex_clean Hp Ht) as ((fi & Hfi & HX) & _).
  destruct (works_input mops zax 0%R (fun _ => false) ex_shoulder [ex_elbow; ex_hand] s [ex_config] _ (serial_moving zax _ _ ex_robot Hin ex_distinct_joints Hp) Ht (w_vector (fun _ => false) [ex_elbow; ex_hand] ex_config)) as (W1 & W2 & W3).
  destruct (serial_forward mops zax 0%R (fun _ => false) c "shoulder" _ s _ _ fi Hs W1 W2 W3 Hfi) as [E _].
  exists (pose ex_config [ex_elbow; ex_hand]). split; [etransitivity; [exact E|]; exact HX|].
  unfold path_pose, rel_pose, joint_motion, ex_elbow, ex_hand, trans.
  cbn -[cos sin PI Rdiv m4mul I4 axis_and_angle_to_matrix_44 axis_and_d_to_pris_matrix aff zax tax ex_config].
  rewrite !m4mul_1_l, !m4mul_1_r, pris_aff, !aff_mul, trp_aff.
  cbn [ex_config Ascii.eqb String.eqb Bool.eqb].
  unfold tax. rewrite ?m3mul_1_l, ?m3mul_1_r, ?m3vec_1. lin_simpl. apply mkV3_eq; field.
Qed.

(** C12.  The joints of the serial chain: the moving joints strictly below the chosen root, in path order. *)
Theorem C12_joint_names : forall (root r : mframe) c rn p fs,
  chain_init mops root = Ok c -> distinct_frames root -> clean_names root ->
  root_path root (p ++ [r]) -> ((rn = "" /\ r = root) \/ (rn <> "" /\ rn = f_name r)) -> root_path r (r :: fs) ->
  exists s, serial_init mops zax c (f_name (last (r :: fs) r)) rn = Ok s /\
    c_names (s_chain s) = map (fun f => j_name (f_joint f)) (filter moving fs) /\
    c_low (s_chain s) = map (fun f => match j_lim (f_joint f) with Some (l, _) => l | None => NInf end) (filter moving fs) /\
    c_high (s_chain s) = map (fun f => match j_lim (f_joint f) with Some (_, h) => h | None => PInf end) (filter moving fs).
Proof. exact l12_joint_names. Qed.
Print Assumptions C12_joint_names.

(** C12, errors: an end frame is accepted exactly when it lies in the subtree of the chosen root. *)
Theorem C12_accepted_pairs : forall (root r : mframe) c e rn,
  chain_init mops root = Ok c -> distinct_frames root -> clean_names root -> In r (preorder root) ->
  ((rn = "" /\ r = root) \/ (rn <> "" /\ rn = f_name r)) ->
  (In e (map f_name (preorder r)) -> exists s, serial_init mops zax c e rn = Ok s) /\
  (~ In e (map f_name (preorder r)) -> serial_init mops zax c e rn = Err KeyError).
Proof. exact l12_accepted_pairs. Qed.
Print Assumptions C12_accepted_pairs.

Theorem C12_unknown_root : forall (root : mframe) c e rn, chain_init mops root = Ok c ->
  rn <> "" -> ~ In rn (map f_name (preorder root)) -> serial_init mops zax c e rn = Err ValueError.
Proof. exact (unknown_root mops zax). Qed.
Print Assumptions C12_unknown_root.

Example C12_example : exists c, chain_init mops ex_robot = Ok c /\
  (exists s, serial_init mops zax c "hand" "" = Ok s /\ c_names (s_chain s) = [Some "j1"; Some "j2"]) /\
  (exists s, serial_init mops zax c "hand" "shoulder" = Ok s /\ c_names (s_chain s) = [Some "j2"]) /\
  serial_init mops zax c "head" "shoulder" = Err KeyError /\ serial_init mops zax c "base" "shoulder" = Err KeyError /\
  serial_init mops zax c "tail" "" = Err KeyError /\ serial_init mops zax c "hand" "tail" = Err ValueError.
Proof.
  destruct ex_chain as (c & Hc). exists c. split; [exact Hc|].
  assert (Hpr : root_path ex_robot ([ex_robot] ++ [ex_shoulder])) by (simpl; apply rp_child with (c := ex_shoulder); [simpl; auto | apply rp_here]).
  assert (Hp : root_path ex_shoulder [ex_shoulder; ex_elbow; ex_hand]).
  { apply rp_child with (c := ex_elbow); [simpl; auto|]. apply rp_child with (c := ex_hand); [simpl; auto|]. apply rp_here. }
  assert (Hne : "shoulder" <> "") by (intros Q; inversion Q).
  assert (Hin : In ex_shoulder (preorder ex_robot)) by (eapply root_path_in; exact Hpr).
  split; [|split; [|split; [|split; [|split]]]].
  - destruct (C12_joint_names ex_robot ex_robot c "" [] [ex_shoulder; ex_elbow; ex_hand] Hc ex_distinct_frames ex_clean (rp_here _) (or_introl (conj eq_refl eq_refl)) ex_path_hand)
      as (s & H1 & H2 & _). exists s. split; [exact H1 | exact H2].
  - destruct (C12_joint_names ex_robot ex_shoulder c "shoulder" [ex_robot] [ex_elbow; ex_hand] Hc ex_distinct_frames ex_clean Hpr (or_intror (conj Hne eq_refl)) Hp)
      as (s & H1 & H2 & _). exists s. split; [exact H1 | exact H2].
  - apply (proj2 (C12_accepted_pairs ex_robot ex_shoulder c "head" "shoulder" Hc ex_distinct_frames ex_clean Hin (or_intror (conj Hne eq_refl)))).
    simpl. intuition discriminate.
  - apply (proj2 (C12_accepted_pairs ex_robot ex_shoulder c "base" "shoulder" Hc ex_distinct_frames ex_clean Hin (or_intror (conj Hne eq_refl)))).
    simpl. intuition discriminate.
  - apply (proj2 (C12_accepted_pairs ex_robot ex_robot c "tail" "" Hc ex_distinct_frames ex_clean (or_introl eq_refl) (or_introl (conj eq_refl eq_refl)))).
    simpl. intuition discriminate.
  - apply (C12_unknown_root ex_robot c "hand" "tail" Hc); [intros Q; inversion Q | simpl; intuition discriminate].
Qed.

(** C12 needs the names to be free of surrounding newlines: the index tables strip them, the tree search does not, and then neither
    spelling of the end frame works. *)
Theorem C12_newline_names_refuted : exists (root : mframe) c n n', chain_init mops root = Ok c /\ distinct_frames root /\
  In n (map f_name (preorder root)) /\ strip_nl n = n' /\
  serial_init mops zax c n "" = Err KeyError /\ serial_init mops zax c n' "" = Err AttributeError.
Proof. exact l12_newline_names_refuted. Qed.
Print Assumptions C12_newline_names_refuted.

(** C13.  The accepted forms: a full vector (tensor, numpy array or list), a batch (tensor, numpy array, or a nested list with at least
    as many rows as joints), a complete dictionary of batched values.  All give the product along the path. *)
Theorem C13_accepted : forall (nan : R) is_nan (root r : mframe) c rn p fs vs i,
  chain_init mops root = Ok c -> distinct_joints root -> distinct_frames root -> clean_names root ->
  root_path root (p ++ [r]) -> ((rn = "" /\ r = root) \/ (rn <> "" /\ rn = f_name r)) -> root_path r (r :: fs) ->
  works is_nan fs vs i ->
  exists s d, serial_init mops zax c (f_name (last (r :: fs) r)) rn = Ok s /\
    serial_fk_end mops nan is_nan s i = Ok (map (fun v => path_pose mops v fs) vs) /\
    serial_fk_all mops nan is_nan s i = Ok d /\ map fst d = map f_name (r :: fs).
Proof. exact l13_accepted. Qed.
Print Assumptions C13_accepted.

(** C13: a dictionary whose first value is a number or 0-d tensor is refused, whatever the serial chain, although [Chain] takes it. *)
Theorem C13_numbers_rejected : forall (nan : R) is_nan (s : schain M4 V3) k x d,
  serial_fk_end mops nan is_nan s (InDict ((k, DS x) :: d)) = Err IndexError /\
  serial_fk_all mops nan is_nan s (InDict ((k, DS x) :: d)) = Err IndexError.
Proof. exact l13_numbers_rejected. Qed.
Print Assumptions C13_numbers_rejected.

Theorem C13_dict_of_numbers_refuted : exists (root : mframe) c s d v, chain_init mops root = Ok c /\
  serial_init mops zax c "hand" "" = Ok s /\ map fst d = c_names (s_chain s) /\ (forall k x, In (k, x) d -> x = DS (v k)) /\
  (exists m, fk_any 0%R (fun _ => false) mops (s_chain s) (InDict d) None = Ok m) /\
  serial_fk_end mops 0%R (fun _ => false) s (InDict d) = Err IndexError.
Proof. exact l13_dict_of_numbers_refuted. Qed.
Print Assumptions C13_dict_of_numbers_refuted.

(** C13: an input with fewer joints than the serial chain is never spread out: it is refused, for every serial chain.  The count that the
    code would accept as "only the non-fixed joints" is the number of joints itself. *)
Theorem C13_shorter_rejected : forall (nan : R) is_nan c e rn (s : schain M4 V3) i b n,
  serial_init mops zax c e rn = Ok s -> get_batch_size i = Ok b -> get_n_joints i = Ok n ->
  n < length (c_names (s_chain s)) ->
  length (filter moving (s_frames s)) = length (c_names (s_chain s)) /\
  (exists x, serial_fk_end mops nan is_nan s i = Err x /\ (x = ValueError \/ x = KeyError)) /\
  serial_fk_all mops nan is_nan s i = Err ValueError.
Proof. exact l13_shorter_rejected. Qed.
Print Assumptions C13_shorter_rejected.

(** C13: a nested list counts its rows as joints, so a batch of fewer rows than joints is refused. *)
Theorem C13_nested_list_refuted : exists (root : mframe) c s rows, chain_init mops root = Ok c /\ serial_init mops zax c "hand" "" = Ok s /\
  (forall row, In row rows -> length row = length (c_names (s_chain s))) /\
  (exists m, serial_fk_end mops 0%R (fun _ => false) s (InTensor (T2 2 rows)) = Ok m) /\
  serial_fk_end mops 0%R (fun _ => false) s (InList (T2 2 rows)) = Err ValueError.
Proof. exact l13_nested_list_refuted. Qed.
Print Assumptions C13_nested_list_refuted.

Example C13_example : works (fun _ : R => false) [ex_shoulder; ex_elbow; ex_hand] [ex_config; ex_config]
  (InDict [(Some "j2", DV [5%R; 5%R]); (Some "j1", DV [(PI / 2)%R; (PI / 2)%R])]).
Proof.
  constructor; [discriminate | simpl; nodup | intros k; simpl; tauto |].
  intros k x [H|[H|[]]]; (split; [|reflexivity]); (assert (Ek : fst (k, x) = fst (k, x)) by reflexivity); pose proof (f_equal fst H) as E1; pose proof (f_equal snd H) as E2; cbn [fst snd] in E1, E2; subst; reflexivity.
Qed.
