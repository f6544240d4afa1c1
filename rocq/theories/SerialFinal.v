(** Last steps of the proofs quoted in Properties_Serial.v. *)
From Coq Require Import Reals Lra String Bool Arith Lia List Permutation Sorted.
From Verif Require Import Prelude ExtF Tree ChainModel SpecFK ChainProofs ChainTables TreeQueries Input Widths Lin Trig RotModel RotBasic ChainInst
  ChainClamp Examples SerialModel SerialProofs SerialMore.
Import ListNotations.
Local Open Scope nat_scope.
Local Open Scope string_scope.
Local Open Scope list_scope.

Lemma l11_relative_pose : forall (nan : R) is_nan (root r : mframe) c rn p fs vs,
  chain_init mops root = Ok c -> distinct_joints root -> distinct_frames root -> clean_names root -> rigid_tree root ->
  root_path root (p ++ [r]) -> ((rn = "" /\ r = root) \/ (rn <> "" /\ rn = f_name r)) -> root_path r (r :: fs) ->
  exists s d Tr Te X, serial_init mops zax c (f_name (last (r :: fs) r)) rn = Ok s /\
    forward_kinematics mops c (config_tensor root vs) None = Ok d /\
    dget String.eqb (f_name r) d = Some Tr /\ dget String.eqb (f_name (last (r :: fs) r)) d = Some Te /\
    serial_fk_end mops nan is_nan s (InTensor (T2 (length (c_names (s_chain s))) (map (fun v => map v (c_names (s_chain s))) vs))) = Ok X /\
    length Tr = length vs /\ length Te = length vs /\ length X = length vs /\
    forall k A B M, nth_error Tr k = Some A -> nth_error Te k = Some B -> nth_error X k = Some M ->
      m4mul A M = B /\ M = m4mul (rigid_inv A) B.
Proof.
  intros nan is_nan root r c rn p fs vs Hc Hdj Hdf Hcl Hr Hpr Hrn Hp.
  assert (Hin : In r (preorder root)) by (eapply root_path_in; exact Hpr).
  assert (Hch : root_choice root r rn) by (destruct Hrn as [?|[? ?]]; [left | right]; auto).
  destruct (serial_ok mops zax root c rn r fs Hc Hdf Hcl Hch Hp) as (s & Hs & Ht).
  destruct (serial_fk_tensor mops zax root r fs s vs mlaws Hin Hdj Hdf Hcl Hp Ht) as ((fi & Hfi & HX) & _).
  destruct (fk_all_spec mops root c vs mlaws Hdj Hdf Hcl Hc) as (d & Hd & _ & Hpose).
  destruct (exists_last (l := r :: fs)) as (q & e & Eq); [discriminate|].
  assert (El : last (r :: fs) r = e) by (rewrite Eq; apply last_last).
  assert (Hpe : root_path root (p ++ q ++ [e])) by (rewrite <- Eq; eapply root_path_app; eauto).
  exists s, d, (map (fun v => pose v (p ++ [r])) vs), (map (fun v => pose v (p ++ q ++ [e])) vs), (map (fun v => pose v fs) vs).
  split; [exact Hs|]. split; [exact Hd|]. split; [apply Hpose, Hpr|]. rewrite El. split; [rewrite app_assoc in Hpe |- *; apply Hpose, Hpe|].
  assert (Hn : c_names (s_chain s) = path_names fs).
  { destruct Ht as (Hc2 & _). rewrite (ct_names _ _ _ (chain_root mops _ _ Hc2)). apply sroot_moving_names. }
  split.
  - rewrite Hn. destruct (works_input mops zax nan is_nan r fs s vs _ (serial_moving zax r fs root Hin Hdj Hp) Ht (w_batch is_nan fs vs)) as (W1 & W2 & W3).
    destruct (serial_forward mops zax nan is_nan c rn _ s _ _ fi Hs W1 W2 W3 Hfi) as [-> _]. exact HX.
  - rewrite !map_length. repeat split; auto; clear -H H0 H1 Hr Hpr Eq Hp;
    rewrite !nth_error_map in *; (destruct (nth_error vs k) as [v|]; [|discriminate]);
    (assert (HX : forall X (a b : X), Some a = Some b -> a = b) by (intros; congruence)); apply HX in H; apply HX in H0; apply HX in H1; subst.
    + rewrite <- Eq. change (r :: fs) with ([r] ++ fs). rewrite app_assoc, (pose_app v (p ++ [r])). reflexivity.
    + rewrite <- Eq. change (r :: fs) with ([r] ++ fs). rewrite app_assoc, (pose_app v (p ++ [r])), m4mul_assoc, rigid_inv_l, m4mul_1_l; [reflexivity|].
      eapply pose_rigid; eauto.
Qed.

Lemma l11_every_frame : forall (nan : R) is_nan (root r : mframe) c rn p fs vs,
  chain_init mops root = Ok c -> distinct_joints root -> distinct_frames root -> clean_names root ->
  root_path root (p ++ [r]) -> ((rn = "" /\ r = root) \/ (rn <> "" /\ rn = f_name r)) -> root_path r (r :: fs) ->
  exists s d full, serial_init mops zax c (f_name (last (r :: fs) r)) rn = Ok s /\
    serial_fk_all mops nan is_nan s (InTensor (T2 (length (c_names (s_chain s))) (map (fun v => map v (c_names (s_chain s))) vs))) = Ok d /\
    forward_kinematics mops c (config_tensor root vs) None = Ok full /\
    map fst d = map f_name (r :: fs) /\
    forall q f t, fs = q ++ f :: t -> exists X Tr Tf, dget String.eqb (f_name f) d = Some X /\
      dget String.eqb (f_name r) full = Some Tr /\ dget String.eqb (f_name f) full = Some Tf /\ length X = length vs /\
      forall k M A B, nth_error X k = Some M -> nth_error Tr k = Some A -> nth_error Tf k = Some B -> m4mul A M = B.
Proof.
  intros nan is_nan root r c rn p fs vs Hc Hdj Hdf Hcl Hpr Hrn Hp.
  assert (Hin : In r (preorder root)) by (eapply root_path_in; exact Hpr).
  assert (Hch : root_choice root r rn) by (destruct Hrn as [?|[? ?]]; [left | right]; auto).
  destruct (serial_ok mops zax root c rn r fs Hc Hdf Hcl Hch Hp) as (s & Hs & Ht).
  destruct (serial_fk_tensor mops zax root r fs s vs mlaws Hin Hdj Hdf Hcl Hp Ht) as ((fi & Hfi & _) & d & Hd & Hk & Hg).
  destruct (fk_all_spec mops root c vs mlaws Hdj Hdf Hcl Hc) as (full & Hf & _ & Hpose).
  assert (Hn : c_names (s_chain s) = path_names fs).
  { destruct Ht as (Hc2 & _). rewrite (ct_names _ _ _ (chain_root mops _ _ Hc2)). apply sroot_moving_names. }
  exists s, d, full. split; [exact Hs|]. split.
  { rewrite Hn. destruct (works_input mops zax nan is_nan r fs s vs _ (serial_moving zax r fs root Hin Hdj Hp) Ht (w_batch is_nan fs vs)) as (W1 & W2 & W3).
    destruct (serial_forward mops zax nan is_nan c rn _ s _ _ fi Hs W1 W2 W3 Hfi) as [_ ->]. exact Hd. }
  split; [exact Hf|]. split; [exact Hk|]. intros q f t E.
  assert (Hpf : root_path root ((p ++ r :: q) ++ [f])).
  { assert (K : root_path r (r :: q ++ [f])).
    { clear -Hp E. subst fs. revert r Hp. induction q as [|x q IH]; intros r Hp; cbn [app] in *; inversion Hp as [|? c0 ? Hc0 Hp0]; subst.
      - econstructor; [exact Hc0|]. inversion Hp0; subst; constructor.
      - econstructor; [exact Hc0|]. assert (c0 = x) by (inversion Hp0; congruence). subst c0. apply IH. exact Hp0. }
    replace ((p ++ r :: q) ++ [f]) with (p ++ r :: q ++ [f]) by (rewrite <- app_assoc; reflexivity). eapply root_path_app; eauto. }
  exists (map (fun v => pose v (q ++ [f])) vs), (map (fun v => pose v (p ++ [r])) vs), (map (fun v => pose v ((p ++ r :: q) ++ [f])) vs).
  split; [apply (Hg q f t); rewrite E; reflexivity|]. split; [apply Hpose, Hpr|]. split; [apply Hpose, Hpf|]. split; [apply map_length|].
  intros k M A B. rewrite !nth_error_map. unfold config in *. destruct (nth_error vs k) as [v|]; [|intros HH; discriminate HH]. cbn [option_map]. intros H H0 H1.
  assert (HX : forall X (a b : X), Some a = Some b -> a = b) by (intros; congruence). apply HX in H; apply HX in H0; apply HX in H1; subst M A B.
  rewrite <- pose_app. f_equal. rewrite <- !app_assoc. reflexivity.
Qed.

Lemma l12_joint_names : forall (root r : mframe) c rn p fs,
  chain_init mops root = Ok c -> distinct_frames root -> clean_names root ->
  root_path root (p ++ [r]) -> ((rn = "" /\ r = root) \/ (rn <> "" /\ rn = f_name r)) -> root_path r (r :: fs) ->
  exists s, serial_init mops zax c (f_name (last (r :: fs) r)) rn = Ok s /\
    c_names (s_chain s) = map (fun f => j_name (f_joint f)) (filter moving fs) /\
    c_low (s_chain s) = map (fun f => match j_lim (f_joint f) with Some (l, _) => l | None => NInf end) (filter moving fs) /\
    c_high (s_chain s) = map (fun f => match j_lim (f_joint f) with Some (_, h) => h | None => PInf end) (filter moving fs).
Proof.
  intros root r c rn p fs Hc Hdf Hcl Hpr Hrn Hp.
  assert (Hin : In r (preorder root)) by (eapply root_path_in; exact Hpr).
  assert (Hch : root_choice root r rn) by (destruct Hrn as [?|[? ?]]; [left | right]; auto).
  destruct (serial_ok mops zax root c rn r fs Hc Hdf Hcl Hch Hp) as (s & Hs & Ht).
  exists s. split; [exact Hs|]. destruct Ht as (Hc2 & _). pose proof (chain_root mops _ _ Hc2) as HC.
  split; [rewrite (ct_names _ _ _ HC); apply sroot_moving_names|].
  destruct (chain_limits mops _ _ HC) as [-> ->]. rewrite sroot_preorder. cbn [filter]. rewrite sroot_fixed.
  split.
  - apply (filter_moving_map (fun _ j => match j_lim j with Some (l, _) => l | None => NInf end)); [apply stail_names | apply stail_joints].
  - apply (filter_moving_map (fun _ j => match j_lim j with Some (_, h) => h | None => PInf end)); [apply stail_names | apply stail_joints].
Qed.

Lemma l12_accepted_pairs : forall (root r : mframe) c e rn,
  chain_init mops root = Ok c -> distinct_frames root -> clean_names root -> In r (preorder root) ->
  ((rn = "" /\ r = root) \/ (rn <> "" /\ rn = f_name r)) ->
  (In e (map f_name (preorder r)) -> exists s, serial_init mops zax c e rn = Ok s) /\
  (~ In e (map f_name (preorder r)) -> serial_init mops zax c e rn = Err KeyError).
Proof.
  intros root r c e rn Hc Hdf Hcl Hin Hrn.
  assert (Hch : root_choice root r rn) by (destruct Hrn as [?|[? ?]]; [left | right]; auto).
  split; intros He; [|eapply not_below; eauto].
  apply in_map_iff in He as (f & <- & Hf). destruct (preorder_path r f Hf) as (q & Hq).
  destruct (path_head _ _ Hq) as (t & Et). rewrite Et in Hq.
  destruct (serial_ok mops zax root c rn r t Hc Hdf Hcl Hch Hq) as (s & Hs & _). exists s. rewrite <- Hs, <- Et, last_last. reflexivity.
Qed.

Lemma l12_newline_names_refuted : exists (root : mframe) c n n', chain_init mops root = Ok c /\ distinct_frames root /\
  In n (map f_name (preorder root)) /\ strip_nl n = n' /\
  serial_init mops zax c n "" = Err KeyError /\ serial_init mops zax c n' "" = Err AttributeError.
Proof.
  pose (n := ("t" ++ String (Ascii.ascii_of_nat 10) EmptyString)%string).
  pose (root := Frame "base" (mkLink None None) fixed_joint [Frame n (mkLink None None) fixed_joint []] : mframe).
  destruct (chain_init_ok mops root) as (c & Hc & HC). exists root, c, n, "t".
  split; [exact Hc|]. split; [unfold distinct_frames; simpl; nodup|]. split; [simpl; auto|]. split; [reflexivity|].
  unfold serial_init. rewrite (ct_root _ _ _ HC). split; reflexivity.
Qed.

Lemma l13_accepted : forall (nan : R) is_nan (root r : mframe) c rn p fs vs i,
  chain_init mops root = Ok c -> distinct_joints root -> distinct_frames root -> clean_names root ->
  root_path root (p ++ [r]) -> ((rn = "" /\ r = root) \/ (rn <> "" /\ rn = f_name r)) -> root_path r (r :: fs) ->
  works is_nan fs vs i ->
  exists s d, serial_init mops zax c (f_name (last (r :: fs) r)) rn = Ok s /\
    serial_fk_end mops nan is_nan s i = Ok (map (fun v => path_pose mops v fs) vs) /\
    serial_fk_all mops nan is_nan s i = Ok d /\ map fst d = map f_name (r :: fs).
Proof.
  intros nan is_nan root r c rn p fs vs i Hc Hdj Hdf Hcl Hpr Hrn Hp Hw.
  assert (Hin : In r (preorder root)) by (eapply root_path_in; exact Hpr).
  assert (Hch : root_choice root r rn) by (destruct Hrn as [?|[? ?]]; [left | right]; auto).
  destruct (serial_ok mops zax root c rn r fs Hc Hdf Hcl Hch Hp) as (s & Hs & Ht).
  destruct (serial_fk_tensor mops zax root r fs s vs mlaws Hin Hdj Hdf Hcl Hp Ht) as ((fi & Hfi & HX) & d & Hd & Hk & _).
  destruct (works_input mops zax nan is_nan r fs s vs i (serial_moving zax r fs root Hin Hdj Hp) Ht Hw) as (W1 & W2 & W3).
  destruct (serial_forward mops zax nan is_nan c rn _ s _ _ fi Hs W1 W2 W3 Hfi) as [E1 E2].
  exists s, d. split; [exact Hs|]. rewrite E1, E2. auto.
Qed.

Lemma l13_numbers_rejected : forall (nan : R) is_nan (s : schain M4 V3) k x d,
  serial_fk_end mops nan is_nan s (InDict ((k, DS x) :: d)) = Err IndexError /\
  serial_fk_all mops nan is_nan s (InDict ((k, DS x) :: d)) = Err IndexError.
Proof. split; reflexivity. Qed.

Lemma l13_dict_of_numbers_refuted : exists (root : mframe) c s d v, chain_init mops root = Ok c /\
  serial_init mops zax c "hand" "" = Ok s /\ map fst d = c_names (s_chain s) /\ (forall k x, In (k, x) d -> x = DS (v k)) /\
  (exists m, fk_any 0%R (fun _ => false) mops (s_chain s) (InDict d) None = Ok m) /\
  serial_fk_end mops 0%R (fun _ => false) s (InDict d) = Err IndexError.
Proof.
  destruct ex_chain as (c & Hc). destruct (serial_ok mops zax ex_robot c "" ex_robot [ex_shoulder; ex_elbow; ex_hand] Hc ex_distinct_frames ex_clean) as (s & Hs & Ht);
    [left; auto | exact ex_path_hand |].
  exists ex_robot, c, s, [(Some "j1", DS (ex_config (Some "j1"))); (Some "j2", DS (ex_config (Some "j2")))], ex_config.
  assert (Hin : In ex_robot (preorder ex_robot)) by (rewrite preorder_unfold; left; reflexivity).
  assert (Hn : c_names (s_chain s) = [Some "j1"; Some "j2"]).
  { destruct Ht as (Hc2 & _). rewrite (ct_names _ _ _ (chain_root mops _ _ Hc2)), sroot_moving_names. reflexivity. }
  split; [exact Hc|]. split; [exact Hs|]. split; [rewrite Hn; reflexivity|]. split; [|split; [|reflexivity]].
  { intros k x [H|[H|[]]]; congruence. }
  pose proof (serial_fk_tensor mops zax ex_robot ex_robot [ex_shoulder; ex_elbow; ex_hand] s [ex_config] mlaws Hin ex_distinct_joints ex_distinct_frames ex_clean ex_path_hand Ht) as (_ & m & Hm & _).
  exists m. rewrite <- Hm. rewrite (path_tensor_eq zax ex_robot). apply (fk_dict_numbers mops 0%R (fun _ => false)).
  - apply (serial_moving zax ex_robot _ ex_robot Hin ex_distinct_joints ex_path_hand).
  - destruct Ht as (Hc2 & _). exact Hc2.
  - discriminate.
  - simpl; nodup.
  - intros k. rewrite sroot_moving_names. reflexivity.
  - intros k x [H|[H|[]]]; (split; [congruence | reflexivity]).
Qed.

Lemma l13_shorter_rejected : forall (nan : R) is_nan c e rn (s : schain M4 V3) i b n,
  serial_init mops zax c e rn = Ok s -> get_batch_size i = Ok b -> get_n_joints i = Ok n ->
  n < length (c_names (s_chain s)) ->
  length (filter moving (s_frames s)) = length (c_names (s_chain s)) /\
  (exists x, serial_fk_end mops nan is_nan s i = Err x /\ (x = ValueError \/ x = KeyError)) /\
  serial_fk_all mops nan is_nan s i = Err ValueError.
Proof.
  intros nan is_nan c e rn s i b n Hs Hb Hn Hlt.
  split; [rewrite (serial_counts mops zax c e rn s Hs), filter_moving_neg; reflexivity|]. split.
  - destruct (short_value_error mops zax c e rn s i b n true Hs Hb Hn Hlt) as (x & E & Hx). exists x. unfold serial_fk_end. rewrite E. auto.
  - unfold serial_fk_all, convert_serial_inputs. rewrite Hb, Hn. cbn [rbind]. rewrite <- (serial_counts mops zax c e rn s Hs).
    rewrite (proj2 (Nat.ltb_lt _ _) Hlt), (proj2 (Nat.eqb_neq _ _)) by lia. reflexivity.
Qed.

Lemma l13_nested_list_refuted : exists (root : mframe) c s rows, chain_init mops root = Ok c /\ serial_init mops zax c "hand" "" = Ok s /\
  (forall row, In row rows -> length row = length (c_names (s_chain s))) /\
  (exists m, serial_fk_end mops 0%R (fun _ => false) s (InTensor (T2 2 rows)) = Ok m) /\
  serial_fk_end mops 0%R (fun _ => false) s (InList (T2 2 rows)) = Err ValueError.
Proof.
  destruct ex_chain as (c & Hc). destruct (serial_ok mops zax ex_robot c "" ex_robot [ex_shoulder; ex_elbow; ex_hand] Hc ex_distinct_frames ex_clean) as (s & Hs & Ht);
    [left; auto | exact ex_path_hand |].
  exists ex_robot, c, s, [[ex_config (Some "j1"); ex_config (Some "j2")]].
  assert (Hin : In ex_robot (preorder ex_robot)) by (rewrite preorder_unfold; left; reflexivity).
  assert (Hn : c_names (s_chain s) = [Some "j1"; Some "j2"]).
  { destruct Ht as (Hc2 & _). rewrite (ct_names _ _ _ (chain_root mops _ _ Hc2)), sroot_moving_names. reflexivity. }
  split; [exact Hc|]. split; [exact Hs|]. split; [rewrite Hn; intros row [<-|[]]; reflexivity|].
  destruct (serial_fk_tensor mops zax ex_robot ex_robot [ex_shoulder; ex_elbow; ex_hand] s [ex_config] mlaws Hin ex_distinct_joints ex_distinct_frames ex_clean ex_path_hand Ht) as ((fi & Hfi & HX) & _).
  split.
  - destruct (works_input mops zax 0%R (fun _ => false) ex_robot [ex_shoulder; ex_elbow; ex_hand] s [ex_config] _ (serial_moving zax _ _ ex_robot Hin ex_distinct_joints ex_path_hand) Ht (w_batch (fun _ => false) [ex_shoulder; ex_elbow; ex_hand] [ex_config])) as (W1 & W2 & W3).
    destruct (serial_forward mops zax 0%R (fun _ => false) c "" _ s _ _ fi Hs W1 W2 W3 Hfi) as [E _].
    exists (map (fun v => pose v [ex_shoulder; ex_elbow; ex_hand]) [ex_config]). etransitivity; [exact E | exact HX].
  - unfold serial_fk_end, convert_serial_inputs. rewrite Hfi. cbn [get_batch_size get_n_joints rbind length].
    rewrite <- (serial_counts mops zax c _ _ s Hs), Hn. reflexivity.
Qed.
