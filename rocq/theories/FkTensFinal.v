(** Last steps of the proofs quoted in Properties_FkTens.v. *)
From Coq Require Import Reals Lra String Bool Arith Lia List.
From Coquelicot Require Import Coquelicot.
From Verif Require Import Prelude ExtF Lin Trig RotModel RotBasic TorchModel RotTorchModel SpecTorch SpecFkTorch TorchProofs RotTorch Tree ChainModel SpecFK ChainProofs ChainTables ChainInst Input SerialModel SerialProofs Deriv JacModel JacProofs BackProofs JacFinal Examples Properties_Jac FkTorchModel FkTorch FkTorchChain FkTorchBack FkTorchJac FkTorchList.
Import ListNotations.
Local Open Scope nat_scope.
Local Open Scope list_scope.

Lemma rows_ok (th : tensor R) n B r : In r (th_rows (rows_of th n B)) -> List.length r = n.
Proof. unfold rows_of. cbn [th_rows]. intros I. apply in_map_iff in I as (b & <- & _). rewrite map_length. apply seq_length. Qed.
Lemma rows_len (th : tensor R) n B : List.length (th_rows (rows_of th n B)) = B.
Proof. unfold rows_of. cbn [th_rows]. rewrite map_length. apply seq_length. Qed.
Lemma rows_vs (root : mframe) (th : tensor R) B : distinct_joints root -> let n := List.length (moving_names root) in
  exists vs, rows_of th n B = config_tensor root vs /\ List.length vs = B.
Proof.
  intros D n. destruct (tensor_configs 0%R root (th_rows (rows_of th n B)) D (fun r => rows_ok th n B r)) as (vs & E & L). exists vs. rewrite rows_len in L. split; [exact E | exact L].
Qed.
Lemma vs_at (root : mframe) (th : tensor R) B vs : rows_of th (List.length (moving_names root)) B = config_tensor root vs ->
  forall b v k n, nth_error vs b = Some v -> nth_error (moving_names root) k = Some n -> v n = at_ th [k; b].
Proof.
  intros E b v k n Hb Hk. unfold config in *. apply (f_equal (fun t => nth_error (th_rows t) b)) in E. unfold rows_of, config_tensor in E. cbn [th_rows] in E. rewrite !nth_error_map, Hb in E. cbn [option_map] in E.
  destruct (nth_error (seq 0 B) b) as [b'|] eqn:Q; [|discriminate]. assert (b' = b) by (assert (L : b < List.length (seq 0 B)) by (apply nth_error_Some; congruence); rewrite seq_length in L; rewrite (nth_error_nth' _ 0), seq_nth in Q by (rewrite ?seq_length; exact L); injection Q as <-; reflexivity). subst b'. cbn [option_map] in E.
  injection E as E. apply (f_equal (fun l => nth_error l k)) in E. rewrite !nth_error_map, Hk in E. cbn [option_map] in E.
  assert (L : k < List.length (moving_names root)) by (apply nth_error_Some; congruence). rewrite (nth_error_nth' _ 0), seq_nth in E by (rewrite ?seq_length; exact L). cbn [option_map plus] in E. injection E as E. symmetry. exact E.
Qed.
Lemma vs_rows (root : mframe) (th : tensor R) B vs : List.length vs = B -> (forall b v k n, nth_error vs b = Some v -> nth_error (moving_names root) k = Some n -> v n = at_ th [k; b]) ->
  rows_of th (List.length (moving_names root)) B = config_tensor root vs.
Proof.
  intros L H. unfold config in *. unfold rows_of, config_tensor. f_equal. apply list_ext. intros b. rewrite !nth_error_map. destruct (nth_error vs b) as [v|] eqn:Hb.
  - assert (Lb : b < B) by (rewrite <- L; apply nth_error_Some; congruence). rewrite (nth_error_nth' _ 0), seq_nth by (rewrite ?seq_length; exact Lb). cbn [option_map plus]. f_equal. apply list_ext. intros k. rewrite !nth_error_map.
    destruct (nth_error (moving_names root) k) as [n|] eqn:Hk.
    + assert (Lk : k < List.length (moving_names root)) by (apply nth_error_Some; congruence). rewrite (nth_error_nth' _ 0), seq_nth by (rewrite ?seq_length; exact Lk). cbn [option_map plus]. f_equal. symmetry. exact (H b v k n Hb Hk).
    + apply nth_error_None in Hk. rewrite (proj2 (nth_error_None (seq 0 _) k)) by (rewrite seq_length; exact Hk). reflexivity.
  - apply nth_error_None in Hb. rewrite (proj2 (nth_error_None (seq 0 B) b)) by (rewrite seq_length; lia). reflexivity.
Qed.
Lemma table_nth {X} (W : nat -> X) B b M : nth_error (map W (seq 0 B)) b = Some M -> b < B /\ M = W b.
Proof.
  intros H. assert (L : b < B) by (assert (L : b < List.length (map W (seq 0 B))) by (apply nth_error_Some; congruence); rewrite map_length, seq_length in L; exact L).
  rewrite nth_error_map, (nth_error_nth' _ 0), seq_nth in H by (rewrite ?seq_length; exact L). injection H as <-. auto.
Qed.
(** forward kinematics of the tensor whose rows are the configurations [vs] *)
Lemma fk_at (root : mframe) c static axes th B junk vs (W : config (S := R) -> nat -> M4) : chain_init mops root = Ok c -> holds_m4 static (c_static c) -> holds_v3 axes (c_axes c) ->
  shape th = [List.length (moving_names root); B] -> List.length vs = B -> rows_of th (List.length (moving_names root)) B = config_tensor root vs ->
  forward_kinematics_tensor mops c (config_tensor root vs) = Ok (map (fun i => Some (map (fun v => W v i) vs)) (seq 0 (size root))) ->
  exists T, fk_t junk c static axes th = Ok T /\ shape T = [4; 4; B; size root] /\ forall b f v, nth_error vs b = Some v -> f < size root -> m4_at T [b; f] = W v f.
Proof.
  intros Hc H1 H2 Sh Lv Er FK. pose proof (chain_tab root c Hc) as CT. rewrite <- Er in FK.
  destruct (fk_chain_sim root c static axes th _ B junk _ Hc H1 H2 Sh (or_intror (eq_sym (ct_alen _ _ _ CT))) FK) as (Y & (La & A) & T & ET & ST & HT).
  rewrite (ct_nf _ _ _ CT), items_length in *. exists T. split; [exact ET|]. split; [exact ST|]. intros b f v Hb Lf.
  assert (Lb : b < B) by (rewrite <- Lv; apply nth_error_Some; congruence). rewrite (HT f b Lf Lb).
  assert (E : nth_error (map (fun i => Some (map (fun v => W v i) vs)) (seq 0 (size root))) f = Some (Some (map (fun v => W v f) vs))) by (rewrite nth_error_map, (nth_error_nth' _ 0), seq_nth by (rewrite ?seq_length; exact Lf); reflexivity).
  specialize (A f _ E). apply (f_equal (fun l => nth_error l b)) in A. rewrite !nth_error_map, Hb, (nth_error_nth' _ 0), seq_nth in A by (rewrite ?seq_length; exact Lb). cbn [option_map plus] in A. injection A as A. symmetry. exact A.
Qed.
(** a sum in which only the term of [b] varies *)
Lemma dconst (k x : R) : is_derive (fun _ : R => k) x 0%R. Proof. apply @is_derive_const. Qed.
Lemma dplus f g (y a b : R) : is_derive f y a -> is_derive g y b -> is_derive (fun t : R => (f t + g t)%R) y (a + b)%R. Proof. intros; apply (is_derive_plus f g y a b); assumption. Qed.
Lemma derive_one (L : R -> R) (K : nat -> R) (x d : R) b l : NoDup l -> is_derive L x d ->
  is_derive (fun q => BackProofs.rsum (map (fun b' => if b' =? b then L q else K b') l)) x (if in_dec Nat.eq_dec b l then d else 0%R).
Proof.
  intros N H. induction l as [|a l IH]; [destruct (in_dec Nat.eq_dec b []) as [[]|_]; exact (dconst 0 x)|]. inversion N as [|? ? N1 N2]; subst. specialize (IH N2). cbn [map BackProofs.rsum].
  destruct (in_dec Nat.eq_dec b (a :: l)) as [I|I]; destruct (in_dec Nat.eq_dec b l) as [I'|I'].
  - assert (Q : (a =? b) = false) by (apply Nat.eqb_neq; intros ->; contradiction). rewrite Q. replace d with (0 + d)%R by ring. apply dplus; [apply dconst | exact IH].
  - destruct I as [->|I]; [|contradiction]. rewrite Nat.eqb_refl. replace d with (d + 0)%R by ring. apply dplus; [exact H | exact IH].
  - exfalso. apply I. right. exact I'.
  - assert (Q : (a =? b) = false) by (apply Nat.eqb_neq; intros ->; apply I; left; reflexivity). rewrite Q. replace 0%R with (0 + 0)%R by ring. apply dplus; [apply dconst | exact IH].
Qed.
Lemma mats_M2 T B L : shape T = [4; 4; B; L] -> M2 (Ok T) B L (fun f b => m4_at T [b; f]).
Proof. intros E. exists T. auto. Qed.
Lemma chain_back (root : mframe) c : chain_init mops root = Ok c -> distinct_joints root ->
  List.length (c_dof_frame c) = List.length (c_mask c) /\ List.length (c_axes c) = List.length (c_mask c) /\ List.length (c_dof_rev c) = List.length (c_mask c) /\ List.Forall (fun k => k < size root) (c_dof_frame c) /\
  (forall m, In m (c_mask c) -> List.length m = size root) /\ List.length (c_mask c) = List.length (moving_names root).
Proof.
  intros Hc D. pose proof (chain_tab root c Hc) as CT. destruct (dof_lengths root c CT D) as (L1 & L2 & L3 & L4). rewrite L1, L2, L3, L4, (ct_names _ _ _ CT). do 3 (split; [reflexivity|]). split; [|split; [|reflexivity]].
  - apply Forall_forall. intros d I. apply In_nth_error in I as (j & E). assert (Lj : j < List.length (c_names c)) by (rewrite <- L1; apply nth_error_Some; congruence).
    destruct (nth_error (c_names c) j) as [n|] eqn:En; [|apply nth_error_None in En; lia]. destruct (dof_spec root c CT D j n En) as (d' & E' & Ld & _). rewrite E in E'. injection E' as <-. rewrite <- items_length. exact Ld.
  - intros m I. rewrite (ct_mask _ _ _ CT) in I. unfold ancestor_mask in I. apply in_map_iff in I as (d & <- & _). rewrite map_length, (ct_plen _ _ _ CT). apply items_length.
Qed.
Lemma serial_parts (c0 : chain M4 V3) en rn s : serial_init mops zax c0 en rn = Ok s ->
  (exists root, chain_init mops root = Ok (s_chain s)) /\ List.length (s_dof_axes s) = List.length (s_dof_idx s) /\ List.length (s_dof_types s) = List.length (s_dof_idx s).
Proof.
  unfold serial_init. cbv zeta. intros H.
  repeat match type of H with (do x <- ?e; _) = _ => let Q := fresh "Q" in destruct e eqn:Q; cbn [rbind] in H; [|discriminate H] end.
  match type of H with match ?l with _ => _ end = _ => destruct l; [discriminate H|] end.
  repeat match type of H with (do x <- ?e; _) = _ => let Q := fresh "Q" in destruct e eqn:Q; cbn [rbind] in H; [|discriminate H] end.
  apply (f_equal (fun r => match r with Ok s => s | Err _ => s end)) in H. subst s. cbn [s_chain s_dof_axes s_dof_idx s_dof_types]. split; [eauto|]. rewrite !map_length.
  match goal with Q : rmap _ _ = Ok ?l |- context [List.length ?l] => apply rmap_length in Q; rewrite Q end. auto.
Qed.
(** tensors for given lists *)
Definition m4_tensor (l : list M4) : tensor R := mkT [4; 4; List.length l] (fun i => match i with [c; r; k] => let M := nth k l I4 in nth c (nth r [[a00 M; a01 M; a02 M; a03 M]; [a10 M; a11 M; a12 M; a13 M]; [a20 M; a21 M; a22 M; a23 M]; [a30 M; a31 M; a32 M; a33 M]] []) 0%R | _ => 0%R end).
Definition v3_tensor (l : list V3) : tensor R := mkT [3; List.length l] (fun i => match i with [c; k] => let v := nth k l vzero in nth c [vx v; vy v; vz v] 0%R | _ => 0%R end).
Definition mask_tensor (L : nat) (l : list (list bool)) : tensor R := mkT [L; List.length l] (fun i => match i with [k; j] => maskv (nth k (nth j l []) false) | _ => 0%R end).
Lemma m4_tensor_holds l : holds_m4 (m4_tensor l) l.
Proof. split; [reflexivity|]. intros k M H. unfold m4_at, m4_tensor. cbn [at_]. cbv zeta. rewrite (nth_error_nth _ _ I4 H). destruct M. reflexivity. Qed.
Lemma v3_tensor_holds l : holds_v3 (v3_tensor l) l.
Proof. split; [reflexivity|]. intros k v H. unfold v_at, v3_tensor. cbn [at_]. cbv zeta. rewrite (nth_error_nth _ _ vzero H). destruct v. reflexivity. Qed.
Lemma mask_tensor_holds L l : holds_mask (mask_tensor L l) L l.
Proof. split; [reflexivity|]. intros j k m x Hj Hk. unfold mask_tensor. cbn [at_]. rewrite (nth_error_nth _ _ [] Hj), (nth_error_nth _ _ false Hk). reflexivity. Qed.
Definition ex_th (l : list (list R)) : tensor R := mkT [List.length (hd [] l); List.length l] (fun i => match i with [j; b] => nth j (nth b l []) 0%R | _ => 0%R end).

Lemma l90_forward_is_rowwise : forall (root : mframe) c static axes th cols B junk arr, chain_init mops root = Ok c -> holds_m4 static (c_static c) -> holds_v3 axes (c_axes c) -> shape th = [cols; B] ->
  0 < B \/ cols = List.length (c_axes c) -> forward_kinematics_tensor mops c (rows_of th cols B) = Ok arr ->
  exists T, fk_t junk c static axes th = Ok T /\ shape T = [4; 4; B; c_nf c] /\
    forall f ws b M, nth_error arr f = Some (Some ws) -> nth_error ws b = Some M -> m4_at T [b; f] = M.
Proof.
  intros root c static axes th cols B junk arr Hc H1 H2 Sh HB FK. destruct (fk_chain_sim root c static axes th cols B junk arr Hc H1 H2 Sh HB FK) as (W & (La & A) & T & ET & ST & HT). exists T. split; [exact ET|]. split; [exact ST|].
  intros f ws b M Hf Hb. pose proof (A f ws Hf) as E. rewrite E in Hb. apply table_nth in Hb as (Lb & ->). apply HT; [|exact Lb]. rewrite <- La. apply nth_error_Some. congruence.
Qed.

Lemma l90_forward_is_path_product : forall (root : mframe) c static axes th B junk, chain_init mops root = Ok c -> distinct_joints root -> holds_m4 static (c_static c) -> holds_v3 axes (c_axes c) ->
  shape th = [List.length (moving_names root); B] ->
  exists T, fk_t junk c static axes th = Ok T /\ shape T = [4; 4; B; size root] /\
    forall fs f, root_path root (fs ++ [f]) -> exists i, i < size root /\ dget Nat.eqb i (c_i2f c) = Some (strip_nl (f_name f)) /\
      forall b v, b < B -> (forall k n, nth_error (moving_names root) k = Some n -> v n = at_ th [k; b]) -> m4_at T [b; i] = path_pose mops v (fs ++ [f]).
Proof.
  intros root c static axes th B junk Hc D H1 H2 Sh. pose proof (chain_tab root c Hc) as CT. destruct (rows_vs root th B D) as (vs & Er & Lv).
  destruct (fk_tensor_spec mops root c vs mlaws D Hc) as (arr & FK & La & _ & Hp). rewrite <- Er in FK.
  destruct (l90_forward_is_rowwise root c static axes th _ B junk arr Hc H1 H2 Sh (or_intror (eq_sym (ct_alen _ _ _ CT))) FK) as (T & ET & ST & HT). rewrite (ct_nf _ _ _ CT), items_length in ST.
  exists T. split; [exact ET|]. split; [exact ST|]. intros fs f P. destruct (Hp fs f P) as (i & Li & Di & Ai). exists i. split; [exact Li|]. split; [exact Di|]. intros b v Lb Hv.
  destruct (nth_error vs b) as [w|] eqn:Eb; [|apply nth_error_None in Eb; lia]. rewrite (HT i _ b _ Ai (map_nth_error _ _ _ Eb)). apply pose_ext. intros g Hg Mg.
  assert (I : In (j_name (f_joint g)) (moving_names root)) by (apply (in_preorder_names root g); [exact (path_incl root _ P g Hg) | exact Mg]). apply In_nth_error in I as (k & Hk). rewrite (Hv k _ Hk). exact (vs_at root th B vs Er b w k _ Eb Hk).
Qed.

Lemma l90_wrong_width : forall (root : mframe) c static axes th cols B junk, chain_init mops root = Ok c -> holds_v3 axes (c_axes c) -> shape th = [cols; B] -> moving_names root <> [] ->
  cols <> List.length (moving_names root) -> cols <> 1 -> fk_t junk c static axes th = Err (if cols =? 0 then UnboundLocalError else RuntimeError).
Proof.
  intros root c static axes th cols B junk Hc H2 Sh N H3 H4. apply (fk_bad root c static axes th cols B junk Hc H2 Sh N); [|exact H4]. rewrite (ct_alen _ _ _ (chain_tab root c Hc)). exact H3.
Qed.

Lemma l90_backward_is_rowwise : forall (root : mframe) c T G mask axes B, chain_init mops root = Ok c -> distinct_joints root -> shape T = [4; 4; B; size root] -> shape G = [4; 4; B; size root] ->
  holds_mask mask (size root) (c_mask c) -> holds_v3 axes (c_axes c) -> 0 < B ->
  exists g rows, backward_t T G mask axes (c_dof_frame c) (c_dof_rev c) = Ok g /\ shape g = [List.length (moving_names root); B] /\
    backward c B (mats T (size root) B) (mats G (size root) B) = Ok rows /\ List.length rows = B /\
    forall b j row x, nth_error rows b = Some row -> nth_error row j = Some x -> at_ g [j; b] = x.
Proof.
  intros root c T G mask axes B Hc D ST SG Hm Ha PB. destruct (chain_back root c Hc D) as (L1 & L2 & L3 & F & Hl & Ln).
  destruct (backward_M2 T G mask axes (c_dof_frame c) (c_mask c) (c_dof_rev c) (c_axes c) B (size root) _ _ (mats_M2 T B _ ST) (mats_M2 G B _ SG) Hm Hl Ha L1 L2 L3 F PB) as (g & Eg & Sg & Hg).
  pose proof (backward_tab c B (size root) (fun f b => m4_at T [b; f]) (fun f b => m4_at G [b; f]) (c_mask c) eq_refl L1 L2 L3 F) as EL. rewrite Ln in Sg.
  eexists g, _. split; [exact Eg|]. split; [exact Sg|]. split; [exact EL|]. split; [rewrite map_length; apply seq_length|].
  intros b j row x Hb Hj. apply table_nth in Hb as (Lb & ->). apply table_nth in Hj as (Lj & ->). apply Hg; assumption.
Qed.

Lemma l90_backward_is_derivative : forall (root : mframe) c static mask axes th B junk T G, chain_init mops root = Ok c -> distinct_joints root -> rigid_tree root -> holds_m4 static (c_static c) -> holds_mask mask (size root) (c_mask c) ->
  holds_v3 axes (c_axes c) -> shape th = [List.length (moving_names root); B] -> 0 < B -> fk_t junk c static axes th = Ok T -> shape G = [4; 4; B; size root] ->
  exists g, backward_t T G mask axes (c_dof_frame c) (c_dof_rev c) = Ok g /\ shape g = [List.length (moving_names root); B] /\
    forall j b, j < List.length (moving_names root) -> b < B -> exists F : R -> tensor R,
      (forall q, fk_t junk c static axes (put_at th j b q) = Ok (F q)) /\
      is_derive (fun q => BackProofs.rsum (map (fun b' => BackProofs.rsum (map (fun f => frob (m4_at G [b'; f]) (m4_at (F q) [b'; f])) (seq 0 (size root)))) (seq 0 B))) (at_ th [j; b]) (at_ g [j; b]).
Proof.
  intros root c static mask axes th B junk T G Hc D Rt H1 Hm H2 Sh PB ET SG. pose proof (chain_tab root c Hc) as CT. destruct (l16_backward_is_vjp root c Hc D Rt) as (W & FK & BW).
  destruct (rows_vs root th B D) as (vs & Er & Lv). destruct (fk_at root c static axes th B junk vs W Hc H1 H2 Sh Lv Er (FK vs)) as (T' & ET' & ST & HT). rewrite ET in ET'. injection ET' as <-.
  destruct (l90_backward_is_rowwise root c T G mask axes B Hc D ST SG Hm H2 PB) as (g & rows & Eg & Sg & El & Ll & Hg). exists g. split; [exact Eg|]. split; [exact Sg|]. intros j b Lj Lb.
  set (Gs := map (fun b f => m4_at G [b; f]) (seq 0 B)). destruct (BW vs Gs) as (g' & Eg' & Lg' & Hd); [unfold Gs; rewrite map_length, seq_length; auto|].
  assert (E1 : mats T (size root) B = map (fun i => map (fun v => W v i) vs) (seq 0 (size root))).
  { unfold mats. apply map_ext_in. intros f If. apply in_seq in If. apply list_ext. intros k. rewrite !nth_error_map. destruct (nth_error vs k) as [v|] eqn:Ek.
    - assert (Lk : k < B) by (rewrite <- Lv; apply nth_error_Some; congruence). rewrite (nth_error_nth' _ 0), seq_nth by (rewrite ?seq_length; exact Lk). cbn [option_map plus]. f_equal. apply HT; [exact Ek | lia].
    - apply nth_error_None in Ek. rewrite (proj2 (nth_error_None (seq 0 B) k)) by (rewrite seq_length; lia). reflexivity. }
  assert (E2 : mats G (size root) B = map (fun i => map (fun G0 => G0 i) Gs) (seq 0 (size root))) by (unfold mats, Gs; apply map_ext; intros f; rewrite map_map; reflexivity).
  rewrite E1, E2 in El. rewrite Lv in Eg'. rewrite Eg' in El. injection El as <-.
  destruct (nth_error vs b) as [v|] eqn:Eb; [|apply nth_error_None in Eb; lia]. destruct (nth_error g' b) as [row|] eqn:Erow; [|apply nth_error_None in Erow; lia].
  assert (EG : nth_error Gs b = Some (fun f => m4_at G [b; f])) by (unfold Gs; rewrite nth_error_map, (nth_error_nth' _ 0), seq_nth by (rewrite ?seq_length; exact Lb); reflexivity).
  destruct (Hd b v _ row Eb EG Erow) as (Lr & Hr). rewrite (ct_names _ _ _ CT) in Lr, Hr.
  destruct (nth_error (moving_names root) j) as [n|] eqn:En; [|apply nth_error_None in En; lia]. destruct (nth_error row j) as [x|] eqn:Ex; [|apply nth_error_None in Ex; lia].
  specialize (Hr j n x En Ex). rewrite (Hg b j row x Erow Ex). rewrite <- (vs_at root th B vs Er b v j n Eb En).
  set (vq := fun q => map (fun k => if k =? b then upd v n q else nth k vs v) (seq 0 B)).
  assert (Evq : forall q k w, nth_error (vq q) k = Some w -> k < B /\ w = if k =? b then upd v n q else nth k vs v) by (intros q k w H; unfold vq in H; apply table_nth in H; exact H).
  assert (Erq : forall q, rows_of (put_at th j b q) (List.length (moving_names root)) B = config_tensor root (vq q)).
  { intros q. apply vs_rows; [unfold vq; rewrite map_length; apply seq_length|]. intros k w i m Hk Hi. apply Evq in Hk as (Lk & ->). unfold put_at. cbn [at_]. destruct (k =? b) eqn:Qb.
    - apply Nat.eqb_eq in Qb. subst k. rewrite andb_true_r. unfold upd. destruct (oseqb m n) eqn:Qn.
      + apply oseqb_eq in Qn. subst m. assert (Q : i = j) by (apply (proj1 (NoDup_nth_error (moving_names root)) D); [apply nth_error_Some; congruence | congruence]). subst i. rewrite Nat.eqb_refl. reflexivity.
      + destruct (i =? j) eqn:Qi; [|exact (vs_at root th B vs Er b v i m Eb Hi)]. apply Nat.eqb_eq in Qi. subst i. rewrite En in Hi. injection Hi as <-. rewrite (proj2 (oseqb_eq n n) eq_refl) in Qn. discriminate.
    - rewrite andb_false_r. apply (vs_at root th B vs Er k); [|exact Hi]. apply nth_error_nth'. lia. }
  assert (HF : forall q, exists t, fk_t junk c static axes (put_at th j b q) = Ok t /\ shape t = [4; 4; B; size root] /\ forall k f w, nth_error (vq q) k = Some w -> f < size root -> m4_at t [k; f] = W w f).
  { intros q. apply (fk_at root c static axes (put_at th j b q) B junk (vq q) W Hc H1 H2 Sh); [unfold vq; rewrite map_length; apply seq_length | apply Erq | apply FK]. }
  exists (fun q => match fk_t junk c static axes (put_at th j b q) with Ok t => t | Err _ => th end). split; [intros q; destruct (HF q) as (t & -> & _); reflexivity|].
  pose proof (derive_one _ (fun k => BackProofs.rsum (map (fun f => frob (m4_at G [k; f]) (W (nth k vs v) f)) (seq 0 (size root)))) _ _ b (seq 0 B) (seq_NoDup B 0) Hr) as DD.
  destruct (in_dec Nat.eq_dec b (seq 0 B)) as [_|I]; [|exfalso; apply I; apply in_seq; lia]. eapply is_derive_ext; [|exact DD]. intros q. cbv beta. destruct (HF q) as (t & -> & _ & Ht). f_equal. apply map_ext_in. intros k Ik. apply in_seq in Ik.
  assert (Ek : nth_error (vq q) k = Some (if k =? b then upd v n q else nth k vs v)) by (unfold vq; rewrite nth_error_map, (nth_error_nth' _ 0), seq_nth by (rewrite ?seq_length; lia); reflexivity).
  destruct (k =? b) eqn:Qb; [apply Nat.eqb_eq in Qb; subst k|]; f_equal; apply map_ext_in; intros f If; apply in_seq in If; rewrite (Ht _ f _ Ek) by lia; reflexivity.
Qed.

Lemma l90_backward_of_empty_batch_refuted : forall (root : mframe) c static mask axes th junk G, chain_init mops root = Ok c -> distinct_joints root -> holds_m4 static (c_static c) -> holds_mask mask (size root) (c_mask c) -> holds_v3 axes (c_axes c) ->
  shape th = [List.length (moving_names root); 0] -> shape G = [4; 4; 0; size root] ->
  exists T, fk_t junk c static axes th = Ok T /\ shape T = shape G /\ fails (backward_t T G mask axes (c_dof_frame c) (c_dof_rev c)).
Proof.
  intros root c static mask axes th junk G Hc D H1 Hm H2 Sh SG. destruct (l90_forward_is_path_product root c static axes th 0 junk Hc D H1 H2 Sh) as (T & ET & ST & _). exists T. split; [exact ET|]. split; [congruence|].
  destruct (chain_back root c Hc D) as (L1 & L2 & L3 & F & Hl & Ln). exact (backward_empty T G mask axes _ _ _ _ _ _ _ (mats_M2 T 0 _ ST) (mats_M2 G 0 _ SG) Hm H2 L1 L2 F).
Qed.

Lemma l90_jacobian_is_rowwise : forall c0 en rn s static axes dof_axes th cols B junk Js Ts, serial_init mops zax c0 en rn = Ok s -> holds_m4 static (c_static (s_chain s)) -> holds_v3 axes (c_axes (s_chain s)) -> holds_v3 dof_axes (s_dof_axes s) ->
  shape th = [cols; B] -> 0 < B \/ cols = List.length (c_axes (s_chain s)) -> jacobian s (InTensor (T2 cols (th_rows (rows_of th cols B)))) None = Ok (Js, Ts) ->
  exists J T, jacobian_t junk s static axes dof_axes th None = Ok (J, T) /\ shape J = [List.length (s_dof_idx s); 6; B] /\ shape T = [4; 4; B] /\ List.length Js = B /\ List.length Ts = B /\
    (forall b j cs p, nth_error Js b = Some cs -> nth_error cs j = Some p -> col_at J b j = p) /\ (forall b M, nth_error Ts b = Some M -> m4_at T [b] = M).
Proof.
  intros c0 en rn s static axes dof_axes th cols B junk Js Ts Hs H1 H2 H3 Sh HB HJ. destruct (serial_parts c0 en rn s Hs) as ((root & Hc) & La & Lt). unfold jacobian, jacobian_tensor in HJ. cbn [jac_input rbind] in HJ. change (mkTh cols (th_rows (rows_of th cols B))) with (rows_of th cols B) in HJ.
  destruct (forward_kinematics_tensor mops (s_chain s) (rows_of th cols B)) as [arr|] eqn:FK; cbn [rbind] in HJ; [|discriminate].
  destruct (fk_chain_sim root (s_chain s) static axes th cols B junk arr Hc H1 H2 Sh HB FK) as (W & A & all & ET & ST & HT). assert (Mall : M2 (Ok all) B (c_nf (s_chain s)) W) by (exists all; auto).
  destruct (jac_list _ _ _ _ A s La Lt Js Ts HJ) as (Le & Fi & _ & -> & ->).
  destruct (jac_J2 all dof_axes (s_dof_axes s) (s_eef s) (s_dof_idx s) (s_dof_types s) B _ W Mall H3 La Lt Fi Le) as (J & EJ & SJ & HJ2). destruct (M1_pick _ _ _ _ (s_eef s) Mall Le) as (T & EP & SP & HP).
  exists J, T. unfold jacobian_t. rewrite ET. cbn [rbind]. rewrite EJ. cbn [rbind]. rewrite EP. cbn [rbind]. split; [reflexivity|]. split; [exact SJ|]. split; [exact SP|]. rewrite !map_length, seq_length. split; [reflexivity|]. split; [reflexivity|]. split.
  - intros b j cs p Hb Hj. apply table_nth in Hb as (Lb & ->). apply table_nth in Hj as (Lj & ->). apply HJ2; assumption.
  - intros b M Hb. apply table_nth in Hb as (Lb & ->). apply HP, Lb.
Qed.

Lemma l90_jacobian_with_tool_is_rowwise : forall c0 en rn s static axes dof_axes th cols B junk tool ms, serial_init mops zax c0 en rn = Ok s -> holds_m4 static (c_static (s_chain s)) -> holds_v3 axes (c_axes (s_chain s)) -> holds_v3 dof_axes (s_dof_axes s) ->
  holds_m4 tool ms -> shape th = [cols; B] -> 0 < B \/ cols = List.length (c_axes (s_chain s)) -> (exists r, jacobian s (InTensor (T2 cols (th_rows (rows_of th cols B)))) None = Ok r) ->
  let e := jacobian s (InTensor (T2 cols (th_rows (rows_of th cols B)))) (Some (ToolT ms)) in
  let e' := jacobian_t junk s static axes dof_axes th (Some tool) in
  (List.length ms = B \/ List.length ms = 1 -> exists Js Ts J T, e = Ok (Js, Ts) /\ e' = Ok (J, T) /\ shape J = [List.length (s_dof_idx s); 6; B] /\ shape T = [4; 4; B] /\ List.length Js = B /\ List.length Ts = B /\
    (forall b j cs p, nth_error Js b = Some cs -> nth_error cs j = Some p -> col_at J b j = p) /\ (forall b M, nth_error Ts b = Some M -> m4_at T [b] = M)) /\
  (List.length ms <> B -> List.length ms <> 1 -> e = Err RuntimeError /\ e' = Err RuntimeError).
Proof.
  intros c0 en rn s static axes dof_axes th cols B junk tool ms Hs H1 H2 H3 (St & Ht) Sh HB ((Js & Ts) & HJ). cbv zeta. destruct (serial_parts c0 en rn s Hs) as ((root & Hc) & La & Lt). unfold jacobian, jacobian_tensor in HJ. cbn [jac_input rbind] in HJ. change (mkTh cols (th_rows (rows_of th cols B))) with (rows_of th cols B) in HJ.
  destruct (forward_kinematics_tensor mops (s_chain s) (rows_of th cols B)) as [arr|] eqn:FK; cbn [rbind] in HJ; [|discriminate].
  destruct (fk_chain_sim root (s_chain s) static axes th cols B junk arr Hc H1 H2 Sh HB FK) as (W & A & all & ET & ST & HT). assert (Mall : M2 (Ok all) B (c_nf (s_chain s)) W) by (exists all; auto).
  destruct (jac_list _ _ _ _ A s La Lt Js Ts HJ) as (Le & Fi & _ & _ & _).
  assert (Mt : M1 (Ok tool) (List.length ms) (Tm ms)) by (exists tool; split; [reflexivity|]; split; [exact St|]; intros k Lk; apply Ht, nth_error_nth', Lk).
  split.
  - intros HN. rewrite (tool_list _ _ _ _ A s La Lt (rows_of th cols B) (InTensor (T2 cols (th_rows (rows_of th cols B)))) ms eq_refl FK Js Ts HJ HN).
    destruct (tool_J2 all dof_axes (s_dof_axes s) (s_eef s) (s_dof_idx s) (s_dof_types s) B _ W Mall H3 La Lt Fi Le tool _ _ Mt HN) as (J & T & EJ & (J' & EJ' & SJ & HJ2) & (T' & ET' & SP & HP)). injection EJ' as <-. injection ET' as <-.
    eexists _, _, J, T. split; [reflexivity|]. unfold jacobian_t. rewrite ET. cbn [rbind]. split; [exact EJ|]. split; [exact SJ|]. split; [exact SP|]. rewrite !map_length, seq_length. split; [reflexivity|]. split; [reflexivity|]. split.
    + intros b j cs p Hb Hj. apply table_nth in Hb as (Lb & ->). apply table_nth in Hj as (Lj & ->). apply HJ2; assumption.
    + intros b M Hb. apply table_nth in Hb as (Lb & ->). apply HP, Lb.
  - intros N1 N2. split; [exact (tool_list_bad _ _ _ _ A s La Lt (rows_of th cols B) (InTensor (T2 cols (th_rows (rows_of th cols B)))) ms eq_refl FK Js Ts HJ N1 N2)|].
    unfold jacobian_t. rewrite ET. cbn [rbind]. exact (tool_bad all dof_axes (s_dof_axes s) (s_eef s) (s_dof_idx s) (s_dof_types s) B _ W Mall H3 La Lt Fi Le tool _ _ Mt N1 N2).
Qed.
