(** The tensor program of the backward pass computes, at each row of the batch, what [JacModel.backward_row] computes there. *)
From Coq Require Import Reals Lra Bool Arith Lia List.
From Verif Require Import Prelude ExtF Lin Trig RotModel TorchModel RotTorchModel SpecTorch SpecFkTorch TorchProofs RotTorch Tree ChainModel SpecFK ChainProofs ChainInst SerialModel JacModel FkTorchModel FkTorch FkTorchChain.
Import ListNotations.
Local Open Scope nat_scope.

(** ** Tensors of 3x3 matrices, vectors and numbers indexed by frame and row *)
Definition R2 (e : ten R) (B n : nat) (X : nat -> nat -> M3) : Prop := exists t, e = Ok t /\ shape t = [3; 3; B; n] /\ forall f b, f < n -> b < B -> m3_at t [b; f] = X f b.
Definition V2 (e : ten R) (B n : nat) (X : nat -> nat -> V3) : Prop := exists t, e = Ok t /\ shape t = [3; B; n] /\ forall f b, f < n -> b < B -> v_at t [b; f] = X f b.
Definition S2 (e : ten R) (B n : nat) (X : nat -> nat -> R) : Prop := exists t, e = Ok t /\ shape t = [B; n] /\ forall f b, f < n -> b < B -> at_ t [b; f] = X f b.
Lemma R2_t e B n f X : is_t e [3; 3; B; n] f -> (forall g b, g < n -> b < B -> m3_at (mkT [3; 3; B; n] f) [b; g] = X g b) -> R2 e B n X.
Proof.
  intros (t & E & Es & H) Y. exists t. split; [exact E|]. split; [exact Es|]. intros g b L1 L2. rewrite <- (Y g b L1 L2). apply (loc_m3 [B; n]); [apply valid2; assumption|]. intros i V. apply H, V.
Qed.
Lemma V2_t e B n f X : is_t e [3; B; n] f -> (forall g b, g < n -> b < B -> v_at (mkT [3; B; n] f) [b; g] = X g b) -> V2 e B n X.
Proof.
  intros (t & E & Es & H) Y. exists t. split; [exact E|]. split; [exact Es|]. intros g b L1 L2. rewrite <- (Y g b L1 L2). apply (loc_v [B; n]); [apply valid2; assumption|]. intros i V. apply H, V.
Qed.
Lemma S2_t e B n f X : is_t e [B; n] f -> (forall g b, g < n -> b < B -> f [b; g] = X g b) -> S2 e B n X.
Proof. intros (t & E & Es & H) Y. exists t. split; [exact E|]. split; [exact Es|]. intros g b L1 L2. rewrite <- (Y g b L1 L2). apply H, valid2; assumption. Qed.
Ltac look := cbv [m3_at v_at m4_at]; cbn [at_ hd tl nth bidx Nat.eqb Nat.ltb Nat.leb Nat.add Nat.sub Nat.mul fst snd app length].
Lemma V2_pos e B n W : M2 e B n W -> V2 (pos_of e) B n (fun f b => trp (W f b)).
Proof. intros (t & -> & E & H). unfold pos_of. eapply V2_t; [tt|]. intros f b Lf Lb. rewrite <- (H f b Lf Lb). look. reflexivity. Qed.
Lemma R2_rot e B n W : M2 e B n W -> R2 (rot_of e) B n (fun f b => rotp (W f b)).
Proof. intros (t & -> & E & H). unfold rot_of. eapply R2_t; [tt|]. intros f b Lf Lb. rewrite <- (H f b Lf Lb). look. reflexivity. Qed.
Lemma R2_tr e B n X : R2 e B n X -> R2 (tr2 e) B n (fun f b => m3tr (X f b)).
Proof. intros (t & -> & E & H). unfold tr2. cbn [rbind]. rewrite E. eexists. split; [reflexivity|]. split; [reflexivity|]. intros f b Lf Lb. rewrite <- (H f b Lf Lb). look. reflexivity. Qed.
Lemma R2_mul e1 e2 B n X Y : R2 e1 B n X -> R2 e2 B n Y -> R2 (matmul e1 e2) B n (fun f b => m3mul (X f b) (Y f b)).
Proof.
  intros (t & -> & E1 & H1) (u & -> & E2 & H2). eapply R2_t; [tt|]. intros f b Lf Lb. rewrite <- (H1 f b Lf Lb), <- (H2 f b Lf Lb). unfold m3mul. look. cbn [m00 m01 m02 m10 m11 m12 m20 m21 m22]. apply eqM; apply rsum3.
Qed.
Lemma V2_axial M B n X : R2 (Ok M) B n X -> let m r c := sel c (sel2 r (Ok M)) in
  V2 (stack [(m 1 2 - m 2 1)%T; (m 2 0 - m 0 2)%T; (m 0 1 - m 1 0)%T]) B n (fun f b => axial (X f b)).
Proof.
  intros (t & E & Es & H) m. injection E as <-. subst m. eapply V2_t; [tt|]. intros f b Lf Lb. rewrite <- (H f b Lf Lb). unfold axial. look. rewrite ?(one_or B b Lb), ?(one_or n f Lf). cbn [m00 m01 m02 m10 m11 m12 m20 m21 m22]. reflexivity.
Qed.
Lemma V2_op g e1 e2 B n X Y h : (forall a b c a' b' c', h (mkV3 a b c) (mkV3 a' b' c') = mkV3 (g a a') (g b b') (g c c')) -> V2 e1 B n X -> V2 e2 B n Y -> V2 (op2 g e1 e2) B n (fun f b => h (X f b) (Y f b)).
Proof.
  intros Hh (t & -> & E1 & H1) (u & -> & E2 & H2). eapply V2_t; [eapply t_op2_same; apply is_in; [exact E1 | exact E2]|]. intros f b Lf Lb. rewrite <- (H1 f b Lf Lb), <- (H2 f b Lf Lb). look. rewrite Hh. reflexivity.
Qed.
Lemma V2_cross e1 e2 B n X Y : V2 e1 B n X -> V2 e2 B n Y -> V2 (cross e1 e2) B n (fun f b => vcross (X f b) (Y f b)).
Proof. intros (t & -> & E1 & H1) (u & -> & E2 & H2). eapply V2_t; [tt|]. intros f b Lf Lb. rewrite <- (H1 f b Lf Lb), <- (H2 f b Lf Lb). unfold vcross. look. cbn [vx vy vz]. reflexivity. Qed.
Lemma S2_dot e1 e2 B n X Y : V2 e1 B n X -> V2 e2 B n Y -> S2 (sum_last (op2 Rmult e1 e2)) B n (fun f b => vdot (X f b) (Y f b)).
Proof.
  intros (t & -> & E1 & H1) (u & -> & E2 & H2). eapply S2_t; [apply t_sum, t_op2_same; apply is_in; [exact E1 | exact E2]|]. intros f b Lf Lb. rewrite <- (H1 f b Lf Lb), <- (H2 f b Lf Lb). unfold vdot. look. rewrite rsum3. cbn [vx vy vz]. reflexivity.
Qed.
Lemma V2_axes e axes ax B n X : R2 e B n X -> holds_v3 axes ax -> length ax = n ->
  V2 (squeeze1 (matmul e (unsq 2 (unsqueeze (Ok axes))))) B n (fun f b => m3vec (X f b) (nth f ax vzero)).
Proof.
  intros (t & -> & E & H) (S0 & Ha) La. rewrite La in S0. assert (U : is_t (unsq 2 (unsqueeze (Ok axes))) [1; 3; 1; n] (fun i => at_ axes (tl (del 2 i)))).
  { unfold unsq, unsqueeze. cbn [rbind shape]. rewrite S0. eexists. split; [reflexivity|]. split; reflexivity. }
  destruct (t_matmul_b _ _ 3 3 1 [B; n] [1; n] [B; n] _ _ (is_in t _ E) U (tg_one_r _ _ _ _ (tog_refl [n]))) as (m & -> & Sm & Hm). unfold squeeze1. cbn [rbind]. rewrite Sm. eexists. split; [reflexivity|]. split; [reflexivity|].
  intros f b Lf Lb. assert (A : v_at axes [f] = nth f ax vzero) by (apply Ha, nth_error_nth'; rewrite La; exact Lf). rewrite <- A, <- (H f b Lf Lb). unfold m3vec. look. rewrite !Hm by (repeat constructor; assumption). look. rewrite ?(one_or B b Lb), ?(one_or n f Lf). unfold del.
  cbn [firstn skipn app Nat.add tl m00 m01 m02 m10 m11 m12 m20 m21 m22 vx vy vz]. apply eqV; apply rsum3.
Qed.

(** ** Sums over the frames *)
Lemma vsum_snoc l v : vsum (l ++ [v]) = vadd (vsum l) v.
Proof.
  induction l as [|x l IH]; cbn [app vsum].
  - destruct v as [a b c]. unfold vadd, vzero. cbn [vx vy vz]. apply eqV; ring.
  - rewrite IH. unfold vadd. cbn [vx vy vz]. apply eqV; ring.
Qed.
Lemma vsum_rsum (g : nat -> V3) L : vsum (map g (seq 0 L)) = mkV3 (rsum L (fun k => vx (g k))) (rsum L (fun k => vy (g k))) (rsum L (fun k => vz (g k))).
Proof.
  induction L as [|L IH]; [reflexivity|]. replace (seq 0 (S L)) with (seq 0 L ++ [L]) by (rewrite seq_S; reflexivity). rewrite map_app. change (map g [L]) with [g L]. rewrite vsum_snoc, IH. cbn [rsum]. unfold vadd. cbn [vx vy vz]. reflexivity.
Qed.
Lemma V2_masked mask ml e B L X : holds_mask mask L ml -> (forall m, In m ml -> length m = L) -> V2 e B L X -> 0 < B ->
  V2 (masked (length ml) L B (Ok mask) e) B (length ml) (fun j b => masked_sum (nth j ml []) (map (fun f => X f b) (seq 0 L))).
Proof.
  intros (Sk & Hk) Hl (t & -> & E & H) PB. unfold masked. replace (B * 3) with (3 * B) by lia.
  assert (J1 : is_t (reshape [3 * B; L] (Ok t)) [3 * B; L] (fun i => at_ t (hd 0 i mod 3 :: hd 0 i / 3 :: tl i))) by (apply t_join, is_in, E).
  destruct (t_matmul _ _ L (length ml) (3 * B) [] _ _ (is_in mask _ Sk) J1) as (p & -> & Sp & Hp). cbn [rbind]. rewrite (proj2 (Nat.eqb_neq B 0)) by lia.
  eapply V2_t; [apply t_split, is_in, Sp|]. intros j b Lj Lb. unfold masked_sum. assert (Lm : length (nth j ml []) = L) by (apply Hl, nth_In, Lj).
  rewrite (list_tab' (nth j ml []) false L Lm) at 1. rewrite zip_tab, vsum_rsum. unfold v_at. cbn [at_ hd tl].
  assert (G : forall k, k < 3 -> at_ p [k + 3 * b; j] = rsum L (fun l => Rmult (maskv (nth l (nth j ml []) false)) (at_ t [k; b; l]))).
  { intros k L3. rewrite Hp by (repeat constructor; lia). cbn [hd tl]. apply rsum_ext. intros l Ll. f_equal.
    - apply (Hk j l (nth j ml [])); [apply nth_error_nth', Lj | apply nth_error_nth'; lia].
    - f_equal. f_equal; [rewrite (Nat.mul_comm 3), Nat.mod_add, Nat.mod_small by lia; reflexivity|]. f_equal. rewrite (Nat.mul_comm 3), Nat.div_add, Nat.div_small by lia. reflexivity. }
  rewrite !G by lia. apply eqV; apply rsum_ext; intros l Ll; rewrite <- (H l b Ll Lb); unfold v_at, vscale; cbn [at_ vx vy vz]; reflexivity.
Qed.

(** ** The whole pass *)
Definition back_cell (W U : nat -> nat -> M4) (L : nat) (df : list nat) (ml : list (list bool)) (ir : list bool) (ax : list V3) (j b : nat) : R :=
  let fr := seq 0 L in
  let st X := masked_sum (nth j ml []) (map (fun f => X f b) fr) in
  let D := W (nth j df 0) b in
  let z := m3vec (rotp D) (nth j ax vzero) in
  let sg := st (fun f b => trp (U f b)) in
  let sc := st (fun f b => vcross (trp (W f b)) (trp (U f b))) in
  let sx := st (fun f b => axial (m3mul (rotp (W f b)) (m3tr (rotp (U f b))))) in
  if nth j ir false then vdot z (vsub (vadd sx sc) (vcross (trp D) sg)) else vdot z sg.
Lemma backward_M2 T G mask axes df ml ir ax B L W U : M2 (Ok T) B L W -> M2 (Ok G) B L U -> holds_mask mask L ml -> (forall m, In m ml -> length m = L) -> holds_v3 axes ax ->
  length df = length ml -> length ax = length ml -> length ir = length ml -> Forall (fun k => k < L) df -> 0 < B ->
  exists t, backward_t T G mask axes df ir = Ok t /\ shape t = [length ml; B] /\ forall j b, j < length ml -> b < B -> at_ t [j; b] = back_cell W U L df ml ir ax j b.
Proof.
  intros MT MG Hm Hl Ha L1 L2 L3 F PB. unfold backward_t. cbv zeta.
  destruct (R2_mul _ _ _ _ _ _ (R2_rot _ _ _ _ MT) (R2_tr _ _ _ _ (R2_rot _ _ _ _ MG))) as (M & EM & SM & HM). rewrite EM. cbn [rbind].
  destruct (V2_axial M B L _ (ex_intro _ M (conj eq_refl (conj SM HM)))) as (tau & Etau & Stau & Htau). rewrite Etau. cbn [rbind]. rewrite Stau, (proj1 Hm).
  assert (MD : M2 (take 3 df (Ok T)) B (length ml) (fun j b => W (nth j df 0) b)) by (rewrite <- L1; eapply M2_take; [exact MT | exact F]).
  pose proof (V2_axes _ axes ax _ _ _ (R2_rot _ _ _ _ MD) Ha L2) as VZ. pose proof (V2_pos _ _ _ _ MD) as VO.
  pose proof (V2_masked mask ml (Ok tau) B L _ Hm Hl (ex_intro _ tau (conj eq_refl (conj Stau Htau))) PB) as V1.
  pose proof (V2_masked mask ml _ B L _ Hm Hl (V2_pos _ _ _ _ MG) PB) as VG.
  pose proof (V2_masked mask ml _ B L _ Hm Hl (V2_cross _ _ _ _ _ _ (V2_pos _ _ _ _ MT) (V2_pos _ _ _ _ MG)) PB) as VC.
  pose proof (S2_dot _ _ _ _ _ _ VZ (V2_op Rminus _ _ _ _ _ _ vsub ltac:(reflexivity) (V2_op Rplus _ _ _ _ _ _ vadd ltac:(reflexivity) V1 VC) (V2_cross _ _ _ _ _ _ VO VG))) as (r & Er & Sr & Hr).
  pose proof (S2_dot _ _ _ _ _ _ VZ VG) as (p & Ep & Sp & Hp). rewrite Er, Ep.
  assert (FV : is_t (unsqueeze (vec false ir)) [1; length ml] (fun i => nth (hd 0 (tl i)) ir false)) by (unfold unsqueeze, vec; cbn [rbind shape]; rewrite L3; eexists; split; [reflexivity|]; split; reflexivity).
  destruct (t_op2 (fun c (ab : R * R) => if c : bool then fst ab else snd ab) _ _ [1; length ml] [B; length ml] [B; length ml] _ _ FV (t_op2_same pair _ _ _ _ _ (is_in r _ Sr) (is_in p _ Sp)) (tg_one_l _ _ _ _ (tog_refl [length ml]))) as (w & Ew & Sw & Hw).
  unfold where_. rewrite Ew. unfold permute. cbn [rbind]. rewrite Sw. cbn [length Nat.eqb map nth]. eexists. split; [reflexivity|]. split; [reflexivity|]. intros j b Lj Lb. cbn [at_]. change (map _ (seq 0 2)) with [b; j]. rewrite Hw by (apply valid2; assumption).
  cbn [bidx hd tl Nat.eqb fst snd]. rewrite ?(one_or B b Lb), ?(one_or _ j Lj), Hr, Hp by assumption. reflexivity.
Qed.
(** an empty batch *)
Lemma backward_empty T G mask axes df ml ir ax L W U : M2 (Ok T) 0 L W -> M2 (Ok G) 0 L U -> holds_mask mask L ml -> holds_v3 axes ax -> length df = length ml -> length ax = length ml -> Forall (fun k => k < L) df ->
  fails (backward_t T G mask axes df ir).
Proof.
  intros MT MG Hm Ha L1 L2 F. exists RuntimeError. unfold backward_t. cbv zeta.
  destruct (R2_mul _ _ _ _ _ _ (R2_rot _ _ _ _ MT) (R2_tr _ _ _ _ (R2_rot _ _ _ _ MG))) as (M & EM & SM & HM). rewrite EM. cbn [rbind].
  destruct (V2_axial M 0 L _ (ex_intro _ M (conj eq_refl (conj SM HM)))) as (tau & Etau & Stau & Htau). rewrite Etau. cbn [rbind]. rewrite Stau, (proj1 Hm).
  assert (MD : M2 (take 3 df (Ok T)) 0 (length ml) (fun j b => W (nth j df 0) b)) by (rewrite <- L1; eapply M2_take; [exact MT | exact F]).
  pose proof (V2_axes _ axes ax _ _ _ (R2_rot _ _ _ _ MD) Ha L2) as (z & Ez & _). rewrite Ez.
  assert (E0 : masked (length ml) L 0 (Ok mask) (Ok tau) = Err RuntimeError).
  { unfold masked. assert (J1 : is_t (reshape [3 * 0; L] (Ok tau)) [3 * 0; L] (fun i => at_ tau (hd 0 i mod 3 :: hd 0 i / 3 :: tl i))) by (apply t_join, is_in, Stau).
    destruct (t_matmul _ _ L (length ml) (3 * 0) [] _ _ (is_in mask _ (proj1 Hm)) J1) as (p & Ep & _). change (0 * 3) with (3 * 0). rewrite Ep. reflexivity. }
  rewrite E0. reflexivity.
Qed.
(** ** The list model *)
Lemma backward_row_cell W U L df ml ir ax b : length df = length ml -> length ax = length ml -> length ir = length ml -> Forall (fun k => k < L) df ->
  backward_row (map (fun f => W f b) (seq 0 L)) (map (fun f => U f b) (seq 0 L)) df ml ir ax = Ok (map (fun j => back_cell W U L df ml ir ax j b) (seq 0 (length ml))).
Proof.
  intros L1 L2 L3 F. unfold backward_row. cbv zeta.
  rewrite (rmap_ok _ df (fun k => W k b)).
  2:{ intros k I. rewrite Forall_forall in F. apply get_ok. rewrite nth_error_map, (nth_error_nth' _ 0), seq_nth by (rewrite ?seq_length; apply F, I). reflexivity. }
  cbn [rbind]. rewrite !zip_tab, !map_map. f_equal. set (J := length ml) in *.
  assert (Q : forall (X : Type) (g : list bool -> X), map g ml = map (fun j => g (nth j ml [])) (seq 0 J)) by (intros X g; rewrite (list_tab' ml [] J eq_refl) at 1; rewrite map_map; reflexivity).
  assert (Q2 : forall (X : Type) (g : nat -> X), map g df = map (fun j => g (nth j df 0)) (seq 0 J)) by (intros X g; rewrite (list_tab' df 0 J L1) at 1; rewrite map_map; reflexivity).
  rewrite !Q, !Q2. rewrite (list_tab' ax vzero J L2) at 1 2. rewrite (list_tab' ir false J L3) at 1. rewrite !zip_tab. apply map_ext. intros j. cbn [fst snd]. unfold back_cell. cbv zeta. destruct (nth j ir false); reflexivity.
Qed.
Lemma backward_tab c B L W U ml : c_mask c = ml -> length (c_dof_frame c) = length ml -> length (c_axes c) = length ml -> length (c_dof_rev c) = length ml -> Forall (fun k => k < L) (c_dof_frame c) ->
  backward c B (tab L B W) (tab L B U) = Ok (map (fun b => map (fun j => back_cell W U L (c_dof_frame c) ml (c_dof_rev c) (c_axes c) j b) (seq 0 (length ml))) (seq 0 B)).
Proof.
  intros Em L1 L2 L3 F. unfold backward. apply rmap_ok. intros b I. apply in_seq in I. unfold tab. rewrite !rmap_map.
  assert (Q : forall X : nat -> nat -> M4, rmap (fun f => get (map (X f) (seq 0 B)) b) (seq 0 L) = Ok (map (fun f => X f b) (seq 0 L))).
  { intros X. apply rmap_ok. intros f _. apply get_ok. rewrite nth_error_map, (nth_error_nth' _ 0), seq_nth by (rewrite ?seq_length; lia). reflexivity. }
  rewrite !Q. cbn [rbind]. rewrite Em. apply backward_row_cell; assumption.
Qed.
