(** The tensor program of forward kinematics computes, at each frame and row of the batch, what [ChainModel] computes there. *)
From Coq Require Import Reals Lra Bool Arith Lia List.
From Verif Require Import Prelude ExtF Lin Trig RotModel TorchModel RotTorchModel SpecTorch SpecFkTorch TorchProofs RotTorch Tree ChainModel ChainProofs ChainInst SerialModel FkTorchModel.
Import ListNotations.
Local Open Scope nat_scope.

(** ** Tensors of matrices indexed by frame and row *)
Definition M2 (e : ten R) (B n : nat) (W : nat -> nat -> M4) : Prop :=
  exists t, e = Ok t /\ shape t = [4; 4; B; n] /\ forall f b, f < n -> b < B -> m4_at t [b; f] = W f b.
Lemma valid2 B n b f : b < B -> f < n -> valid [B; n] [b; f]. Proof. intros. repeat constructor; assumption. Qed.
Lemma valid2_inv B n i : valid [B; n] i -> exists b f, i = [b; f] /\ b < B /\ f < n.
Proof. intros V. inversion V as [|b B0 l s0 Hb V' E0]; subst. inversion V' as [|f n0 l' s0' Hf V'' E0']; subst. inversion V''; subst. eauto. Qed.
Lemma M2_t e B n f W : is_t e [4; 4; B; n] f -> (forall g b, g < n -> b < B -> m4_at (mkT [4; 4; B; n] f) [b; g] = W g b) -> M2 e B n W.
Proof.
  intros (t & E & Es & H) X. exists t. split; [exact E|]. split; [exact Es|]. intros g b L1 L2. rewrite <- (X g b L1 L2). apply (loc_m4 [B; n]); [apply valid2; assumption|]. intros i V. apply H, V.
Qed.
Lemma M2_ext e B n W W' : M2 e B n W -> (forall f b, f < n -> b < B -> W f b = W' f b) -> M2 e B n W'.
Proof. intros (t & E & Es & H) X. exists t. split; [exact E|]. split; [exact Es|]. intros. rewrite <- X by assumption. apply H; assumption. Qed.
Lemma one_or (n k : nat) : k < n -> (if n =? 1 then 0 else k) = k.
Proof. intros L. destruct (n =? 1) eqn:E; [apply Nat.eqb_eq in E; lia | reflexivity]. Qed.
Lemma M2_ent t B n W r c f b : shape t = [4; 4; B; n] -> (forall f b, f < n -> b < B -> m4_at t [b; f] = W f b) -> f < n -> b < B -> r < 4 -> c < 4 ->
  at_ t [c; r; b; f] = at_ (mkT [4; 4; B; n] (fun i => let M := W (nth 3 i 0) (nth 2 i 0) in nth (nth 0 i 0) (nth (nth 1 i 0) [[a00 M; a01 M; a02 M; a03 M]; [a10 M; a11 M; a12 M; a13 M]; [a20 M; a21 M; a22 M; a23 M]; [a30 M; a31 M; a32 M; a33 M]] []) 0%R)) [c; r; b; f].
Proof.
  intros _ H L1 L2 Lr Lc. cbn [at_ nth]. rewrite <- (H f b L1 L2). unfold m4_at. cbv zeta.
  destruct r as [|[|[|[|r]]]]; [| | | |lia]; destruct c as [|[|[|[|c]]]]; try lia; reflexivity.
Qed.
Lemma forallb_lt n l : Forall (fun k => k < n) l -> forallb (fun k => k <? n) l = true.
Proof. intros H. apply forallb_forall. intros x I. apply Nat.ltb_lt. rewrite Forall_forall in H. exact (H x I). Qed.
Lemma M2_take e B n W idx : M2 e B n W -> Forall (fun k => k < n) idx -> M2 (take 3 idx e) B (length idx) (fun k b => W (nth k idx 0) b).
Proof.
  intros (t & -> & Es & H) L. unfold take. cbn [rbind]. rewrite Es. cbn [nth_error]. rewrite (forallb_lt n idx L). eexists. split; [reflexivity|]. cbn [set_nth]. split; [reflexivity|]. intros f b Lf Lb.
  rewrite <- H by (try assumption; rewrite Forall_forall in L; apply L, nth_In, Lf). reflexivity.
Qed.
Lemma last_at_lt x l k : last_at x l = Some k -> k < length l /\ nth k l 0 = x.
Proof.
  revert k. induction l as [|y l IH]; intros k H; cbn [last_at] in H; [discriminate|]. destruct (last_at x l) as [j|].
  - injection H as <-. destruct (IH j eq_refl). cbn [length nth Nat.add]. split; [lia | assumption].
  - destruct (x =? y) eqn:E; [|discriminate]. injection H as <-. apply Nat.eqb_eq in E. cbn. split; [lia | auto].
Qed.
Lemma M2_store e v B n W V idx : M2 e B n W -> M2 v B (length idx) V -> Forall (fun k => k < n) idx ->
  M2 (store 3 idx e v) B n (fun f b => match last_at f idx with Some k => V k b | None => W f b end).
Proof.
  intros (t & -> & Es & H) (u & -> & Eu & Hu) L. unfold store. cbn [rbind]. rewrite Es, Eu. cbn [nth_error set_nth]. rewrite (forallb_lt n idx L). cbn [negb].
  rewrite fits_tog by apply tog_refl. eexists. split; [reflexivity|]. split; [reflexivity|]. intros f b Lf Lb. unfold m4_at. cbn [at_ nth]. destruct (last_at f idx) as [k|] eqn:E.
  - destruct (last_at_lt _ _ _ E) as (Lk & _). rewrite <- (Hu k b Lk Lb). cbn [set_nth bidx hd tl]. rewrite !(one_or B b Lb), !(one_or _ k Lk). reflexivity.
  - rewrite <- (H f b Lf Lb). reflexivity.
Qed.
Lemma eqM4 a b c d e f g h i j k l m n o p a' b' c' d' e' f' g' h' i' j' k' l' m' n' o' p' :
  a = a' -> b = b' -> c = c' -> d = d' -> e = e' -> f = f' -> g = g' -> h = h' -> i = i' -> j = j' -> k = k' -> l = l' -> m = m' -> n = n' -> o = o' -> p = p' ->
  mkM4 a b c d e f g h i j k l m n o p = mkM4 a' b' c' d' e' f' g' h' i' j' k' l' m' n' o' p'.
Proof. intros -> -> -> -> -> -> -> -> -> -> -> -> -> -> -> ->. reflexivity. Qed.
Lemma t_matmul_b e1 e2 n m p s1 s2 s f1 f2 : is_t e1 (n :: m :: s1) f1 -> is_t e2 (p :: n :: s2) f2 -> together s1 s2 s ->
  is_t (matmul e1 e2) (p :: m :: s) (fun i => rsum n (fun k => Rmult (f1 (k :: hd 0 (tl i) :: bidx s1 (tl (tl i)))) (f2 (hd 0 i :: k :: bidx s2 (tl (tl i)))))).
Proof.
  intros (t & -> & E1 & H1) (u & -> & E2 & H2) T. unfold matmul. cbn [rbind]. rewrite E1, E2, Nat.eqb_refl, (proj2 (bshape_tog _ _ _) T). eexists. split; [reflexivity|]. split; [reflexivity|]. intros i V. cbn [at_].
  inversion V as [|i0 n0 l s0 Hi V' E0]; subst. inversion V' as [|i1 n1 l1 s3 Hi1 V'' E1']; subst. cbn [hd tl]. apply rsum_ext. intros k L.
  rewrite H1, H2; [reflexivity | |]; (constructor; [assumption|]; constructor; [assumption|]).
  - exact (bidx_valid _ _ _ _ (tog_sym _ _ _ T) V'').
  - exact (bidx_valid _ _ _ _ T V'').
Qed.
Lemma M2_mul e1 e2 B n W1 W2 : M2 e1 B n W1 -> M2 e2 B n W2 -> M2 (matmul e1 e2) B n (fun f b => m4mul (W1 f b) (W2 f b)).
Proof.
  intros (t & -> & E1 & H1) (u & -> & E2 & H2). eapply M2_t; [eapply t_matmul; apply is_in; [exact E1 | exact E2] |]. intros f b Lf Lb. rewrite <- (H1 f b Lf Lb), <- (H2 f b Lf Lb). unfold m4_at, m4mul.
  cbn [at_ hd tl a00 a01 a02 a03 a10 a11 a12 a13 a20 a21 a22 a23 a30 a31 a32 a33]. apply eqM4; apply rsum4.
Qed.
Lemma M2_static st e B n W S0 : shape st = [4; 4; n] -> (forall f, f < n -> m4_at st [f] = S0 f) -> M2 e B n W ->
  M2 (matmul (unsq 2 (Ok st)) e) B n (fun f b => m4mul (S0 f) (W f b)).
Proof.
  intros E1 H1 (u & -> & E2 & H2). assert (U : is_t (unsq 2 (Ok st)) [4; 4; 1; n] (fun i => at_ st (del 2 i))).
  { unfold unsq. cbn [rbind]. rewrite E1. eexists. split; [reflexivity|]. split; reflexivity. }
  eapply M2_t; [eapply t_matmul_b; [exact U | apply is_in, E2 | apply tg_one_l, tog_refl] |]. intros f b Lf Lb. rewrite <- (H1 f Lf), <- (H2 f b Lf Lb). unfold m4_at, m4mul, del.
  cbn [at_ hd tl bidx Nat.eqb firstn skipn app Nat.add a00 a01 a02 a03 a10 a11 a12 a13 a20 a21 a22 a23 a30 a31 a32 a33]. rewrite !(one_or B b Lb), !(one_or n f Lf). apply eqM4; apply rsum4.
Qed.
Lemma t_flag4 {X} (g : nat -> X) (l : list nat) : is_t (reshape [1; 1; 1; length l] (op1 g (vec 0 l))) [1; 1; 1; length l] (fun i => g (nth (nth 3 i 0) l 0)).
Proof.
  unfold reshape, op1, vec. cbn [rbind shape prod at_]. match goal with |- context [if ?c then _ else _] => assert (Q : c = true) by (apply Nat.eqb_eq; lia); rewrite Q; clear Q end. eexists. split; [reflexivity|]. split; [reflexivity|]. intros i V.
  inversion V as [|i0 n0 l0 s0 H0 V1 E0]; subst. inversion V1 as [|i1 n1 l1 s1 H1 V2 E1]; subst. inversion V2 as [|i2 n2 l2 s2 H2 V3 E2]; subst. inversion V3 as [|i3 n3 l3 s3 H3 V4 E3]; subst. inversion V4; subst.
  cbn [at_ ravel unravel hd tl nth]. replace (i0 + 1 * (i1 + 1 * (i2 + 1 * (i3 + length l * 0)))) with i3 by lia. rewrite Nat.mod_small by assumption. reflexivity.
Qed.
Lemma M2_where (g : nat -> bool) l e1 e2 B W1 W2 : M2 e1 B (length l) W1 -> M2 e2 B (length l) W2 ->
  M2 (where_ (reshape [1; 1; 1; length l] (op1 g (vec 0 l))) e1 e2) B (length l) (fun f b => if g (nth f l 0) then W1 f b else W2 f b).
Proof.
  intros (t & -> & E1 & H1) (u & -> & E2 & H2). unfold where_.
  eapply M2_t; [eapply t_op2; [apply t_flag4 | eapply t_op2_same; apply is_in; [exact E1 | exact E2] | apply tg_one_l, tg_one_l, tg_one_l, tg_same, tg_left] |].
  intros f b Lf Lb. cbn [length] in *. rewrite <- (H1 f b Lf Lb), <- (H2 f b Lf Lb). unfold m4_at. cbn [at_ bidx hd tl Nat.eqb nth fst snd]. rewrite !(one_or B b Lb), !(one_or _ f Lf). destruct (g (nth f l 0)); reflexivity.
Qed.
Lemma M2_eye B n : M2 (expand [4; 4; B; n] (reshape [4; 4; 1; 1] (eyes []))) B n (fun _ _ => I4).
Proof.
  unfold reshape, eyes. cbn [rbind shape prod Nat.mul Nat.add Nat.eqb].
  eapply M2_t; [eapply t_expand; [apply is_in; reflexivity | apply tg_same, tg_same, tg_one_l, tg_one_l, tg_left] |]. intros f b _ _. unfold m4_at. cbv [at_ bidx hd tl Nat.eqb ravel unravel Nat.add Nat.mul Nat.modulo Nat.div Nat.divmod fst snd Nat.sub]. reflexivity.
Qed.
Lemma M2_empty B n junk : M2 (Ok (mkT [4; 4; B; n] junk)) B n (fun f b => m4_at (mkT [4; 4; B; n] junk) [b; f]).
Proof. eexists. split; [reflexivity|]. split; reflexivity. Qed.
(** (B, n) to (n, B) *)
Lemma M2_perm t B n W jidx : shape t = [4; 4; n; B] -> (forall b j, b < B -> j < n -> m4_at t [j; b] = W j b) -> Forall (fun k => k < n) jidx ->
  M2 (permute [0; 1; 3; 2] (take 2 jidx (Ok t))) B (length jidx) (fun f b => W (nth f jidx 0) b).
Proof.
  intros E H L. unfold take. cbn [rbind]. rewrite E. cbn [nth_error]. rewrite (forallb_lt n jidx L). cbn [set_nth]. unfold permute. cbn [rbind shape length Nat.eqb map nth seq].
  eexists. split; [reflexivity|]. split; [reflexivity|]. intros f b Lf Lb. rewrite <- H by (try assumption; rewrite Forall_forall in L; apply L, nth_In, Lf). reflexivity.
Qed.

(** ** The list model on tables *)
Definition tab (n B : nat) (W : nat -> nat -> M4) : list (list M4) := map (fun f => map (W f) (seq 0 B)) (seq 0 n).
Lemma list_tab {X} (l : list X) d : l = map (fun k => nth k l d) (seq 0 (length l)).
Proof.
  apply (nth_ext _ _ d ((fun k => nth k l d) 0)); [rewrite map_length, seq_length; reflexivity|]. intros k L. pose proof (map_nth (fun k => nth k l d) (seq 0 (length l)) 0 k) as Q. cbv beta in Q. rewrite Q, seq_nth by exact L. reflexivity.
Qed.
Lemma list_tab' {X} (l : list X) d n : length l = n -> l = map (fun k => nth k l d) (seq 0 n). Proof. intros <-. apply list_tab. Qed.
Lemma zip_tab {X Y Z} (g : X -> Y -> Z) f1 f2 (l : list nat) : zip_with g (map f1 l) (map f2 l) = map (fun k => g (f1 k) (f2 k)) l.
Proof. induction l as [|k l IH]; cbn; [reflexivity|]. rewrite IH. reflexivity. Qed.
Lemma where_tab mask n B W1 W2 : length mask = n -> where_frames mask (tab n B W1) (tab n B W2) = tab n B (fun f b => if nth f mask false then W1 f b else W2 f b).
Proof.
  intros E. unfold where_frames, tab. rewrite (list_tab' mask false n E) at 1. rewrite !zip_tab. apply map_ext. intros f. cbn [fst snd]. destruct (nth f mask false); reflexivity.
Qed.
Lemma static_tab (st : list M4) n B W : length st = n -> zip_with (fun so row => map (m4mul so) row) st (tab n B W) = tab n B (fun f b => m4mul (nth f st I4) (W f b)).
Proof. intros E. unfold tab. rewrite (list_tab' st I4 n E) at 1. rewrite zip_tab. apply map_ext. intros f. rewrite map_map. reflexivity. Qed.
Lemma repeat_tab n B : repeat (repeat I4 B) n = tab n B (fun _ _ => I4).
Proof.
  unfold tab. assert (R0 : forall (X : Type) (x : X) m s, repeat x m = map (fun _ => x) (seq s m)) by (intros X x; induction m as [|m IH]; intros s; cbn; [reflexivity | rewrite <- IH; reflexivity]).
  rewrite (R0 _ _ n 0). apply map_ext. intros _. apply R0.
Qed.
Definition pickc (n cols j : nat) : nat := if cols =? n then j else 0.
Lemma joint_row_tab (motion : V3 -> R -> M4) (ax : list V3) n cols (x : nat -> R) l : length ax = n -> joint_row motion ax (map x (seq 0 cols)) = Ok l ->
  (cols = n \/ cols = 1) /\ l = map (fun j => motion (nth j ax vzero) (x (pickc n cols j))) (seq 0 n).
Proof.
  intros E H. unfold joint_row, pickc in *. rewrite map_length, seq_length, E in H. destruct (cols =? n) eqn:C.
  - apply Nat.eqb_eq in C. subst cols. injection H as <-. split; [left; reflexivity|]. rewrite (list_tab' ax vzero n E) at 1. apply zip_tab.
  - destruct cols as [|[|cols]]; cbn [seq map] in H; try discriminate. injection H as <-. split; [right; reflexivity|]. rewrite (list_tab' ax vzero n E) at 1. rewrite map_map. reflexivity.
Qed.
Lemma joint_row_ok (motion : V3 -> R -> M4) (ax : list V3) n cols (x : nat -> R) : length ax = n -> cols = n \/ cols = 1 ->
  joint_row motion ax (map x (seq 0 cols)) = Ok (map (fun j => motion (nth j ax vzero) (x (pickc n cols j))) (seq 0 n)).
Proof.
  intros E H. unfold joint_row, pickc. rewrite map_length, seq_length, E. destruct (cols =? n) eqn:C.
  - apply Nat.eqb_eq in C. subst cols. f_equal. rewrite (list_tab' ax vzero n E) at 1. apply zip_tab.
  - destruct H as [-> | ->]; [rewrite Nat.eqb_refl in C; discriminate|]. cbn [seq map]. f_equal. rewrite (list_tab' ax vzero n E) at 1. rewrite map_map. reflexivity.
Qed.
Lemma rmap_map {X Y Z} (g : Y -> res Z) (f : X -> Y) l : rmap g (map f l) = rmap (fun x => g (f x)) l.
Proof. induction l as [|x l IH]; cbn; [reflexivity|]. rewrite IH. reflexivity. Qed.
Definition moved (motion : V3 -> R -> M4) (ax : list V3) (th : tensor R) (n cols : nat) (jidx : list nat) (f b : nat) : M4 :=
  motion (nth (nth f jidx 0) ax vzero) (at_ th [pickc n cols (nth f jidx 0); b]).
Lemma per_frame_tab (motion : V3 -> R -> M4) (ax : list V3) th n cols B jidx : length ax = n -> Forall (fun k => k < n) jidx -> cols = n \/ cols = 1 ->
  per_frame motion ax jidx (rows_of th cols B) = Ok (tab (length jidx) B (moved motion ax th n cols jidx)).
Proof.
  intros E L C. unfold per_frame, rows_of. cbn [th_rows]. rewrite rmap_map.
  rewrite (rmap_ok _ _ (fun b => map (fun j => motion (nth j ax vzero) (at_ th [pickc n cols j; b])) (seq 0 n))) by (intros b _; apply (joint_row_ok motion ax n cols (fun j => at_ th [j; b]) E C)).
  cbn [rbind]. rewrite (rmap_ok _ _ (fun k => map (fun b => motion (nth k ax vzero) (at_ th [pickc n cols k; b])) (seq 0 B))).
  - f_equal. unfold tab. rewrite (list_tab jidx 0) at 1. rewrite map_map. reflexivity.
  - intros k I. rewrite rmap_map. rewrite Forall_forall in L. apply rmap_ok. intros b _. apply get_ok. rewrite nth_error_map. rewrite (nth_error_nth' _ 0) by (rewrite seq_length; apply L, I). rewrite seq_nth by (apply L, I). reflexivity.
Qed.
Lemma per_frame_cols (motion : V3 -> R -> M4) (ax : list V3) th n cols B jidx l : length ax = n -> 0 < B -> per_frame motion ax jidx (rows_of th cols B) = Ok l -> cols = n \/ cols = 1.
Proof.
  intros E L H. unfold per_frame, rows_of in H. cbn [th_rows] in H. apply rbind_ok in H as (tr & H & _). destruct B as [|B]; [lia|]. cbn [seq map rmap] in H. apply rbind_ok in H as (r & H & _).
  exact (proj1 (joint_row_tab _ ax n cols _ _ E H)).
Qed.
Definition rowlaw (mt : ten R -> ten R -> ten R) (m : V3 -> R -> M4) : Prop :=
  forall t u A B, shape t = 3 :: A -> shape u = B -> together A B A -> rowwise2 m4_at [4; 4] A B A (mt (Ok t) (Ok u)) (fun a b => m (v_at t a) (at_ u b)).
Lemma axes_exp axes n B : shape axes = [3; n] -> exists t, expand [3; n; B] (unsq 2 (Ok axes)) = Ok t /\ shape t = [3; n; B] /\ forall j b, j < n -> b < B -> v_at t [j; b] = v_at axes [j].
Proof.
  intros E. assert (U : is_t (unsq 2 (Ok axes)) [3; n; 1] (fun i => at_ axes (del 2 i))).
  { unfold unsq. cbn [rbind]. rewrite E. eexists. split; [reflexivity|]. split; reflexivity. }
  destruct (t_expand _ _ [3; n; B] _ U) as (t & Et & St & Ht); [apply tg_same, tg_same, tg_one_l, tg_left|]. exists t. split; [exact Et|]. split; [exact St|]. intros j b Lj Lb.
  unfold v_at. cbv zeta. rewrite !Ht by (repeat constructor; assumption). unfold del. cbn [bidx hd tl Nat.eqb firstn skipn app Nat.add]. rewrite (one_or n j Lj). reflexivity.
Qed.
Lemma per_frame_M2 mt m (axes th : tensor R) (ax : list V3) n cols B jidx : rowlaw mt m -> shape axes = [3; n] -> (forall j, j < n -> v_at axes [j] = nth j ax vzero) -> shape th = [cols; B] ->
  Forall (fun k => k < n) jidx -> cols = n \/ cols = 1 -> 0 < cols -> exists e, per_frame_t mt axes th n cols B jidx true = Some e /\ M2 e B (length jidx) (moved m ax th n cols jidx).
Proof.
  intros Hm E1 H1 E2 L C P. unfold per_frame_t. rewrite (proj2 (Nat.ltb_lt 0 cols) P). cbn [andb]. eexists. split; [reflexivity|]. destruct (axes_exp axes n B E1) as (t & -> & St & Ht).
  assert (T : together [n; B] [cols; B] [n; B]) by (destruct C as [-> | ->]; [apply tog_refl | apply tg_one_r, tog_refl]).
  destruct (Hm t th [n; B] [cols; B] St E2 T) as (w & -> & Sw & Hw).
  eapply M2_ext; [apply (M2_perm w B n (fun j b => m (nth j ax vzero) (at_ th [pickc n cols j; b])) jidx Sw) |].
  - intros b j Lb Lj. assert (V : valid [n; B] [j; b]) by (apply valid2; assumption). rewrite (Hw [j; b] _ _ V (reads_bidx _ _ _ _ T V) (reads_bidx _ _ _ _ (tog_sym _ _ _ T) V)). rewrite (bidx_id _ _ V), Ht, H1 by assumption.
    f_equal. f_equal. cbn [bidx hd tl]. rewrite (one_or B b Lb). f_equal. unfold pickc. destruct C as [-> | ->].
    + rewrite Nat.eqb_refl. apply one_or, Lj.
    + cbn [Nat.eqb]. destruct n as [|[|n]]; [lia | lia | reflexivity].
  - exact L.
  - reflexivity.
Qed.
Lemma law_44 : rowlaw axis_and_angle_to_matrix_44_t axis_and_angle_to_matrix_44. Proof. exact row_44. Qed.
Lemma law_pris : rowlaw axis_and_d_to_pris_matrix_t axis_and_d_to_pris_matrix. Proof. exact row_pris. Qed.

Section Sim.
Variables (th static axes : tensor R) (st : list M4) (ax : list V3) (jidx jtypes : list nat) (dpar : list (option nat)) (hr hp : bool) (nf n cols B : nat).
Hypothesis Eth : shape th = [cols; B].
Hypothesis Eax : shape axes = [3; n].
Hypothesis Lax : length ax = n.
Hypothesis Hax : forall j, j < n -> v_at axes [j] = nth j ax vzero.
Hypothesis Est : shape static = [4; 4; nf].
Hypothesis Lst : length st = nf.
Hypothesis Hst : forall f, f < nf -> m4_at static [f] = nth f st I4.
Hypothesis Lj : length jidx = nf.
Hypothesis Lt : length jtypes = nf.
Hypothesis Bj : hr || hp = true -> Forall (fun k => k < n) jidx.
Hypothesis PB : 0 < B \/ cols = n.

Lemma flag_nth (g : nat -> bool) f : nth f (map g jtypes) (g 0) = g (nth f jtypes 0). Proof. apply map_nth. Qed.
Lemma jt_sim jt : joint_transforms mops (rows_of th cols B) jidx jtypes ax hr hp nf = Ok jt ->
  exists W, jt = tab nf B W /\ M2 (joint_transforms_t th axes n cols B jidx jtypes hr hp nf) B nf W.
Proof.
  intros H. unfold joint_transforms in H. cbn [th_rows th_cols rows_of] in H. rewrite !map_length, !seq_length in H. change (mkTh cols _) with (rows_of th cols B) in H. cbn [t_one t_rev t_pris mops] in H. rewrite repeat_tab in H. unfold joint_transforms_t.
  assert (WH : forall g W1 W2, (forall k, g k = Nat.eqb 1 k) \/ (forall k, g k = Nat.eqb 2 k) -> where_frames (map g jtypes) (tab nf B W1) (tab nf B W2) = tab nf B (fun f b => if g (nth f jtypes 0) then W1 f b else W2 f b)).
  { intros g W1 W2 G. assert (G0 : g 0 = false) by (destruct G as [G | G]; rewrite G; reflexivity). rewrite (where_tab _ nf) by (rewrite map_length; exact Lt). unfold tab. apply map_ext. intros f. apply map_ext. intros b. rewrite <- G0, flag_nth. reflexivity. }
  assert (FR : forall (m : V3 -> R -> M4) mt, rowlaw mt m -> hr || hp = true -> (0 <? cols) = true -> forall x, per_frame m ax jidx (rows_of th cols B) = Ok x ->
    x = tab nf B (moved m ax th n cols jidx) /\ exists e, per_frame_t mt axes th n cols B jidx true = Some e /\ M2 e B nf (moved m ax th n cols jidx)).
  { intros m mt Lw HH P x Hx. apply Nat.ltb_lt in P. assert (C : cols = n \/ cols = 1) by (destruct PB as [PB' | PB']; [exact (per_frame_cols _ _ _ _ _ _ _ _ Lax PB' Hx) | left; exact PB']).
    rewrite (per_frame_tab m ax th n cols B jidx Lax (Bj HH) C) in Hx. rewrite Lj in Hx. split; [congruence|]. rewrite <- Lj. exact (per_frame_M2 mt m axes th ax n cols B jidx Lw Eax Hax Eth (Bj HH) C P). }
  destruct hr, hp; cbn [andb negb orb] in H, FR |- *; rewrite ?andb_true_r, ?andb_false_r in H.
  - destruct (0 <? cols) eqn:P; [|discriminate]. apply rbind_ok in H as (r & H1 & H). apply rbind_ok in H1 as (x & Hx & H1). injection H1 as <-. apply rbind_ok in H as (p & H2 & H). apply rbind_ok in H2 as (y & Hy & H2). injection H2 as <-.
    cbn [of_opt rbind] in H. destruct (FR _ _ law_44 eq_refl eq_refl x Hx) as (-> & e1 & -> & M1). destruct (FR _ _ law_pris eq_refl eq_refl y Hy) as (-> & e2 & -> & N1).
    rewrite (WH (Nat.eqb 1)), (WH (Nat.eqb 2)) in H by auto. injection H as <-. eexists. split; [reflexivity|]. cbn [after bound].
    destruct M1 as (t1 & -> & S1 & T1). destruct N1 as (t2 & -> & S2 & T2). cbn [after rbind]. rewrite <- Lt in S1, S2, T1, T2 |- *. apply M2_where; [exists t2; auto|]. apply M2_where; [exists t1; auto | apply M2_eye].
  - destruct (0 <? cols) eqn:P; [|discriminate]. apply rbind_ok in H as (r & H1 & H). apply rbind_ok in H1 as (x & Hx & H1). injection H1 as <-.
    cbn [of_opt rbind] in H. destruct (FR _ _ law_44 eq_refl eq_refl x Hx) as (-> & e1 & -> & M1).
    rewrite (WH (Nat.eqb 1)) in H by auto. injection H as <-. eexists. split; [reflexivity|]. unfold per_frame_t. rewrite andb_false_r. cbn [after bound].
    destruct M1 as (t1 & -> & S1 & T1). cbn [rbind]. rewrite <- Lt in S1, T1 |- *. apply M2_where; [exists t1; auto | apply M2_eye].
  - destruct (0 <? cols) eqn:P; [|discriminate]. cbn [rbind] in H. apply rbind_ok in H as (r & H1 & H). apply rbind_ok in H1 as (x & Hx & H1). injection H1 as <-.
    cbn [of_opt rbind] in H. destruct (FR _ _ law_pris eq_refl eq_refl x Hx) as (-> & e1 & -> & M1).
    rewrite (WH (Nat.eqb 2)) in H by auto. injection H as <-. eexists. split; [reflexivity|]. unfold per_frame_t. rewrite andb_false_r. cbn [after bound].
    destruct M1 as (t1 & -> & S1 & T1). cbn [rbind]. rewrite <- Lt in S1, T1 |- *. apply M2_where; [exists t1; auto | apply M2_eye].
  - cbn [rbind] in H. injection H as <-. eexists. split; [reflexivity|]. unfold per_frame_t. rewrite andb_false_r. cbn [after]. apply M2_eye.
Qed.

(** arrays with slots not yet written *)
Definition agrees (arr : list (option (list M4))) (W : nat -> nat -> M4) : Prop :=
  length arr = nf /\ forall f ws, nth_error arr f = Some (Some ws) -> ws = map (W f) (seq 0 B).
Lemma scatter_last {X} l : forall (vals : list X) arr f, length vals = length l -> f < length arr ->
  nth_error (scatter l vals arr) f = match last_at f l with Some k => option_map Some (nth_error vals k) | None => nth_error arr f end.
Proof.
  induction l as [|i l IH]; intros vals arr f E L; [destruct vals; reflexivity|]. destruct vals as [|v vals]; [discriminate|]. cbn [scatter last_at]. assert (SL : forall (a : list (option X)) j w, length (set_nth j w a) = length a) by (clear; induction a as [|a0 a IHa]; intros [|j] w; cbn; auto).
  rewrite IH by (try (cbn in E; lia); rewrite SL; exact L). destruct (last_at f l) as [k|]; [reflexivity|]. clear - L. destruct (f =? i) eqn:Q.
  - apply Nat.eqb_eq in Q. subst i. cbn [nth_error option_map]. revert arr L. induction f as [|f IH]; intros [|a arr] L; cbn in *; try lia; [reflexivity | apply IH; lia].
  - apply Nat.eqb_neq in Q. revert arr i Q L. induction f as [|f IH]; intros [|a arr] [|i] Q L; cbn in *; try lia; try reflexivity. apply IH; lia.
Qed.
Lemma rmap_get_lt {X} (l : list X) idx vals : rmap (get l) idx = Ok vals -> Forall (fun k => k < length l) idx.
Proof.
  revert vals. induction idx as [|i idx IH]; intros vals H; cbn [rmap] in H; [constructor|]. apply rbind_ok in H as (x & Hx & H). apply rbind_ok in H as (xs & Hxs & _). constructor; [|exact (IH xs Hxs)]. apply get_ok in Hx. apply nth_error_Some. congruence.
Qed.
Lemma tab_nth W f : f < nf -> nth_error (tab nf B W) f = Some (map (W f) (seq 0 B)).
Proof. intros L. unfold tab. rewrite nth_error_map, (nth_error_nth' _ 0), seq_nth by (rewrite ?seq_length; exact L). reflexivity. Qed.
Lemma tab_len W : length (tab nf B W) = nf. Proof. unfold tab. rewrite map_length, seq_length. reflexivity. Qed.

Lemma levels_sim (local : ten R) Lo levels : M2 local B nf Lo -> forall arr arr' T W, agrees arr W -> M2 T B nf W -> fk_levels mops dpar (tab nf B Lo) arr levels = Ok arr' ->
  exists W', agrees arr' W' /\ M2 (levels_t nf dpar local T levels) B nf W'.
Proof.
  intros ML. induction levels as [|l r IH]; intros arr arr' T W (La & Ha) MT H; cbn [fk_levels levels_t] in H |- *.
  - injection H as <-. exists W. split; [split; assumption | exact MT].
  - apply rbind_ok in H as (arr1 & H1 & H). unfold fk_level in H1. apply rbind_ok in H1 as (vals & Hv & H1). injection H1 as <-.
    assert (P : forall k i, nth_error l k = Some i -> i < nf /\ parent_index nf dpar i < nf /\ nth_error vals k = Some (map (fun b => m4mul (W (parent_index nf dpar i) b) (Lo i b)) (seq 0 B))).
    { intros k i Hk. destruct (rmap_nth _ _ _ _ _ Hv Hk) as (v & Hvk & Hf). apply rbind_ok in Hf as (par & Hpar & Hf). apply rbind_ok in Hf as (p & Hp & Hf). apply rbind_ok in Hf as (tp & Htp & Hf). apply rbind_ok in Hf as (lo & Hlo & Hf). injection Hf as <-.
      destruct par as [p'|]; cbn [of_opt] in Hp; [injection Hp as ->|discriminate]. apply get_ok in Hpar. unfold parent_index. rewrite (nth_error_nth _ _ None Hpar). unfold read_slot in Htp. apply rbind_ok in Htp as (o & Ho & Htp). apply get_ok in Ho. destruct o as [w|]; cbn [of_opt] in Htp; [injection Htp as ->|discriminate].
      apply get_ok in Hlo. assert (Li : i < nf) by (rewrite <- (tab_len Lo); apply nth_error_Some; congruence). rewrite (tab_nth Lo i Li) in Hlo. injection Hlo as <-. rewrite (Ha p tp Ho) in Hvk.
      split; [exact Li|]. split; [rewrite <- La; apply nth_error_Some; congruence|]. rewrite zip_tab in Hvk. exact Hvk. }
    assert (F1 : Forall (fun k => k < nf) l) by (apply Forall_forall; intros i I; apply In_nth_error in I as (k & Hk); exact (proj1 (P k i Hk))).
    assert (F2 : Forall (fun k => k < nf) (map (parent_index nf dpar) l)) by (apply Forall_forall; intros i I; apply in_map_iff in I as (i0 & <- & I); apply In_nth_error in I as (k & Hk); exact (proj1 (proj2 (P k i0 Hk)))).
    assert (Lv : length vals = length l) by exact (rmap_length _ _ _ Hv).
    eapply IH; [| | exact H].
    2:{ apply M2_store; [exact MT | | exact F1]. apply M2_mul; [| eapply M2_take; [exact ML | exact F1]]. rewrite <- (map_length (parent_index nf dpar) l). eapply M2_take; [exact MT | exact F2]. }
    split; [rewrite scatter_length; exact La|]. intros f ws Hf. assert (Lf : f < length arr) by (rewrite <- (scatter_length l vals arr); apply nth_error_Some; congruence). rewrite scatter_last in Hf by assumption.
    destruct (last_at f l) as [k|] eqn:Q; [|exact (Ha f ws Hf)]. destruct (last_at_lt _ _ _ Q) as (Lk & Ek). assert (Hk : nth_error l k = Some f) by (rewrite <- Ek; apply nth_error_nth'; exact Lk).
    destruct (P k f Hk) as (_ & _ & Hvk). rewrite Hvk in Hf. cbn [option_map] in Hf. injection Hf as <-. apply map_ext. intros b. rewrite Ek. pose proof (map_nth (parent_index nf dpar) l 0 k) as Q1.
    rewrite (nth_indep _ 0 (parent_index nf dpar 0)) by (rewrite map_length; exact Lk). rewrite Q1, Ek. reflexivity.
Qed.
Lemma fk_sim junk levels arr : fk_impl mops (rows_of th cols B) st jidx jtypes dpar levels ax hr hp nf = Ok arr ->
  exists W, agrees arr W /\ M2 (fk_impl_t junk th static jidx jtypes dpar levels axes hr hp nf) B nf W.
Proof.
  intros H. unfold fk_impl in H. apply rbind_ok in H as (jt & Hj & H). destruct (jt_sim jt Hj) as (W & -> & MW). cbn [t_mul mops] in H. rewrite (static_tab st nf B W Lst) in H. unfold fk_impl_t. rewrite Eth, Eax.
  destruct MW as (j & -> & Sj & Hjt). cbn [rbind]. assert (ML : M2 (matmul (unsq 2 (Ok static)) (Ok j)) B nf (fun f b => m4mul (nth f st I4) (W f b))) by (apply (M2_static static (Ok j) B nf W _ Est Hst); exists j; auto).
  destruct ML as (lo & -> & Sl & Hl). cbn [rbind]. assert (ML : M2 (Ok lo) B nf (fun f b => m4mul (nth f st I4) (W f b))) by (exists lo; auto). destruct levels as [|l0 rest]; [discriminate|]. cbn [get nth_error of_opt rbind tl] in H. apply rbind_ok in H as (v0 & Hv & H).
  pose proof (rmap_get_lt _ _ _ Hv) as F. rewrite tab_len in F. eapply (levels_sim _ _ _ ML); [| apply M2_store; [apply M2_empty | eapply M2_take; [exact ML | exact F] | exact F] | exact H].
  split; [rewrite scatter_length, repeat_length; reflexivity|]. intros f ws Hf. assert (Lf : f < length (repeat (@None (list M4)) nf)) by (rewrite <- (scatter_length l0 v0); apply nth_error_Some; congruence).
  rewrite scatter_last in Hf by (try exact Lf; exact (rmap_length _ _ _ Hv)). rewrite repeat_length in Lf. destruct (last_at f l0) as [k|] eqn:Q.
  - destruct (last_at_lt _ _ _ Q) as (Lk & Ek). assert (Hk : nth_error l0 k = Some f) by (rewrite <- Ek; apply nth_error_nth'; exact Lk). destruct (rmap_nth _ _ _ _ _ Hv Hk) as (y & Hy & Hg). rewrite Hy in Hf. cbn [option_map] in Hf. injection Hf as <-. apply get_ok in Hg. rewrite tab_nth in Hg by exact Lf. injection Hg as <-. rewrite Ek. reflexivity.
  - rewrite nth_error_repeat in Hf by exact Lf. discriminate.
Qed.
End Sim.
