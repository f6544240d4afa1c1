(** Forward kinematics commutes with maps of its operations; the backward pass over expressions is the derivative. *)
From Coq Require Import Reals Lra Bool Arith Lia List.
From Coquelicot Require Import Coquelicot.
From Verif Require Import Prelude ChainModel Lin RotModel ChainInst BackProofs AutoModel SpecAuto.
Import ListNotations.
Local Open Scope R_scope.

(** ** lists and results *)
Lemma lift_bind {A B C} (f : B -> C) (r : res A) (k : A -> res B) : lift f (rbind r k) = rbind r (fun a => lift f (k a)).
Proof. destruct r; reflexivity. Qed.
Lemma bind_lift {A B C} (f : A -> B) (r : res A) (k : B -> res C) : rbind (lift f r) k = rbind r (fun a => k (f a)).
Proof. destruct r; reflexivity. Qed.
Lemma bind_ext {A B} (r : res A) (k k' : A -> res B) : (forall a, k a = k' a) -> rbind r k = rbind r k'.
Proof. intros H. destruct r; [apply H | reflexivity]. Qed.
Lemma rmap_map {A B C} (f : B -> res C) (g : A -> B) l : rmap f (map g l) = rmap (fun a => f (g a)) l.
Proof. induction l as [|a l IH]; [reflexivity|]. cbn [map rmap]. rewrite IH. reflexivity. Qed.
Lemma rmap_lift {A B C} (f : A -> res B) (g : B -> C) l : rmap (fun a => lift g (f a)) l = lift (map g) (rmap f l).
Proof.
  induction l as [|a l IH]; [reflexivity|]. cbn [rmap]. rewrite IH. destruct (f a); [|reflexivity]. cbn [lift rbind]. destruct (rmap f l); reflexivity.
Qed.
Lemma rmap_ext {A B} (f g : A -> res B) l : (forall a, f a = g a) -> rmap f l = rmap g l.
Proof. intros H. induction l as [|a l IH]; [reflexivity|]. cbn [rmap]. rewrite H, IH. reflexivity. Qed.
Lemma get_lift {A B} (f : A -> B) l i : get (map f l) i = lift f (get l i).
Proof. unfold get. rewrite nth_error_map. destruct (nth_error l i); reflexivity. Qed.
Lemma zip_map2 {A B C A' B' C'} (f : A -> B -> C) (f' : A' -> B' -> C') (a : A -> A') (b : B -> B') (c : C -> C') l1 l2 :
  (forall x y, f' (a x) (b y) = c (f x y)) -> zip_with f' (map a l1) (map b l2) = map c (zip_with f l1 l2).
Proof. intros H. revert l2. induction l1 as [|x l1 IH]; intros [|y l2]; try reflexivity. cbn [map zip_with]. rewrite H, IH. reflexivity. Qed.
Lemma map_repeat {A B} (f : A -> B) a n : map f (repeat a n) = repeat (f a) n.
Proof. induction n; [reflexivity|]. cbn [repeat map]. rewrite IHn. reflexivity. Qed.
Lemma set_nth_map {A B} (f : A -> B) i v l : set_nth i (f v) (map f l) = map f (set_nth i v l).
Proof. revert i. induction l as [|a l IH]; intros [|i]; try reflexivity. cbn [map set_nth]. rewrite IH. reflexivity. Qed.

(** ** [fk_impl] and a homomorphism of its operations *)
Section Hom.
Context {T A S T' A' S' : Type} (O : Ops T A S) (O' : Ops T' A' S') (h : T -> T') (ha : A -> A') (hs : S -> S').
Hypothesis Hmul : forall a b, t_mul O' (h a) (h b) = h (t_mul O a b).
Hypothesis Hone : t_one O' = h (t_one O).
Hypothesis Hrev : forall k q, t_rev O' (ha k) (hs q) = h (t_rev O k q).
Hypothesis Hpris : forall k q, t_pris O' (ha k) (hs q) = h (t_pris O k q).
Let hth (th : thT S) : thT S' := mkTh (th_cols th) (map (map hs) (th_rows th)).

Lemma joint_row_hom m m' axes row : (forall k q, m' (ha k) (hs q) = h (m k q)) ->
  joint_row m' (map ha axes) (map hs row) = lift (map h) (joint_row m axes row).
Proof.
  intros H. unfold joint_row. rewrite !map_length. destruct (Nat.eqb (length row) (length axes)).
  - cbn [lift]. rewrite (zip_map2 m m' ha hs h axes row H). reflexivity.
  - destruct row as [|q [|q' row]]; try reflexivity. cbn [map lift]. rewrite !map_map. f_equal. apply map_ext. intros k. apply H.
Qed.
Lemma per_frame_hom m m' axes jidx th : (forall k q, m' (ha k) (hs q) = h (m k q)) ->
  per_frame m' (map ha axes) jidx (hth th) = lift (map (map h)) (per_frame m axes jidx th).
Proof.
  intros H. unfold per_frame, hth. cbn [th_rows]. rewrite rmap_map, (rmap_ext _ (fun row => lift (map h) (joint_row m axes row)) _ (fun row => joint_row_hom m m' axes row H)), rmap_lift, bind_lift, lift_bind.
  apply bind_ext. intros tr. rewrite <- rmap_lift. apply rmap_ext. intros k. rewrite rmap_map, <- rmap_lift. apply rmap_ext. intros row. apply get_lift.
Qed.
Lemma where_hom mask x y : where_frames mask (map (map h) x) (map (map h) y) = map (map h) (where_frames mask x y).
Proof.
  unfold where_frames. rewrite (zip_map2 pair pair (map h) (map h) (fun p => (map h (fst p), map h (snd p)))) by reflexivity.
  rewrite <- (map_id mask) at 1. apply zip_map2. intros [] [a b]; reflexivity.
Qed.
Lemma opt_hom {B} (b : bool) (r : res B) {B'} (f : B -> B') r' : r' = lift f r ->
  (if b then do x <- r'; Ok (Some x) else Ok None) = lift (option_map f) (if b then do x <- r; Ok (Some x) else Ok None).
Proof. intros ->. destruct b; [|reflexivity]. destruct r; reflexivity. Qed.
Lemma of_opt_hom {B B'} (f : B -> B') e o : of_opt e (option_map f o) = lift f (of_opt e o).
Proof. destruct o; reflexivity. Qed.
Lemma joint_transforms_hom th jidx jtypes axes hr hp nf :
  joint_transforms O' (hth th) jidx jtypes (map ha axes) hr hp nf = lift (map (map h)) (joint_transforms O th jidx jtypes axes hr hp nf).
Proof.
  unfold joint_transforms. rewrite (opt_hom _ _ (map (map h)) _ (per_frame_hom (t_rev O) (t_rev O') axes jidx th Hrev)), (opt_hom _ _ (map (map h)) _ (per_frame_hom (t_pris O) (t_pris O') axes jidx th Hpris)).
  cbn [th_cols hth]. rewrite bind_lift, lift_bind. apply bind_ext. intros rev. rewrite bind_lift, lift_bind. apply bind_ext. intros pris.
  assert (E : repeat (repeat (t_one O') (length (th_rows (hth th)))) nf = map (map h) (repeat (repeat (t_one O) (length (th_rows th))) nf)).
  { rewrite !map_repeat, Hone. unfold hth. cbn [th_rows]. rewrite map_length. reflexivity. }
  rewrite E. rewrite !of_opt_hom. destruct hr, hp; cbn [andb negb]; rewrite ?bind_lift, ?lift_bind; try reflexivity; apply bind_ext; intros r; cbn [lift];
    rewrite ?bind_lift, ?lift_bind, ?where_hom; try reflexivity. apply bind_ext. intros p. cbn [lift]. rewrite !where_hom. reflexivity.
Qed.
Lemma scatter_hom {X Y} (f : X -> Y) idxs vals arr : scatter idxs (map f vals) (map (option_map f) arr) = map (option_map f) (scatter idxs vals arr).
Proof.
  revert vals arr. induction idxs as [|i idxs IH]; intros [|v vals] arr; try reflexivity. cbn [map scatter]. rewrite <- IH. f_equal. apply (set_nth_map (option_map f) i (Some v)).
Qed.
Lemma fk_level_hom dpar locals arr level :
  fk_level O' dpar (map (map h) locals) (map (option_map (map h)) arr) level = lift (map (option_map (map h))) (fk_level O dpar locals arr level).
Proof.
  unfold fk_level. rewrite lift_bind. 
  rewrite (rmap_ext _ (fun i => lift (map h) (do par <- get dpar i; do p <- of_opt IndexError par; do tp <- read_slot arr p; do lo <- get locals i; Ok (zip_with (t_mul O) tp lo)))).
  - rewrite rmap_lift, bind_lift. apply bind_ext. intros vals. cbn [lift]. rewrite scatter_hom. reflexivity.
  - intros i. rewrite lift_bind. apply bind_ext. intros par. rewrite lift_bind. apply bind_ext. intros p. unfold read_slot. rewrite get_lift. destruct (get arr p) as [o|]; [|reflexivity]. cbn [lift rbind].
    rewrite of_opt_hom. destruct (of_opt ValueError o) as [tp|]; [|reflexivity]. cbn [lift rbind]. rewrite get_lift. destruct (get locals i) as [lo|]; [|reflexivity]. cbn [lift rbind].
    cbn [lift]. rewrite (zip_map2 (t_mul O) (t_mul O') h h h tp lo Hmul). reflexivity.
Qed.
Lemma fk_levels_hom dpar locals levels arr :
  fk_levels O' dpar (map (map h) locals) (map (option_map (map h)) arr) levels = lift (map (option_map (map h))) (fk_levels O dpar locals arr levels).
Proof.
  revert arr. induction levels as [|l r IH]; intros arr; [reflexivity|]. cbn [fk_levels]. rewrite fk_level_hom, bind_lift, lift_bind. apply bind_ext. intros a. apply IH.
Qed.
Lemma fk_impl_hom th static jidx jtypes dpar levels axes hr hp nf :
  fk_impl O' (hth th) (map h static) jidx jtypes dpar levels (map ha axes) hr hp nf =
  lift (map (option_map (map h))) (fk_impl O th static jidx jtypes dpar levels axes hr hp nf).
Proof.
  unfold fk_impl. rewrite joint_transforms_hom, bind_lift, lift_bind. apply bind_ext. intros jt. rewrite lift_bind. apply bind_ext. intros l0.
  rewrite (zip_map2 (fun so row => map (t_mul O so) row) (fun so row => map (t_mul O' so) row) h (map h) (map h)).
  2: { intros so row. rewrite !map_map. apply map_ext. intros b. apply Hmul. }
  rewrite (rmap_ext (get (map (map h) (zip_with (fun so row => map (t_mul O so) row) static jt))) (fun i => lift (map h) (get (zip_with (fun so row => map (t_mul O so) row) static jt) i)) l0 (fun i => get_lift _ _ i)), rmap_lift, bind_lift, lift_bind.
  apply bind_ext. intros v0. rewrite <- fk_levels_hom. f_equal. rewrite <- scatter_hom. f_equal. rewrite map_repeat. reflexivity.
Qed.
End Hom.

(** ** expressions *)
Lemma ev4_mul x A B : m4mul (ev4 x A) (ev4 x B) = ev4 x (e4mul A B). Proof. reflexivity. Qed.
Lemma ev4_one x : I4 = ev4 x e4one. Proof. reflexivity. Qed.
Lemma ev4_rev x k q : axis_and_angle_to_matrix_44 (ev3 x k) (eval x q) = ev4 x (e4rev k q). Proof. reflexivity. Qed.
Lemma ev4_pris x k q : axis_and_d_to_pris_matrix (ev3 x k) (eval x q) = ev4 x (e4pris k q). Proof. reflexivity. Qed.
Lemma fk_eval x th static jidx jtypes dpar levels axes hr hp nf :
  fk_impl mops (ev_th x th) (map (ev4 x) static) jidx jtypes dpar levels (map (ev3 x) axes) hr hp nf =
  lift (map (option_map (map (ev4 x)))) (fk_impl eops th static jidx jtypes dpar levels axes hr hp nf).
Proof. exact (fk_impl_hom eops mops (ev4 x) (ev3 x) (eval x) (ev4_mul x) (ev4_one x) (ev4_rev x) (ev4_pris x) th static jidx jtypes dpar levels axes hr hp nf). Qed.

Lemma eval_ext x y e : (forall k, x k = y k) -> eval x e = eval y e.
Proof. intros H. induction e; cbn [eval]; rewrite ?IHe, ?IHe1, ?IHe2, ?H; reflexivity. Qed.
Lemma xupd_same x v k : xupd x v (x v) k = x k. Proof. unfold xupd. destruct (Nat.eqb_spec k v); subst; reflexivity. Qed.
Lemma back_lin x e v : forall g, back x e g v = g * back x e 1 v.
Proof.
  induction e as [k|r|a IHa b IHb|a IHa b IHb|a IHa b IHb|a IHa|a IHa]; intros g; cbn [back].
  - destruct (Nat.eqb v k); ring.
  - ring.
  - rewrite (IHa g), (IHb g). ring.
  - rewrite (IHa g), (IHb (- g)), (IHb (- (1))). ring.
  - rewrite (IHa (g * _)), (IHb (g * _)), (IHa (1 * _)), (IHb (1 * _)). ring.
  - rewrite (IHa (g * _)), (IHa (1 * _)). ring.
  - rewrite (IHa (g * _)), (IHa (1 * _)). ring.
Qed.
Lemma back_deriv1 x e v : is_derive (fun t => eval (xupd x v t) e) (x v) (back x e 1 v).
Proof.
  assert (X : forall a, eval (xupd x v (x v)) a = eval x a) by (intros a; apply eval_ext, xupd_same).
  induction e as [k|r|a IHa b IHb|a IHa b IHb|a IHa b IHb|a IHa|a IHa]; cbn [back eval].
  - unfold xupd. rewrite (Nat.eqb_sym v k). destruct (Nat.eqb k v) eqn:E; [apply @is_derive_id | apply @is_derive_const].
  - apply @is_derive_const.
  - exact (is_derive_plus _ _ _ _ _ IHa IHb).
  - rewrite (back_lin x b v (- (1))). replace (back x a 1 v + - (1) * back x b 1 v) with (back x a 1 v - back x b 1 v) by ring. exact (is_derive_minus _ _ _ _ _ IHa IHb).
  - rewrite (back_lin x a v (1 * _)), (back_lin x b v (1 * _)).
    replace (1 * eval x b * back x a 1 v + 1 * eval x a * back x b 1 v) with (plus (mult (back x a 1 v) (eval (xupd x v (x v)) b)) (mult (eval (xupd x v (x v)) a) (back x b 1 v))) by (rewrite !X; unfold plus, mult; cbn; ring).
    apply (is_derive_mult _ _ _ _ _ IHa IHb). intros; apply Rmult_comm.
  - rewrite (back_lin x a v (1 * _)). replace (1 * cos (eval x a) * back x a 1 v) with (scal (back x a 1 v) (cos (eval (xupd x v (x v)) a))) by (rewrite X; unfold scal; cbn; unfold mult; cbn; ring).
    apply (is_derive_comp sin (fun t => eval (xupd x v t) a) (x v) (cos (eval (xupd x v (x v)) a)) (back x a 1 v)); [apply is_derive_sin | exact IHa].
  - rewrite (back_lin x a v (1 * _)). replace (1 * - sin (eval x a) * back x a 1 v) with (scal (back x a 1 v) (- sin (eval (xupd x v (x v)) a))) by (rewrite X; unfold scal; cbn; unfold mult; cbn; ring).
    apply (is_derive_comp cos (fun t => eval (xupd x v t) a) (x v) (- sin (eval (xupd x v (x v)) a)) (back x a 1 v)); [apply is_derive_cos | exact IHa].
Qed.
Lemma back_deriv x e v g : is_derive (fun t => g * eval (xupd x v t) e) (x v) (back x e g v).
Proof. rewrite back_lin. apply is_derive_scal, back_deriv1. Qed.
Lemma zip_deriv {X Y} (f : X -> Y -> R -> R) (D : X -> Y -> R) t (l1 : list X) (l2 : list Y) :
  (forall a b, is_derive (f a b) t (D a b)) -> is_derive (fun u => rsum (zip_with (fun a b => f a b u) l1 l2)) t (rsum (zip_with D l1 l2)).
Proof.
  intros H. revert l2. induction l1 as [|a l1 IH]; intros [|b l2]; cbn [zip_with rsum]; try apply @is_derive_const.
  apply (is_derive_plus (f a b) (fun u => rsum (zip_with (fun a b => f a b u) l1 l2))); [apply H | apply IH].
Qed.
Lemma frob_entries x T G : frob G (ev4 x T) = rsum (zip_with (fun e g => g * eval x e) (entries T) (m4_entries G)).
Proof. unfold frob, entries, m4_entries, ev4. cbn [zip_with rsum a00 a01 a02 a03 a10 a11 a12 a13 a20 a21 a22 a23 a30 a31 a32 a33]. ring. Qed.
Lemma back4_deriv x T G v : is_derive (fun t => frob G (ev4 (xupd x v t) T)) (x v) (back4 x T G v).
Proof.
  apply (is_derive_ext (fun t => rsum (zip_with (fun e g => g * eval (xupd x v t) e) (entries T) (m4_entries G)))); [intros t; symmetry; apply frob_entries|].
  unfold back4. apply (zip_deriv (fun e g t => g * eval (xupd x v t) e) (fun e g => back x e g v)). intros e g. apply back_deriv.
Qed.
Lemma zip_flip {A B C} (f : A -> B -> C) l1 l2 : zip_with f l1 l2 = zip_with (fun b a => f a b) l2 l1.
Proof. revert l2. induction l1 as [|a l1 IH]; intros [|b l2]; try reflexivity. cbn [zip_with]. rewrite IH. reflexivity. Qed.
Lemma zip_map_r' {A B C D} (f : A -> C -> D) (g : B -> C) l1 l2 : zip_with f l1 (map g l2) = zip_with (fun a b => f a (g b)) l1 l2.
Proof. revert l2. induction l1 as [|a l1 IH]; intros [|b l2]; try reflexivity. cbn [map zip_with]. rewrite IH. reflexivity. Qed.
Lemma zip_ext {A B C} (f g : A -> B -> C) l1 l2 : (forall a b, f a b = g a b) -> zip_with f l1 l2 = zip_with g l1 l2.
Proof. intros H. revert l2. induction l1 as [|a l1 IH]; intros [|b l2]; try reflexivity. cbn [zip_with]. rewrite H, IH. reflexivity. Qed.
Lemma loss_eq x Gs Ts : loss Gs (map (map (ev4 x)) Ts) = rsum (zip_with (fun Tr Gr => rsum (zip_with (fun T G => frob G (ev4 x T)) Tr Gr)) Ts Gs).
Proof.
  unfold loss. rewrite zip_map_r', zip_flip. f_equal. apply zip_ext. intros Tr Gr. rewrite zip_map_r', zip_flip. reflexivity.
Qed.
Lemma autograd_deriv x Ts Gs v : is_derive (fun t => loss Gs (map (map (ev4 (xupd x v t))) Ts)) (x v) (autograd x Ts Gs v).
Proof.
  apply (is_derive_ext (fun t => rsum (zip_with (fun Tr Gr => rsum (zip_with (fun T G => frob G (ev4 (xupd x v t) T)) Tr Gr)) Ts Gs))); [intros t; symmetry; apply loss_eq|].
  unfold autograd. apply (zip_deriv (fun Tr Gr t => rsum (zip_with (fun T G => frob G (ev4 (xupd x v t) T)) Tr Gr)) (fun Tr Gr => rsum (zip_with (fun T G => back4 x T G v) Tr Gr))).
  intros Tr Gr. apply (zip_deriv (fun T G t => frob G (ev4 (xupd x v t) T)) (fun T G => back4 x T G v)). intros T G. apply back4_deriv.
Qed.
