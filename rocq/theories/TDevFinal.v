(** Last steps of the proofs quoted in Properties_TDev.v. *)
From Coq Require Import Bool Arith Lia List.
From Verif Require Import Prelude ExtF Tree ChainModel SerialModel DevModel TDevModel SpecTDev.
Import ListNotations.

Lemma dtype_eqb_eq a b : dtype_eqb a b = true <-> a = b.
Proof. split; [destruct a, b; intros H; try discriminate H; reflexivity | intros <-; destruct a; reflexivity]. Qed.
Lemma join_dev promo a b c : join promo a b = Ok c -> t_dev c = t_dev a /\ t_dev a = t_dev b.
Proof.
  unfold join. destruct (Nat.eqb (t_dev a) (t_dev b)) eqn:E; [|discriminate]. apply Nat.eqb_eq in E. destruct (promo (t_dt a) (t_dt b)); cbn [rbind]; [|discriminate].
  intros H. injection H as <-. split; [reflexivity | exact E].
Qed.
Lemma init_truthful promo dt dv m r p t : tr_init promo dt dv m r p = Ok t -> truthful t.
Proof.
  unfold tr_init. set (s := match m with None => (dv, mkT dt (dev_of dv)) | Some m => (DObj (t_dev m), m) end).
  assert (D : dev_of (fst s) = t_dev (snd s)) by (unfold s; destruct m; reflexivity). destruct s as [dv' mat]. cbn [fst snd] in D.
  set (P := match p with None => Ok mat | Some p => _ end). assert (DP : forall c, P = Ok c -> t_dev c = t_dev mat).
  { unfold P. destruct p as [p|]; [|intros c H; injection H as <-; reflexivity]. intros c. destruct (join promo _ _) as [h|]; cbn [rbind]; [|discriminate]. intros H. apply join_dev in H. apply H. }
  clearbody P. destruct P as [mat1|]; cbn [rbind]; [|discriminate]. specialize (DP mat1 eq_refl).
  set (Q := match r with None => Ok mat1 | Some r => _ end). assert (DQ : forall c, Q = Ok c -> t_dev c = t_dev mat1).
  { unfold Q. destruct r as [r|]; [|intros c H; injection H as <-; reflexivity]. intros c. destruct (join promo _ _) as [h|]; cbn [rbind]; [|discriminate]. intros H. apply join_dev in H. destruct H as [H1 H2]. rewrite H1, H2. reflexivity. }
  clearbody Q. destruct Q as [mat2|]; cbn [rbind]; [|discriminate]. specialize (DQ mat2 eq_refl). intros H. injection H as <-. split; cbn [x_dt x_dev x_mat]; [reflexivity|].
  rewrite D, DQ, DP. reflexivity.
Qed.
Lemma init_plain promo dt dv : tr_init promo dt dv None None None = Ok (mkTtr dt dv (mkT dt (dev_of dv))). Proof. reflexivity. Qed.
Lemma init_matrix promo dt dv m : tr_init promo dt dv (Some m) None None = Ok (mkTtr (t_dt m) (DObj (t_dev m)) m). Proof. reflexivity. Qed.
Lemma clone_eq promo t : tr_clone promo t = Ok t.
Proof. unfold tr_clone. rewrite init_plain. cbn [rbind x_dt x_dev]. destruct t; reflexivity. Qed.
Lemma to_eq promo dv copy dt t b t' : tr_to promo dv copy dt t = Ok (b, t') -> truthful t ->
  x_mat t' = mkT (match dt with Some d => d | None => x_dt t end) (dev_of dv) /\ truthful t' /\ (b = true -> t' = t).
Proof.
  unfold tr_to. rewrite clone_eq. cbn [rbind]. intros H [T1 T2]. destruct (negb copy && _ && dspec_eqb (x_dev t) dv)%bool eqn:C.
  - injection H as <- <-. apply andb_true_iff in C. destruct C as [C1 C2]. apply andb_true_iff in C1. destruct C1 as [_ C1].
    assert (Ed : dev_of dv = dev_of (x_dev t)) by (destruct (x_dev t), dv; cbn in C2 |- *; try discriminate C2; apply Nat.eqb_eq in C2; congruence).
    split; [|split; [split; assumption | reflexivity]]. rewrite Ed, T2. destruct dt as [d|]; [apply dtype_eqb_eq in C1; rewrite <- C1|]; rewrite T1; destruct (x_mat t); reflexivity.
  - injection H as <- <-. cbn [x_mat x_dt x_dev]. split; [|split; [split; cbn [x_mat x_dt x_dev t_dt t_dev]; [destruct dt; [reflexivity | exact T1] | reflexivity] | discriminate]].
    destruct dt; [reflexivity | rewrite T1; reflexivity].
Qed.
Lemma bmm_eq a b : broadcast_bmm a b = if Nat.eqb (t_dev a) (t_dev b) then Ok a else Err RuntimeError.
Proof. unfold broadcast_bmm, matmul. cbn [t_dt t_dev]. rewrite (proj2 (dtype_eqb_eq (t_dt a) (t_dt a)) eq_refl), andb_true_r. reflexivity. Qed.
Lemma bmm_all_eq m os : bmm_all m os = if forallb (fun o => Nat.eqb (t_dev m) (t_dev (x_mat o))) os then Ok m else Err RuntimeError.
Proof.
  induction os as [|o os IH]; [reflexivity|]. cbn [bmm_all forallb]. rewrite bmm_eq. destruct (Nat.eqb (t_dev m) (t_dev (x_mat o))); cbn [rbind andb]; [exact IH | reflexivity].
Qed.

Lemma l83_truthful : forall promo t, made promo t -> truthful t.
Proof.
  intros promo t H. induction H as [dt dv m r p t H | dv xyz t H | dv R t H | dt dv a t H | t os t' H | t t' H | t t' H | t os t' H | t t' H IH E | dv copy dt t b t' H IH E].
  - exact (init_truthful _ _ _ _ _ _ _ H).
  - unfold tr_translate_scale in H. rewrite init_plain in H. cbn [rbind] in H. destruct (handle_input promo _ _ _); cbn [rbind] in H; [|discriminate H]. injection H as <-. split; reflexivity.
  - injection H as <-. split; reflexivity.
  - injection H as <-. split; reflexivity.
  - unfold tr_compose in H. destruct (bmm_all _ _); cbn [rbind] in H; [|discriminate H]. exact (init_truthful _ _ _ _ _ _ _ H).
  - exact (init_truthful _ _ _ _ _ _ _ H).
  - exact (init_truthful _ _ _ _ _ _ _ H).
  - unfold tr_stack in H. destruct (stack promo _); cbn [rbind] in H; [|discriminate H]. exact (init_truthful _ _ _ _ _ _ _ H).
  - rewrite clone_eq in E. injection E as <-. exact IH.
  - apply (to_eq _ _ _ _ _ _ _ E IH).
Qed.

Lemma l83_requested : forall promo dt dv rot pos, promo dt dt = Ok dt ->
  (forall a, rot = Some a \/ pos = Some a -> a = TNum \/ a = TTen (mkT dt (dev_of dv))) ->
  tr_init promo dt dv None rot pos = Ok (mkTtr dt dv (mkT dt (dev_of dv))).
Proof.
  intros promo dt dv rot pos P H. unfold tr_init. assert (J : join promo (mkT dt (dev_of dv)) (mkT dt (dev_of dv)) = Ok (mkT dt (dev_of dv))) by (unfold join; cbn [t_dev t_dt]; rewrite Nat.eqb_refl, P; reflexivity).
  assert (A : forall a, rot = Some a \/ pos = Some a -> as_tensor dt (dev_of dv) a = mkT dt (dev_of dv)) by (intros a Ha; destruct (H a Ha) as [-> | ->]; reflexivity).
  destruct pos as [p|]; [rewrite (A p (or_intror eq_refl)), J; cbn [rbind]; rewrite J|]; cbn [rbind]; (destruct rot as [r|]; [rewrite (A r (or_introl eq_refl)), J; cbn [rbind]; rewrite J|]); reflexivity.
Qed.

Lemma l83_to : forall promo dv copy dt t, truthful t -> exists b t', tr_to promo dv copy dt t = Ok (b, t') /\
  x_mat t' = mkT (match dt with Some d => d | None => x_dt t end) (dev_of dv) /\ truthful t' /\ (b = true -> t' = t).
Proof.
  intros promo dv copy dt t T. assert (E : exists b t', tr_to promo dv copy dt t = Ok (b, t')).
  { unfold tr_to. rewrite clone_eq. cbn [rbind]. destruct (negb copy && _ && _)%bool; do 2 eexists; reflexivity. }
  destruct E as (b & t' & E). exists b, t'. split; [exact E | apply (to_eq _ _ _ _ _ _ _ E T)].
Qed.

Lemma l83_compose : forall promo t os,
  (Forall (fun o => t_dev (x_mat o) = t_dev (x_mat t)) os -> exists t', tr_compose promo t os = Ok t' /\ x_mat t' = x_mat t /\ truthful t') /\
  (~ Forall (fun o => t_dev (x_mat o) = t_dev (x_mat t)) os -> tr_compose promo t os = Err RuntimeError).
Proof.
  intros promo t os. unfold tr_compose. rewrite bmm_all_eq. split; intros H.
  - replace (forallb _ os) with true; [|symmetry; apply forallb_forall; rewrite Forall_forall in H; intros o Ho; apply Nat.eqb_eq; symmetry; apply H, Ho].
    cbn [rbind]. rewrite init_matrix. eexists. split; [reflexivity|]. split; [reflexivity | split; reflexivity].
  - destruct (forallb _ os) eqn:E; [|reflexivity]. exfalso. apply H. rewrite forallb_forall in E. apply Forall_forall. intros o Ho. specialize (E o Ho). apply Nat.eqb_eq in E. symmetry. exact E.
Qed.

Lemma stack_dev promo (Pt : forall a b, exists c, promo a b = Ok c) l : forall a,
  (Forall (fun b => t_dev b = t_dev a) l -> exists m, stack promo (a :: l) = Ok m /\ t_dev m = t_dev a) /\ (~ Forall (fun b => t_dev b = t_dev a) l -> stack promo (a :: l) = Err RuntimeError).
Proof.
  induction l as [|b l IH]; intros a; [split; [intros _; exists a; split; reflexivity | intros H; exfalso; apply H; constructor]|].
  change (stack promo (a :: b :: l)) with (do m <- stack promo (b :: l); join promo a m). destruct (IH b) as [I1 I2]. split.
  - intros H. inversion H; subst. destruct I1 as (m & E & D); [rewrite H2; assumption|]. rewrite E. cbn [rbind]. unfold join. rewrite D, H2, Nat.eqb_refl. destruct (Pt (t_dt a) (t_dt m)) as (c & ->). eexists. split; reflexivity.
  - intros H. assert (Dc : Forall (fun x => t_dev x = t_dev b) l \/ ~ Forall (fun x => t_dev x = t_dev b) l).
    { clear. induction l as [|x l [IH|IH]]; [left; constructor | destruct (Nat.eq_dec (t_dev x) (t_dev b)); [left; constructor; assumption | right; intros X; inversion X; contradiction] | right; intros X; inversion X; contradiction]. }
    destruct Dc as [Dc|Dc]; [|rewrite (I2 Dc); reflexivity]. destruct (I1 Dc) as (m & -> & D). cbn [rbind]. unfold join. destruct (Nat.eqb (t_dev a) (t_dev m)) eqn:E; [|reflexivity]. exfalso. apply Nat.eqb_eq in E. apply H. rewrite E, D. constructor; [reflexivity | exact Dc].
Qed.
Lemma stack_same promo a l : promo (t_dt a) (t_dt a) = Ok (t_dt a) -> Forall (fun b => b = a) l -> stack promo (a :: l) = Ok a.
Proof.
  intros P. induction l as [|b l IH]; intros H; [reflexivity|]. inversion H; subst. change (stack promo (a :: a :: l)) with (do m <- stack promo (a :: l); join promo a m). rewrite IH by assumption. cbn [rbind]. unfold join. rewrite Nat.eqb_refl, P. destruct a; reflexivity.
Qed.
Lemma forall_map {A B} (f : A -> B) (P : B -> Prop) l : Forall P (map f l) <-> Forall (fun x => P (f x)) l.
Proof. rewrite !Forall_forall. split; [intros H x Hx; apply H, in_map, Hx | intros H y Hy; apply in_map_iff in Hy as (x & <- & Hx); apply H, Hx]. Qed.
Lemma l83_stack : forall promo t os, (forall a b, exists c, promo a b = Ok c) ->
  (Forall (fun o => x_mat o = x_mat t) os -> promo (t_dt (x_mat t)) (t_dt (x_mat t)) = Ok (t_dt (x_mat t)) -> exists t', tr_stack promo t os = Ok t' /\ x_mat t' = x_mat t /\ truthful t') /\
  (Forall (fun o => t_dev (x_mat o) = t_dev (x_mat t)) os -> exists t', tr_stack promo t os = Ok t' /\ t_dev (x_mat t') = t_dev (x_mat t) /\ truthful t') /\
  (~ Forall (fun o => t_dev (x_mat o) = t_dev (x_mat t)) os -> tr_stack promo t os = Err RuntimeError).
Proof.
  intros promo t os Pt. unfold tr_stack. cbn [map]. destruct (stack_dev promo Pt (map x_mat os) (x_mat t)) as [S1 S2]. rewrite forall_map in S1, S2. split; [|split].
  - intros H P. rewrite stack_same by (exact P || (rewrite forall_map; exact H)). cbn [rbind]. rewrite init_matrix. eexists. split; [reflexivity|]. split; [reflexivity | split; reflexivity].
  - intros H. destruct (S1 H) as (m & -> & D). cbn [rbind]. rewrite init_matrix. eexists. split; [reflexivity|]. split; [exact D | split; reflexivity].
  - intros H. rewrite (S2 H). reflexivity.
Qed.

Lemma l83_points : forall promo t p, promo (t_dt p) (t_dt p) = Ok (t_dt p) ->
  (t_dev p = t_dev (x_mat t) -> tr_points promo t p = Ok p /\ tr_normals promo t p = Ok p) /\
  (t_dev p <> t_dev (x_mat t) -> tr_points promo t p = Err RuntimeError /\ tr_normals promo t p = Err RuntimeError).
Proof.
  intros promo t p P. assert (J : join promo p p = Ok p) by (unfold join; rewrite Nat.eqb_refl, P; destruct p; reflexivity).
  unfold tr_points, tr_normals, tr_inverse. rewrite J, init_matrix. cbn [rbind x_mat]. rewrite bmm_eq. split; intros H.
  - rewrite (proj2 (Nat.eqb_eq _ _) H). split; reflexivity.
  - rewrite (proj2 (Nat.eqb_neq _ _) H). split; reflexivity.
Qed.

Lemma l83_subclass_refuted : forall promo dt dv, dt <> DFloat -> exists t, tr_rotate promo dt dv TNum = Ok t /\
  x_mat t = mkT dt (dev_of dv) /\ x_dt t = DFloat /\ ~ truthful t /\ tr_clone promo t = Ok t.
Proof.
  intros promo dt dv N. eexists. split; [reflexivity|]. split; [reflexivity|]. split; [reflexivity|]. split; [intros [H _]; apply N; symmetry; exact H | apply clone_eq].
Qed.

Lemma l83_subclass_refuted_translate : forall promo dt dv, dt <> DFloat -> promo dt dt = Ok dt -> exists t, tr_translate_scale promo dt dv (inl (TNum, TNum, TNum)) = Ok t /\
  x_mat t = mkT dt (dev_of dv) /\ x_dt t = DFloat.
Proof.
  intros promo dt dv N P. assert (J : join promo (mkT dt (dev_of dv)) (mkT dt (dev_of dv)) = Ok (mkT dt (dev_of dv))) by (unfold join; cbn [t_dev t_dt]; rewrite Nat.eqb_refl, P; reflexivity).
  unfold tr_translate_scale, handle_input. cbn [as_tensor stack rbind]. rewrite init_plain. cbn [rbind]. rewrite J. cbn [rbind]. rewrite J. cbn [rbind]. eexists. split; [reflexivity|]. split; reflexivity.
Qed.

Lemma l83_to_refuted : forall promo, exists t, tr_rotate promo DDouble (DStr cpu) TNum = Ok t /\
  tr_to promo (DStr cpu) false (Some DFloat) t = Ok (true, t) /\ t_dt (x_mat t) = DDouble.
Proof. intros promo. eexists. split; [reflexivity|]. split; reflexivity. Qed.

Lemma l83_axis_angle_refuted : forall promo dt dv a, exists t, tr_rotate_axis_angle promo dt dv a = Ok t /\ x_mat t = mkT DFloat (dev_of dv).
Proof. intros promo dt dv a. eexists. split; reflexivity. Qed.

Lemma l83_helpers : forall promo t R a, dev_of (x_dev t) = t_dev (x_mat t) ->
  (exists o, tr_rotate promo DFloat (x_dev t) R = Ok o /\ t_dt (x_mat o) = DFloat /\ exists t', tr_rotate_by promo t R = Ok t' /\ x_mat t' = x_mat t) /\
  (exists o, tr_rotate_axis_angle promo DDouble (x_dev t) a = Ok o /\ t_dt (x_mat o) = DFloat /\ exists t', tr_rotate_axis_angle_by promo t a = Ok t' /\ x_mat t' = x_mat t).
Proof.
  intros promo t R a D. split; (eexists; split; [reflexivity|]; split; [reflexivity|]).
  - unfold tr_rotate_by, tr_rotate. rewrite init_plain. cbn [rbind]. unfold tr_compose. rewrite bmm_all_eq. cbn [forallb x_mat t_dev x_dev x_dt]. rewrite D, Nat.eqb_refl. cbn [andb rbind]. rewrite init_matrix. eexists. split; reflexivity.
  - unfold tr_rotate_axis_angle_by, tr_rotate_axis_angle, tr_rotate. rewrite init_plain. cbn [rbind]. unfold tr_compose. rewrite bmm_all_eq. cbn [forallb x_mat t_dev x_dev x_dt]. rewrite D, Nat.eqb_refl. cbn [andb rbind]. rewrite init_matrix. eexists. split; reflexivity.
Qed.

Lemma l83_self_refuted : forall promo, exists t, tr_init promo DFloat (DStr cpu) None None None = Ok t /\ t_dev (x_mat t) = cpu /\ exists t', tr_cpu promo t = Ok (false, t').
Proof. intros promo. eexists. split; [reflexivity|]. split; [reflexivity|]. eexists. reflexivity. Qed.

Lemma l83_shape_operator_refuted : forall promo t s, t_dev s = t_dev (x_mat t) -> tr_shape_operator promo t s = Ok (x_mat t).
Proof.
  intros promo t s H. unfold tr_shape_operator, tr_inverse. rewrite init_matrix. cbn [rbind x_mat]. rewrite bmm_eq, (proj2 (Nat.eqb_eq _ _) H). cbn [rbind]. rewrite bmm_eq.
  rewrite (proj2 (Nat.eqb_eq _ _) (eq_sym H)). reflexivity.
Qed.
