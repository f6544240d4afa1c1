(** C35: [acos_linear_extrapolation] is total, C1 and strictly decreasing. *)
From Coq Require Import Reals Lra Psatz Bool Arith List.
From Coquelicot Require Import Coquelicot.
From Verif Require Import Prelude ExtF Lin Trig RotModel MathModel.
Import ListNotations.
Local Open Scope R_scope.

Lemma is_derive_acos x : -1 < x < 1 -> is_derive acos x (dacos_dx x).
Proof.
  intros H. apply is_derive_Reals. unfold dacos_dx.
  replace (x * x) with (x²) by (unfold Rsqr; ring). rewrite <- (derive_pt_acos x H).
  destruct (derivable_pt_acos x H) as [l Hl]. exact Hl.
Qed.
Lemma is_derive_lin x x0 : is_derive (fun x => acos_linear_approximation x x0) x (dacos_dx x0).
Proof. unfold acos_linear_approximation. auto_derive; [exact I | ring]. Qed.

(** gluing two functions with the same value and slope *)
Lemma is_derive_glue (f g h : R -> R) a l : (forall x, x <= a -> f x = g x) -> (forall x, a <= x -> f x = h x) ->
  is_derive g a l -> is_derive h a l -> is_derive f a l.
Proof.
  intros Hg Hh Dg Dh. apply is_derive_Reals. apply is_derive_Reals in Dg, Dh.
  intros e He. destruct (Dg e He) as [d1 D1]. destruct (Dh e He) as [d2 D2].
  assert (P : 0 < Rmin d1 d2) by (apply Rmin_pos; [apply d1 | apply d2]).
  exists (mkposreal _ P). intros k Hk Hd. simpl in Hd.
  assert (Rabs k < d1) by (eapply Rlt_le_trans; [exact Hd | apply Rmin_l]).
  assert (Rabs k < d2) by (eapply Rlt_le_trans; [exact Hd | apply Rmin_r]).
  destruct (Rle_dec k 0) as [Hn|Hn].
  - rewrite (Hg (a + k)), (Hg a) by lra. apply D1; assumption.
  - rewrite (Hh (a + k)), (Hh a) by lra. apply D2; assumption.
Qed.
(** agreement near a point *)
Lemma is_derive_local (f g : R -> R) a l lo hi : lo < a < hi -> (forall x, lo < x < hi -> f x = g x) ->
  is_derive g a l -> is_derive f a l.
Proof.
  intros H E D. eapply is_derive_ext_loc; [|exact D].
  assert (P : 0 < Rmin (a - lo) (hi - a)) by (apply Rmin_pos; lra).
  exists (mkposreal _ P). intros y Hy. symmetry. apply E.
  unfold ball in Hy; simpl in Hy; unfold AbsRing_ball, abs, minus, plus, opp in Hy; simpl in Hy.
  apply Rabs_def2 in Hy. pose proof (Rmin_l (a - lo) (hi - a)). pose proof (Rmin_r (a - lo) (hi - a)). lra.
Qed.

Section Ext.
Variables (lo hi : R).
Hypothesis (H1 : -1 < lo) (H2 : hi < 1) (H3 : lo <= hi).
Notation f := (acos_extrap lo hi).

Lemma lin_at x0 : acos_linear_approximation x0 x0 = acos x0.
Proof. unfold acos_linear_approximation. ring. Qed.
Lemma ext_low x : x <= lo -> f x = acos_linear_approximation x lo.
Proof. intros H. unfold acos_extrap. replace (Rleb x lo) with true by (symmetry; apply Rleb_true; exact H). reflexivity. Qed.
Lemma ext_high x : hi <= x -> f x = acos_linear_approximation x hi.
Proof.
  intros H. unfold acos_extrap. destruct (Rleb x lo) eqn:E.
  - apply Rleb_true in E. replace hi with x by lra. replace lo with x by lra. reflexivity.
  - replace (Rleb hi x) with true by (symmetry; apply Rleb_true; exact H). reflexivity.
Qed.
Lemma ext_mid x : lo <= x <= hi -> f x = acos x.
Proof.
  intros [Ha Hb]. destruct (Req_dec x lo) as [->|N]; [rewrite ext_low by lra; apply lin_at|].
  destruct (Req_dec x hi) as [->|N']; [rewrite ext_high by lra; apply lin_at|].
  unfold acos_extrap. replace (Rleb x lo) with false by (symmetry; apply Rleb_false; lra).
  replace (Rleb hi x) with false by (symmetry; apply Rleb_false; lra). reflexivity.
Qed.
(** the slope everywhere: that of arccos at the nearest point of [lo, hi] *)
Definition clampb (x : R) : R := Rmin (Rmax x lo) hi.
Lemma clampb_mid x : lo <= x <= hi -> clampb x = x.
Proof. intros. unfold clampb. rewrite Rmax_left, Rmin_left by lra. reflexivity. Qed.
Lemma clampb_low x : x <= lo -> clampb x = lo.
Proof. intros. unfold clampb. rewrite Rmax_right, Rmin_left by lra. reflexivity. Qed.
Lemma clampb_high x : hi <= x -> clampb x = hi.
Proof. intros. unfold clampb. rewrite Rmax_left, Rmin_right by lra. reflexivity. Qed.
Lemma ext_derive x : is_derive f x (dacos_dx (clampb x)).
Proof.
  destruct (Rlt_dec x lo) as [A|A]; [|destruct (Rlt_dec hi x) as [B|B]].
  - rewrite clampb_low by lra. apply (is_derive_local _ (fun x => acos_linear_approximation x lo) x _ (x - 1) lo); [lra| |apply is_derive_lin].
    intros y Hy. apply ext_low. lra.
  - rewrite clampb_high by lra. apply (is_derive_local _ (fun x => acos_linear_approximation x hi) x _ hi (x + 1)); [lra| |apply is_derive_lin].
    intros y Hy. apply ext_high. lra.
  - rewrite clampb_mid by lra. destruct (Req_dec x lo) as [El|Nl]; [destruct (Req_dec x hi) as [Eh|Nh]|destruct (Req_dec x hi) as [Eh|Nh]].
    + subst x. apply (is_derive_glue _ (fun x => acos_linear_approximation x lo) (fun x => acos_linear_approximation x lo)).
      * apply ext_low.
      * intros y Hy. rewrite ext_high by lra. rewrite Eh. reflexivity.
      * apply is_derive_lin.
      * apply is_derive_lin.
    + subst x. apply (is_derive_local _ (fun y => if Rle_dec y lo then acos_linear_approximation y lo else acos y) lo _ (lo - 1) hi); [lra| |].
      * intros y Hy. destruct (Rle_dec y lo); [apply ext_low; lra | apply ext_mid; lra].
      * apply (is_derive_glue _ (fun x => acos_linear_approximation x lo) acos).
        -- intros y Hy. destruct (Rle_dec y lo); [reflexivity | lra].
        -- intros y Hy. destruct (Rle_dec y lo); [|reflexivity]. replace y with lo by lra. apply lin_at.
        -- apply is_derive_lin.
        -- apply is_derive_acos; lra.
    + subst x. apply (is_derive_local _ (fun y => if Rle_dec hi y then acos_linear_approximation y hi else acos y) hi _ lo (hi + 1)); [lra| |].
      * intros y Hy. destruct (Rle_dec hi y); [apply ext_high; lra | apply ext_mid; lra].
      * apply (is_derive_glue _ acos (fun x => acos_linear_approximation x hi)).
        -- intros y Hy. destruct (Rle_dec hi y); [|reflexivity]. replace y with hi by lra. apply lin_at.
        -- intros y Hy. destruct (Rle_dec hi y); [reflexivity | lra].
        -- apply is_derive_acos; lra.
        -- apply is_derive_lin.
    + apply (is_derive_local _ acos x _ lo hi); [lra| |apply is_derive_acos; lra].
      intros y Hy. apply ext_mid. lra.
Qed.
Lemma clampb_range x : -1 < clampb x < 1.
Proof.
  unfold clampb. split.
  - apply Rmin_glb_lt; [|lra]. eapply Rlt_le_trans; [exact H1 | apply Rmax_r].
  - eapply Rle_lt_trans; [apply Rmin_r | exact H2].
Qed.
Lemma dacos_neg x : -1 < x < 1 -> dacos_dx x <= -1.
Proof.
  intros H. unfold dacos_dx. assert (0 < sqrt (1 - x * x)) by (apply sqrt_lt_R0; nra).
  assert (sqrt (1 - x * x) <= 1) by (rewrite <- sqrt_1 at 2; apply sqrt_le_1_alt; nra).
  assert (1 <= / sqrt (1 - x * x)) by (rewrite <- Rinv_1 at 1; apply Rinv_le_contravar; lra).
  unfold Rdiv. lra.
Qed.
(** the slope varies continuously *)
Lemma clampb_cont x : continuous clampb x.
Proof.
  apply continuity_pt_filterlim. intros e He. exists e. split; [exact He|]. intros y [_ Hy].
  simpl in *. unfold R_dist in *. unfold clampb.
  assert (K : forall a b, Rabs (Rmin (Rmax a lo) hi - Rmin (Rmax b lo) hi) <= Rabs (a - b)).
  { intros a b. unfold Rmin, Rmax, Rabs. repeat (destruct (Rle_dec _ _) || destruct (Rcase_abs _)); lra. }
  eapply Rle_lt_trans; [apply K | exact Hy].
Qed.
Lemma dacos_cont x : -1 < x < 1 -> continuous dacos_dx x.
Proof.
  intros H. unfold dacos_dx. apply (ex_derive_continuous (K := R_AbsRing) (V := R_NormedModule)).
  assert (H0 : 0 < 1 - x * x) by nra. pose proof (sqrt_lt_R0 _ H0) as H4.
  auto_derive. repeat split; try assumption; try (apply Rgt_not_eq; exact H4).
Qed.
Lemma slope_cont x : continuous (fun y => dacos_dx (clampb y)) x.
Proof. apply (continuous_comp clampb dacos_dx); [apply clampb_cont | apply dacos_cont, clampb_range]. Qed.
Lemma ext_decr x y : x < y -> f y + (y - x) <= f x.
Proof.
  intros H.
  destruct (MVT_gen f x y (fun z => dacos_dx (clampb z))) as [c [_ Hc]].
  - intros z _. apply ext_derive.
  - intros z _. apply continuity_pt_filterlim. apply (ex_derive_continuous (K := R_AbsRing) (V := R_NormedModule)).
    eexists. apply ext_derive.
  - pose proof (dacos_neg _ (clampb_range c)). nra.
Qed.
End Ext.

Lemma extrapolation_spec xs b : let '(lo, hi) := match b with BFloat b => (- b, b) | BPair lo hi => (lo, hi) end in
  ((-1 < lo /\ lo <= hi /\ hi < 1) -> acos_linear_extrapolation xs b = Ok (map (acos_extrap lo hi) xs)) /\
  (~ (-1 < lo /\ lo <= hi /\ hi < 1) -> acos_linear_extrapolation xs b = Err ValueError).
Proof.
  unfold acos_linear_extrapolation. destruct (match b with BFloat b => (- b, b) | BPair lo hi => (lo, hi) end) as [lo hi].
  split.
  - intros (A & B & C). replace (Rltb hi lo) with false by (symmetry; apply Rltb_false; lra).
    replace (Rleb lo (-1)) with false by (symmetry; apply Rleb_false; lra).
    replace (Rleb 1 hi) with false by (symmetry; apply Rleb_false; lra). reflexivity.
  - intros N. destruct (Rltb hi lo) eqn:E; [reflexivity|]. apply Rltb_false in E.
    destruct (Rleb lo (-1)) eqn:E1; [reflexivity|]. apply Rleb_false in E1.
    destruct (Rleb 1 hi) eqn:E2; [reflexivity|]. apply Rleb_false in E2. exfalso. apply N. lra.
Qed.
