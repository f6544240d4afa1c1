(** The tape of [rotation_6d_to_matrix]: finite everywhere, right where nothing is clamped. *)
From Coq Require Import Reals Lra Bool Arith Lia List.
From Coquelicot Require Import Coquelicot.
From Verif Require Import Prelude ExtF Trig Lin RotModel MathModel GradModel GradSixModel SpecGrad SpecEulerGrad GradProofs GradDeriv GradTapes.
Import ListNotations.
Local Open Scope R_scope.

Lemma eps12_pos : 0 < eps12. Proof. unfold eps12. apply Rinv_0_lt_compat. lra. Qed.
Lemma top_pos n : 0 < Rmax n eps12. Proof. pose proof (Rmax_r n eps12). pose proof eps12_pos. lra. Qed.
Ltac ops12 p := let n := eval cbv -[IZR Rplus Rmult Rinv Ropp Rminus Rdiv eps4 eps6 eps12] in (p_ops p) in n.
Lemma six_tape (a b c d e f : R) :
  let l := [a; b; c; d; e; f] in let a1 := mkV3 a b c in let a2 := mkV3 d e f in
  routputs tape_rotation_6d_to_matrix l = six_list l /\ along tame (p_ops tape_rotation_6d_to_matrix) l /\
  (eps12 < vnorm a1 -> eps12 < vnorm (perp a1 a2) -> smooth (fun _ => true) (p_ops tape_rotation_6d_to_matrix) l).
Proof.
  cbv zeta. pose proof eps12_pos as P12.
  destruct (tape_read (p_ops tape_rotation_6d_to_matrix) [a; b; c; d; e; f] eq_refl) as (H & T & Sm & vs & Env & L).
  rewrite Env in H, T, Sm. let n := ops12 tape_rotation_6d_to_matrix in change (p_ops tape_rotation_6d_to_matrix) with n in H, L, T, Sm |- *.
  cbn [length] in L. dlist vs L. cbn [app] in *. cbn [length holds nth rval sel] in H. splits H. split; [|split].
  - outs tape_rotation_6d_to_matrix. rewrite Env. clear Env T Sm. cbn [map nth]. unfold six_list, m3_list, list_v. cbn [nth skipn].
    assert (B1 : normalize (mkV3 a b c) = mkV3 v1 v2 v3). { unfold normalize, vscale, vnorm, vnorm2, vdot. cbn [vx vy vz]. rewrite <- E, <- E0, E1, E2, E3. apply mkV3_eq; unfold Rdiv; ring. }
    assert (B2 : normalize (vsub (mkV3 d e f) (vscale (vdot (normalize (mkV3 a b c)) (mkV3 d e f)) (normalize (mkV3 a b c)))) = mkV3 v17 v18 v19).
    { rewrite B1. unfold vsub, vscale, vdot. cbn [vx vy vz]. rewrite <- E4, <- E5, <- E6, <- E7, <- E8, <- E9, <- E10, <- E11, <- E12, <- E13, <- E14. unfold normalize, vscale, vnorm, vnorm2, vdot. cbn [vx vy vz]. rewrite <- E15, <- E16, E17, E18, E19. apply mkV3_eq; unfold Rdiv; ring. }
    unfold rotation_6d_to_matrix. rewrite B2, B1. unfold vcross. cbn [vx vy vz m00 m01 m02 m10 m11 m12 m20 m21 m22]. rewrite <- E20, <- E21, <- E22, <- E23, <- E24, <- E25, <- E26, <- E27, <- E28. reflexivity.
  - apply T; clear T Sm Env. pose proof (top_pos v) as P1. pose proof (top_pos v15) as P2. rewrite <- E0 in P1. rewrite <- E16 in P2. cbn [alongl tame nth]. each; lra.
  - intros H1 H2. apply Sm; clear T Sm Env. assert (V : v = vnorm (mkV3 a b c)) by exact E.
    assert (V0 : v0 = v) by (rewrite E0; apply Rmax_left; lra). assert (S : 0 < a * a + b * b + c * c) by (apply sqrt_lt_0_alt; rewrite sqrt_0, <- E, V; lra).
    assert (VV : v * v = a * a + b * b + c * c) by (rewrite E; apply sqrt_sqrt; lra).
    assert (N0 : v <> 0) by lra.
    assert (K : perp (mkV3 a b c) (mkV3 d e f) = mkV3 v12 v13 v14).
    { unfold perp, vsub, vscale, vdot. cbn [vx vy vz]. rewrite <- VV, E12, E13, E14, E9, E10, E11, E8, E7, E4, E5, E6, E1, E2, E3, V0. apply mkV3_eq; field; exact N0. }
    rewrite K in H2. assert (W : v15 = vnorm (mkV3 v12 v13 v14)) by exact E15. assert (W0 : v16 = v15) by (rewrite E16; apply Rmax_left; lra).
    assert (S2 : 0 < v12 * v12 + v13 * v13 + v14 * v14) by (apply sqrt_lt_0_alt; rewrite sqrt_0, <- E15, W; lra).
    cbn [length smoothl regular needs args nth forallb andb]. each; try lra.
Qed.
