(** Rounding errors of the Jacobian at a tool frame. *)
From Coq Require Import Reals Lra Psatz String Bool Arith Lia List Permutation.
From Verif Require Import Prelude ExtF Tree ChainModel SpecFK ChainProofs ChainTables TreeQueries Input Lin Trig RotModel RotBasic ChainInst
  Examples SerialModel SerialProofs SerialMore Deriv JacModel JacProofs SpecRound RoundNorm RoundModel RoundProofs RoundChain RoundJacModel SpecRoundJac RoundJacProofs RoundJacChain.
Import ListNotations.
Local Open Scope R_scope.

(** ** what the code computes *)
Section Raw.
Variable O : Ops M4 V3 R.
Definition col_tool (o : jops) (v : config (S := R)) (sr : mframe) (T m : M4) (pg : list mframe * mframe) : V3 * V3 :=
  let W := path_pose1 O v ((sr :: fst pg) ++ [snd pg]) in
  let z := jo_vec o (rotp W) (j_axis (f_joint (snd pg))) in
  let c := col_raw O o v sr T pg in
  (jo_add o (fst c) (if jtype_eqb (j_type (f_joint (snd pg))) Revolute then jo_cross o z (jo_sub o (trp (t_mul O T m)) (trp T)) else vzero), snd c).

Section Jac.
Variables (o : jops) (root r : mframe) (fs : list mframe) (s : schain M4 V3) (vs : list (config (S := R))).
Hypothesis (Hin : In r (preorder root)) (Hdj : distinct_joints root) (Hdf : distinct_frames root) (Hcl : clean_names root)
  (Hp : root_path r (r :: fs)) (Ht : serial_tables O zax s r fs).
Let sr := sroot zax r fs.
Let E v := path_pose1 O v (sr :: fs).

Lemma jacobian_tool_raw ms tools : row_tools vs ms = Some tools -> length tools = length vs /\
  jacobian_tool_with O o s (path_tensor fs vs) ms =
  Ok (zip_with (fun v m => map (col_tool o v sr (E v) m) (mov [] fs)) vs tools, zip_with (fun v m => t_mul O (E v) m) vs tools).
Proof.
  intros Hr.
  assert (Hl : length tools = length vs).
  { unfold row_tools in Hr. destruct (Nat.eqb_spec (length ms) (length vs)) as [X|X]; [congruence|].
    destruct ms as [|m [|m' l]]; try discriminate. assert (Y : repeat m (length vs) = tools) by congruence. rewrite <- Y. apply repeat_length. }
  split; [exact Hl|].
  pose proof (jacobian_raw O o root r fs s vs Hin Hdj Hdf Hcl Hp Ht) as HJ.
  destruct (serial_slots_raw O root r fs s vs Hin Hdj Hdf Hcl Hp Ht) as (arr & Ha & E1 & E2). fold sr in E1, E2, HJ. unfold jacobian_with in HJ. unfold jacobian_tool_with.
  rewrite Ha in *. cbn [rbind] in *. rewrite HJ. cbn [rbind]. change (fun v => path_pose1 O v (sr :: fs)) with E.
  assert (EB : bmatmul_with (t_mul O) (map E vs) ms = Ok (zip_with (fun v m => t_mul O (E v) m) vs tools)).
  { unfold bmatmul_with, row_tools in *. rewrite map_length, Nat.eqb_sym.
    assert (Z : forall l, zip_with (t_mul O) (map E vs) l = zip_with (fun v m => t_mul O (E v) m) vs l).
    { clear. induction vs as [|v l IH]; intros [|m ms]; cbn [map zip_with]; try reflexivity. rewrite IH. reflexivity. }
    destruct (Nat.eqb (length ms) (length vs)) eqn:X.
    - assert (Y : ms = tools) by congruence. rewrite Y, Z. reflexivity.
    - destruct ms as [|m [|m' l]]; try discriminate. assert (Y : repeat m (length vs) = tools) by congruence. rewrite <- Y. f_equal.
      clear. induction vs as [|v l IH]; [reflexivity|]. cbn [map length repeat zip_with]. rewrite IH. reflexivity. }
  rewrite EB. cbn [rbind]. rewrite E2. cbn [rbind]. rewrite (is_rev_raw O r fs s Ht). destruct Ht as (_ & _ & -> & _). rewrite <- (mov_snd fs []), !map_map, !map_length.
  assert (ED : bsub_with (jo_sub o) (map trp (zip_with (fun v m => t_mul O (E v) m) vs tools)) (map (fun v => trp (E v)) vs) =
    zip_with (fun v m => jo_sub o (trp (t_mul O (E v) m)) (trp (E v))) vs tools).
  { assert (Z : forall l, length l = length vs -> length (zip_with (fun (v : config) m => t_mul O (E v) m) vs l) = length vs).
    { clear. induction vs as [|v l IH]; intros [|m ms] H; cbn [zip_with length] in *; try lia. rewrite IH; lia. }
    unfold bsub_with. rewrite !map_length, (Z _ Hl), Nat.eqb_refl. clear -Hl. revert tools Hl. induction vs as [|v l IH]; intros [|m ms] H; cbn [map zip_with length] in *; try lia; [reflexivity|].
    rewrite IH by lia. reflexivity. }
  rewrite ED. unfold expand_batch.
  assert (EL : length (zip_with (fun v m => jo_sub o (trp (t_mul O (E v) m)) (trp (E v))) vs tools) = length vs).
  { clear -Hl. revert tools Hl. induction vs as [|v l IH]; intros [|m ms] H; cbn [zip_with length] in *; try lia. rewrite IH; lia. }
  rewrite EL, Nat.eqb_refl. cbn [rbind].
  set (vt := combine vs tools).
  assert (Ev : vs = map fst vt) by (unfold vt; symmetry; apply map_fst_combine; congruence).
  assert (Em : tools = map snd vt).
  { unfold vt. clear -Hl. revert tools Hl. induction vs as [|v l IH]; intros [|m ms] H; cbn [length combine map snd] in *; try lia; [reflexivity|]. f_equal. apply IH. lia. }
  clearbody vt. clear ED EL EB Hl Hr HJ Ha E1 E2. revert Ev Em. generalize vs tools. intros vs0 tools0 -> ->.
  rewrite !map_length, !(zip_with_map _ fst snd), !(zip_with_map _ _ (fun pg => j_axis (f_joint (snd pg)))), !map_map.
  match goal with |- context [batch_major _ ?c] => assert (EC : c = map (fun pg => map (fun x : config * M4 =>
     if jtype_eqb (j_type (f_joint (snd pg))) Revolute
     then jo_cross o (jo_vec o (rotp (path_pose1 O (fst x) ((sr :: fst pg) ++ [snd pg]))) (j_axis (f_joint (snd pg)))) (jo_sub o (trp (t_mul O (E (fst x)) (snd x))) (trp (E (fst x)))) else vzero) vt) (mov [] fs)) end.
  { rewrite where_dof_map. apply map_ext. intros [p g]. cbn [fst snd]. rewrite !map_map, !zip_with_map, !map_map. destruct (jtype_eqb (j_type (f_joint g)) Revolute); reflexivity. }
  rewrite EC. rewrite <- (map_length fst vt), map_length.
  match goal with |- context [map (fun pg => map (@?h pg) vt) (mov [] fs)] => rewrite (batch_major_map vt (mov [] fs) h) end.
  cbn [rbind]. f_equal. f_equal. rewrite zip_with_map. apply map_ext_in. intros [v m] Hx. cbn [fst snd]. rewrite zip_with_map. apply map_ext. intros [p g]. reflexivity.
Qed.
End Jac.
End Raw.

Section Err.
Variables (O : Ops M4 V3 R) (jo : jops) (g a o j gv us h : R).
Hypotheses (Hg : 0 <= g) (Ho : 1 <= o) (Hj : 1 <= j) (Ha : 0 <= a) (Hgv : 0 <= gv) (Hus : 0 <= us) (Hh : 0 <= h).
Hypothesis Hmul : rounded_product g (t_mul O).
Hypothesis Hone : t_one O = I4.
Hypothesis Hmot : accurate_motions a j O.
Hypothesis Hjo : rounded_jops gv us h jo.
Variables (r' r : mframe) (fs' fs : list mframe) (v : config (S := R)).
Hypothesis (Er : f_name r' = f_name r) (Hfs : Forall2 (close_node a o) fs' fs).
Variables (w : R) (m' m : M4) (Q : R).
Hypothesis Hm : close w m' m Q.
Let x := path_factor g o j (S (length fs)).
Let P := path_reach v fs.
Let Z := x * (1 + 2 * gv) * (1 + 2 * a).
Let y := x * w * (1 + 3 * g).
Let B := (1 + 2 * h) * Z * ((1 + us) * y).

Lemma tool_close : close y (t_mul O (path_pose1 O v (sroot zax r' fs' :: fs')) m') (m4mul (pose v fs) m) (P + Q).
Proof. apply close_mul; [exact Hg|exact Hmul| |exact Hm]. exact (close_whole O g a o j Hg Ho Hj Hmul Hone Hmot r' r fs' fs v Er Hfs). Qed.
Lemma col_tool_err p' p f' f q : fs = p ++ f :: q -> moving f = true -> Forall2 (close_node a o) p' p -> close_node a o f' f ->
  col_within (4 * (P + Q) * ((1 + us) * B - 1)) ((1 + us) * Z - 1) f
    (col_tool O jo v (sroot zax r' fs') (path_pose1 O v (sroot zax r' fs' :: fs')) m' (p', f')) (col_of v (m4mul (pose v fs) m) (p, f)).
Proof.
  intros E Hmv Hp Hf. pose proof Hf as (_ & _ & _ & _ & Et & Hax). destruct (Hax Hmv) as (Hk & A1 & A2 & A3).
  pose proof (axis_norm a _ _ Hk Ha A1 A2 A3) as Hd.
  pose proof (close_prefix O g a o j Hg Ho Hj Hmul Hone Hmot r' r fs' fs v Er p' p f' f q E Hp Hf) as HW.
  pose proof (close_whole O g a o j Hg Ho Hj Hmul Hone Hmot r' r fs' fs v Er Hfs) as HT. pose proof tool_close as H2. fold x P in HW, HT.
  unfold col_within, col_tool, col_raw, col_of. cbn [fst snd]. rewrite Et.
  destruct (z_err jo gv us h a x Hgv Hjo _ _ P _ _ HW Hk Hd) as (Ez & Lz). fold Z in Ez, Lz.
  pose proof (close_ge1 _ _ _ _ HT) as X1. pose proof (close_ge1 _ _ _ _ H2) as Y1. pose proof (close_ge1 _ _ _ _ Hm) as W1.
  assert (HZ : 1 <= Z) by (unfold Z; assert (1 <= x * (1 + 2 * gv)) by nra; nra).
  assert (XY : x <= y). { unfold y. assert (x * 1 <= x * w) by (apply Rmult_le_compat_l; lra). assert (x * w * 1 <= x * w * (1 + 3 * g)) by (apply Rmult_le_compat_l; lra). lra. }
  pose proof (close_P _ _ _ _ HT) as P0. pose proof (close_P _ _ _ _ Hm) as Q0.
  destruct (jtype_eqb (j_type (f_joint f)) Revolute) eqn:Ej; rewrite ?Ej; cbn [fst snd].
  - split.
    2:{ apply Rle_trans with (Z - 1); [exact Ez|]. nra. }
    set (z' := jo_vec jo _ _) in *. set (z := m3vec _ _) in *.
    assert (Uz : vnorm z = 1) by (unfold z; rewrite rot_vnorm by apply HW; apply (unit3_norm _ Hk)).
    assert (HWw : close y (path_pose1 O v ((sroot zax r' fs' :: p') ++ [f'])) (pose v (p ++ [f])) (P + Q)) by (eapply close_weaken; [exact HW|exact XY|lra]).
    assert (HTw : close y (path_pose1 O v (sroot zax r' fs' :: fs')) (pose v fs) (P + Q)) by (eapply close_weaken; [exact HT|exact XY|lra]).
    destruct (dp_err jo gv us h y Hus Hjo _ _ _ _ (P + Q) HWw HTw) as (Ed & Ld & L0).
    destruct (dp_err jo gv us h y Hus Hjo _ _ _ _ (P + Q) HTw H2) as (Ed2 & Ld2 & L2).
    assert (Y2 : 1 <= (1 + us) * y) by nra.
    pose proof (cross_err jo gv us h Hh Hjo _ _ _ _ Z (2 * (P + Q)) ((1 + us) * y) ltac:(lra) HZ Y2 Uz Ez Lz Ed Ld L0) as C1.
    pose proof (cross_err jo gv us h Hh Hjo _ _ _ _ Z (2 * (P + Q)) ((1 + us) * y) ltac:(lra) HZ Y2 Uz Ez Lz Ed2 Ld2 L2) as C2.
    fold B in C1, C2.
    set (A := vcross z (vsub (trp (pose v fs)) (trp (pose v (p ++ [f]))))) in *.
    set (C := vcross z (vsub (trp (m4mul (pose v fs) m)) (trp (pose v fs)))) in *.
    assert (EA : vcross z (vsub (trp (m4mul (pose v fs) m)) (trp (pose v (p ++ [f])))) = vadd A C).
    { unfold A, C. generalize z (trp (m4mul (pose v fs) m)) (trp (pose v fs)) (trp (pose v (p ++ [f]))). clear. intros. unfold vsub, vadd, vcross. cbn [vx vy vz]. apply mkV3_eq; ring. }
    rewrite EA. replace (4 * (P + Q) * ((1 + us) * B - 1)) with (2 * (2 * (P + Q)) * ((1 + us) * B - 1)) by ring.
    apply (add_err jo gv us h Hus Hjo); [lra|exact C1| |exact C2|].
    + eapply Rle_trans; [apply cross_norm_le|]. rewrite Uz, Rmult_1_l. exact L0.
    + eapply Rle_trans; [apply cross_norm_le|]. rewrite Uz, Rmult_1_l. exact L2.
  - split; [|split; reflexivity]. apply (add_zero_err jo gv us h Hus Hjo); assumption.
Qed.
Lemma jac_tool_err : jac_within (4 * (P + Q) * ((1 + us) * B - 1)) ((1 + us) * Z - 1) (filter moving fs)
  (map (col_tool O jo v (sroot zax r' fs') (path_pose1 O v (sroot zax r' fs' :: fs')) m') (mov [] fs')) (map (col_of v (m4mul (pose v fs) m)) (mov [] fs)).
Proof.
  rewrite <- (mov_snd fs []). pose proof (mov_close a o _ _ [] [] Hfs (Forall2_nil _)) as HM.
  assert (HL : forall p f, In (p, f) (mov [] fs) -> moving f = true /\ exists q, fs = p ++ f :: q) by (intros p f Hi; apply (mov_split fs [] p f Hi)).
  revert HL HM. generalize (mov [] fs') (mov [] fs). intros l0 m0 HL HM. revert HL. induction HM as [|[p' f'] [p f] l mm (H1 & H2) _ IH]; intros HL; cbn [map]; constructor.
  - cbn [fst snd] in *. destruct (HL p f (or_introl eq_refl)) as (Hmv & q & E). apply (col_tool_err p' p f' f q); assumption.
  - apply IH. intros p0 f0 Hi. apply HL. right; exact Hi.
Qed.
End Err.
