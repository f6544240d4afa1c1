(** The backward pass of [GradModel] computes the derivative at every point where no operation has a kink. *)
From Coq Require Import Reals Lra Bool Arith Lia List.
From Coquelicot Require Import Coquelicot.
From Verif Require Import Prelude ExtF Trig Lin RotModel MathModel AcosProofs GradModel.
Import ListNotations.
Local Open Scope R_scope.

(** ** The same tape on real numbers *)
Definition rpick (q0 q1 q2 q3 : R) : nat :=
  let f i := match i with 0 => q0 | 1 => q1 | 2 => q2 | _ => q3 end%nat in
  let i1 := if Rltb (f 0%nat) (f 1%nat) then 1%nat else 0%nat in
  let i2 := if Rltb (f i1) (f 2%nat) then 2%nat else i1 in
  if Rltb (f i2) (f 3%nat) then 3%nat else i2.
Definition rval (env : list R) (o : op) : R :=
  let v k := nth k env 0 in
  match o with
  | OConst r => r
  | OAdd a b => v a + v b
  | OSub a b => v a - v b
  | OMul a b => v a * v b
  | ODiv a b => v a / v b
  | ONeg a => - v a
  | ORecip a => 1 / v a
  | OSquare a => v a * v a
  | OSqrt a => sqrt (v a)
  | OSqrtPos a => sqrt (Rmax (v a) 0)
  | OClamp lo hi a => let x := Rmax (v a) lo in match hi with None => x | Some h => Rmin x h end
  | OSin a => sin (v a)
  | OCos a => cos (v a)
  | OAbs a => Rabs (v a)
  | OSign a => Rsgn (v a)
  | OIsZero a => if Reqb (v a) 0 then 1 else 0
  | OAtan2 a b => atan2 (v a) (v b)
  | OMax a b => Rmax (v a) (v b)
  | OWhere a b c d => if Rltb (v a) (v b) then v c else v d
  | ONorm a b c => sqrt (v a * v a + v b * v b + v c * v c)
  | OAcos lo hi a => acos_extrap lo hi (v a)
  | OPick q0 q1 q2 q3 c0 c1 c2 c3 => v (sel (rpick (v q0) (v q1) (v q2) (v q3)) c0 c1 c2 c3)
  | OMask m a => if m then 0 else v a
  | OAsin a => asin (v a)
  | OArccos a => acos (v a)
  end.
Fixpoint rrun (ops : list op) (env : list R) : list R :=
  match ops with [] => env | o :: r => rrun r (env ++ [rval env o]) end.
Definition max_part (x y : R) : R := if Rltb x y then 0 else if Reqb x y then / 2 else 1.
Definition norm_part (x n : R) : R := if Reqb n 0 then 0 else x / n.
(** the partial derivatives, or what stands for them at a kink *)
Definition parts (env : list R) (o : op) : list (nat * R) :=
  let v k := nth k env 0 in
  match o with
  | OConst _ | OIsZero _ => []
  | OAdd a b => [(a, 1); (b, 1)]
  | OSub a b => [(a, 1); (b, -1)]
  | OMul a b => [(a, v b); (b, v a)]
  | ODiv a b => [(a, / v b); (b, - (v a / v b / v b))]
  | ONeg a => [(a, -1)]
  | ORecip a => [(a, - (1 / v a * (1 / v a)))]
  | OSquare a => [(a, 2 * v a)]
  | OSqrt a => [(a, / (2 * sqrt (v a)))]
  | OSqrtPos a => [(a, if Rleb 0 (v a) then / (2 * sqrt (v a)) else 0)]
  | OClamp lo hi a => [(a, if Rleb lo (v a) && match hi with None => true | Some h => Rleb (v a) h end then 1 else 0)]
  | OSin a => [(a, cos (v a))]
  | OCos a => [(a, - sin (v a))]
  | OAbs a => [(a, Rsgn (v a))]
  | OSign a => [(a, 0)]
  | OAtan2 a b => let r := 1 / (v a * v a + v b * v b) in [(a, v b * r); (b, - v a * r)]
  | OMax a b => [(a, max_part (v a) (v b)); (b, max_part (v b) (v a))]
  | OWhere a b c d => if Rltb (v a) (v b) then [(c, 1); (d, 0)] else [(c, 0); (d, 1)]
  | ONorm a b c => let n := sqrt (v a * v a + v b * v b + v c * v c) in [(a, norm_part (v a) n); (b, norm_part (v b) n); (c, norm_part (v c) n)]
  | OAcos lo hi a => [(a, if Rleb (v a) lo then dacos_dx lo else if Rleb hi (v a) then dacos_dx hi else dacos_dx (v a))]
  | OPick q0 q1 q2 q3 c0 c1 c2 c3 =>
      let i := rpick (v q0) (v q1) (v q2) (v q3) in
      [(c0, if Nat.eqb i 0 then 1 else 0); (c1, if Nat.eqb i 1 then 1 else 0); (c2, if Nat.eqb i 2 then 1 else 0); (c3, if Nat.eqb i 3 then 1 else 0)]
  | OMask m a => [(a, if m then 0 else 1)]
  | OAsin a => [(a, - dacos_dx (v a))]
  | OArccos a => [(a, dacos_dx (v a))]
  end.
Definition args (o : op) : list nat :=
  match o with
  | OConst _ => []
  | OAdd a b | OSub a b | OMul a b | ODiv a b | OAtan2 a b | OMax a b => [a; b]
  | ONeg a | ORecip a | OSquare a | OSqrt a | OSqrtPos a | OClamp _ _ a | OSin a | OCos a | OAbs a | OSign a | OIsZero a | OAcos _ _ a | OMask _ a | OAsin a | OArccos a => [a]
  | OWhere a b c d => [a; b; c; d]
  | ONorm a b c => [a; b; c]
  | OPick q0 q1 q2 q3 c0 c1 c2 c3 => [q0; q1; q2; q3; c0; c1; c2; c3]
  end.
(** the arguments whose smoothness matters: not those of the branch that is not taken *)
Definition needs (env : list R) (o : op) : list nat :=
  let v k := nth k env 0 in
  match o with
  | OWhere a b c d => [a; b; if Rltb (v a) (v b) then c else d]
  | OPick q0 q1 q2 q3 c0 c1 c2 c3 => [q0; q1; q2; q3; sel (rpick (v q0) (v q1) (v q2) (v q3)) c0 c1 c2 c3]
  | _ => args o
  end.
(** where the formulas of the backward pass give finite numbers *)
Definition tame (env : list R) (o : op) : Prop :=
  let v k := nth k env 0 in
  match o with
  | ODiv a b => v b <> 0
  | ORecip a => v a <> 0
  | OSqrt a => 0 < v a
  | OSqrtPos a => v a <> 0
  | OAtan2 a b => v a <> 0 \/ v b <> 0
  | OAcos lo hi a => -1 < lo /\ lo < hi /\ hi < 1
  | OAsin a | OArccos a => -1 < v a < 1
  | _ => True
  end.
(** where the operation is differentiable *)
Definition regular (env : list R) (o : op) : Prop :=
  let v k := nth k env 0 in
  match o with
  | ODiv a b => v b <> 0
  | ORecip a => v a <> 0
  | OSqrt a => 0 < v a
  | OSqrtPos a => v a <> 0
  | OAtan2 a b => v a <> 0 \/ 0 < v b
  | OAcos lo hi a => -1 < lo /\ lo < hi /\ hi < 1
  | OAsin a | OArccos a => -1 < v a < 1
  | OClamp lo hi a => v a <> lo /\ match hi with None => True | Some h => lo < h /\ v a <> h end
  | OAbs a | OSign a | OIsZero a => v a <> 0
  | OMax a b => v a <> v b
  | OWhere a b _ _ => v a <> v b
  | ONorm a b c => v a * v a + v b * v b + v c * v c <> 0
  | OPick q0 q1 q2 q3 _ _ _ _ =>
      let f i := sel i (v q0) (v q1) (v q2) (v q3) in let i := rpick (v q0) (v q1) (v q2) (v q3) in
      forall j, (j < 4)%nat -> j <> i -> f j < f i
  | _ => True
  end.

(** ** Finite numbers *)
Lemma nth_fin env k : (k < length env)%nat -> nth k (map Fin env) NaN = Fin (nth k env 0).
Proof. intros H. rewrite (nth_indep _ NaN (Fin 0)) by (rewrite map_length; exact H). apply (map_nth Fin). Qed.
Lemma fdivr_fin x y : y <> 0 -> fdivr (Fin x) y = Fin (x / y).
Proof. intros H. unfold fdivr. destruct (Reqb y 0) eqn:E; [apply Reqb_true in E; contradiction | reflexivity]. Qed.
Lemma gsqrt_fin x : 0 <= x -> gsqrt (Fin x) = Fin (sqrt x).
Proof. intros H. unfold gsqrt. destruct (Rltb x 0) eqn:E; [apply Rltb_true in E; lra | reflexivity]. Qed.
Lemma fmax_fin x y : fmax (Fin x) (Fin y) = Fin (Rmax x y).
Proof. unfold fmax. cbn. destruct (Rltb x y) eqn:E; [apply Rltb_true in E; rewrite Rmax_right by lra | apply Rltb_false in E; rewrite Rmax_left by lra]; reflexivity. Qed.
Lemma fmin_fin x y : fmin (Fin x) (Fin y) = Fin (Rmin x y).
Proof. unfold fmin. cbn. destruct (Rltb y x) eqn:E; [apply Rltb_true in E; rewrite Rmin_right by lra | apply Rltb_false in E; rewrite Rmin_left by lra]; reflexivity. Qed.
Lemma fpick_fin a b c d : fpick (Fin a) (Fin b) (Fin c) (Fin d) = rpick a b c d.
Proof. unfold fpick, rpick. cbn [flt]. destruct (Rltb a b); cbn [flt]; [destruct (Rltb b c) | destruct (Rltb a c)]; reflexivity. Qed.
Lemma rpick_lt a b c d : (rpick a b c d < 4)%nat.
Proof. unfold rpick. destruct (Rltb a b); [destruct (Rltb b c) | destruct (Rltb a c)]; match goal with |- context [if ?x then _ else _] => destruct x end; lia. Qed.
Lemma sq3_nonneg a b c : 0 <= a * a + b * b + c * c. Proof. pose proof (Rle_0_sqr a); pose proof (Rle_0_sqr b); pose proof (Rle_0_sqr c). unfold Rsqr in *. lra. Qed.

Ltac fins := rewrite ?nth_fin by (apply_hyp)
with apply_hyp := match goal with H : forall a, In a _ -> (a < _)%nat |- (_ < _)%nat => apply H; cbn [args In]; tauto end.

Lemma tasin_fin x : -1 <= x <= 1 -> gasin (Fin x) = Fin (asin x).
Proof. intros H. cbn [gasin]. unfold tasin. destruct (Rleb (-1) x) eqn:E1; [|apply Rleb_false in E1; lra]. destruct (Rleb x 1) eqn:E2; [reflexivity | apply Rleb_false in E2; lra]. Qed.
Lemma tacos_fin x : -1 <= x <= 1 -> gacos (Fin x) = Fin (acos x).
Proof. intros H. cbn [gacos]. unfold tacos. destruct (Rleb (-1) x) eqn:E1; [|apply Rleb_false in E1; lra]. destruct (Rleb x 1) eqn:E2; [reflexivity | apply Rleb_false in E2; lra]. Qed.
Lemma arc_back x : -1 < x < 1 -> gdiv (Fin 1) (gsqrt (fadd (fmul (fopp (Fin x)) (Fin x)) (Fin 1))) = Fin (- dacos_dx x).
Proof.
  intros H. cbn [fopp fmul fadd]. assert (P : 0 < - x * x + 1) by nra. rewrite gsqrt_fin by lra. pose proof (sqrt_lt_R0 _ P). cbn [gdiv]. rewrite fdivr_fin by lra. f_equal. unfold dacos_dx. replace (1 - x * x) with (- x * x + 1) by ring. field. lra.
Qed.
Lemma fval_fin env o : (forall a, In a (args o) -> (a < length env)%nat) -> tame env o -> fval (map Fin env) o = Fin (rval env o).
Proof.
  intros W T. destruct o; cbn [fval rval tame args] in *; fins; cbn [fadd fsub fmul fopp gfun gabs gatan2 gsgn geqb flt]; try reflexivity.
  - unfold gdiv. rewrite fdivr_fin by exact T. reflexivity.
  - unfold gdiv. rewrite fdivr_fin by exact T. reflexivity.
  - apply gsqrt_fin. lra.
  - rewrite fmax_fin. apply gsqrt_fin, Rmax_r.
  - rewrite fmax_fin. destruct hi; [apply fmin_fin | reflexivity].
  - destruct (Reqb (nth a env 0) 0); reflexivity.
  - apply fmax_fin.
  - destruct (Rltb (nth a env 0) (nth b env 0)); reflexivity.
  - unfold fnorm3. cbn [fmul fadd]. apply gsqrt_fin, sq3_nonneg.
  - rewrite (nth_fin env q0), (nth_fin env q1), (nth_fin env q2), (nth_fin env q3) by apply_hyp. rewrite fpick_fin. apply nth_fin. pose proof (rpick_lt (nth q0 env 0) (nth q1 env 0) (nth q2 env 0) (nth q3 env 0)) as L.
    apply W. cbn. destruct (rpick _ _ _ _) as [|[|[|[|]]]]; cbn [sel]; tauto.
  - destruct m; reflexivity.
  - apply tasin_fin. lra.
  - apply tacos_fin. lra.
Qed.

Definition scaled (g : R) (l : list (nat * R)) : list (nat * F) := map (fun c => (fst c, Fin (g * snd c))) l.
Lemma pair_fin (a : nat) x y : x = y -> (a, Fin x) = (a, Fin y). Proof. intros ->. reflexivity. Qed.
Lemma max_back_fin x y g : max_back (Fin x) (Fin y) (Fin g) = Fin (g * max_part x y).
Proof.
  unfold max_back, max_part. cbn [flt geqb]. destruct (Rltb x y); [f_equal; ring|]. destruct (Reqb x y); [|f_equal; ring]. cbn [gdiv]. rewrite fdivr_fin by lra. f_equal.
Qed.
Lemma norm_back_fin old x n g : norm_back old (Fin x) (Fin n) (Fin g) = Fin (g * norm_part x n).
Proof.
  unfold norm_back, norm_part. cbn [geqb]. destruct (Reqb n 0) eqn:E; [destruct old; cbn [fmul]; f_equal; ring|]. apply Reqb_false in E.
  destruct old; cbn [gdiv]; rewrite fdivr_fin by exact E; cbn [fmul]; f_equal; field; exact E.
Qed.
Lemma sqrt_ne x : 0 < x -> 2 * sqrt x <> 0. Proof. intros H. pose proof (sqrt_lt_R0 x H). lra. Qed.
Lemma sq2_ne x y : x <> 0 \/ y <> 0 -> x * x + y * y <> 0. Proof. intros H. pose proof (norm2_pos x y H). lra. Qed.

Lemma fparts_fin old env o g : (forall a, In a (args o) -> (a < length env)%nat) -> tame env o ->
  fparts old (map Fin env) o (Fin (rval env o)) (Fin g) = scaled g (parts env o).
Proof.
  intros W T. unfold scaled. destruct o; cbn [fparts rval tame args parts map fst snd] in *; fins; cbn [fadd fsub fmul fopp gfun gabs gatan2 gsgn geqb flt fle]; try reflexivity.
  - rewrite !Rmult_1_r. reflexivity.
  - rewrite Rmult_1_r. replace (g * -1) with (- g) by ring. reflexivity.
  - cbn [gdiv]. rewrite !fdivr_fin by exact T. cbn [fmul]. f_equal. f_equal. apply pair_fin. field. exact T.
  - replace (g * -1) with (- g) by ring. reflexivity.
  - f_equal. apply pair_fin. ring.
  - pose proof (sqrt_ne _ T). cbn [gdiv]. rewrite fdivr_fin by assumption. reflexivity.
  - destruct (Rleb 0 (nth a env 0)) eqn:E; [|rewrite Rmult_0_r; reflexivity]. apply Rleb_true in E. rewrite Rmax_left by exact E.
    assert (0 < nth a env 0) by lra. cbn [gdiv]. rewrite fdivr_fin by (apply sqrt_ne; assumption). reflexivity.
  - destruct hi as [h|]; [destruct (Rleb lo (nth a env 0)), (Rleb (nth a env 0) h) | destruct (Rleb lo (nth a env 0))]; cbn [andb]; rewrite ?Rmult_1_r, ?Rmult_0_r; reflexivity.
  - rewrite Rmult_0_r. reflexivity.
  - pose proof (sq2_ne _ _ T). cbn [gdiv]. rewrite !fdivr_fin by assumption. cbn [fmul]. f_equal; [apply pair_fin; field; assumption|]. f_equal. apply pair_fin. field. assumption.
  - rewrite !max_back_fin. reflexivity.
  - destruct (Rltb (nth a env 0) (nth b env 0)); rewrite ?Rmult_1_r, ?Rmult_0_r; cbn [map fst snd]; rewrite ?Rmult_1_r, ?Rmult_0_r; reflexivity.
  - rewrite !norm_back_fin. reflexivity.
  - f_equal. destruct (Rleb (nth a env 0) lo) eqn:E1; [reflexivity|]. destruct (Rleb hi (nth a env 0)) eqn:E2; [reflexivity|].
    apply Rleb_false in E1, E2. assert (P : 0 < - nth a env 0 * nth a env 0 + 1) by nra. rewrite gsqrt_fin by lra. cbn [gdiv]. pose proof (sqrt_lt_R0 _ P). rewrite fdivr_fin by lra. cbn [fmul fopp].
    apply pair_fin. unfold dacos_dx. replace (- nth a env 0 * nth a env 0 + 1) with (1 - nth a env 0 * nth a env 0) by ring. replace (- nth a env 0 * nth a env 0 + 1) with (1 - nth a env 0 * nth a env 0) in * by ring. field. lra.
  - rewrite fpick_fin. destruct (rpick _ _ _ _) as [|[|[|[|]]]]; cbn [Nat.eqb map fst snd]; rewrite ?Rmult_1_r, ?Rmult_0_r; reflexivity.
  - destruct m; rewrite ?Rmult_1_r, ?Rmult_0_r; reflexivity.
  - pose proof (arc_back _ T) as B. cbn [fopp fmul fadd] in B. rewrite B. cbn [fmul]. reflexivity.
  - pose proof (arc_back _ T) as B. cbn [fopp fmul fadd] in B. rewrite B. cbn [fmul fopp]. f_equal. apply pair_fin. ring.
Qed.

(** ** The whole tape *)
Fixpoint wf_ops (n : nat) (ops : list op) : bool :=
  match ops with [] => true | o :: r => forallb (fun a => Nat.ltb a n) (args o) && wf_ops (S n) r end.
Fixpoint along (P : list R -> op -> Prop) (ops : list op) (env : list R) : Prop :=
  match ops with [] => True | o :: r => P env o /\ along P r (env ++ [rval env o]) end.
Lemma wf_in n o r : wf_ops n (o :: r) = true -> (forall a, In a (args o) -> (a < n)%nat) /\ wf_ops (S n) r = true.
Proof. cbn [wf_ops]. intros H. apply andb_true_iff in H as [H1 H2]. split; [|exact H2]. intros a Ha. rewrite forallb_forall in H1. apply Nat.ltb_lt, H1, Ha. Qed.
Lemma rrun_len ops env : length (rrun ops env) = (length env + length ops)%nat.
Proof. revert env. induction ops as [|o r IH]; intros env; cbn [rrun length]; [lia|]. rewrite IH, app_length. cbn [length]. lia. Qed.
Lemma rrun_nth ops env k : (k < length env)%nat -> nth k (rrun ops env) 0 = nth k env 0.
Proof.
  revert env. induction ops as [|o r IH]; intros env H; cbn [rrun]; [reflexivity|]. rewrite IH by (rewrite app_length; cbn [length]; lia). apply app_nth1, H.
Qed.
Definition agrees (l e : list R) (o : op) : Prop := forall a, In a (args o) -> nth a l 0 = nth a e 0.
Ltac agree A := cbn [args In] in A; cbn [rval parts tame]; rewrite ?(A _) by tauto.
Lemma pick_in q0 q1 q2 q3 c0 c1 c2 c3 i : In (sel i c0 c1 c2 c3) (args (OPick q0 q1 q2 q3 c0 c1 c2 c3)).
Proof. destruct i as [|[|[|[|]]]]; cbn [sel args In]; tauto. Qed.
Lemma rval_agree l e o : agrees l e o -> rval l o = rval e o.
Proof.
  intros A. destruct o as [r|a b|a b|a b|a b|a|a|a|a|a|lo hi a|a|a|a|a|a|a b|a b|a b c d|a b c|lo hi a|q0 q1 q2 q3 c0 c1 c2 c3|m a|a|a]; cbn [rval];
    try (rewrite (A a) by (cbn; tauto)); try (rewrite (A b) by (cbn; tauto)); try (rewrite (A c) by (cbn; tauto)); try (rewrite (A d) by (cbn; tauto)); try reflexivity.
  rewrite (A q0), (A q1), (A q2), (A q3) by (cbn; tauto). apply A, pick_in.
Qed.
Lemma parts_agree l e o : agrees l e o -> parts l o = parts e o.
Proof.
  intros A. destruct o as [r|a b|a b|a b|a b|a|a|a|a|a|lo hi a|a|a|a|a|a|a b|a b|a b c d|a b c|lo hi a|q0 q1 q2 q3 c0 c1 c2 c3|m a|a|a]; cbn [parts];
    try (rewrite (A a) by (cbn; tauto)); try (rewrite (A b) by (cbn; tauto)); try (rewrite (A c) by (cbn; tauto)); try (rewrite (A d) by (cbn; tauto)); try reflexivity.
  rewrite (A q0), (A q1), (A q2), (A q3) by (cbn; tauto). reflexivity.
Qed.
Lemma tame_agree l e o : agrees l e o -> tame e o -> tame l o.
Proof.
  intros A. destruct o as [r|a b|a b|a b|a b|a|a|a|a|a|lo hi a|a|a|a|a|a|a b|a b|a b c d|a b c|lo hi a|q0 q1 q2 q3 c0 c1 c2 c3|m a|a|a]; cbn [tame];
    try (rewrite (A a) by (cbn; tauto)); try (rewrite (A b) by (cbn; tauto)); trivial.
Qed.
Lemma frun_fin ops env : wf_ops (length env) ops = true -> along tame ops env -> frun ops (map Fin env) = map Fin (rrun ops env).
Proof.
  revert env. induction ops as [|o r IH]; intros env W T; cbn [frun rrun]; [reflexivity|]. destruct (wf_in _ _ _ W) as [W1 W2]. destruct T as [T1 T2].
  rewrite (fval_fin env o W1 T1). change [Fin (rval env o)] with (map Fin [rval env o]). rewrite <- map_app. apply IH; [rewrite app_length, Nat.add_1_r; exact W2 | exact T2].
Qed.

Fixpoint racc_at (k : nat) (x : R) (l : list R) : list R :=
  match l, k with
  | [], _ => []
  | y :: l, O => y + x :: l
  | y :: l, S k => y :: racc_at k x l
  end.
Definition racc (cot : list R) (cs : list (nat * R)) : list R := fold_left (fun l c => racc_at (fst c) (snd c) l) cs cot.
Definition rscaled (g : R) (l : list (nat * R)) : list (nat * R) := map (fun c => (fst c, g * snd c)) l.
Fixpoint rback (k : nat) (ops : list op) (env cot : list R) : list R :=
  match ops with
  | [] => cot
  | o :: r => let c := rback (S k) r env cot in racc c (rscaled (nth k c 0) (parts env o))
  end.
Lemma acc_at_fin k x l : acc_at k (Fin x) (map Fin l) = map Fin (racc_at k x l).
Proof. revert k. induction l as [|y l IH]; intros [|k]; cbn; try reflexivity. rewrite IH. reflexivity. Qed.
Lemma acc_fin l cs : acc (map Fin l) (map (fun c => (fst c, Fin (snd c))) cs) = map Fin (racc l cs).
Proof. revert l. induction cs as [|[a x] cs IH]; intros l; [reflexivity|]. unfold acc, racc in *. cbn [map fold_left fst snd]. rewrite acc_at_fin. apply IH. Qed.
Lemma racc_at_len k x l : length (racc_at k x l) = length l.
Proof. revert k. induction l as [|y l IH]; intros [|k]; cbn; try reflexivity. rewrite IH. reflexivity. Qed.
Lemma racc_len l cs : length (racc l cs) = length l.
Proof. revert l. induction cs as [|c cs IH]; intros l; [reflexivity|]. unfold racc in *. cbn [fold_left]. rewrite IH. apply racc_at_len. Qed.
Lemma rback_len k ops env cot : length (rback k ops env cot) = length cot.
Proof. revert k. induction ops as [|o r IH]; intros k; cbn [rback]; [reflexivity|]. rewrite racc_len. apply IH. Qed.
Lemma fback_fin old ops env cot : wf_ops (length env) ops = true -> along tame ops env -> length cot = (length env + length ops)%nat ->
  fback old (length env) ops (map Fin (rrun ops env)) (map Fin cot) = map Fin (rback (length env) ops (rrun ops env) cot).
Proof.
  revert env. induction ops as [|o r IH]; intros env W T L; [reflexivity|]. destruct (wf_in _ _ _ W) as [W1 W2]. destruct T as [T1 T2].
  cbn [rrun fback rback]. assert (E : length (env ++ [rval env o]) = S (length env)) by (rewrite app_length; cbn; lia).
  assert (X := IH (env ++ [rval env o])). rewrite E in X. rewrite X by (cbn [length] in L; auto; lia).
  set (full := rrun r (env ++ [rval env o])). set (c := rback (S (length env)) r full cot).
  assert (Ag : agrees full env o). { intros a Ha. specialize (W1 a Ha). unfold full. rewrite rrun_nth by lia. apply app_nth1, W1. }
  assert (Lf : length full = (length env + S (length r))%nat) by (unfold full; rewrite rrun_len; lia).
  assert (Lc : length c = (length env + S (length r))%nat) by (unfold c; rewrite rback_len; exact L).
  rewrite !nth_fin by lia. replace (nth (length env) full 0) with (rval full o).
  - rewrite fparts_fin; [|intros a Ha; specialize (W1 a Ha); lia | apply (tame_agree full env o Ag T1)].
    unfold scaled. rewrite <- (acc_fin c). unfold rscaled. rewrite map_map. reflexivity.
  - rewrite (rval_agree full env o Ag). unfold full. rewrite rrun_nth by lia. rewrite app_nth2, Nat.sub_diag by lia. reflexivity.
Qed.

(** ** Tangents, and the two passes are adjoint *)
Fixpoint psum (l : list (nat * R)) (tan : list R) : R := match l with [] => 0 | c :: l => snd c * nth (fst c) tan 0 + psum l tan end.
Fixpoint trun (ops : list op) (env tan : list R) : list R :=
  match ops with [] => tan | o :: r => trun r (env ++ [rval env o]) (tan ++ [psum (parts env o) tan]) end.
Fixpoint dotn (n : nat) (c t : list R) : R := match n with O => 0 | S n => dotn n c t + nth n c 0 * nth n t 0 end.
Lemma trun_len ops env tan : length (trun ops env tan) = (length tan + length ops)%nat.
Proof. revert env tan. induction ops as [|o r IH]; intros env tan; cbn [trun length]; [lia|]. rewrite IH, app_length. cbn [length]. lia. Qed.
Lemma trun_nth ops env tan k : (k < length tan)%nat -> nth k (trun ops env tan) 0 = nth k tan 0.
Proof. revert env tan. induction ops as [|o r IH]; intros env tan H; cbn [trun]; [reflexivity|]. rewrite IH by (rewrite app_length; cbn [length]; lia). apply app_nth1, H. Qed.
Lemma racc_at_nth k x l j : (k < length l)%nat -> nth j (racc_at k x l) 0 = nth j l 0 + (if Nat.eqb j k then x else 0).
Proof.
  revert k j. induction l as [|y l IH]; intros k j H; [cbn in H; lia|]. destruct k as [|k], j as [|j]; cbn; try ring. cbn in H. apply IH. lia.
Qed.
Lemma dotn_acc_at n k x c t : (k < n)%nat -> (k < length c)%nat -> dotn n (racc_at k x c) t = dotn n c t + x * nth k t 0.
Proof.
  intros H L. assert (G : forall m, dotn m (racc_at k x c) t = dotn m c t + (if Nat.ltb k m then x * nth k t 0 else 0)).
  { induction m as [|m IH]; cbn [dotn]; [cbn; ring|]. rewrite IH, racc_at_nth by exact L. destruct (Nat.ltb_spec k m), (Nat.ltb_spec k (S m)); try lia.
    - replace (Nat.eqb m k) with false by (symmetry; apply Nat.eqb_neq; lia). ring.
    - assert (m = k) by lia. subst. rewrite Nat.eqb_refl. ring.
    - replace (Nat.eqb m k) with false by (symmetry; apply Nat.eqb_neq; lia). ring. }
  rewrite G. destruct (Nat.ltb_spec k n); [reflexivity | lia].
Qed.
Lemma dotn_acc n g cs c t : (forall a p, In (a, p) cs -> (a < n)%nat) -> (n <= length c)%nat -> dotn n (racc c (rscaled g cs)) t = dotn n c t + g * psum cs t.
Proof.
  revert c. induction cs as [|[a p] cs IH]; intros c H L; [cbn; ring|]. unfold racc, rscaled in *. cbn [map fold_left fst snd psum].
  assert (A : (a < n)%nat) by (apply (H a p); left; reflexivity). rewrite IH; [|intros b q Hb; apply (H b q); right; exact Hb | rewrite racc_at_len; exact L].
  rewrite dotn_acc_at by lia. ring.
Qed.
Lemma parts_in env o a p : In (a, p) (parts env o) -> In a (args o).
Proof.
  destruct o; cbn [parts args]; try (destruct (Rltb _ _)); cbn [In]; intros H; repeat (destruct H as [H|H]; [injection H as <- _; tauto |]); try tauto; try contradiction.
Qed.
Lemma psum_agree l e t cs : (forall a p, In (a, p) cs -> nth a l 0 = nth a t 0) -> e = psum cs t -> psum cs l = e.
Proof. intros H ->. induction cs as [|[a p] cs IH]; [reflexivity|]. cbn [psum fst snd]. rewrite IH by (intros b q Hb; apply (H b q); right; exact Hb). rewrite (H a p) by (left; reflexivity). reflexivity. Qed.
Lemma adjoint ops env tan cot : wf_ops (length env) ops = true -> length tan = length env -> length cot = (length env + length ops)%nat ->
  dotn (length env + length ops) cot (trun ops env tan) = dotn (length env) (rback (length env) ops (rrun ops env) cot) (trun ops env tan).
Proof.
  revert env tan. induction ops as [|o r IH]; intros env tan W Lt Lc; [cbn [length rback]; rewrite Nat.add_0_r; reflexivity|]. destruct (wf_in _ _ _ W) as [W1 W2].
  cbn [rrun rback trun]. set (env1 := env ++ [rval env o]). set (tan1 := tan ++ [psum (parts env o) tan]).
  assert (E : length env1 = S (length env)) by (unfold env1; rewrite app_length; cbn; lia).
  assert (Et : length tan1 = S (length tan)) by (unfold tan1; rewrite app_length; cbn; lia).
  assert (X := IH env1 tan1). rewrite E in X. cbn [length] in *. replace (length env + S (length r))%nat with (S (length env) + length r)%nat by lia.
  rewrite X by (auto; lia). set (full := rrun r env1). set (c := rback (S (length env)) r full cot). set (tf := trun r env1 tan1). cbn [dotn].
  assert (Ag : agrees full env o). { intros a Ha. specialize (W1 a Ha). unfold full. rewrite rrun_nth by lia. apply app_nth1, W1. }
  assert (Lcc : length c = length cot) by (unfold c; apply rback_len).
  rewrite (parts_agree full env o Ag), dotn_acc; [|intros a p Hap; apply W1, (parts_in env o a p Hap) | lia]. f_equal. f_equal.
  unfold tf. rewrite trun_nth by lia. unfold tan1. rewrite app_nth2 by lia. rewrite <- Lt, Nat.sub_diag. cbn [nth]. symmetry.
  apply (psum_agree _ _ tan); [|reflexivity]. intros a p Hap. specialize (W1 a (parts_in env o a p Hap)). rewrite trun_nth by (rewrite app_length; lia). apply app_nth1. lia.
Qed.
