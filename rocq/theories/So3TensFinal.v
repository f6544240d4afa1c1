(** Last steps of the proofs quoted in Properties_So3Tens.v. *)
From Coq Require Import Reals Lra Bool Arith Lia List.
From Verif Require Import Prelude ExtF Lin Trig RotModel AxisAngle MathModel So3Proofs So3More MathFinal TorchModel RotTorchModel SpecTorch TorchProofs RotTorch IkTorch So3TorchModel So3Torch.
Import ListNotations.
Local Open Scope nat_scope.

Lemma ok1 {A} (a b : A) : Ok [a] = Ok [b] -> a = b.
Proof. congruence. Qed.
Lemma rows3_nth m N r : r < N -> nth_error (rows3 m N) r = Some (m3_at m [r]).
Proof. intros L. unfold rows3. rewrite nth_error_map, (nth_error_nth' (seq 0 N) 0) by (rewrite seq_length; exact L). rewrite seq_nth by exact L. reflexivity. Qed.
Lemma rows3_in m N A : In A (rows3 m N) -> exists r, r < N /\ A = m3_at m [r].
Proof. intros I. unfold rows3 in I. apply in_map_iff in I as (r & <- & I). apply in_seq in I. exists r. split; [lia | reflexivity]. Qed.
Lemma in_rows3 m N r : r < N -> In (m3_at m [r]) (rows3 m N).
Proof. intros L. exact (nth_error_In _ _ (rows3_nth m N r L)). Qed.
Lemma map_seq_nth {A} (f : nat -> A) N vs r : map f (seq 0 N) = vs -> r < N -> nth_error vs r = Some (f r).
Proof. intros <- L. rewrite nth_error_map, (nth_error_nth' (seq 0 N) 0) by (rewrite seq_length; exact L). rewrite seq_nth by exact L. reflexivity. Qed.
Lemma log_each (m : tensor R) N e : shape m = [3; 3; N] -> N <> 0 -> (forall r, r < N -> is_rot (m3_at m [r])) ->
  exists out, so3_log_map_t m e = Ok out /\ shape out = [3; N] /\ forall r, r < N -> so3_log_map [m3_at m [r]] e = Ok [v_at out [r]].
Proof.
  intros S N0 H. assert (NE : rows3 m N <> []) by (unfold rows3; destruct N; [lia | discriminate]).
  destruct (log_rows (rows3 m N) e NE) as (vs & E & _ & Hv); [intros A I; destruct (rows3_in m N A I) as (r & L & ->); exact (H r L)|].
  pose proof (log_rows_t m N e S) as G. rewrite E in G. cbn [agree3] in G. destruct G as (out & Eo & So & Mo). exists out. split; [exact Eo|]. split; [exact So|].
  intros r L. destruct (Hv r _ (rows3_nth m N r L)) as (v & Nv & Ev). rewrite (map_seq_nth _ _ _ r Mo L) in Nv. injection Nv as <-. exact Ev.
Qed.
Lemma relative_each (A B : tensor R) N : shape A = [3; 3; N] -> shape B = [3; 3; N] -> (forall r, r < N -> is_rot (m3_at A [r]) /\ is_rot (m3_at B [r])) ->
  exists out, so3_relative_angle_t A B = Ok out /\ shape out = [N] /\ forall r, r < N -> so3_relative_angle [m3_at A [r]] [m3_at B [r]] false = Ok [Fin (at_ out [r])].
Proof.
  intros SA SB H. pose proof (relative_rows A B N SA SB) as G. unfold so3_relative_angle in G at 1.
  assert (LR : forall m, length (rows3 m N) = N) by (intros m; unfold rows3; rewrite map_length, seq_length; reflexivity). rewrite !LR, Nat.eqb_refl in G.
  assert (Z : forall l, zip_with (fun X Y => m3mul X (m3tr Y)) (map (fun r => m3_at A [r]) l) (map (fun r => m3_at B [r]) l) = map (fun r => m3mul (m3_at A [r]) (m3tr (m3_at B [r]))) l) by (induction l as [|x l IH]; [reflexivity | cbn [map zip_with]; rewrite IH; reflexivity]).
  assert (RR : forall r, r < N -> is_rot (m3mul (m3_at A [r]) (m3tr (m3_at B [r])))) by (intros r L; destruct (H r L) as (HA & HB); apply is_rot_mul; [exact HA | apply is_rot_tr; exact HB]).
  unfold rows3 in G. rewrite Z, angle_list in G by (intros X I; apply in_map_iff in I as (r & <- & I); apply in_seq in I; apply RR; lia).
  cbn [agree1] in G. destruct G as (f & (out & Eo & So & Ho) & Mf). exists out. split; [exact Eo|]. split; [exact So|]. intros r L.
  pose proof (map_seq_nth _ _ _ r Mf L) as Q. rewrite map_map, nth_error_map, (nth_error_nth' (seq 0 N) 0), seq_nth in Q by (rewrite ?seq_length; exact L). cbn [option_map Nat.add] in Q.
  unfold so3_relative_angle. cbn [length Nat.eqb zip_with]. rewrite angle_list by (intros X [<-|[]]; apply RR; exact L). cbn [map]. rewrite Ho by (constructor; [exact L | constructor]). congruence.
Qed.
Lemma log_reject (m : tensor R) N r e : shape m = [3; 3; N] -> r < N -> (trace3 (m3_at m [r]) < -1 - eps4 \/ 3 + eps4 < trace3 (m3_at m [r]))%R -> so3_rotation_angle_t m eps4 eps4 = Err ValueError /\ so3_log_map_t m e = Err ValueError.
Proof.
  intros S L H. pose proof (angle_reject _ _ (in_rows3 m N r L) H) as E. split.
  - pose proof (angle_rows m N eps4 eps4 S ltac:(unfold eps4; lra)) as G. rewrite E in G. exact G.
  - pose proof (log_rows_t m N e S) as G. unfold so3_log_map in G. rewrite E in G. exact G.
Qed.
Lemma log_empty (m : tensor R) e : shape m = [3; 3; 0] -> so3_log_map_t m e = Err RuntimeError.
Proof.
  intros S. pose proof (log_rows_t m 0 e S) as G. unfold so3_log_map in G. change (rows3 m 0) with (@nil M3) in G. rewrite angle_list in G by (intros A []). exact G.
Qed.
Lemma hat_cross (v : tensor R) N : shape v = [3; N] -> exists t, hat_t v = Ok t /\ shape t = [3; 3; N] /\ forall r, r < N -> m3_at t [r] = hat (v_at v [r]).
Proof.
  intros S. destruct (hat_rows v N S) as (t & E & St & H). exists t. split; [exact E|]. split; [exact St|]. intros r L.
  unfold m3_at. rewrite !H by (constructor; [lia|]; constructor; [lia|]; constructor; [exact L | constructor]). reflexivity.
Qed.
Lemma hat_back (v : tensor R) N t : shape v = [3; N] -> N <> 0 -> shape t = [3; 3; N] -> (forall r, r < N -> m3_at t [r] = hat (v_at v [r])) ->
  exists b, hat_inv_t t = Ok b /\ shape b = [3; N] /\ forall r, r < N -> v_at b [r] = v_at v [r].
Proof.
  intros S N0 St H. pose proof (hat_inv_rows t N St) as G. assert (E : rows3 t N = map hat (map (fun r => v_at v [r]) (seq 0 N))).
  { unfold rows3. rewrite map_map. apply map_ext_in. intros r I. apply in_seq in I. apply H. lia. }
  rewrite E, hat_inv_hat in G by (destruct N; [lia | discriminate]). cbn [agree3] in G. destruct G as (b & Eb & Sb & Mb). exists b. split; [exact Eb|]. split; [exact Sb|]. intros r L.
  pose proof (map_seq_nth _ _ _ r Mb L) as Q. rewrite nth_error_map, (nth_error_nth' (seq 0 N) 0), seq_nth in Q by (rewrite ?seq_length; exact L). cbn [option_map Nat.add] in Q. congruence.
Qed.
Lemma maxabs_entry (D : M3) e t : In e [m00; m01; m02; m10; m11; m12; m20; m21; m22] -> (t < Rabs (e D))%R -> (t < m3maxabs D)%R.
Proof.
  intros I L. destruct (Rle_or_lt (m3maxabs D) t) as [X|X]; [|exact X]. apply m3maxabs_le in X. destruct X as (L1 & L2 & L3 & L4 & L5 & L6 & L7 & L8 & L9).
  cbn [In] in I. repeat (destruct I as [<-|I]; [lra|]). destruct I.
Qed.
Definition ex_v : tensor R := mkT [3; 1] (fun i => if nth 0 i 0 =? 2 then (PI / 2)%R else 0%R).
Lemma ex_v_norm : v_at ex_v [0] = mkV3 0 0 (PI / 2) /\ vnorm2 (v_at ex_v [0]) = (PI / 2 * (PI / 2))%R /\ vnorm (v_at ex_v [0]) = (PI / 2)%R.
Proof.
  pose proof PI_RGT_0. assert (V : v_at ex_v [0] = mkV3 0 0 (PI / 2)) by reflexivity. rewrite V. split; [reflexivity|].
  assert (N2 : vnorm2 (mkV3 0 0 (PI / 2)) = (PI / 2 * (PI / 2))%R) by (unfold vnorm2, vdot; cbn [vx vy vz]; ring). split; [exact N2|]. unfold vnorm. rewrite N2. apply sqrt_square. lra.
Qed.

Lemma l95_hat : forall (v : tensor R) N, shape v = [3; N] -> exists t, hat_t v = Ok t /\ shape t = [3; 3; N] /\
  (forall r w, r < N -> m3vec (m3_at t [r]) w = vcross (v_at v [r]) w) /\
  (N <> 0 -> exists b, hat_inv_t t = Ok b /\ shape b = [3; N] /\ forall r, r < N -> v_at b [r] = v_at v [r]).
Proof.
  intros v N S. destruct (hat_cross v N S) as (t & E & St & H). exists t. split; [exact E|]. split; [exact St|]. split.
  - intros r w L. rewrite (H r L). generalize (v_at v [r]). intros [a b c]. destruct w as [x y z]. unfold hat, m3vec, vcross; cbn [m00 m01 m02 m10 m11 m12 m20 m21 m22 vx vy vz]. apply eqV; cbn [vx vy vz]; ring.
  - intros N0. exact (hat_back v N t S N0 St H).
Qed.

Lemma l95_hat_inv_rejects : forall (h : tensor R) N r e, shape h = [3; 3; N] -> r < N -> In e [m00; m01; m02; m10; m11; m12; m20; m21; m22] ->
  (hat_tol < Rabs (e (m3add (m3_at h [r]) (m3tr (m3_at h [r])))))%R -> hat_inv_t h = Err ValueError.
Proof.
  intros h N r e S L I H. pose proof (hat_inv_rows h N S) as G. rewrite (hat_inv_reject _ _ (in_rows3 h N r L) (maxabs_entry _ e _ I H)) in G. exact G.
Qed.

Lemma l95_exp : forall (v : tensor R) N eps, shape v = [3; N] -> (0 < eps)%R ->
  exists out, so3_exp_map_t v eps = Ok out /\ shape out = [3; 3; N] /\ forall r, r < N -> let w := v_at v [r] in exists k, unit3 k /\ w = vscale (vnorm w) k /\
    ((eps <= vnorm2 w)%R -> m3_at out [r] = axis_and_angle_to_matrix_33 k (vnorm w) /\ is_rot (m3_at out [r]) /\ m3vec (m3_at out [r]) w = w) /\
    (eps = eps4 -> (vnorm2 w < eps)%R -> forall e, In e [m00; m01; m02; m10; m11; m12; m20; m21; m22] -> (Rabs (e (m3_at out [r]) - e (axis_and_angle_to_matrix_33 k (vnorm w))) <= / 1000000)%R).
Proof.
  intros v N eps S He. destruct (exp_rows v N eps S) as (out & E & So & H). exists out. split; [exact E|]. split; [exact So|]. intros r L w. rewrite (H r L). fold w. destruct (Rle_or_lt eps (vnorm2 w)) as [D|D].
  - destruct (l34_exp eps w He D) as (k & Hk & Ek & Em & Hr & Hf). exists k. split; [exact Hk|]. split; [exact Ek|]. split; [intros _; auto | intros _ X; lra].
  - destruct (Req_EM_T eps eps4) as [->|D4].
    + destruct (l34_exp_small w D) as (k & Hk & Ek & He'). exists k. split; [exact Hk|]. split; [exact Ek|]. split; [intros X; lra | intros _ _; exact He'].
    + destruct (axis_decomp w) as (k & Hk & Ek). exists k. split; [exact Hk|]. split; [exact Ek|]. split; [intros X; lra | intros X; contradiction].
Qed.

Lemma l95_log : forall (m : tensor R) N e eps, shape m = [3; 3; N] -> N <> 0 -> (forall r, r < N -> is_rot (m3_at m [r])) -> (e <= 1 / 100)%R -> (0 < eps <= eps4)%R ->
  exists out back, so3_log_map_t m e = Ok out /\ shape out = [3; N] /\ so3_exp_map_t out eps = Ok back /\ shape back = [3; 3; N] /\
    forall r, r < N -> (-1 + 2 * eps4 <= trace3 (m3_at m [r]) <= 3 - 2 * eps4)%R -> m3_at back [r] = m3_at m [r] /\ trace3 (m3_at m [r]) = (1 + 2 * cos (vnorm (v_at out [r])))%R.
Proof.
  intros m N e eps S N0 H He Heps. destruct (log_each m N e S N0 H) as (out & Eo & So & Ho). destruct (exp_rows out N eps So) as (back & Eb & Sb & Hb). exists out, back. split; [exact Eo|]. split; [exact So|]. split; [exact Eb|]. split; [exact Sb|].
  intros r L T. destruct (exp_log (m3_at m [r]) e eps (H r L) T He Heps) as (v & Ev & Er & Et). rewrite (Ho r L) in Ev. apply ok1 in Ev as <-. split; [rewrite (Hb r L); exact Er | exact Et].
Qed.

Lemma l95_log_exp : forall (v : tensor R) N e eps, shape v = [3; N] -> N <> 0 -> (0 < eps <= eps4)%R -> (e <= 1 / 100)%R ->
  (forall r, r < N -> (eps <= vnorm2 (v_at v [r]))%R /\ (vnorm (v_at v [r]) < PI)%R /\ (Rabs (cos (vnorm (v_at v [r]))) <= 1 - eps4)%R) ->
  exists m out, so3_exp_map_t v eps = Ok m /\ so3_log_map_t m e = Ok out /\ shape out = [3; N] /\ forall r, r < N -> v_at out [r] = v_at v [r].
Proof.
  intros v N e eps S N0 Heps He H. destruct (exp_rows v N eps S) as (m & Em & Sm & Hm). destruct (log_each m N e Sm N0) as (out & Eo & So & Ho).
  { intros r L. rewrite (Hm r L). destruct (l34_exp eps _ (proj1 Heps) (proj1 (H r L))) as (k & _ & _ & _ & Hr & _). exact Hr. }
  exists m, out. split; [exact Em|]. split; [exact Eo|]. split; [exact So|]. intros r L. destruct (H r L) as (_ & H2 & H3). pose proof (log_exp eps (v_at v [r]) Heps H2 H3 e He) as Q. rewrite <- (Hm r L), (Ho r L) in Q. exact (ok1 _ _ Q).
Qed.

Lemma l95_relative_angles : forall (A B : tensor R) N, shape A = [3; 3; N] -> shape B = [3; 3; N] -> (forall r, r < N -> is_rot (m3_at A [r]) /\ is_rot (m3_at B [r])) ->
  exists out, so3_relative_angle_t A B = Ok out /\ shape out = [N] /\ forall r, r < N -> exists k t, unit3 k /\ (0 <= t <= PI)%R /\ m3mul (m3_at A [r]) (m3tr (m3_at B [r])) = axis_and_angle_to_matrix_33 k t /\
    (Rabs (at_ out [r] - t) <= 15 / 1000)%R /\ ((Rabs (cos t) <= 1 - eps4)%R -> at_ out [r] = t).
Proof.
  intros A B N SA SB H. destruct (relative_each A B N SA SB H) as (out & E & S & Ho). exists out. split; [exact E|]. split; [exact S|]. intros r L. destruct (H r L) as (HA & HB).
  destruct (relative_accuracy _ _ HA HB) as (k & t & x & Hk & Ht & Em & Ex & Q1 & Q2). rewrite (Ho r L) in Ex. assert (X : at_ out [r] = x) by congruence. exists k, t. rewrite X. auto.
Qed.

Lemma l95_rejects : forall (m : tensor R) e, (forall N r, shape m = [3; 3; N] -> r < N -> (trace3 (m3_at m [r]) < -1 - eps4 \/ 3 + eps4 < trace3 (m3_at m [r]))%R -> so3_rotation_angle_t m eps4 eps4 = Err ValueError /\ so3_log_map_t m e = Err ValueError) /\
  (shape m = [3; 3; 0] -> so3_log_map_t m e = Err RuntimeError /\ hat_inv_t m = Err RuntimeError) /\
  ((forall N, shape m <> [3; 3; N]) -> so3_log_map_t m e = Err ValueError /\ so3_rotation_angle_t m eps4 eps4 = Err ValueError /\ hat_inv_t m = Err ValueError) /\
  ((forall N, shape m <> [3; N]) -> so3_exp_map_t m e = Err ValueError /\ hat_t m = Err ValueError).
Proof.
  intros m e. split; [intros N r S L H; exact (log_reject m N r e S L H)|]. split; [intros S; split; [exact (log_empty m e S) | exact (hat_inv_rows m 0 S)]|].
  split; intros H; [unfold so3_log_map_t, so3_rotation_angle_t, hat_inv_t | unfold so3_exp_map_t, hat_t]; destruct (shape m) as [|a [|b [|c [|d s]]]]; try (repeat split; reflexivity).
  all: destruct a as [|[|[|[|a]]]]; try (repeat split; reflexivity); try (exfalso; exact (H _ eq_refl)).
  all: destruct b as [|[|[|[|b]]]]; try (repeat split; reflexivity); try (exfalso; exact (H _ eq_refl)).
Qed.
