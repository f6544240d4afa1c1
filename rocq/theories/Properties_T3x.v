(** C60 - C61: indexing, iterating and copying Transform3d. *)
From Coq Require Import Reals Lra Bool Arith ZArith Lia String List Sorting.Sorted.
From Verif Require Import Prelude ExtF Lin Trig RotModel RotBasic T3dModel T3dProofs T3dMore T3dIndex.
From Verif Require Import T3xFinal.
Import ListNotations.
Local Open Scope nat_scope.

(** C60: an integer selects one matrix, counted from the end if negative; all others raise IndexError *)
Theorem C60_integer : forall t i, (forall k, (i = Z.of_nat k \/ i = Z.of_nat k - Z.of_nat (tlen t))%Z -> k < tlen t ->
    exists A, nth_error (tm t) k = Some A /\ getitem t (IInt i) = Ok (mkT KBase [A])) /\
  ((i < - Z.of_nat (tlen t) \/ Z.of_nat (tlen t) <= i)%Z -> getitem t (IInt i) = Err IndexError).
Proof. exact l60_integer. Qed.
Print Assumptions C60_integer.
(** a slice selects the positions x, x + s, x + 2 s, ... below y, in order, where x and y are Python's reading of the bounds *)
Theorem C60_slice : forall t a b step x y s,
  s = match step with None => 1%Z | Some s => s end -> (1 <= s)%Z ->
  slice_start (tlen t) a 0 x -> slice_start (tlen t) b (Z.of_nat (tlen t)) y ->
  exists ps r, StronglySorted lt ps /\
    (forall p, In p ps <-> (x <= Z.of_nat p < y)%Z /\ exists k, (0 <= k)%Z /\ (Z.of_nat p = x + k * s)%Z) /\
    getitem t (ISlice a b step) = Ok r /\ tm r = map (fun p => nth p (tm t) I4) ps.
Proof. exact l60_slice. Qed.
Print Assumptions C60_slice.
Theorem C60_slice_step : forall t a b s, (s <= 0)%Z -> getitem t (ISlice a b (Some s)) = Err ValueError.
Proof. exact l60_slice_step. Qed.
Print Assumptions C60_slice_step.
(** a mask selects the positions where it is true, in order; its length must be the batch size *)
Theorem C60_mask : forall t m,
  (length m = tlen t -> exists ps r, StronglySorted lt ps /\ (forall p, In p ps <-> nth_error m p = Some true) /\
     getitem t (IMask m) = Ok r /\ tm r = map (fun p => nth p (tm t) I4) ps) /\
  (length m <> tlen t -> getitem t (IMask m) = Err IndexError).
Proof. exact l60_mask. Qed.
Print Assumptions C60_mask.
(** a list of integers selects its entries one by one *)
Theorem C60_list : forall t l,
  match getitem t (IList l) with
  | Ok r => tlen r = length l /\ forall k i, nth_error l k = Some i ->
              exists A, nth_error (tm r) k = Some A /\ getitem t (IInt i) = Ok (mkT KBase [A])
  | Err e => e = IndexError /\ exists i, In i l /\ getitem t (IInt i) = Err IndexError
  end.
Proof. exact l60_list. Qed.
Print Assumptions C60_list.
(** a for loop visits every matrix once, in order, and ends *)
Theorem C60_iteration : forall t, exists xs, iterate (S (tlen t)) t 0 = Ok xs /\ length xs = tlen t /\
  forall i A, nth_error (tm t) i = Some A -> nth_error xs i = Some (mkT KBase [A]).
Proof. exact l60_iteration. Qed.
Print Assumptions C60_iteration.
(** row i of a composition is the composition of the rows i *)
Theorem C60_compose_rows : forall t1 t2 t i a b, tlen t1 = tlen t2 -> compose t1 [t2] = Ok t ->
  getitem t1 (IInt (Z.of_nat i)) = Ok a -> getitem t2 (IInt (Z.of_nat i)) = Ok b ->
  exists c, getitem t (IInt (Z.of_nat i)) = Ok c /\ compose a [b] = Ok c.
Proof. exact compose_row. Qed.
Print Assumptions C60_compose_rows.
(** row i of the transformed points is row i of the points, transformed by t[i] *)
Theorem C60_point_rows : forall t b out i x, length b = tlen t -> transform_points t None (T3 b) = Ok (T3 out) -> nth_error b i = Some x ->
  exists g y, getitem t (IInt (Z.of_nat i)) = Ok g /\ nth_error out i = Some y /\ transform_points g None (T2 x) = Ok (T2 y).
Proof. exact points_row. Qed.
Print Assumptions C60_point_rows.
(** cutting a batch at any place and stacking the parts gives it back *)
Theorem C60_split_stack : forall t k a b, getitem t (ISlice None (Some (Z.of_nat k)) None) = Ok a ->
  getitem t (ISlice (Some (Z.of_nat k)) None None) = Ok b -> tm (stack a [b]) = tm t /\ tlen a + tlen b = tlen t.
Proof. exact split_stack. Qed.
Print Assumptions C60_split_stack.
Example C60_example : forall A B C D, let t := mkT KBase [A; B; C; D] in
  getitem t (IInt (-1)) = Ok (mkT KBase [D]) /\ getitem t (IInt 4) = Err IndexError /\ getitem t (IInt (-5)) = Err IndexError /\
  getitem t (ISlice (Some (-3)%Z) None (Some 2%Z)) = Ok (mkT KBase [B; D]) /\
  getitem t (ISlice None (Some 9%Z) (Some 3%Z)) = Ok (mkT KBase [A; D]) /\
  getitem t (IMask [true; false; false; true]) = Ok (mkT KBase [A; D]) /\
  getitem t (IList [2; -4; 2]%Z) = Ok (mkT KBase [C; A; C]) /\
  slice_start 4 (Some (-3)%Z) 0 1 /\ slice_start 4 (Some 9%Z) 4 4.
Proof. intros. unfold slice_start. repeat split; try reflexivity; lia. Qed.

(** C61: [clone] has the same matrices in memory of its own: writing to one of the two does not change the other *)
Theorem C61_clone : forall h o t, load h o = Ok t -> exists h' o', clone_obj h o = Ok (h', o') /\
  load h' o = Ok t /\ (exists t', load h' o' = Ok t' /\ tm t' = tm t) /\
  (forall i m, load (write h' (ob_ref o') i m) o = Ok t) /\
  (forall i m, exists t', load (write h' (ob_ref o) i m) o' = Ok t' /\ tm t' = tm t).
Proof. exact l61_clone. Qed.
Print Assumptions C61_clone.
(** [to] another device or dtype gives a transform in memory of its own *)
Theorem C61_to_other : forall h o s d copy ty, get h (ob_ref o) = Ok s ->
  dev_name d <> st_dev s \/ (exists t, ty = Some t /\ t <> st_ty s) -> ob_dev o <> d \/ (exists t, ty = Some t /\ t <> ob_ty o) \/ copy = true ->
  exists h' o', to_dev h o d copy ty = Ok (h', o') /\ ob_ref o' <> ob_ref o /\ get h' (ob_ref o) = Ok s /\
    exists s', get h' (ob_ref o') = Ok s' /\ st_data s' = st_data s /\ st_dev s' = dev_name d /\
               st_ty s' = match ty with Some t => t | None => st_ty s end.
Proof. exact to_dev_new. Qed.
Print Assumptions C61_to_other.
(** [to(..., copy=True)] is documented to return a copy; when device and dtype stay the same it shares the original's memory, for every
    transform *)
Theorem C61_to_copy_shares : forall h o s i m, get h (ob_ref o) = Ok s -> ob_dev o = DevObj (st_dev s) -> ob_ty o = st_ty s ->
  exists h' o', to_dev h o (ob_dev o) true None = Ok (h', o') /\
    exists t', load (write h' (ob_ref o') i m) o = Ok t' /\ tm t' = set_nth i m (st_data s).
Proof. exact l61_to_copy_shares. Qed.
Print Assumptions C61_to_copy_shares.
Theorem C61_to_copy_refuted : exists h o h' o' i m t, load h o = Ok t /\ to_dev h o (ob_dev o) true None = Ok (h', o') /\
  exists t', load (write h' (ob_ref o') i m) o = Ok t' /\ tm t' <> tm t.
Proof. exact l61_to_copy_refuted. Qed.
Print Assumptions C61_to_copy_refuted.
(** [cpu()] on a scaling that is on the CPU already: the class is lost and [inverse] is wrong afterwards *)
Theorem C61_cpu_refuted : exists h o t h' o' t', load h o = Ok t /\ to_cpu h o = Ok (h', o') /\ load h' o' = Ok t' /\
  Scale (CScalar 2) None None = Ok t /\ tm t' = tm t /\
  (exists a, compose (inverse t) [t] = Ok a /\ tm a = [I4]) /\ (exists a, compose (inverse t') [t'] = Ok a /\ tm a <> [I4]).
Proof. exact l61_cpu_refuted. Qed.
Print Assumptions C61_cpu_refuted.
Example C61_example : forall A B, let h := [mkStore [A; B] "cpu" "float32"] in let o := mkObj KBase 0 (DevObj "cpu") "float32" in
  (exists h' o', clone_obj h o = Ok (h', o') /\ ob_ref o' = 1 /\ length h' = 2) /\
  (exists h' o', to_dev h o (DevObj "cuda") false None = Ok (h', o') /\ ob_ref o' = 2) /\
  to_dev h o (DevObj "cpu") false (Some "float32"%string) = Ok (h, o).
Proof. intros. split; [do 2 eexists; repeat split|]. split; [do 2 eexists; repeat split | reflexivity]. Qed.
