(** What it means for the tensors of a chain to agree in dtype and device. *)
From Coq Require Import String Bool Arith Lia List.
From Verif Require Import Prelude ExtF Tree ChainModel SpecFK SerialModel DevModel.
Import ListNotations.

(** the attributes of a transform tell the truth about its matrix *)
Definition honest (m : ttrans) : Prop := a_mat m = mkT (a_dt m) (a_dev m).
(** every transform in the tree is honest *)
Definition honest_tree (root : tframe) : Prop := forall f m, In f (preorder root) ->
  l_off (f_link f) = Some m \/ j_off (f_joint f) = Some m -> honest m.
(** every offset and every axis of the tree has this dtype and device *)
Definition tree_at (root : tframe) (t : tensor) : Prop := forall f, In f (preorder root) ->
  j_axis (f_joint f) = t /\
  forall m, l_off (f_link f) = Some m \/ j_off (f_joint f) = Some m -> m = mkTr (t_dt t) (t_dev t) t.

(** the floating-point tensors of a chain *)
Definition float_tensors (c : tchain) : list tensor :=
  [k_identity c; k_low c; k_high c; k_axes c; k_static c; k_mask c] ++
  flat_map (fun o => match o with Some t => [t] | None => [] end) (k_loff c ++ k_joff c).
(** the index and mask tensors of a chain *)
Definition index_tensors (c : tchain) : list tensor :=
  k_parents c ++ k_levels c ++ [k_jtype c; k_jidx c; k_dpar c; k_jclamp c; k_dof_frame c; k_dof_rev c].
(** all tensors of the chain are on one device, and the floating-point ones have one dtype *)
Definition chain_at (c : tchain) (t : tensor) : Prop :=
  k_dtype c = t_dt t /\ k_device c = t_dev t /\
  (forall x, In x (float_tensors c) -> x = t) /\
  (forall x, In x (index_tensors c) -> t_dev x = t_dev t).
Definition serial_at (s : tserial) (t : tensor) : Prop :=
  chain_at (ks_chain s) t /\ ks_dof_axes s = t /\ t_dev (ks_dof_frame s) = t_dev t /\ t_dev (ks_dof_types s) = t_dev t.

(** chains a program can hold: constructed, and moved any number of times *)
Inductive held (promo : dtype -> dtype -> res dtype) : tchain -> Prop :=
| held_init root dt dv c : tag_init promo root dt dv = Ok c -> held promo c
| held_to c dt dv : held promo c -> held promo (tag_to c dt dv).

(** a dtype promoted with itself is itself, and needs no conversion; true of every version of torch *)
Definition torch_like (promo : dtype -> dtype -> res dtype) (convertible : dtype -> dtype -> bool) : Prop :=
  forall d, promo d d = Ok d /\ convertible d d = true.
