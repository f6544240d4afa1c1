(** When a transform tells the truth about its dtype and device. *)
From Coq Require Import Bool Arith List.
From Verif Require Import Prelude DevModel TDevModel.
Import ListNotations.

(** the attributes agree with the matrix *)
Definition truthful (t : ttr) : Prop := x_dt t = t_dt (x_mat t) /\ dev_of (x_dev t) = t_dev (x_mat t).

(** transforms a program can make: with [Transform3d] itself in any way, with the subclasses in their default dtype, and from these and
    any other transforms by the operations *)
Inductive made (promo : dtype -> dtype -> res dtype) : ttr -> Prop :=
| made_init dt dv m r p t : tr_init promo dt dv m r p = Ok t -> made promo t
| made_translate dv xyz t : tr_translate_scale promo DFloat dv xyz = Ok t -> made promo t
| made_rotate dv R t : tr_rotate promo DFloat dv R = Ok t -> made promo t
| made_axis_angle dt dv a t : tr_rotate_axis_angle promo dt dv a = Ok t -> made promo t
| made_compose t os t' : tr_compose promo t os = Ok t' -> made promo t'
| made_getitem t t' : tr_getitem promo t = Ok t' -> made promo t'
| made_inverse t t' : tr_inverse promo t = Ok t' -> made promo t'
| made_stack t os t' : tr_stack promo t os = Ok t' -> made promo t'
| made_clone t t' : made promo t -> tr_clone promo t = Ok t' -> made promo t'
| made_to dv copy dt t b t' : made promo t -> tr_to promo dv copy dt t = Ok (b, t') -> made promo t'.
