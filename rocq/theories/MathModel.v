(** Model of transforms/math.py, transforms/so3.py and transforms/perturbation.py.

    A batch is the list of its rows.  Two batched arguments are lists of the same length; torch's broadcasting of a
    batch of one is not modelled here.  Elements are exact reals, extended to [F] where a division by zero or an
    [acos] outside its domain is reachable. *)
From Coq Require Import Reals Lra Bool Arith List.
From Verif Require Import Prelude ExtF Lin Trig RotModel.
Import ListNotations.
Local Open Scope R_scope.

(** ** math.py *)
Definition eps4 : R := / 10000.
(** math.py:38-45: one boolean for the whole batch *)
Definition quaternion_close (eps : R) (qs : list (Q * Q)) : bool :=
  forallb (fun p => Rltb (1 - qdot (fst p) (snd p) * qdot (fst p) (snd p)) eps) qs.
(** [torch.clamp(x, lo, hi)] on a finite number *)
Definition rclamp (x lo hi : R) : R := Rmin (Rmax x lo) hi.
(** math.py:24-30 on one pair *)
Definition angle_between (p : Q * Q) : R :=
  let c := rclamp (qdot (fst p) (snd p)) (-1) 1 in
  let a := Rabs c in
  2 * atan2 (sqrt (1 - a * a)) a.
(** math.py:13-35; [theta[close] = 0] with a 0-dimensional boolean sets every entry or none *)
Definition quaternion_angular_distance (qs : list (Q * Q)) : list R :=
  let theta := map angle_between qs in
  if quaternion_close eps4 qs then map (fun _ => 0) theta else theta.

(** a quaternion whose entries may be non-finite *)
Record F4 := mkF4 { fw : F; fx : F; fy : F; fz : F }.
Definition finq (q : Q) : F4 := mkF4 (Fin (qw q)) (Fin (qx q)) (Fin (qy q)) (Fin (qz q)).
Definition qsub (p q : Q) : Q := mkQ (qw p - qw q) (qx p - qx q) (qy p - qy q) (qz p - qz q).
(** the interpolation parameter: a number (or 0-d tensor), or a tensor of shape (N,) *)
Inductive tparam := TNum (t : R) | TVec (l : list R).
(** math.py:62-64 on one row of [q2]; the row is overwritten in the caller's tensor *)
Definition flip_row (p : Q * Q) : Q := if Rltb (qdot (fst p) (snd p)) 0 then qopp (snd p) else snd p.
(** math.py:65: the cosine after the flip *)
Definition flip_cos (p : Q * Q) : R :=
  let c := qdot (fst p) (snd p) in if Rltb c 0 then - c else c.
(** math.py:68-69: [q1 + t * (q2 - q1)] on one row *)
Definition lerp_row (t : R) (q1 q2 : Q) : Q := qadd q1 (qscale t (qsub q2 q1)).
(** the same row when [t] has four entries and broadcasts along the last dimension *)
Definition lerp_row4 (a b c d : R) (q1 q2 : Q) : Q :=
  mkQ (qw q1 + a * (qw q2 - qw q1)) (qx q1 + b * (qx q2 - qx q1))
      (qy q1 + c * (qy q2 - qy q1)) (qz q1 + d * (qz q2 - qz q1)).
Definition fsin (x : F) : F := match x with Fin r => Fin (sin r) | _ => NaN end.
(** [a / b] for extended values; a finite or zero divisor as in [fdivr], otherwise NaN (only NaN is reachable) *)
Definition fdiv (a b : F) : F := match b with Fin y => fdivr a y | _ => NaN end.
Definition fscaleq (k : F) (q : Q) : F4 :=
  mkF4 (fmul k (Fin (qw q))) (fmul k (Fin (qx q))) (fmul k (Fin (qy q))) (fmul k (Fin (qz q))).
Definition faddq (p q : F4) : F4 := mkF4 (fadd (fw p) (fw q)) (fadd (fx p) (fx q)) (fadd (fy p) (fy q)) (fadd (fz p) (fz q)).
(** math.py:71-77 on one row *)
Definition slerp_row (t : R) (q1 q2 : Q) (c : R) : F4 :=
  let theta := tacos c in
  let st := fsin theta in
  let w1 := fdiv (fsin (fmul (Fin (1 - t)) theta)) st in
  let w2 := fdiv (fsin (fmul (Fin t) theta)) st in
  faddq (fscaleq w1 q1) (fscaleq w2 q2).
(** math.py:48-77.  Returns the interpolated rows and the caller's second tensor after the call.  A vector [t] pairs
    with the rows in the slerp branch (or goes with the only row); in the lerp branch it broadcasts against the four components, which fails
    unless it has one or four entries. *)
Definition quaternion_slerp (qs : list (Q * Q)) (t : tparam) : res (list F4) * list Q :=
  let q2 := map flip_row qs in
  let rows := zip_with (fun p b => (fst p, b, flip_cos p)) qs q2 in
  let n := length qs in
  let out :=
    if forallb (fun p => Rltb (1 - / 1000000) (flip_cos p)) qs then
      match t with
      | TNum t | TVec [t] => Ok (map (fun x => finq (lerp_row t (fst (fst x)) (snd (fst x)))) rows)
      | TVec [a; b; c; d] => Ok (map (fun x => finq (lerp_row4 a b c d (fst (fst x)) (snd (fst x)))) rows)
      | TVec _ => Err RuntimeError
      end
    else
      match t with
      | TNum t | TVec [t] => Ok (map (fun x => slerp_row t (fst (fst x)) (snd (fst x)) (snd x)) rows)
      | TVec l => if (n =? 1)%nat
                  then Ok (concat (map (fun x => map (fun t => slerp_row t (fst (fst x)) (snd (fst x)) (snd x)) l) rows))
                  else if (length l =? n)%nat
                  then Ok (zip_with (fun t x => slerp_row t (fst (fst x)) (snd (fst x)) (snd x)) l rows)
                  else Err RuntimeError
      end in
  (out, q2).

(** the bound argument of [acos_linear_extrapolation]: a float, or a pair *)
Inductive bound_arg := BFloat (b : R) | BPair (lo hi : R).
(** math.py:149-153 *)
Definition dacos_dx (x : R) : R := -1 / sqrt (1 - x * x).
(** math.py:142-146 *)
Definition acos_linear_approximation (x x0 : R) : R := (x - x0) * dacos_dx x0 + acos x0.
(** math.py:80-139 on one entry; the lower region is written last *)
Definition acos_extrap (lo hi x : R) : R :=
  if Rleb x lo then acos_linear_approximation x lo
  else if Rleb hi x then acos_linear_approximation x hi
  else acos x.
Definition acos_linear_extrapolation (xs : list R) (b : bound_arg) : res (list R) :=
  let '(lo, hi) := match b with BFloat b => (- b, b) | BPair lo hi => (lo, hi) end in
  if Rltb hi lo then Err ValueError
  else if Rleb lo (-1) || Rleb 1 hi then Err ValueError
  else Ok (map (acos_extrap lo hi) xs).

(** ** so3.py.  The shape checks on the trailing dimensions cannot fail here. *)
(** so3.py:217-252 *)
Definition hat (v : V3) : M3 :=
  mkM3 0 (- vz v) (vy v) (vz v) 0 (- vx v) (- vy v) (vx v) 0.
(** the largest absolute entry of [h + h^T] *)
Definition m3maxabs (A : M3) : R :=
  Rmax (Rabs (m00 A)) (Rmax (Rabs (m01 A)) (Rmax (Rabs (m02 A)) (Rmax (Rabs (m10 A)) (Rmax (Rabs (m11 A))
    (Rmax (Rabs (m12 A)) (Rmax (Rabs (m20 A)) (Rmax (Rabs (m21 A)) (Rabs (m22 A))))))))).
Definition hat_tol : R := / 100000.
(** so3.py:183-214; an empty batch fails in [max()] *)
Definition hat_inv (hs : list M3) : res (list V3) :=
  match hs with
  | [] => Err RuntimeError
  | _ => if existsb (fun h => Rltb hat_tol (m3maxabs (m3add h (m3tr h)))) hs then Err ValueError
         else Ok (map (fun h => mkV3 (m21 h) (m02 h) (m10 h)) hs)
  end.
(** so3.py:113-141 on one row *)
Definition so3_exp_map (eps : R) (v : V3) : M3 :=
  let angle := sqrt (Rmax (vnorm2 v) eps) in
  let inv := 1 / angle in
  let fac1 := inv * sin angle in
  let fac2 := inv * inv * (1 - cos angle) in
  let s := hat v in
  m3add (m3add (m3scale fac1 s) (m3scale fac2 (m3mul s s))) I3.
(** so3.py:40-89; the result of [torch.acos] may be NaN when [cos_bound <= 0] *)
Definition so3_rotation_angle (Rs : list M3) (eps : R) (cos_angle : bool) (cos_bound : R) : res (list F) :=
  let tr := map trace3 Rs in
  if existsb (fun t => Rltb t (-1 - eps) || Rltb (3 + eps) t) tr then Err ValueError
  else
    let phi_cos := map (fun t => (t - 1) * (/ 2)) tr in
    if cos_angle then Ok (map Fin phi_cos)
    else if Rltb 0 cos_bound
         then do l <- acos_linear_extrapolation phi_cos (BFloat (1 - cos_bound)); Ok (map Fin l)
         else Ok (map tacos phi_cos).
(** so3.py:12-37 *)
Definition so3_relative_angle (R1 R2 : list M3) (cos_angle : bool) : res (list F) :=
  if (length R1 =? length R2)%nat
  then so3_rotation_angle (zip_with (fun A B => m3mul A (m3tr B)) R1 R2) eps4 cos_angle eps4
  else Err RuntimeError.
Definition Rsgn (x : R) : R := if Rltb 0 x then 1 else if Rltb x 0 then -1 else 0.
(** so3.py:168-178 on one row, from the angle computed by [so3_rotation_angle] *)
Definition log_hat (eps phi : R) (A : M3) : M3 :=
  let s := sin phi in
  let denom := Rmax (Rabs s) eps * Rsgn s + (if Reqb s 0 then 1 else 0) * eps in
  m3scale (phi / (2 * denom)) (m3add A (m3opp (m3tr A))).
(** so3.py:144-180; the angle is finite here, since [cos_bound] has its default *)
Definition so3_log_map (Rs : list M3) (eps : R) : res (list V3) :=
  do phi <- so3_rotation_angle Rs eps4 false eps4;
  hat_inv (zip_with (fun p A => log_hat eps (match p with Fin r => r | _ => 0 end) A) phi Rs).

(** ** perturbation.py *)
(** The random draws of one row: [dt]: row of [randn((n, 3))], [th]: entry of [randn(n)], [ax]: row of the second
    [randn((n, 3))], used when no axis is given. *)
Record draw := mkDraw { d_t : V3; d_th : R; d_ax : V3 }.
(** perturbation.py:5-44 on one row, for a single transform [T].  With a zero draw of the axis the code divides by
    zero; the theorems assume a non-zero draw. *)
Definition perturb_row (T : M4) (rs ts : R) (axis : option V3) (perp : bool) (d : draw) : M4 :=
  let dt := vscale ts (d_t d) in
  let th := d_th d * rs in
  let '(k, dt) := match axis with
                  | Some a => (a, if perp then vsub dt (vscale (vdot dt a) a) else dt)
                  | None => (vscale (/ vnorm (d_ax d)) (d_ax d), dt)
                  end in
  aff (m3mul (axis_and_angle_to_matrix_33 k th) (rotp T)) (vadd (trp T) dt).
(** [T] of shape (4, 4) is [inl], of shape (N, 4, 4) is [inr]: [delta_R @ T] and the assignment to [perturbed] need
    N = 1 or N = num_perturbations, or a single perturbation and N = 1 *)
Definition sample_perturbations (T : M4 + list M4) (rs ts : R) (axis : option V3) (perp : bool) (ds : list draw)
  : res (list M4) :=
  match T with
  | inl A => Ok (map (perturb_row A rs ts axis perp) ds)
  | inr [A] => Ok (map (perturb_row A rs ts axis perp) ds)
  | inr l => if (length l =? length ds)%nat
             then Ok (zip_with (fun A d => perturb_row A rs ts axis perp d) l ds)
             else Err RuntimeError
  end.
(** transform3d.py:423-429 *)
Definition transform_sample_perturbations (ms : list M4) (rs ts : R) (ds : list draw) : res (list M4) :=
  match ms with
  | [A] => sample_perturbations (inl A) rs ts None true ds
  | _ => sample_perturbations (inr ms) rs ts None true ds
  end.
