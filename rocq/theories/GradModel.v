(** Back-propagation through the rotation conversions.

    What [torch.autograd] does with one row of a batch: the operations of the forward pass are recorded on a tape, one node per number;
    the backward pass visits the nodes in reverse and adds, for every operation, its contributions to the cotangents of its arguments,
    with the formulas of PyTorch's [derivatives.yaml] and [FunctionsManual.cpp].  Numbers are those of [ExtF].  Every node of the tapes
    below reaches an output, so that all cotangents are defined. *)
From Coq Require Import Reals Bool Arith List.
From Verif Require Import Prelude ExtF Trig Lin RotModel MathModel.
Import ListNotations.
Local Open Scope R_scope.

(** ** Arithmetic *)
(** division, also by infinities *)
Definition gdiv (a b : F) : F :=
  match b with
  | Fin y => fdivr a y
  | NaN => NaN
  | _ => match a with Fin _ => Fin 0 | _ => NaN end
  end.
Definition gsqrt (a : F) : F := match a with Fin x => if Rltb x 0 then NaN else Fin (sqrt x) | PInf => PInf | _ => NaN end.
Definition gfun (f : R -> R) (a : F) : F := match a with Fin x => Fin (f x) | _ => NaN end.
Definition gabs (a : F) : F := match a with Fin x => Fin (Rabs x) | NaN => NaN | _ => PInf end.
(** no infinity gets here on the tapes below; NaN stands for what it would give *)
Definition gatan2 (a b : F) : F := match a, b with Fin y, Fin x => Fin (atan2 y x) | _, _ => NaN end.
Definition gsgn (a : F) : F := match a with Fin x => Fin (Rsgn x) | PInf => Fin 1 | NInf => Fin (-1) | NaN => NaN end.
(** NaN outside [-1, 1], as in [RotModel] *)
Definition gasin (a : F) : F := match a with Fin x => tasin x | _ => NaN end.
Definition gacos (a : F) : F := match a with Fin x => tacos x | _ => NaN end.
Definition geqb (a b : F) : bool := match a, b with Fin x, Fin y => Reqb x y | PInf, PInf => true | NInf, NInf => true | _, _ => false end.

(** ** Operations; arguments are positions on the tape *)
Inductive op :=
| OConst (r : R) | OAdd (a b : nat) | OSub (a b : nat) | OMul (a b : nat) | ODiv (a b : nat) | ONeg (a : nat)
| ORecip (a : nat)                    (* 1 / x *)
| OSquare (a : nat)                   (* x ** 2, torch.square *)
| OSqrt (a : nat)
| OSqrtPos (a : nat)                  (* torch.sqrt(torch.clamp(x, min=0)) *)
| OClamp (lo : R) (hi : option R) (a : nat)
| OSin (a : nat) | OCos (a : nat) | OAbs (a : nat) | OSign (a : nat)
| OIsZero (a : nat)                   (* (x == 0).type_as(x): not differentiated *)
| OAtan2 (a b : nat)
| OMax (a b : nat)                    (* torch.max of two tensors *)
| OWhere (a b c d : nat)              (* torch.where(a < b, c, d) *)
| ONorm (a b c : nat)                 (* torch.norm of three entries *)
| OAcos (lo hi : R) (a : nat)         (* acos_linear_extrapolation *)
| OPick (q0 q1 q2 q3 c0 c1 c2 c3 : nat) (* the candidate at the largest of the four q *)
| OMask (m : bool) (a : nat)          (* x[m] = 0 *)
| OAsin (a : nat) | OArccos (a : nat). (* torch.asin, torch.acos *)

(** ** The forward pass *)
Definition fpick (q0 q1 q2 q3 : F) : nat :=
  let f i := match i with 0 => q0 | 1 => q1 | 2 => q2 | _ => q3 end%nat in
  let i1 := if flt (f 0%nat) (f 1%nat) then 1%nat else 0%nat in
  let i2 := if flt (f i1) (f 2%nat) then 2%nat else i1 in
  if flt (f i2) (f 3%nat) then 3%nat else i2.
Definition sel {A} (i : nat) (x0 x1 x2 x3 : A) : A := match i with 0 => x0 | 1 => x1 | 2 => x2 | _ => x3 end%nat.
Definition fnorm3 (x y z : F) : F := gsqrt (fadd (fadd (fmul x x) (fmul y y)) (fmul z z)).
Definition fval (env : list F) (o : op) : F :=
  let v k := nth k env NaN in
  match o with
  | OConst r => Fin r
  | OAdd a b => fadd (v a) (v b)
  | OSub a b => fsub (v a) (v b)
  | OMul a b => fmul (v a) (v b)
  | ODiv a b => gdiv (v a) (v b)
  | ONeg a => fopp (v a)
  | ORecip a => gdiv (Fin 1) (v a)
  | OSquare a => fmul (v a) (v a)
  | OSqrt a => gsqrt (v a)
  | OSqrtPos a => gsqrt (fmax (v a) (Fin 0))
  | OClamp lo hi a => let x := fmax (v a) (Fin lo) in match hi with None => x | Some h => fmin x (Fin h) end
  | OSin a => gfun sin (v a)
  | OCos a => gfun cos (v a)
  | OAbs a => gabs (v a)
  | OSign a => gsgn (v a)
  | OIsZero a => if geqb (v a) (Fin 0) then Fin 1 else Fin 0
  | OAtan2 a b => gatan2 (v a) (v b)
  | OMax a b => fmax (v a) (v b)
  | OWhere a b c d => if flt (v a) (v b) then v c else v d
  | ONorm a b c => fnorm3 (v a) (v b) (v c)
  | OAcos lo hi a => gfun (acos_extrap lo hi) (v a)
  | OPick q0 q1 q2 q3 c0 c1 c2 c3 => v (sel (fpick (v q0) (v q1) (v q2) (v q3)) c0 c1 c2 c3)
  | OMask m a => if m then Fin 0 else v a
  | OAsin a => gasin (v a)
  | OArccos a => gacos (v a)
  end.
Fixpoint frun (ops : list op) (env : list F) : list F :=
  match ops with [] => env | o :: r => frun r (env ++ [fval env o]) end.

(** ** The backward pass *)
Section Back.
(** [norm_backward] has changed: until PyTorch 1.10 it computed [self * (grad / norm).masked_fill(norm == 0, 0)], since then
    [grad * (self / norm).masked_fill(norm == 0, 0)] *)
Variable old : bool.
Definition norm_back (x res g : F) : F :=
  let z := geqb res (Fin 0) in
  if old then fmul x (if z then Fin 0 else gdiv g res) else fmul g (if z then Fin 0 else gdiv x res).
Definition max_back (x y g : F) : F := if flt x y then Fin 0 else if geqb x y then gdiv g (Fin 2) else g.
(** the contributions of a node with value [res] and cotangent [g] *)
Definition fparts (env : list F) (o : op) (res g : F) : list (nat * F) :=
  let v k := nth k env NaN in
  match o with
  | OConst _ | OIsZero _ => []
  | OAdd a b => [(a, g); (b, g)]
  | OSub a b => [(a, g); (b, fopp g)]
  | OMul a b => [(a, fmul g (v b)); (b, fmul g (v a))]
  | ODiv a b => [(a, gdiv g (v b)); (b, fmul (fopp g) (gdiv (gdiv (v a) (v b)) (v b)))]
  | ONeg a => [(a, fopp g)]
  | ORecip a => [(a, fmul (fopp g) (fmul res res))]
  | OSquare a => [(a, fmul g (fmul (Fin 2) (v a)))]
  | OSqrt a => [(a, gdiv g (fmul (Fin 2) res))]
  | OSqrtPos a => [(a, if fle (Fin 0) (v a) then gdiv g (fmul (Fin 2) res) else Fin 0)]
  | OClamp lo hi a => [(a, if fle (Fin lo) (v a) && match hi with None => true | Some h => fle (v a) (Fin h) end then g else Fin 0)]
  | OSin a => [(a, fmul g (gfun cos (v a)))]
  | OCos a => [(a, fmul g (fopp (gfun sin (v a))))]
  | OAbs a => [(a, fmul g (gsgn (v a)))]
  | OSign a => [(a, Fin 0)]
  | OAtan2 a b =>
      let r := gdiv (Fin 1) (fadd (fmul (v a) (v a)) (fmul (v b) (v b))) in
      [(a, fmul (fmul g (v b)) r); (b, fmul (fmul g (fopp (v a))) r)]
  | OMax a b => [(a, max_back (v a) (v b) g); (b, max_back (v b) (v a) g)]
  | OWhere a b c d => if flt (v a) (v b) then [(c, g); (d, Fin 0)] else [(c, Fin 0); (d, g)]
  | ONorm a b c => [(a, norm_back (v a) res g); (b, norm_back (v b) res g); (c, norm_back (v c) res g)]
  | OAcos lo hi a =>
      [(a, if fle (v a) (Fin lo) then fmul g (Fin (dacos_dx lo)) else if fle (Fin hi) (v a) then fmul g (Fin (dacos_dx hi))
           else fmul g (fopp (gdiv (Fin 1) (gsqrt (fadd (fmul (fopp (v a)) (v a)) (Fin 1))))))]
  | OPick q0 q1 q2 q3 c0 c1 c2 c3 =>
      let i := fpick (v q0) (v q1) (v q2) (v q3) in
      [(c0, if Nat.eqb i 0 then g else Fin 0); (c1, if Nat.eqb i 1 then g else Fin 0);
       (c2, if Nat.eqb i 2 then g else Fin 0); (c3, if Nat.eqb i 3 then g else Fin 0)]
  | OMask m a => [(a, if m then Fin 0 else g)]
  | OAsin a => [(a, fmul g (gdiv (Fin 1) (gsqrt (fadd (fmul (fopp (v a)) (v a)) (Fin 1)))))]
  | OArccos a => [(a, fmul g (fopp (gdiv (Fin 1) (gsqrt (fadd (fmul (fopp (v a)) (v a)) (Fin 1))))))]
  end.
Fixpoint acc_at (k : nat) (x : F) (l : list F) : list F :=
  match l, k with
  | [], _ => []
  | y :: l, O => fadd y x :: l
  | y :: l, S k => y :: acc_at k x l
  end.
Definition acc (cot : list F) (cs : list (nat * F)) : list F := fold_left (fun l c => acc_at (fst c) (snd c) l) cs cot.
(** the nodes from position [k] on, the last first *)
Fixpoint fback (k : nat) (ops : list op) (env cot : list F) : list F :=
  match ops with
  | [] => cot
  | o :: r => let c := fback (S k) r env cot in acc c (fparts env o (nth k env NaN) (nth k c NaN))
  end.
End Back.

(** ** Tapes *)
(** a program: the tape with its number of inputs, and the positions of its outputs *)
Record prog := mkProg { p_in : nat; p_ops : list op; p_out : list nat }.
(** the values of the outputs, and the gradient that [backward] leaves in the inputs for given cotangents of the outputs *)
Definition outputs (p : prog) (x : list F) : list F := let env := frun (p_ops p) x in map (fun k => nth k env NaN) (p_out p).
Definition gradient (old : bool) (p : prog) (x cot : list F) : list F :=
  let env := frun (p_ops p) x in
  firstn (p_in p) (fback old (p_in p) (p_ops p) env (acc (map (fun _ => Fin 0) env) (combine (p_out p) cot))).

(** recording: the next position, and what is on the tape *)
Definition rec (A : Type) : Type := nat * list op -> A * (nat * list op).
Definition node (o : op) : rec nat := fun s => (fst s, (S (fst s), snd s ++ [o])).
Definition rbnd {A B} (x : rec A) (f : A -> rec B) : rec B := fun s => let r := x s in f (fst r) (snd r).
Definition rret {A} (a : A) : rec A := fun s => (a, s).
Notation "'let*' x := e 'in' f" := (rbnd e (fun x => f)) (at level 200, x binder, e at level 100, f at level 200).
Definition record (n : nat) (x : rec (list nat)) : prog := let r := x (n, []) in mkProg n (snd (snd r)) (fst r).
Definition const r := node (OConst r). Definition add a b := node (OAdd a b). Definition sub a b := node (OSub a b).
Definition mul a b := node (OMul a b). Definition div a b := node (ODiv a b).
(** [1 - s * (a + b)] and [s * (a ± b)] *)
Definition one_minus (one s : nat) (a b : rec nat) : rec nat := let* x := a in let* y := b in let* z := add x y in let* w := mul s z in sub one w.
Definition times_sum (s : nat) (a b : rec nat) : rec nat := let* x := a in let* y := b in let* z := add x y in mul s z.
Definition times_diff (s : nat) (a b : rec nat) : rec nat := let* x := a in let* y := b in let* z := sub x y in mul s z.

(** rotation_conversions.py:44-72; [2.0 / x] is [x.reciprocal() * 2.0] *)
Definition tape_quaternion_to_matrix : prog := record 4
  (let r := 0%nat in let i := 1%nat in let j := 2%nat in let k := 3%nat in
   let* s0 := mul 0 0 in let* s1 := mul 1 1 in let* s2 := mul 2 2 in let* s3 := mul 3 3 in
   let* t1 := add s0 s1 in let* t2 := add t1 s2 in let* t3 := add t2 s3 in
   let* u := node (ORecip t3) in let* two := const 2 in let* s := mul u two in let* one := const 1 in
   let* m00 := one_minus one s (mul j j) (mul k k) in let* m01 := times_diff s (mul i j) (mul k r) in let* m02 := times_sum s (mul i k) (mul j r) in
   let* m10 := times_sum s (mul i j) (mul k r) in let* m11 := one_minus one s (mul i i) (mul k k) in let* m12 := times_diff s (mul j k) (mul i r) in
   let* m20 := times_diff s (mul i k) (mul j r) in let* m21 := times_sum s (mul j k) (mul i r) in let* m22 := one_minus one s (mul i i) (mul j j) in
   rret [m00; m01; m02; m10; m11; m12; m20; m21; m22]).

(** rotation_conversions.py:576-583 and 605-612: [sin(x/2)/x] with both formulas computed and [torch.where] choosing *)
Definition half_sinc (half angle : nat) : rec nat :=
  let* h := const (/ 2) in let* aa := mul angle angle in let* c48 := const 48 in let* q := div aa c48 in let* small := sub h q in
  let* sn := node (OSin half) in let* large := div sn angle in
  let* ab := node (OAbs angle) in let* eps := const eps6 in node (OWhere ab eps small large).
(** rotation_conversions.py:563-587 *)
Definition tape_axis_angle_to_quaternion : prog := record 3
  (let* angle := node (ONorm 0 1 2) in let* h := const (/ 2) in let* half := mul h angle in
   let* s := half_sinc half angle in let* w := node (OCos half) in
   let* x := mul 0 s in let* y := mul 1 s in let* z := mul 2 s in rret [w; x; y; z]).
(** rotation_conversions.py:590-613 *)
Definition tape_quaternion_to_axis_angle : prog := record 4
  (let* n := node (ONorm 1 2 3) in let* half := node (OAtan2 n 0) in let* two := const 2 in let* angle := mul two half in
   let* s := half_sinc half angle in let* x := div 1 s in let* y := div 2 s in let* z := div 3 s in rret [x; y; z]).

(** rotation_conversions.py:93-98 *)
Definition tape_sqrt_positive_part : prog := record 1 (let* r := node (OSqrtPos 0) in rret [r]).
(** rotation_conversions.py:101-154: inputs are the nine entries by rows; [gather] passes zeros to the candidates it does not take *)
Definition tape_matrix_to_quaternion : prog := record 9
  (let m00 := 0%nat in let m01 := 1%nat in let m02 := 2%nat in let m10 := 3%nat in let m11 := 4%nat in
   let m12 := 5%nat in let m20 := 6%nat in let m21 := 7%nat in let m22 := 8%nat in
   let* one := const 1 in
   let* a0 := add one m00 in let* b0 := add a0 m11 in let* d0 := add b0 m22 in
   let* a1 := add one m00 in let* b1 := sub a1 m11 in let* d1 := sub b1 m22 in
   let* a2 := sub one m00 in let* b2 := add a2 m11 in let* d2 := sub b2 m22 in
   let* a3 := sub one m00 in let* b3 := sub a3 m11 in let* d3 := add b3 m22 in
   let* q0 := node (OSqrtPos d0) in let* q1 := node (OSqrtPos d1) in let* q2 := node (OSqrtPos d2) in let* q3 := node (OSqrtPos d3) in
   let* r00 := node (OSquare q0) in let* r01 := sub m21 m12 in let* r02 := sub m02 m20 in let* r03 := sub m10 m01 in
   let* r10 := sub m21 m12 in let* r11 := node (OSquare q1) in let* r12 := add m10 m01 in let* r13 := add m02 m20 in
   let* r20 := sub m02 m20 in let* r21 := add m10 m01 in let* r22 := node (OSquare q2) in let* r23 := add m12 m21 in
   let* r30 := sub m10 m01 in let* r31 := add m20 m02 in let* r32 := add m21 m12 in let* r33 := node (OSquare q3) in
   let* flr := const (1 / 10) in let* two := const 2 in
   let* x0 := node (OMax q0 flr) in let* x1 := node (OMax q1 flr) in let* x2 := node (OMax q2 flr) in let* x3 := node (OMax q3 flr) in
   let* e0 := mul two x0 in let* e1 := mul two x1 in let* e2 := mul two x2 in let* e3 := mul two x3 in
   let* c00 := div r00 e0 in let* c01 := div r01 e0 in let* c02 := div r02 e0 in let* c03 := div r03 e0 in
   let* c10 := div r10 e1 in let* c11 := div r11 e1 in let* c12 := div r12 e1 in let* c13 := div r13 e1 in
   let* c20 := div r20 e2 in let* c21 := div r21 e2 in let* c22 := div r22 e2 in let* c23 := div r23 e2 in
   let* c30 := div r30 e3 in let* c31 := div r31 e3 in let* c32 := div r32 e3 in let* c33 := div r33 e3 in
   let* w := node (OPick q0 q1 q2 q3 c00 c10 c20 c30) in let* x := node (OPick q0 q1 q2 q3 c01 c11 c21 c31) in
   let* y := node (OPick q0 q1 q2 q3 c02 c12 c22 c32) in let* z := node (OPick q0 q1 q2 q3 c03 c13 c23 c33) in
   rret [w; x; y; z]).

(** so3.py:113-141, on one row; [hat] places the entries and zeros, the products of the zeros are left out of [skews @ skews] *)
Definition tape_so3_exp_map (eps : R) : prog := record 3
  (let x := 0%nat in let y := 1%nat in let z := 2%nat in
   let* xx := mul x x in let* yy := mul y y in let* zz := mul z z in let* t := add xx yy in let* n := add t zz in
   let* c := node (OClamp eps None n) in let* angle := node (OSqrt c) in let* inv := node (ORecip angle) in
   let* sn := node (OSin angle) in let* fac1 := mul inv sn in
   let* inv2 := mul inv inv in let* cs := node (OCos angle) in let* one := const 1 in let* oc := sub one cs in let* fac2 := mul inv2 oc in
   let* nx := node (ONeg x) in let* ny := node (ONeg y) in let* nz := node (ONeg z) in
   (* skews = [0 nz y; z 0 nx; ny x 0] *)
   let* a1 := mul nz z in let* a2 := mul y ny in let* s00 := add a1 a2 in let* s01 := mul y x in let* s02 := mul nz nx in
   let* s10 := mul nx ny in let* b1 := mul z nz in let* b2 := mul nx x in let* s11 := add b1 b2 in let* s12 := mul z y in
   let* s20 := mul x z in let* s21 := mul ny nz in let* c1 := mul ny y in let* c2 := mul x nx in let* s22 := add c1 c2 in
   let* f00 := mul fac2 s00 in let* m00 := add f00 one in
   let* g01 := mul fac1 nz in let* f01 := mul fac2 s01 in let* m01 := add g01 f01 in
   let* g02 := mul fac1 y in let* f02 := mul fac2 s02 in let* m02 := add g02 f02 in
   let* g10 := mul fac1 z in let* f10 := mul fac2 s10 in let* m10 := add g10 f10 in
   let* f11 := mul fac2 s11 in let* m11 := add f11 one in
   let* g12 := mul fac1 nx in let* f12 := mul fac2 s12 in let* m12 := add g12 f12 in
   let* g20 := mul fac1 ny in let* f20 := mul fac2 s20 in let* m20 := add g20 f20 in
   let* g21 := mul fac1 x in let* f21 := mul fac2 s21 in let* m21 := add g21 f21 in
   let* f22 := mul fac2 s22 in let* m22 := add f22 one in
   rret [m00; m01; m02; m10; m11; m12; m20; m21; m22]).

(** so3.py:72-87 and 144-214, on one row; only the three entries that [hat_inv] takes *)
Definition tape_so3_log_map (eps : R) : prog := record 9
  (let* t := add 0 4 in let* tr := add t 8 in let* one := const 1 in let* t1 := sub tr one in let* h := const (/ 2) in let* pc := mul t1 h in
   let* phi := node (OAcos (- (1 - eps4)) (1 - eps4) pc) in let* sn := node (OSin phi) in
   let* ab := node (OAbs sn) in let* cl := node (OClamp eps None ab) in let* sg := node (OSign sn) in let* d1 := mul cl sg in
   let* z := node (OIsZero sn) in let* ep := const eps in let* d2 := mul z ep in let* den := add d1 d2 in
   let* two := const 2 in let* d := mul two den in let* f := div phi d in
   let* x1 := sub 7 5 in let* y1 := sub 2 6 in let* z1 := sub 3 1 in
   let* x := mul f x1 in let* y := mul f y1 in let* z := mul f z1 in rret [x; y; z]).

(** math.py:13-35 on one pair of quaternions; [close] is the boolean of the batch *)
Definition tape_quaternion_angular_distance (close : bool) : prog := record 8
  (let* p0 := mul 0 4 in let* p1 := mul 1 5 in let* p2 := mul 2 6 in let* p3 := mul 3 7 in
   let* t1 := add p0 p1 in let* t2 := add t1 p2 in let* dot := add t2 p3 in
   let* c := node (OClamp (-1) (Some 1) dot) in let* a := node (OAbs c) in
   let* one := const 1 in let* sq := node (OSquare a) in let* d := sub one sq in let* s := node (OSqrt d) in
   let* at_ := node (OAtan2 s a) in let* two := const 2 in let* th := mul two at_ in let* r := node (OMask close th) in rret [r]).
