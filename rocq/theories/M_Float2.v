(** MODEL: the variogram functions and the handling of coordinates in IEEE binary64.
    As in [M_Float], a binary64 number is a real number and every arithmetic operation is
    followed by rounding to nearest (ties to even, gradual underflow); overflow, infinities
    and signed zeros are not modelled.  The functions of the C mathematical library are a
    parameter. *)
From Flocq Require Import Core.
From Verif Require Import Base Sums Matrix M_Init M_Float.

(** exp and pow as the C library (and numpy) computes them; the square root of IEEE 754 is
    correctly rounded *)
Record libm := { m_exp : R -> R; m_pow : R -> R -> R }.

Section MODEL.
Variable L : libm.

Notation "x .+ y" := (rnd64 (x + y)) (at level 50, left associativity).
Notation "x .- y" := (rnd64 (x - y)) (at level 50, left associativity).
Notation "x .* y" := (rnd64 (x * y)) (at level 40, left associativity).
Notation "x ./ y" := (rnd64 (x / y)) (at level 40, left associativity).

(** variogram_models.py 25-29; the integer literals of the source are binary64 numbers *)
Definition f_linear64 (slope nugget d : R) : R := slope .* d .+ nugget.

(** variogram_models.py 32-37 *)
Definition f_power64 (scale exponent nugget d : R) : R := scale .* m_pow L d exponent .+ nugget.

(** variogram_models.py 40-45; numpy computes [d**2.0] of an array as d*d, Python computes
    [(...)**2.0] of a float with the C function pow *)
Definition f_gaussian64 (psill range nugget d : R) : R :=
  psill .* (1 .- m_exp L (- (d .* d) ./ m_pow L (range .* 4 ./ 7) 2)) .+ nugget.

(** variogram_models.py 48-53 *)
Definition f_exponential64 (psill range nugget d : R) : R :=
  psill .* (1 .- m_exp L (- d ./ (range ./ 3))) .+ nugget.

(** variogram_models.py 56-70 *)
Definition f_spherical64 (psill range nugget d : R) : R :=
  if Rleb d range
  then psill .* ((3 .* d) ./ (2 .* range) .- m_pow L d 3 ./ (2 .* m_pow L range 3)) .+ nugget
  else psill .+ nugget.

(** variogram_models.py 73-81 *)
Definition f_hole64 (psill range nugget d : R) : R :=
  psill .* (1 .- (1 .- d ./ (range ./ 3)) .* m_exp L (- d ./ (range ./ 3))) .+ nugget.

(** lib/variogram_models.pyx 26-83, the body of each loop (the loops themselves are in
    [M_Variogram]); [x**2] and [x**3] of a C double are calls of pow *)
Definition c_linear64 (a b d : R) : R := a .* d .+ b.
Definition c_power64 (a b c d : R) : R := a .* m_pow L d b .+ c.
Definition c_gaussian64 (a b c d : R) : R :=
  a .* (1 .- m_exp L (- m_pow L (d ./ (b .* 4 ./ 7)) 2)) .+ c.
Definition c_exponential64 (a b c d : R) : R := a .* (1 .- m_exp L (- d ./ (b ./ 3))) .+ c.
Definition c_spherical64 (a b c d : R) : R :=
  if Rltb d b
  then a .* ((3 .* d) ./ (2 .* b) .- m_pow L d 3 ./ (2 .* m_pow L b 3)) .+ c
  else a .+ c.

(** ok.py 278-279 (and uk.py 317-318, ok3d.py 287-289, uk3d.py 315-317): the centre of one
    coordinate, [(np.amax(x) + np.amin(x)) / 2.0] *)
Definition center64 (l : list R) : option R :=
  match amax_gen Fops l, amin_gen Fops l with
  | Some mx, Some mn => Some ((mx .+ mn) ./ 2)
  | _, _ => None
  end.

(** core.py 120-193, _adjust_for_anisotropy, one point: [X -= center], the two matrix
    products, [X_adj += center].  The products [np.dot] are BLAS calls: how a BLAS library adds
    the terms of an inner product (order, fused operations) is not specified, so an inner
    product is computed by the parameter [dot]. *)
Definition adjust64 (dot : nat -> vec -> vec -> R) (ndim : nat) (stretch rot : mat)
    (center p : vec) : vec :=
  let x : vec := fun j => p j .- center j in
  let y : vec := fun i => dot ndim (rot i) x in
  let z : vec := fun i => dot ndim (stretch i) y in
  fun j => z j .+ center j.

(** scipy cdist with metric euclidean, for points of two and three coordinates *)
Definition dist64_2 (p q : vec) : R :=
  rnd64 (sqrt ((p 0%nat .- q 0%nat) .* (p 0%nat .- q 0%nat)
            .+ (p 1%nat .- q 1%nat) .* (p 1%nat .- q 1%nat))).
Definition dist64_3 (p q : vec) : R :=
  rnd64 (sqrt ((p 0%nat .- q 0%nat) .* (p 0%nat .- q 0%nat)
            .+ (p 1%nat .- q 1%nat) .* (p 1%nat .- q 1%nat)
            .+ (p 2%nat .- q 2%nat) .* (p 2%nat .- q 2%nat))).
Definition dist64 (ndim : nat) : vec -> vec -> R := if Nat.eqb ndim 3 then dist64_3 else dist64_2.

(** ok.py 626-648 (ok3d.py 603-622): the kriging matrix; ok.py 668-676: the right-hand side *)
Definition matrix64 (ndim n : nat) (vg : R -> R) (X : mat) : mat := fun i j =>
  if Nat.eqb i n then (if Nat.eqb j n then 0 else 1)
  else if Nat.eqb j n then 1
  else if Nat.eqb i j then 0 else - vg (dist64 ndim (X i) (X j)).
Definition rhs64 (ndim n : nat) (vg : R -> R) (exact : bool) (X : mat) (p : vec) : vec := fun i =>
  if Nat.eqb i n then 1
  else if exact && Rleb (Rabs (dist64 ndim p (X i))) (rnd64 (1 / 10000000000)) then 0
  else - vg (dist64 ndim p (X i)).
End MODEL.
