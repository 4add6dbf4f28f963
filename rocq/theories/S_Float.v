(** SPECIFICATION: vocabulary for statements about binary64 (C80, C81). *)
From Flocq Require Import Core.
From Verif Require Import Base Matrix M_Float M_Float2.

(** What is asked of the C mathematical library: its results are binary64 numbers, exp and pow
    (with a positive exponent) are monotone, exp 0 = 1, pow 0 e = 0, results are not negative,
    squares and cubes of numbers that are not tiny are not zero, and the cube is accurate to
    about three digits less than the best possible.  The correctly rounded functions below
    qualify. *)
Record libm_ok (L : libm) : Prop := {
  lm_exp_format : forall x, b64 (m_exp L x);
  lm_exp_zero : m_exp L 0 = 1;
  lm_exp_nonneg : forall x, 0 <= m_exp L x;
  lm_exp_mono : forall x y, x <= y -> m_exp L x <= m_exp L y;
  lm_pow_format : forall x e, b64 (m_pow L x e);
  lm_pow_zero : forall e, 0 < e -> m_pow L 0 e = 0;
  lm_pow_nonneg : forall x e, 0 <= x -> 0 <= m_pow L x e;
  lm_pow_mono : forall x y e, 0 < e -> 0 <= x <= y -> m_pow L x e <= m_pow L y e;
  lm_square : forall x, bpow radix2 (-500) <= x -> 0 < m_pow L x 2;
  lm_cube : forall x, bpow radix2 (-300) <= x ->
    Rabs (m_pow L x 3 - x * x * x) <= bpow radix2 (-50) * (x * x * x) }.

(** A BLAS inner product is exact when at most one product is not zero and that one has the
    factor 1: whatever the order of the additions and however they are fused *)
Definition unit_row (ndim i : nat) (r : vec) : Prop :=
  r i = 1 /\ forall j, (j < ndim)%nat -> j <> i -> r j = 0.
Definition exact_on_units (dot : nat -> vec -> vec -> R) : Prop :=
  forall ndim i r x, (i < ndim)%nat -> unit_row ndim i r -> b64 (x i) -> dot ndim r x = x i.

(** identity matrix: what the stretching and rotation matrices are for scaling 1 and angle 0 *)
Definition id_mat : mat := fun i j => if Nat.eqb i j then 1 else 0.

(** one coordinate after the adjustment with isotropic settings, read off the code:
    subtract the centre, add the centre *)
Definition recentred (c x : R) : R := rnd64 (rnd64 (x - c) + c).

(** a multiple of 2^k *)
Definition multiple (k : Z) (x : R) : Prop := exists m : Z, x = IZR m * bpow radix2 k.
