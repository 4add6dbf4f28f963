(** MODEL: the binning arithmetic of core.py 461-505 in IEEE binary64.
    Numbers are real numbers; every arithmetic operation is followed by rounding
    to the nearest binary64 number (ties to even, gradual underflow).  Overflow is
    not modelled: exponents are unbounded above. *)
From Flocq Require Import Core.
From Verif Require Import Base M_Init.

Definition b64 (x : R) : Prop := generic_format radix2 (FLT_exp (-1074) 53) x.
Definition rnd64 (x : R) : R := round radix2 (FLT_exp (-1074) 53) ZnearestE x.

(** core.py 463-468 with numpy float64: each operation is correctly rounded, integers
    are converted to float64, the literal 0.001 is the nearest binary64 number *)
Definition Fops : numops :=
  {| num := R;
     n_add := fun x y => rnd64 (x + y);
     n_sub := fun x y => rnd64 (x - y);
     n_mul := fun x y => rnd64 (x * y);
     n_div := fun x y => rnd64 (x / y);
     n_leb := Rleb; n_ltb := Rltb;
     n_of_nat := fun n => rnd64 (INR n);
     n_milli := rnd64 (/ 1000) |}.
