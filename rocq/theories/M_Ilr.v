(** MODEL: log-ratio transforms, /repo/src/pykrige/ck.py 215-291.  One row of the 2-D
    array at a time: a row of K numbers is a function on indices 0..K-1. *)
From Verif Require Import Base Sums Matrix.

(** scipy.linalg.helmert(K) (full=False): (K-1) x K; row k has k+1 ones, then -(k+1),
    then zeros, divided by sqrt((k+1)(k+2)).  [K] itself does not enter. *)
Definition helmert (k j : nat) : R :=
  (if Nat.ltb j (S k) then 1 else if Nat.eqb j (S k) then - INR (S k) else 0) / sqrt (INR (S k) * INR (S (S k))).

(** np.finfo(float).eps *)
Definition feps : R := / 4503599627370496.

(** ck.py 215-240: closure of one row; division by a zero sum (nan / inf in numpy) is not modelled *)
Definition closure (K : nat) (k : R) (d : vec) : vec := fun j => k * d j / bsum K d.

(** ck.py 243-266 *)
Definition ilr (K : nat) (d : vec) : vec :=
  let d := fun j => Rmax (d j) feps in
  fun k => bsum K (fun j => ln (d j) * - helmert k j).

(** ck.py 269-291; [m] = K - 1 coordinates *)
Definition inverse_ilr (m : nat) (v : vec) : vec :=
  closure (m + 1) 1 (fun j => exp (bsum m (fun k => v k * - helmert k j))).
