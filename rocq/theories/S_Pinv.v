(** Specification vocabulary for C74: kriging with pseudo_inv=True. *)
From Coq Require Import String.
From Verif Require Import Base Sums Matrix M_Variogram M_Geometry S_Geometry M_Kriging S_Kriging M_Init M_Object M_Execute S_Execute M_UK S_UK.

(** scipy.linalg.pinv, scipy.linalg.pinvh and numpy.linalg.lstsq raise only when the
    singular value (eigenvalue) iteration does not converge; this says it does. *)
Definition svd_converges (E : env) : Prop :=
  (forall type n A, la_pinv (e_la E) type n A <> None) /\ (forall n A b, la_lstsq (e_la E) n A b <> None).

(** How badly weights w and multiplier mu miss the kriging equations: the sum of the
    squares of the differences between the two sides. *)
Definition OK_misfit (n : nat) (G : mat) (g w : vec) (mu : R) : R :=
  bsum n (fun i => (bsum n (fun j => w j * G i j) + mu - g i)²) + (bsum n w - 1)².
Definition OK_length (n : nat) (w : vec) (mu : R) : R := bsum n (fun i => (w i)²) + mu².

(** (w, mu) misses least, and of all that miss as little it is the shortest. *)
Definition OK_least_squares (n : nat) (G : mat) (g w : vec) (mu : R) : Prop :=
  forall w' mu', OK_misfit n G g w mu <= OK_misfit n G g w' mu' /\
    (OK_misfit n G g w' mu' = OK_misfit n G g w mu -> OK_length n w mu <= OK_length n w' mu').

(** The same with drift terms: multipliers nu, one equation more for each term. *)
Definition UK_misfit (n m : nat) (G F : mat) (g f w : vec) (mu : R) (nu : vec) : R :=
  bsum n (fun i => (bsum n (fun j => w j * G i j) + bsum m (fun k => nu k * F k i) + mu - g i)²) +
  bsum m (fun k => (bsum n (fun j => w j * F k j) - f k)²) + (bsum n w - 1)².
Definition UK_length (n m : nat) (w : vec) (mu : R) (nu : vec) : R :=
  bsum n (fun i => (w i)²) + bsum m (fun k => (nu k)²) + mu².
Definition UK_least_squares (n m : nat) (G F : mat) (g f w : vec) (mu : R) (nu : vec) : Prop :=
  forall w' mu' nu', UK_misfit n m G F g f w mu nu <= UK_misfit n m G F g f w' mu' nu' /\
    (UK_misfit n m G F g f w' mu' nu' = UK_misfit n m G F g f w mu nu -> UK_length n m w mu nu <= UK_length n m w' mu' nu').
