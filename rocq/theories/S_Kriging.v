(** SPECIFICATION of ordinary kriging, independent of the code: the kriging
    equations of the textbooks (Kitanidis 1997), in semivariances. *)
From Verif Require Import Base Sums Matrix.

(** [G i j] semivariance between data i and j, [g i] between datum i and the
    query point.  Weights [w] and Lagrange parameter [mu] solve the system. *)
Definition OK_system (n : nat) (G : mat) (g w : vec) (mu : R) : Prop :=
  (forall i, (i < n)%nat -> bsum n (fun j => w j * G i j) + mu = g i) /\
  bsum n w = 1.

(** The kriging estimate and variance at the query point. *)
Definition OK_estimate (n : nat) (G : mat) (g z : vec) (value variance : R) : Prop :=
  exists w mu, OK_system n G g w mu /\
    value = bsum n (fun i => w i * z i) /\
    variance = bsum n (fun i => w i * g i) + mu.

(** The system has exactly one solution for every right-hand side [g]. *)
Definition OK_regular (n : nat) (G : mat) : Prop :=
  forall g, exists w mu, OK_system n G g w mu /\
    forall w' mu', OK_system n G g w' mu' -> veq n w' w /\ mu' = mu.

(** Estimation variance of the linear estimator with weights [w]. *)
Definition est_variance (n : nat) (G : mat) (g w : vec) : R :=
  2 * bsum n (fun i => w i * g i) - bsum n (fun i => bsum n (fun j => w i * w j * G i j)).

(** Conditional negative definiteness of the semivariances of the data, and of
    the data together with the query point. *)
Definition cond_neg_def (n : nat) (G : mat) : Prop :=
  forall c, bsum n c = 0 -> bsum n (fun i => bsum n (fun j => c i * c j * G i j)) <= 0.
Definition cond_neg_def_with (n : nat) (G : mat) (g : vec) : Prop :=
  forall c c0, bsum n c + c0 = 0 ->
    bsum n (fun i => bsum n (fun j => c i * c j * G i j)) + 2 * c0 * bsum n (fun i => c i * g i) <= 0.

(** Semivariances used by PyKrige for data distances [d]: the variogram off the
    diagonal, 0 on it. *)
Definition data_semivariance (vg : R -> R) (d : mat) : mat :=
  fun i j => if Nat.eqb i j then 0 else vg (d i j).
(** Semivariances between data and a query point at distances [bd]: with
    exact_values, 0 at distances up to eps (= 1e-10). *)
Definition query_semivariance (vg : R -> R) (eps : R) (exact_values : bool) (bd : vec) : vec :=
  fun i => if exact_values && Rleb (Rabs (bd i)) eps then 0 else vg (bd i).
