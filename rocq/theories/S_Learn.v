(** SPECIFICATION for C42, C43, C56, C65. *)
From Verif Require Import Base Sums Matrix M_Ilr.

(** the k-th isometric log-ratio coordinate of a positive vector c: the log of
    c_{k+1} against the geometric mean of c_0 .. c_k, normalised *)
Definition log_ratio (c : vec) (k : nat) : R :=
  (INR (k + 1) * ln (c (k + 1)%nat) - bsum (k + 1) (fun j => ln (c j))) / sqrt (INR (k + 1) * INR (k + 2)).

(** probabilities below machine epsilon are raised to it *)
Definition clip (p : vec) : vec := fun j => Rmax (p j) feps.

(** a probability vector of K classes, all positive *)
Definition composition (K : nat) (c : vec) : Prop := (forall j, (j < K)%nat -> 0 < c j) /\ bsum K c = 1.

(** k is one of the most probable classes *)
Definition most_probable (K : nat) (c : vec) (k : nat) : Prop := (k < K)%nat /\ forall j, (j < K)%nat -> c j <= c k.

(** k is the index of the label a in the list of classes *)
Definition index_of {L} (classes : list L) (a : L) (k : nat) : Prop :=
  nth_error classes k = Some a /\ forall j, (j < k)%nat -> nth_error classes j <> Some a.

(** ** scores *)
(** weighted mean, and weighted sum of squared differences, of the first n entries *)
Definition wmean (n : nat) (w y : vec) : R := bsum n (fun i => w i * y i) / bsum n w.
Definition wsquares (n : nat) (w y p : vec) : R := bsum n (fun i => w i * (y i - p i)²).
(** the sample weights: 1 unless given *)
Definition weights_of (w : option (list R)) : vec := match w with Some l => rnth l | None => fun _ => 1 end.
