(** SPECIFICATION for C34-C38: experimental variogram, automatic fit, weights,
    cross-validation statistics. *)
From Coq Require Import String.
From Verif Require Import Base Sums Matrix M_Variogram M_Geometry S_Geometry M_Kriging S_Kriging M_Init M_Object M_Execute S_Execute.

Definition mean (l : list R) : R := lsum l / INR (List.length l).

(** dmin and dmax: smallest and largest separation of two data *)
Definition extremes (n : nat) (D : nat -> nat -> R) (dmin dmax : R) : Prop :=
  (exists i j, (i < j < n)%nat /\ D i j = dmin) /\ (exists i j, (i < j < n)%nat /\ D i j = dmax) /\
  forall i j, (i < j < n)%nat -> dmin <= D i j <= dmax.

(** Class k (k = 0, ..) of nlags equally wide distance classes; the last one is closed. *)
Definition lag_class (dmin dmax : R) (nlags k : nat) (d : R) : Prop :=
  let w := (dmax - dmin) / INR nlags in
  dmin + INR k * w <= d /\ (d < dmin + INR (S k) * w \/ S k = nlags).

(** [members k]: the pairs (i, j), i < j, whose separation lies in class k *)
Definition classes (n : nat) (D : nat -> nat -> R) (dmin dmax : R) (nlags : nat) (members : nat -> list (nat * nat)) : Prop :=
  forall k, (k < nlags)%nat -> NoDup (members k) /\
    forall i j, In (i, j) (members k) <-> (i < j < n)%nat /\ lag_class dmin dmax nlags k (D i j).

Definition nonempty {A} (l : list A) : bool := match l with [] => false | _ => true end.

(** The experimental variogram: for every non-empty class, in order, the mean
    separation and the mean of half the squared differences. *)
Definition experimental (n : nat) (D : nat -> nat -> R) (z : nat -> R) (nlags : nat)
    (members : nat -> list (nat * nat)) (lags sv : list R) : Prop :=
  let ks := filter (fun k => nonempty (members k)) (seq 0 nlags) in
  lags = map (fun k => mean (map (fun p => D (fst p) (snd p)) (members k))) ks /\
  sv = map (fun k => mean (map (fun p => (z (fst p) - z (snd p))² / 2) (members k))) ks.

Definition increasing (l : list R) : Prop :=
  forall i j, (i < j)%nat -> (j < List.length l)%nat -> rnth l i < rnth l j.

(** separations of the data of an object *)
Definition sep (o : obj) (i j : nat) : R := separation o (datum o i) (datum o j).

(** Parameters within what the documentation promises for an automatic fit.
    [lags], [sv]: the experimental variogram. *)
Definition bounded_params (name : string) (lags sv p : list R) : Prop :=
  exists top far, (In top sv /\ forall v, In v sv -> v <= top) /\ (In far lags /\ forall v, In v lags -> v <= far) /\
  ((name = "linear"%string /\ List.length p = 2%nat /\ 0 <= rnth p 0 /\ 0 <= rnth p 1 <= top) \/
   (name = "power"%string /\ List.length p = 3%nat /\ 0 <= rnth p 0 /\ / 1000 <= rnth p 1 <= 1999 / 1000 /\ 0 <= rnth p 2 <= top) \/
   (In name ["gaussian"; "spherical"; "exponential"; "hole-effect"]%string /\ List.length p = 3%nat /\
      0 <= rnth p 0 <= 10 * top /\ 0 <= rnth p 1 <= far /\ 0 <= rnth p 2 <= top)).

(** models that can be fitted *)
Definition fitted_models : list string := ["linear"; "power"; "gaussian"; "spherical"; "exponential"; "hole-effect"]%string.

(** Data for which a fit is possible: a positive semivariance; two lags for the
    linear and power models and for weight=True; a positive lag for the others. *)
Definition fit_possible (name : string) (weight : bool) (lags sv : list R) : Prop :=
  (exists v, In v sv /\ 0 < v) /\
  (name = "linear"%string \/ name = "power"%string \/ weight = true -> (2 <= List.length lags)%nat) /\
  (In name ["gaussian"; "spherical"; "exponential"; "hole-effect"]%string -> exists d, In d lags /\ 0 < d).


(** the same variogram arguments with automatic fit of model [name] *)
Definition refit (v : vargs) (name : string) (weight : bool) : vargs :=
  {| a_model := VName name; a_params := PNone; a_fun := a_fun v; a_nlags := a_nlags v; a_weight := weight;
     a_scaling := a_scaling v; a_angle := a_angle v |}.

Definition lprod (l : list R) : R := fold_right Rmult 1 l.
(** Well-formed statistics.  With m residuals: Q1 = |sum of epsilon| / (m - 1),
    Q2 = sum of epsilon^2 / (m - 1), cR = Q2 * geometric mean of sigma^2. *)
Record stats_ok (n : nat) (s : stats) : Prop := {
  so_len : List.length (st_sigma s) = List.length (st_delta s);
  so_len' : List.length (st_epsilon s) = List.length (st_delta s);
  so_n : (List.length (st_delta s) <= n - 1)%nat;
  so_sigma : forall v, In v (st_sigma s) -> eps < v;
  so_epsilon : forall k, (k < List.length (st_delta s))%nat -> rnth (st_epsilon s) k * rnth (st_sigma s) k = rnth (st_delta s) k;
  so_Q1 : forall q, st_Q1 s = Some q -> 0 <= q;
  so_Q2 : forall q, st_Q2 s = Some q -> 0 <= q;
  so_cR : forall q, st_cR s = Some q -> 0 <= q;
  so_Q1_def : List.length (st_delta s) <> 1%nat -> st_Q1 s <> None /\ st_Q2 s <> None;
  so_cR_def : (2 <= List.length (st_delta s))%nat -> st_cR s <> None;
  so_values : let m := List.length (st_delta s) in (2 <= m)%nat ->
    exists q1 q2 c, st_Q1 s = Some q1 /\ st_Q2 s = Some q2 /\ st_cR s = Some c /\
      q1 * INR (m - 1) = Rabs (lsum (st_epsilon s)) /\
      q2 * INR (m - 1) = lsum (map (fun e => e * e) (st_epsilon s)) /\
      c ^ m = q2 ^ m * lprod (map (fun x => x * x) (st_sigma s)) }.

(** Cross validation: [v i], [s i] are the ordinary kriging estimate and variance at
    datum i from the data before it.  Data with variance below eps are skipped. *)
Definition predicted_from_before (o : obj) (v s : nat -> R) : Prop :=
  forall i, (1 <= i < o_n o)%nat ->
    OK_estimate i (G_of o) (fun j => o_vg o (separation o (datum o j) (datum o i))) (o_values o) (v i) (s i).
Definition cross_validation (o : obj) (v s : nat -> R) (st : stats) : Prop :=
  let kept := filter (fun i => Rleb eps (s i)) (seq 1 (o_n o - 1)) in
  st_delta st = map (fun i => o_values o i - v i) kept /\
  st_sigma st = map (fun i => sqrt (s i)) kept /\
  st_epsilon st = map (fun i => (o_values o i - v i) / sqrt (s i)) kept.

(** The lags and semivariances of an object are the experimental variogram of its
    data for [nlags] classes, and every pair of data is in exactly one class. *)
Definition experimental_variogram_of (o : obj) (nlags : nat) : Prop :=
  exists dmin dmax members,
    extremes (o_n o) (sep o) dmin dmax /\ classes (o_n o) (sep o) dmin dmax nlags members /\
    (forall i j, (i < j < o_n o)%nat -> exists k, (k < nlags)%nat /\ In (i, j) (members k) /\
        forall k', (k' < nlags)%nat -> In (i, j) (members k') -> k' = k) /\
    list_sum (map (fun k => List.length (members k)) (seq 0 nlags)) = (o_n o * (o_n o - 1) / 2)%nat /\
    experimental (o_n o) (sep o) (o_values o) nlags members (o_lags o) (o_semivariance o).

(** shape of the experimental variogram *)
Definition shape_ok (o : obj) (nlags : nat) : Prop :=
  List.length (o_lags o) = List.length (o_semivariance o) /\ (1 <= List.length (o_lags o) <= nlags)%nat /\ increasing (o_lags o) /\
  (forall lag, In lag (o_lags o) -> exists i j i' j', (i < j < o_n o)%nat /\ (i' < j' < o_n o)%nat /\ sep o i j <= lag <= sep o i' j') /\
  (forall v m, (forall i j, (i < j < o_n o)%nat -> (o_values o i - o_values o j)² / 2 <= m) -> In v (o_semivariance o) -> 0 <= v <= m).
