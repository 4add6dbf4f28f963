(** SPECIFICATION for C84: data values some of which are NaN.
    A value is [Some v] (the number v) or [None] (NaN). *)
From Coq Require Import String.
From Verif Require Import Base Sums M_Variogram M_Geometry S_Geometry M_Kriging M_Init M_Object M_Execute S_Execute S_Fit M_Values.

Definition is_number (v : option R) : bool := match v with Some _ => true | None => false end.
Definition number (v : option R) : R := match v with Some r => r | None => 0 end.

(** numbers put in the place of the NaNs; the other values are kept *)
Definition filled (z : list (option R)) (zs : list R) : Prop :=
  List.length zs = List.length z /\ forall i v, nth_error z i = Some (Some v) -> rnth zs i = v.

(** What execute returns when some data values are NaN, compared with the result [r]
    for numbers in their place: the same shape, mask and variances; an estimate is
    NaN if one of the data it is made of is NaN, and unchanged otherwise. *)
Definition nan_result (o : obj) (q : query) (z : nat -> option R) (r : result) (rn : result_v Nval) : Prop :=
  rv_shape rn = r_shape r /\ (forall p, rv_variance rn p = r_variance r p) /\
  (forall p, rv_value rn p = None <-> r_value r p = None) /\
  forall p pos, shown o q p pos -> exists m sel, uses o q pos m sel /\ (forall a, (a < m)%nat -> (sel a < o_n o)%nat) /\
    ((exists a, (a < m)%nat /\ z (sel a) = None) -> rv_value rn p = Some None) /\
    ((forall a, (a < m)%nat -> z (sel a) <> None) -> exists v, r_value r p = Some v /\ rv_value rn p = Some (Some v)).

(** The experimental variogram: as [experimental] in S_Fit.v, without the classes that
    contain a pair with a NaN. *)
Definition experimental_known (n : nat) (D : nat -> nat -> R) (z : nat -> option R) (nlags : nat)
    (members : nat -> list (nat * nat)) (lags sv : list R) : Prop :=
  let ks := filter (fun k => nonempty (members k) &&
                     forallb (fun p => is_number (z (fst p)) && is_number (z (snd p))) (members k)) (seq 0 nlags) in
  lags = map (fun k => mean (map (fun p => D (fst p) (snd p)) (members k))) ks /\
  sv = map (fun k => mean (map (fun p => (number (z (fst p)) - number (z (snd p)))² / 2) (members k))) ks.

Definition experimental_known_of (o : obj) (z : nat -> option R) (nlags : nat) : Prop :=
  exists dmin dmax members,
    extremes (o_n o) (sep o) dmin dmax /\ classes (o_n o) (sep o) dmin dmax nlags members /\
    (forall i j, (i < j < o_n o)%nat -> exists k, (k < nlags)%nat /\ In (i, j) (members k) /\
        forall k', (k' < nlags)%nat -> In (i, j) (members k') -> k' = k) /\
    experimental_known (o_n o) (sep o) z nlags members (o_lags o) (o_semivariance o).

(** The data 0..i are numbers *)
Definition known_upto (z : nat -> option R) (i : nat) : bool := forallb (fun j => is_number (z j)) (seq 0 (S i)).

(** The statistics of values with NaN, compared with the cross-validation [cross_validation o v s st]
    (S_Fit) of an object [o] with numbers in their place: residuals of the same data, with
    the same standard deviations; a residual is NaN if its datum or one before it is NaN;
    Q1, Q2 and cR are NaN if a residual is. *)
Definition cross_validation_nan (o : obj) (z : nat -> option R) (v s : nat -> R) (st : stats) (sn : stats_nan) : Prop :=
  let kept := filter (fun i => Rleb eps (s i)) (seq 1 (o_n o - 1)) in
  let or_nan (i : nat) (x : R) := if known_upto z i then Some x else None in
  sn_sigma sn = map (fun i => sqrt (s i)) kept /\
  sn_delta sn = map (fun i => or_nan i (o_values o i - v i)) kept /\
  sn_epsilon sn = map (fun i => or_nan i ((o_values o i - v i) / sqrt (s i))) kept /\
  let all (q : option R) := if forallb (known_upto z) kept then q else None in
  sn_Q1 sn = all (st_Q1 st) /\ sn_Q2 sn = all (st_Q2 st) /\ sn_cR sn = all (st_cR st).

(** statistics computed in both cases, or in neither *)
Definition nan_statistics (E : env) (o : obj) (z : nat -> option R) (sn : option stats_nan) : Prop :=
  match o_stats o, sn with
  | None, None => True
  | Some st, Some sn => exists v s, cross_validation o v s st /\ cross_validation_nan o z v s st sn /\
      (env_ok E -> o_pinv o = false -> (forall i j, (i < j < o_n o)%nat -> eps < sep o i j) -> predicted_from_before o v s)
  | _, _ => False
  end.
