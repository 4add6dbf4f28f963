(** SPECIFICATION for C67: the documented variogram formulas
    (docs/source/variogram_models.rst) and the ways to give their parameters. *)
From Coq Require Import String.
From Verif Require Import Base Sums Matrix M_Variogram M_Geometry S_Geometry M_Kriging S_Kriging M_Init M_Object M_Execute S_Execute S_Fit.

(** d to the power e, for d >= 0 and e > 0 *)
Definition to_the (d e : R) : R := if Reqb d 0 then 0 else Rpower d e.

(** The documented model [name].  linear: slope [s], nugget [n]; power: scale [s],
    exponent [r], nugget [n]; the others: sill [s], range [r], nugget [n]. *)
Definition documented (name : string) (s r n d : R) : R :=
  let p := s - n in
  if String.eqb name "linear" then s * d + n
  else if String.eqb name "power" then s * to_the d r + n
  else if String.eqb name "gaussian" then p * (1 - exp (- (d ^ 2 / (4 / 7 * r) ^ 2))) + n
  else if String.eqb name "exponential" then p * (1 - exp (- (d / (r / 3)))) + n
  else if String.eqb name "spherical" then
    if Rleb d r then p * (3 * d / (2 * r) - d ^ 3 / (2 * r ^ 3)) + n else p + n
  else if String.eqb name "hole-effect" then p * (1 - (1 - d / (r / 3)) * exp (- (d / (r / 3)))) + n
  else 0.

(** variogram_parameters stands for these numbers: a list, or a dict with the
    documented keys (sill, or psill = sill - nugget). *)
Inductive spelled (name : string) (s r n : R) : user_params -> Prop :=
| sp_linear : name = "linear"%string -> spelled name s r n (PList [s; n])
| sp_linear_dict : forall d, name = "linear"%string -> dict_get d "slope" = Some s -> dict_get d "nugget" = Some n ->
    spelled name s r n (PDict d)
| sp_power : name = "power"%string -> spelled name s r n (PList [s; r; n])
| sp_power_dict : forall d, name = "power"%string -> dict_get d "scale" = Some s -> dict_get d "exponent" = Some r ->
    dict_get d "nugget" = Some n -> spelled name s r n (PDict d)
| sp_three : In name ["gaussian"; "spherical"; "exponential"; "hole-effect"]%string -> spelled name s r n (PList [s; r; n])
| sp_three_dict : forall d, In name ["gaussian"; "spherical"; "exponential"; "hole-effect"]%string ->
    dict_get d "sill" = Some s \/ (dict_get d "sill" = None /\ dict_get d "psill" = Some (s - n)) ->
    dict_get d "range" = Some r -> dict_get d "nugget" = Some n -> spelled name s r n (PDict d).

(** What the accessors report, given the cross-validation predictions [v i] and
    variances [s i]: the residuals of the data [kept], and (with m >= 2 of them)
    Q1 = |sum e| / (m - 1), Q2 = sum e^2 / (m - 1), cR = Q2 * geometric mean of s. *)
Definition reported (o : obj) (v s : nat -> R) (kept : list nat) : Prop :=
  let m := List.length kept in
  let e := map (fun i => (o_values o i - v i) / sqrt (s i)) kept in
  get_epsilon_residuals o = Some e /\
  ((2 <= m)%nat -> exists q1 q2 cr, get_statistics o = Some (Some q1, Some q2, Some cr) /\
     q1 = Rabs (lsum e) / INR (m - 1) /\ q2 = lsum (map (fun x => x * x) e) / INR (m - 1) /\
     cr ^ m = q2 ^ m * lprod (map s kept) /\ 0 <= cr).
