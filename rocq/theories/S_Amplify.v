(** SPECIFICATION vocabulary for C66: the same problem with the variogram multiplied by k. *)
From Coq Require Import String.
From Verif Require Import Base Sums Matrix M_Variogram M_Geometry S_Geometry M_Kriging S_Kriging M_Init M_Object
  M_Execute S_Execute M_UK S_UK S_State.

(** [o'] is [o] (same data, geometry and options) with k times the variogram. *)
Record amplified (k : R) (o o' : obj) : Prop := {
  am_class : o_class o' = o_class o; am_ct : o_ct o' = o_ct o; am_exact : o_exact o' = o_exact o;
  am_center : o_center o' = o_center o; am_scaling : o_scaling o' = o_scaling o; am_angle : o_angle o' = o_angle o;
  am_n : o_n o' = o_n o;
  am_datum : forall i, (i < o_n o)%nat -> datum o' i = datum o i;
  am_values : forall i, (i < o_n o)%nat -> o_values o' i = o_values o i;
  am_vg : forall d, o_vg o' d = k * o_vg o d }.

(** variogram_parameters as a list, in the user's spelling ([slope, nugget];
    [scale, exponent, nugget]; [sill, range, nugget]), for k times the variogram. *)
Definition times (k : R) (model : string) (l : list R) : list R :=
  if String.eqb model "linear" then map (Rmult k) l
  else [k * rnth l 0; rnth l 1; k * rnth l 2].
(** The same arguments with other variogram parameters. *)
Definition with_params (v : vargs) (p : user_params) : vargs :=
  {| a_model := a_model v; a_params := p; a_fun := a_fun v; a_nlags := a_nlags v; a_weight := a_weight v;
     a_scaling := a_scaling v; a_angle := a_angle v |}.
Definition builtin_models : list string :=
  ["linear"; "power"; "gaussian"; "spherical"; "exponential"; "hole-effect"]%string.
