(** SPECIFICATION vocabulary: variogram models that are proper on the sphere
    (coordinates_type='geographic', great-circle distance in degrees). *)
From Coq Require Import String.
From Verif Require Import Base Sums Matrix M_Variogram M_Geometry S_Geometry M_Kriging S_Kriging M_Init M_Object M_Execute S_Execute.

(** Internal parameter lists: linear [slope, nugget]; power [scale, exponent,
    nugget]; exponential [psill, range, nugget].  Nothing negative, positive
    range, and - unlike in the plane - exponent at most 1 and no gaussian. *)
Inductive sphere_model (f : pyfun) (m : list R) : Prop :=
| sphere_linear : f = f_linear -> 0 <= rnth m 0 -> 0 <= rnth m 1 -> sphere_model f m
| sphere_power : f = f_power -> 0 <= rnth m 0 -> 0 < rnth m 1 <= 1 -> 0 <= rnth m 2 -> sphere_model f m
| sphere_exponential : f = f_exponential -> 0 <= rnth m 0 -> 0 < rnth m 1 -> 0 <= rnth m 2 -> sphere_model f m.

Definition proper_geographic (o : obj) : Prop := o_ct o = Geographic /\ sphere_model (o_fun o) (o_params o).

(** Models with which the kriging matrix is invertible for data at different
    places: a positive nugget, or an exponential model with positive sill, or a
    power model with positive scale and exponent below 1.  (Linear without nugget
    is not: see C68_linear_refuted.) *)
Definition strict_geographic (o : obj) : Prop :=
  0 < o_vg o 0 \/
  (o_fun o = f_exponential /\ 0 < rnth (o_params o) 0) \/
  (o_fun o = f_power /\ 0 < rnth (o_params o) 0 /\ rnth (o_params o) 1 < 1).

(** What the user writes: coordinates_type='geographic', and linear [slope, nugget],
    power [scale, exponent, nugget] or exponential [sill, range, nugget]. *)
Inductive geographic_request (name : string) : list R -> Prop :=
| geo_linear : forall slope nugget, name = "linear"%string ->
    0 <= slope -> 0 < nugget -> geographic_request name [slope; nugget]
| geo_power : forall scale exponent nugget, name = "power"%string ->
    0 <= scale -> 0 < exponent <= 1 -> 0 <= nugget -> 0 < nugget \/ (0 < scale /\ exponent < 1) ->
    geographic_request name [scale; exponent; nugget]
| geo_exponential : forall sill range nugget, name = "exponential"%string ->
    0 < sill -> 0 < range -> 0 <= nugget <= sill -> geographic_request name [sill; range; nugget].

Record geographic_call (A : cargs) (name : string) (l : list R) : Prop := {
  gc_type : c_pinv_type A = "pinv"%string \/ c_pinv_type A = "pinvh"%string;
  gc_exact : c_exact A <> None;
  gc_ct : c_ct A = "geographic"%string;
  gc_pinv : c_pinv A = false;
  gc_dim : List.length (c_coords A) = 2%nat;
  gc_len : forall x, In x (c_coords A) -> List.length x = List.length (c_values A);
  gc_two : (2 <= List.length (c_values A))%nat;
  gc_model : a_model (c_v A) = VName name;
  gc_params : a_params (c_v A) = PList l;
  gc_request : geographic_request name l }.

(** No two data at the same place on the sphere. *)
Definition distinct_on_sphere (lons lats : list R) (n : nat) : Prop :=
  forall i j, (i < n)%nat -> (j < n)%nat -> i <> j ->
    sphere (rnth lons i) (rnth lats i) <> sphere (rnth lons j) (rnth lats j).
