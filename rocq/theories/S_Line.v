(** Specification vocabulary for C77-C79. *)
From Coq Require Import String.
From Verif Require Import Base Sums Matrix M_Variogram M_Geometry S_Geometry M_Kriging S_Kriging M_Init M_Object M_Execute S_Execute M_UK S_UK S_Bilinear.

(** The data and the location are on a line: datum i at position [t i] along it, the location
    at position [x] (separations are the differences of positions). *)
Definition on_line (o : obj) (t : nat -> R) (pos : vec3) (x : R) : Prop :=
  (forall i j, (i < o_n o)%nat -> (j < o_n o)%nat -> separation o (datum o i) (datum o j) = Rabs (t i - t j)) /\
  forall i, (i < o_n o)%nat -> separation o pos (datum o i) = Rabs (x - t i).

(** Further than eps (1e-10) from all data, or exactly at one (needed with exact_values only). *)
Definition resolved (o : obj) (pos : vec3) : Prop :=
  o_exact o = true -> forall i, (i < o_n o)%nat -> separation o pos (datum o i) = 0 \/ eps < separation o pos (datum o i).

(** Further than eps from all data. *)
Definition away (o : obj) (pos : vec3) : Prop := forall i, (i < o_n o)%nat -> eps < separation o pos (datum o i).

(** Arithmetic mean. *)
Definition mean (m : nat) (z : nat -> R) : R := bsum m z / INR m.

(** Continuity at [d] (written out). *)
Definition continuous_at (f : R -> R) (d : R) : Prop :=
  forall e, 0 < e -> exists delta, 0 < delta /\ forall x, Rabs (x - d) < delta -> Rabs (f x - f d) < e.

(** Models with a sill (variance of the data far apart): [sill] with given sill, range and nugget;
    internal parameters [partial sill, range, nugget]. *)
Definition sill_model (o : obj) : Prop :=
  In (o_fun o) [f_gaussian; f_exponential; f_spherical] /\
  0 <= rnth (o_params o) 0 /\ 0 < rnth (o_params o) 1 /\ 0 <= rnth (o_params o) 2.
Definition sill (o : obj) : R := rnth (o_params o) 0 + rnth (o_params o) 2.

(** ---- for universal kriging ---- *)
(** [p'] within [d] of [p] in each coordinate *)
Definition near (d : R) (p p' : vec3) : Prop := forall k, (k < 3)%nat -> Rabs (coord k p' - coord k p) < d.
(** Continuity of a function of three coordinates *)
Definition continuous_at3 (f : R -> R -> R -> R) (p : vec3) : Prop :=
  forall e, 0 < e -> exists delta, 0 < delta /\ forall p', near delta p p' ->
    Rabs (f (coord 0 p') (coord 1 p') (coord 2 p') - f (coord 0 p) (coord 1 p) (coord 2 p)) < e.
(** The drift functions of an object are continuous at a location: the location is not a well,
    the external grid is ascending with at least two coordinates each, the user's functions are
    continuous there. *)
Definition drift_continuous (u : uobj) (pos : vec3) : Prop :=
  (forall wx wy s, In (wx, wy, s) (opt_list (dr_wells (u_drift u))) -> 0 < plane_dist (frame (u_obj u) pos) wx wy) /\
  (forall arr ex ey zs, dr_ext (u_drift u) = Some (arr, ex, ey, zs) ->
     ascending ex /\ ascending ey /\ (2 <= List.length ex)%nat /\ (2 <= List.length ey)%nat) /\
  (forall f, In f (opt_list (dr_fun (u_drift u))) -> continuous_at3 f (frame (u_obj u) pos)).
