(** Specification vocabulary for C76: anisotropy as a change of coordinates. *)
From Coq Require Import String.
From Verif Require Import Base Sums Matrix M_Variogram M_Geometry S_Geometry M_Kriging M_Init M_Object M_Execute S_Execute S_State.

(** A location in the coordinates of the rotated axes, the second (and third) stretched by
    anisotropy_scaling (anisotropy_scaling_y, _z).  2D: the first axis points in the
    direction anisotropy_angle, counter-clockwise from the x axis. *)
Definition stretch (c : kclass) (v : vargs) (x : vec3) : vec3 :=
  if Nat.eqb (cdim c) 3 then
    let e k := rotated_axis (rad (a_angle v 0%nat)) (rad (a_angle v 1%nat)) (rad (a_angle v 2%nat)) k in
    (dot3 (e (1,0,0)) x, a_scaling v 0%nat * dot3 (e (0,1,0)) x, a_scaling v 1%nat * dot3 (e (0,0,1)) x)
  else
    let a := rad (a_angle v 0%nat) in
    (dot3 (cos a, sin a, 0) x, a_scaling v 0%nat * dot3 (- sin a, cos a, 0) x, 0).

(** The same arguments without anisotropy, with the data at other places. *)
Definition without_anisotropy (v : vargs) : vargs :=
  {| a_model := a_model v; a_params := a_params v; a_fun := a_fun v; a_nlags := a_nlags v; a_weight := a_weight v;
     a_scaling := fun _ => 1; a_angle := fun _ => 0 |}.
Definition relocated (A : cargs) (coords : list (list R)) : cargs :=
  with_v (with_data A coords (c_values A)) (without_anisotropy (c_v A)).
