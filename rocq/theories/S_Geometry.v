(** SPECIFICATION vocabulary for the geometry properties (C07-C10). *)
From Verif Require Import Base.

Definition rad (deg : R) : R := deg * PI / 180.

(** Counter-clockwise rotations of triples about the coordinate axes. *)
Definition vec3 : Type := (R * R * R)%type.
Definition rotx (a : R) (p : vec3) : vec3 :=
  let '(x, y, z) := p in (x, cos a * y - sin a * z, sin a * y + cos a * z).
Definition roty (a : R) (p : vec3) : vec3 :=
  let '(x, y, z) := p in (cos a * x + sin a * z, y, - sin a * x + cos a * z).
Definition rotz (a : R) (p : vec3) : vec3 :=
  let '(x, y, z) := p in (cos a * x - sin a * y, sin a * x + cos a * y, z).
Definition dot3 (p q : vec3) : R :=
  let '(x, y, z) := p in let '(u, v, w) := q in x * u + y * v + z * w.

(** The coordinate axes after rotating about z, then y, then x. *)
Definition rotated_axis (ax ay az : R) (e : vec3) : vec3 := rotx ax (roty ay (rotz az e)).

(** Point of the unit sphere with given longitude / latitude in degrees. *)
Definition sphere (lon lat : R) : vec3 :=
  (cos (rad lat) * cos (rad lon), cos (rad lat) * sin (rad lon), sin (rad lat)).

Definition dist3 (p q : vec3) : R :=
  let '(x, y, z) := p in let '(u, v, w) := q in
  sqrt ((x - u) * (x - u) + (y - v) * (y - v) + (z - w) * (z - w)).
