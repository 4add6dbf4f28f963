(** SPECIFICATION vocabulary for comparing two universal kriging calls. *)
From Coq Require Import String.
From Verif Require Import Base Sums Matrix M_Variogram M_Geometry S_Geometry M_Kriging S_Kriging M_Init M_Object
  M_Execute S_Execute M_UK S_UK.

(** The specified drift arrays of two calls have the same values at cell p of the
    first and cell p' of the second. *)
Definition specs_agree (u : uobj) (q q' : query) (specs specs' : list spec_arr) (p p' : nat) : Prop :=
  dr_spec (u_drift u) <> None -> map (fun s => spec_at q s p) specs = map (fun s => spec_at q' s p') specs'.

(** Drift arguments with other specified drift arrays at the data. *)
Definition with_spec (D : dargs) (l : list (list R)) : dargs :=
  {| d_terms := d_terms D; d_point := d_point D; d_ext := d_ext D; d_ext_x := d_ext_x D; d_ext_y := d_ext_y D;
     d_spec := match d_spec D with Some _ => Some l | None => None end; d_fun := d_fun D |}.

(** The drift arguments moved along with the data by the vector t: wells and the
    axes of the external drift grid are shifted, functional drift terms composed with
    the shift back, specified drift arrays unchanged. *)
Definition translate (t : vec3) (D : dargs) : dargs :=
  {| d_terms := d_terms D;
     d_point := option_map (fun '(int_dtype, rows) => (int_dtype, map (fun '(x, y, s) => (x + coord 0 t, y + coord 1 t, s)) rows)) (d_point D);
     d_ext := d_ext D;
     d_ext_x := option_map (map (fun x => x + coord 0 t)) (d_ext_x D);
     d_ext_y := option_map (map (fun y => y + coord 1 t)) (d_ext_y D);
     d_spec := d_spec D;
     d_fun := option_map (map (fun f x y z => f (x - coord 0 t) (y - coord 1 t) (z - coord 2 t))) (d_fun D) |}.

(** The drift arguments carried along by a map f of the coordinate system: wells are
    mapped, specified drift arrays kept, functional drift terms replaced by [fs]. *)
Definition carry (f : vec3 -> vec3) (fs : list (R -> R -> R -> R)) (D : dargs) : dargs :=
  {| d_terms := d_terms D;
     d_point := option_map (fun '(int_dtype, rows) =>
                  (int_dtype, map (fun '(x, y, s) => (coord 0 (f (x, y, 0)), coord 1 (f (x, y, 0)), s)) rows)) (d_point D);
     d_ext := d_ext D; d_ext_x := d_ext_x D; d_ext_y := d_ext_y D;
     d_spec := d_spec D;
     d_fun := match d_fun D with Some _ => Some fs | None => None end |}.

(** A functional drift term evaluated at a location, as the object evaluates it. *)
Definition fun_at (u : uobj) (h : R -> R -> R -> R) (p : vec3) : R :=
  let c := frame (u_obj u) p in h (coord 0 c) (coord 1 c) (coord 2 c).
