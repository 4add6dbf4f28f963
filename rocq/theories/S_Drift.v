(** SPECIFICATION for C71: which drift arguments the universal kriging classes accept,
    and which calls of execute return. *)
From Coq Require Import String.
From Verif Require Import Base Sums Matrix M_Variogram M_Geometry S_Geometry M_Kriging S_Kriging M_Init M_Object
  M_Execute S_Execute M_UK S_UK S_Bilinear.

(** The documented names of drift terms. *)
Definition drift_names : list string :=
  ["regional_linear"; "external_Z"; "point_log"; "specified"; "functional"]%string.

(** Argument [l] of the constructor (e.g. the list of the x coordinates) at datum i. *)
Definition given (A : cargs) (k i : nat) : R := rnth (nth k (c_coords A) []) i.

(** The data needed for the requested terms are there. *)
(** external_Z: grid and both coordinate arrays, (ny, nx) or (nx, ny), and no datum outside *)
Definition external_ok (A : cargs) (D : dargs) : Prop :=
  exists rows cols f ex ey, d_ext D = Some (rows, cols, f) /\ d_ext_x D = Some ex /\ d_ext_y D = Some ey /\
    ((rows = List.length ey /\ cols = List.length ex) \/ (rows = List.length ex /\ cols = List.length ey)) /\
    forall i, (i < List.length (c_values A))%nat -> within ex (given A 0 i) /\ within ey (given A 1 i).
(** point_log: at least one row, not an array of integers *)
Definition wells_ok (D : dargs) : Prop := exists w rows, d_point D = Some (false, w :: rows).
(** specified: a nonempty list of arrays, one entry per datum *)
Definition specified_ok (A : cargs) (D : dargs) : Prop :=
  exists t ts, d_spec D = Some (t :: ts) /\ forall x, In x (t :: ts) -> List.length x = List.length (c_values A).
(** functional: a nonempty list *)
Definition functional_ok (D : dargs) : Prop := exists f fs, d_fun D = Some (f :: fs).

(** UniversalKriging3D has neither external_Z nor point_log. *)
Record complete_drifts (c : kclass) (A : cargs) (D : dargs) : Prop := {
  cd_external : c = UK2 -> asked D "external_Z" = true -> external_ok A D;
  cd_wells : c = UK2 -> asked D "point_log" = true -> wells_ok D;
  cd_specified : asked D "specified" = true -> specified_ok A D;
  cd_functional : asked D "functional" = true -> functional_ok D }.

(** Other list of requested terms, same data. *)
Definition with_terms (D : dargs) (ts : list string) : dargs :=
  {| d_terms := ts; d_point := d_point D; d_ext := d_ext D; d_ext_x := d_ext_x D; d_ext_y := d_ext_y D;
     d_spec := d_spec D; d_fun := d_fun D |}.

(** ---- execute ---- *)
(** Shape of a specified drift array: one value per point; for 'grid' and 'masked'
    (ny, nx) or (nx, ny), in 3D (nz, ny, nx) or (nx, ny, nz). *)
Definition shape_fits (dim : nat) (q : query) (s : spec_arr) : Prop :=
  let nx := List.length (xs q) in let ny := List.length (ys q) in let nz := List.length (zs q) in
  match s with
  | Spec1 len _ => q_style q = "points"%string /\ len = nx
  | Spec2 r c _ => q_style q <> "points"%string /\ dim = 2%nat /\ ((r = ny /\ c = nx) \/ (r = nx /\ c = ny))
  | Spec3 d0 d1 d2 _ => q_style q <> "points"%string /\ dim = 3%nat /\
      ((d0 = nz /\ d1 = ny /\ d2 = nx) \/ (d0 = nx /\ d1 = ny /\ d2 = nz))
  end.
(** With 'specified' drift: as many arrays as in the constructor, of the right shape. *)
Definition good_specs (u : uobj) (q : query) (specs : list spec_arr) : Prop :=
  forall ds, dr_spec (u_drift u) = Some ds ->
    List.length specs = List.length ds /\ forall s, In s specs -> shape_fits (o_dim (u_obj u)) q s.
(** With 'external_Z' drift: [pos] is in the range of the grid. *)
Definition in_grid (u : uobj) (pos : vec3) : Prop :=
  forall arr ex ey zs, dr_ext (u_drift u) = Some (arr, ex, ey, zs) -> within ex (coord 0 pos) /\ within ey (coord 1 pos).
(** Not at a point_log well. *)
Definition not_at_well (u : uobj) (pos : vec3) : Prop :=
  forall wx wy s, In (wx, wy, s) (opt_list (dr_wells (u_drift u))) -> plane_dist (frame (u_obj u) pos) wx wy <> 0.
(** The universal kriging system is uniquely solvable. *)
Definition drift_regular (u : uobj) (q : query) (specs : list spec_arr) : Prop :=
  UK_regular (o_n (u_obj u)) (List.length (drift_terms u q specs)) (G_of (u_obj u)) (F_of (drift_terms u q specs)).

(** Number of cells of a query, and of data plus drift terms up to the specified ones. *)
Definition cells (dim : nat) (q : query) : nat :=
  if String.eqb (q_style q) "points" then List.length (xs q)
  else match dim with
       | 2%nat => (List.length (ys q) * List.length (xs q))%nat
       | _ => (List.length (zs q) * List.length (ys q) * List.length (xs q))%nat
       end.
Definition rows_through_specified (u : uobj) : nat :=
  (o_n (u_obj u) + List.length (linear_terms u) + List.length (well_terms u) + List.length (ext_terms u)
   + olen (dr_spec (u_drift u)))%nat.
(** What the loop raises at a cell: at a well; outside the external drift grid; fewer
    cells than rows up to the specified drift terms. *)
Definition cell_problem (u : uobj) (q : query) (pos : vec3) (e : exn) : Prop :=
  (~ not_at_well u pos /\ e = TypeError) \/
  (not_at_well u pos /\ ~ in_grid u pos /\ e = ValueError) \/
  (not_at_well u pos /\ in_grid u pos /\ dr_spec (u_drift u) <> None /\
   (cells (o_dim (u_obj u)) q < rows_through_specified u)%nat /\ e = IndexError).

(** Two data at the same place, with the same values of the specified drift terms. *)
Definition same_place (u : uobj) (i j : nat) : Prop :=
  (i < o_n (u_obj u))%nat /\ (j < o_n (u_obj u))%nat /\ i <> j /\ datum (u_obj u) i = datum (u_obj u) j /\
  forall ds d, dr_spec (u_drift u) = Some ds -> In d ds -> d i = d j.
(** [u'] is [u] with datum j removed and the value of datum i replaced by the mean
    (see [merges]); the same drift terms. *)
Record umerges (i j : nat) (u u' : uobj) : Prop := {
  um_obj : merges i j (u_obj u) (u_obj u');
  um_center : o_center (u_obj u') = o_center (u_obj u);
  um_linear : dr_linear (u_drift u') = dr_linear (u_drift u);
  um_wells : dr_wells (u_drift u') = dr_wells (u_drift u);
  um_ext : match dr_ext (u_drift u), dr_ext (u_drift u') with
           | Some (arr, ex, ey, _), Some (arr', ex', ey', _) => arr' = arr /\ ex' = ex /\ ey' = ey
           | None, None => True
           | _, _ => False
           end;
  um_spec : match dr_spec (u_drift u), dr_spec (u_drift u') with
            | Some ds, Some ds' => Forall2 (fun d d' => forall a, (a < o_n (u_obj u'))%nat -> d' a = d (skip j a)) ds ds'
            | None, None => True
            | _, _ => False
            end;
  um_fun : dr_fun (u_drift u') = dr_fun (u_drift u) }.
