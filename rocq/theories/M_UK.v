(** MODEL: drift terms, kriging system and execute of UniversalKriging
    (uk.py 396-628, 861-1328) and UniversalKriging3D (uk3d.py 396-450, 688-1146).
    The class constant UNBIAS (uk.py 208, uk3d.py 203) is True throughout. *)
From Coq Require Import String.
From Verif Require Import Base Sums Matrix M_Variogram M_Geometry M_Kriging M_Init M_Object M_Execute.

(** ---- constructor arguments ---- *)
(** Drift arguments.  [d_terms] = drift_terms ([] for None).  [d_point]: rows
    (x, y, strength) of point_drift and whether the array has an integer dtype.
    [d_ext]: shape and entries of external_drift.  [d_spec], [d_fun]: None = not
    a list.  A functional drift is called elementwise; two-argument (2D)
    callables are represented as functions of (x, y, 0). *)
Record dargs := {
  d_terms : list string;
  d_point : option (bool * list (R * R * R));
  d_ext : option (nat * nat * mat);
  d_ext_x : option (list R); d_ext_y : option (list R);
  d_spec : option (list (list R));
  d_fun : option (list (R -> R -> R -> R)) }.

(** Drift attributes of the object; [None]: that drift is off. *)
Record drift := {
  dr_linear : bool;                              (* regional_linear_drift *)
  dr_wells : option (list (R * R * R));          (* point_log_array *)
  dr_ext : option (mat * list R * list R * vec); (* external_Z_array, _x, _y, z_scalars *)
  dr_spec : option (list vec);                   (* specified_drift_data_arrays *)
  dr_fun : option (list (R -> R -> R -> R))      (* functional_drift_terms *)
}.

Record uobj := { u_obj : obj; u_drift : drift }.

(** np.amin(np.where(cond)[0]) and np.amax(np.where(cond)[0]); ValueError if empty *)
Definition where_ (p : R -> bool) (l : list R) : list nat :=
  filter (fun i => p (rnth l i)) (seq 0 (List.length l)).
Definition first_where (p : R -> bool) (l : list R) : res nat :=
  match where_ p l with [] => Err ValueError | i :: _ => Ok i end.
Definition last_where (p : R -> bool) (l : list R) : res nat :=
  match where_ p l with [] => Err ValueError | i :: r => Ok (last r i) end.

(** uk.py 512-628, _calculate_data_point_zscalars at one location.  Repeated
    coordinates in the external grid (division by zero, NaN) are outside the model. *)
Definition zscalar (arr : mat) (ex ey : list R) (xn yn : R) : res R :=
  match amax_gen Rops ex, amin_gen Rops ex, amax_gen Rops ey, amin_gen Rops ey with
  | Some xmax, Some xmin, Some ymax, Some ymin =>
      if Rltb xmax xn || Rltb xn xmin || Rltb ymax yn || Rltb yn ymin then Err ValueError else
      do x2 <- first_where (fun g => Rleb xn g) ex ;;
      do x1 <- last_where (fun g => Rleb g xn) ex ;;
      do y2 <- first_where (fun g => Rleb yn g) ey ;;
      do y1 <- last_where (fun g => Rleb g yn) ey ;;
      if Nat.eqb y1 y2 then
        if Nat.eqb x1 x2 then Ok (arr y1 x1)
        else Ok ((arr y1 x1 * (rnth ex x2 - xn) + arr y2 x2 * (xn - rnth ex x1)) / (rnth ex x2 - rnth ex x1))
      else if Nat.eqb x1 x2 then
        Ok ((arr y1 x1 * (rnth ey y2 - yn) + arr y2 x2 * (yn - rnth ey y1)) / (rnth ey y2 - rnth ey y1))
      else
        Ok ((arr y1 x1 * (rnth ex x2 - xn) * (rnth ey y2 - yn)
             + arr y1 x2 * (xn - rnth ex x1) * (rnth ey y2 - yn)
             + arr y2 x1 * (rnth ex x2 - xn) * (yn - rnth ey y1)
             + arr y2 x2 * (xn - rnth ex x1) * (yn - rnth ey y1))
            / ((rnth ex x2 - rnth ex x1) * (rnth ey y2 - rnth ey y1)))
  | _, _, _, _ => Err ValueError                (* np.amax of an empty array *)
  end.

(** the same on arrays of locations (uk.py 538-626): raises at the first bad one *)
Definition zscalars (arr : mat) (ex ey : list R) (npt : nat) (x y : vec) : res vec :=
  foldM (fun zs p => do z <- zscalar arr ex ey (x p) (y p) ;; Ok (upd zs p z)) (seq 0 npt) (fun _ => 0).

(** ---- constructor, drift part ---- *)
(** uk.py 409-438 *)
Definition init_external (D : dargs) (o : obj) : res (mat * list R * list R * vec) :=
  match d_ext D with
  | None => Err ValueError
  | Some (rows, cols, f) =>
    match d_ext_x D, d_ext_y D with
    | Some ex, Some ey =>
      do arr <- (if negb (Nat.eqb rows (List.length ey)) || negb (Nat.eqb cols (List.length ex)) then
                   if Nat.eqb rows (List.length ex) && Nat.eqb cols (List.length ey)
                   then Ok (trm f) else Err ValueError
                 else Ok f) ;;
      do zs <- zscalars arr ex ey (o_n o) (fun i => o_orig o i 0%nat) (fun i => o_orig o i 1%nat) ;;
      Ok (arr, ex, ey, zs)
    | _, _ => Err ValueError
    end
  end.

(** uk.py 444-458: well coordinates rotated into the adjusted frame *)
Definition init_wells (D : dargs) (o : obj) : res (list (R * R * R)) :=
  match d_point D with
  | None => Err ValueError
  | Some (_, []) => Err IndexError                    (* point_log[:, 2] of an empty array *)
  | Some (int_dtype, rows) =>
      let P : mat := fun i j => match nth i rows (0, 0, 0) with (x, y, _) => match j with 0%nat => x | _ => y end end in
      do Q <- adjust_for_anisotropy int_dtype 2 P (o_center o) (o_scaling o) (o_angle o) ;;
      Ok (map (fun i => (Q i 0%nat, Q i 1%nat, snd (nth i rows (0, 0, 0)))) (seq 0 (List.length rows)))
  end.

(** uk.py 469-491, uk3d.py 409-431 *)
Definition init_specified (D : dargs) (o : obj) : res (list vec) :=
  match d_spec D with
  | None => Err TypeError
  | Some [] => Err ValueError
  | Some ts => mapM (fun t => if negb (Nat.eqb (List.length t) (o_n o)) then Err ValueError else Ok (rnth t)) ts
  end.

(** uk.py 495-508, uk3d.py 435-448 *)
Definition init_functional (D : dargs) : res (list (R -> R -> R -> R)) :=
  match d_fun D with
  | None => Err TypeError
  | Some [] => Err ValueError
  | Some fs => Ok fs
  end.

Definition opt_drift {A} (on : bool) (x : res A) : res (option A) :=
  if on then do a <- x ;; Ok (Some a) else Ok None.

(** uk.py 396-510; uk3d.py 396-450 (which knows neither external_Z nor point_log) *)
Definition init_drift (c : kclass) (D : dargs) (o : obj) : res drift :=
  let has t := in_names t (d_terms D) in
  let two := match c with UK2 => true | _ => false end in
  do e <- opt_drift (two && has "external_Z"%string) (init_external D o) ;;
  do w <- opt_drift (two && has "point_log"%string) (init_wells D o) ;;
  do s <- opt_drift (has "specified"%string) (init_specified D o) ;;
  do f <- opt_drift (has "functional"%string) (init_functional D) ;;
  Ok {| dr_linear := has "regional_linear"%string; dr_wells := w; dr_ext := e; dr_spec := s; dr_fun := f |}.

Definition construct_uk (E : env) (c : kclass) (A : cargs) (D : dargs) : res uobj :=
  do o <- construct E c A ;;
  do d <- init_drift c D o ;;
  Ok {| u_obj := o; u_drift := d |}.

(** update_variogram_model does not touch the drift attributes: uk.py 630-788,
    uk3d.py 452-635 *)
Definition update_uk (E : env) (u : uobj) (v : vargs) : uobj * option exn :=
  let '(o, e) := update_variogram_model E (u_obj u) v in
  ({| u_obj := o; u_drift := u_drift u |}, e).

(** ---- kriging system ---- *)
Definition olen {A} (x : option (list A)) : nat := match x with Some l => List.length l | None => 0%nat end.

(** n_withdrifts: uk.py 1177-1186, uk3d.py 968-975 *)
Definition n_withdrifts (u : uobj) : nat :=
  let o := u_obj u in let d := u_drift u in
  let k := o_n o in
  let k := if dr_linear d then (k + o_dim o)%nat else k in
  let k := (k + olen (dr_wells d))%nat in
  let k := match dr_ext d with Some _ => (k + 1)%nat | None => k end in
  let k := (k + olen (dr_spec d))%nat in
  (k + olen (dr_fun d))%nat.

(** np.log with -inf replaced by -100: uk.py 888-896, 956-964 *)
Definition log_dist (d : R) : R := if Reqb d 0 then -100 else ln d.
Definition well_dist (w : R * R * R) (x y : R) : R :=
  let '(wx, wy, _) := w in sqrt ((x - wx) * (x - wx) + (y - wy) * (y - wy)).
Definition well_term (w : R * R * R) (x y : R) : R := - snd w * log_dist (well_dist w x y).

(** a[:n, i] = v; a[i, :n] = v; i += 1 (IndexError if i is out of bounds) *)
Definition write_drift (size n : nat) (v : vec) (s : mat * nat) : res (mat * nat) :=
  let '(a, i) := s in
  if Nat.ltb i size then
    let a : mat := fun r c => if Nat.ltb r n && Nat.eqb c i then v r else a r c in
    let a : mat := fun r c => if Nat.eqb r i && Nat.ltb c n then v c else a r c in
    Ok (a, S i)
  else Err IndexError.

(** [if drift: for term in terms: ...] *)
Definition each {A S} (x : option (list A)) (f : S -> A -> res S) (s : S) : res S :=
  match x with Some l => foldM f l s | None => Ok s end.

(** a[:n, i] = self.X_ADJUSTED etc.: the coordinate columns *)
Definition axes (dim : nat) : list nat := match dim with 2%nat => [0%nat; 1%nat] | _ => [0%nat; 1%nat; 2%nat] end.

(** adjusted coordinates passed to a functional drift; third one 0 in 2D *)
Definition third (dim : nat) (x : R) : R := match dim with 2%nat => 0 | _ => x end.
Definition call_drift (dim : nat) (f : R -> R -> R -> R) (v : vec) : R :=
  f (v 0%nat) (v 1%nat) (third dim (v 2%nat)).

(** _get_kriging_matrix, uk.py 861-920, uk3d.py 688-737; the boolean says
    whether the 'Kriging may fail' warning was issued *)
Definition uk_matrix (u : uobj) : res (mat * bool) :=
  let o := u_obj u in let d := u_drift u in
  let n := o_n o in
  let nw := n_withdrifts u in
  let size := (nw + 1)%nat in
  let a := zeros2 in
  let a := set_block n (fun i j => - o_vg o (data_distances o i j)) a in
  let a := fill_diagonal 0 a in
  do s <- (if dr_linear d then foldM (fun s k => write_drift size n (fun i => o_adj o i k) s) (axes (o_dim o)) (a, n)
           else Ok (a, n)) ;;
  do s <- each (dr_wells d) (fun s w => write_drift size n (fun i => well_term w (o_adj o i 0%nat) (o_adj o i 1%nat)) s) s ;;
  do s <- (match dr_ext d with Some (_, _, _, zs) => write_drift size n zs s | None => Ok s end) ;;
  do s <- each (dr_spec d) (fun s v => write_drift size n v s) s ;;
  do s <- each (dr_fun d) (fun s f => write_drift size n (fun i => call_drift (o_dim o) f (o_adj o i)) s) s ;;
  let '(a, i) := s in
  let warn := negb (Nat.eqb i nw) in
  let a : mat := fun r c => if Nat.eqb r nw && Nat.ltb c n then 1 else a r c in
  let a : mat := fun r c => if Nat.ltb r n && Nat.eqb c nw then 1 else a r c in
  let a : mat := fun r c => if (Nat.leb n r && Nat.leb r nw) && (Nat.leb n c && Nat.leb c nw) then 0 else a r c in
  Ok (a, warn).

(** Coordinates of a query location as the code accesses them: xy[:, 0], xy[:, 1]
    in 2D; xyz[:, 2], xyz[:, 1], xyz[:, 0] of the (z, y, x) array in 3D. *)
Definition query_array (dim : nat) (pts : mat) : mat := match dim with 2%nat => pts | _ => zyx pts end.
Definition query_axis (dim k : nat) : nat := match dim with 2%nat => k | _ => (2 - k)%nat end.
Definition query_coords (dim : nat) (arr : mat) (p : nat) : vec := fun k => arr p (query_axis dim k).

(** b[:, i, 0] = v; i += 1 *)
Definition put (size : nat) (v : vec) (s : mat * nat) : res (mat * nat) :=
  let '(b, i) := s in
  if Nat.ltb i size then Ok ((fun p k => if Nat.eqb k i then v p else b p k), S i) else Err IndexError.

(** First n entries of the right-hand sides, uk.py 937-947 *)
Definition uk_rhs_vector (n npt : nat) (vg : R -> R) (exact_values : bool) (bd : mat) : mat :=
  let zero_value := existsb (fun j => any_zero eps n (bd j)) (seq 0 npt) in
  let b : mat := fun j k => if Nat.ltb k n then - vg (bd j k) else 0 in
  if zero_value && exact_values
  then fun j k => if Nat.ltb k n && Rleb (Rabs (bd j k)) eps then 0 else b j k
  else b.

(** _exec_vector, uk.py 922-1009, uk3d.py 739-811.  [specs]: flattened
    specified-drift grids; [orig]: query locations as given. *)
Definition uk_exec_vector (L : linalg) (u : uobj) (npt : nat) (a : mat) (bd xyz orig : mat)
    (specs : list vec) : res (vec * vec * bool) :=
  let o := u_obj u in let d := u_drift u in
  let n := o_n o in
  let nw := n_withdrifts u in
  let size := (nw + 1)%nat in
  let at_ p := query_coords (o_dim o) xyz p in
  do a_inv <- invert L (o_pinv o) (o_pinv_type o) size a ;;
  let b := uk_rhs_vector n npt (o_vg o) (o_exact o) bd in
  do s <- (if dr_linear d then foldM (fun s k => put size (fun p => at_ p k) s) (axes (o_dim o)) (b, n)
           else Ok (b, n)) ;;
  do s <- each (dr_wells d) (fun s w => put size (fun p => well_term w (at_ p 0%nat) (at_ p 1%nat)) s) s ;;
  do s <- (match dr_ext d with
           | Some (arr, ex, ey, _) =>
               do zs <- zscalars arr ex ey npt (fun p => orig p 0%nat) (fun p => orig p 1%nat) ;; put size zs s
           | None => Ok s
           end) ;;
  do s <- (match dr_spec d with Some _ => foldM (fun s v => put size v s) specs s | None => Ok s end) ;;
  do s <- each (dr_fun d) (fun s f => put size (fun p => call_drift (o_dim o) f (at_ p)) s) s ;;
  let '(b, i) := s in
  let warn := negb (Nat.eqb i nw) in
  let b : mat := fun p k => if Nat.eqb k nw then 1 else b p k in
  let x : mat := fun p => mulv size a_inv (b p) in
  Ok ((fun p => bsum n (fun k => x p k * o_values o k)),
      (fun p => bsum size (fun k => x p k * - b p k)), warn).

(** b[i, 0] = v; i += 1 *)
Definition put1 (size : nat) (v : R) (s : vec * nat) : res (vec * nat) :=
  let '(b, i) := s in
  if Nat.ltb i size then Ok (upd b i v, S i) else Err IndexError.

(** One right-hand side of the loop: uk.py 1029-1083, uk3d.py 831-870.
    At a well, [log_dist[...] = -100] is an item assignment on a numpy scalar
    and raises TypeError (uk.py 1059-1060).  The specified drift value is taken
    from position i (the matrix row), not from position j (uk.py 1070). *)
Definition uk_rhs_loop (u : uobj) (npt : nat) (bd : vec) (xyz orig : mat) (specs : list vec) (j : nat)
  : res (vec * bool) :=
  let o := u_obj u in let d := u_drift u in
  let n := o_n o in
  let nw := n_withdrifts u in
  let size := (nw + 1)%nat in
  let at_ := query_coords (o_dim o) xyz j in
  let zero_value := any_zero eps n bd in
  let b : vec := fun k => if Nat.ltb k n then - o_vg o (bd k) else 0 in
  let b : vec := if zero_value && o_exact o
           then fun k => if Nat.ltb k n && Rleb (Rabs (bd k)) eps then 0 else b k
           else b in
  do s <- (if dr_linear d then foldM (fun s k => put1 size (at_ k) s) (axes (o_dim o)) (b, n) else Ok (b, n)) ;;
  do s <- each (dr_wells d) (fun s w =>
             if Reqb (well_dist w (at_ 0%nat) (at_ 1%nat)) 0 then Err TypeError
             else put1 size (well_term w (at_ 0%nat) (at_ 1%nat)) s) s ;;
  do s <- (match dr_ext d with
           | Some (arr, ex, ey, _) => do z <- zscalar arr ex ey (orig j 0%nat) (orig j 1%nat) ;; put1 size z s
           | None => Ok s
           end) ;;
  do s <- (match dr_spec d with
           | Some _ => foldM (fun s (v : vec) =>
                         let '(b, i) := s in
                         if Nat.ltb i npt then put1 size (v i) (b, i) else Err IndexError) specs s
           | None => Ok s
           end) ;;
  do s <- each (dr_fun d) (fun s f => put1 size (call_drift (o_dim o) f at_) s) s ;;
  let '(b, i) := s in
  Ok (upd b nw 1, negb (Nat.eqb i nw)).

(** _exec_loop, uk.py 1011-1088, uk3d.py 813-875 *)
Definition uk_exec_loop (L : linalg) (u : uobj) (npt : nat) (a : mat) (bd xyz orig : mat)
    (mask : nat -> bool) (specs : list vec) : res (vec * vec * bool) :=
  let o := u_obj u in
  let n := o_n o in
  let size := (n_withdrifts u + 1)%nat in
  do a_inv <- invert L (o_pinv o) (o_pinv_type o) size a ;;
  foldM (fun '(zvalues, sigmasq, warn) j =>
      do (b, w) <- uk_rhs_loop u npt (bd j) xyz orig specs j ;;
      let x := mulv size a_inv b in
      Ok (upd zvalues j (bsum n (fun k => x k * o_values o k)),
          upd sigmasq j (bsum size (fun k => x k * - b k)), warn || w))
    (unmasked npt mask) ((fun _ => 0), (fun _ => 0), false).

(** ---- execute ---- *)
(** A specified drift array passed to execute: shape and entries. *)
Inductive spec_arr :=
| Spec1 (len : nat) (f : nat -> R)
| Spec2 (rows cols : nat) (f : nat -> nat -> R)
| Spec3 (d0 d1 d2 : nat) (f : nat -> nat -> nat -> R).

(** uk.py 1247-1283, uk3d.py 1030-1070: orientation and flattening of one array
    (in 2D, three-dimensional arrays are treated as mismatched) *)
Definition spec_grid (dim : nat) (style : string) (pts : list (list R)) (s : spec_arr) : res vec :=
  let nx := size_of pts 0 in
  let ny := size_of pts 1 in
  let nz := size_of pts 2 in
  if String.eqb style "points" then
    match s with
    | Spec1 len f => if Nat.eqb len nx then Ok f else Err ValueError
    | _ => Err ValueError
    end
  else
    match dim with
    | 2%nat =>
      match s with
      | Spec2 r c f =>
          if negb (Nat.eqb r ny) || negb (Nat.eqb c nx) then
            if Nat.eqb r nx && Nat.eqb c ny then Ok (flatten2 nx (fun i j => f j i)) else Err ValueError
          else Ok (flatten2 nx f)
      | _ => Err ValueError
      end
    | _ =>
      match s with
      | Spec3 d0 d1 d2 f =>
          if negb (Nat.eqb d0 nz) || negb (Nat.eqb d1 ny) || negb (Nat.eqb d2 nx) then
            if Nat.eqb d0 nx && Nat.eqb d2 nz && Nat.eqb d1 ny
            then Ok (flatten3 ny nx (fun a b c => f c b a)) else Err ValueError
          else Ok (flatten3 ny nx f)
      | _ => Err ValueError
      end
    end.

(** uk.py 1233-1296, uk3d.py 1015-1082.  specified_drift_arrays = None is []; a
    non-list is not modelled.  Arrays given without 'specified' drift are ignored
    (with another RuntimeWarning, not modelled). *)
Definition spec_grids (u : uobj) (style : string) (pts : list (list R)) (specs : list spec_arr) : res (list vec) :=
  match dr_spec (u_drift u) with
  | None => Ok []
  | Some ds =>
      match specs with
      | [] => Err ValueError
      | _ =>
        do gs <- mapM (spec_grid (o_dim (u_obj u)) style pts) specs ;;
        if negb (Nat.eqb (List.length gs) (List.length ds)) then Err ValueError else Ok gs
      end
  end.

(** UniversalKriging.execute (uk.py 1164-1328) and UniversalKriging3D.execute
    (uk3d.py 958-1146); [q_window] is not an argument here and is ignored. *)
Definition execute_uk (E : env) (u : uobj) (q : query) (specs : list spec_arr) : res (result * bool) :=
  let o := u_obj u in
  let dim := o_dim o in
  let style := q_style q in
  if negb (in_names style ["grid"; "masked"; "points"]%string) then Err ValueError else
  do (a, warn_a) <- uk_matrix u ;;
  do l <- (match dim with 2%nat => locate2 | _ => locate3 end) style (q_pts q) (q_mask q) ;;
  do gs <- spec_grids u style (q_pts q) specs ;;
  do pts <- adjust_query o (q_int q) (l_at l) ;;
  let xyz := query_array dim pts in
  let bd := query_distances o pts in
  do (z, s, warn_b) <-
     (if String.eqb (q_backend q) "vectorized" then
        uk_exec_vector (e_la E) u (l_npt l) a bd xyz (l_at l) gs
      else if String.eqb (q_backend q) "loop" then
        uk_exec_loop (e_la E) u (l_npt l) a bd xyz (l_at l) (l_mask l) gs
      else Err ValueError) ;;
  Ok (finish style l (z, s), warn_a || warn_b).
