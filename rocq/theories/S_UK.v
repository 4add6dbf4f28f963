(** SPECIFICATION of universal kriging, independent of the code: the textbook
    equations, and the list of drift functions an object is configured with. *)
From Coq Require Import String.
From Verif Require Import Base Sums Matrix M_Variogram M_Geometry S_Geometry M_Kriging S_Kriging M_Init M_Object
  M_Execute S_Execute M_UK.

(** Universal kriging with m drift functions: [F k i] value of the k-th one at
    datum i, [f k] at the query point; mu and nu are Lagrange parameters. *)
Definition UK_system (n m : nat) (G : mat) (F : mat) (g f w : vec) (mu : R) (nu : vec) : Prop :=
  (forall i, (i < n)%nat -> bsum n (fun j => w j * G i j) + bsum m (fun k => nu k * F k i) + mu = g i) /\
  bsum n w = 1 /\
  (forall k, (k < m)%nat -> bsum n (fun j => w j * F k j) = f k).

Definition UK_estimate (n m : nat) (G F : mat) (g f z : vec) (value variance : R) : Prop :=
  exists w mu nu, UK_system n m G F g f w mu nu /\
    value = bsum n (fun i => w i * z i) /\
    variance = bsum n (fun i => w i * g i) + bsum m (fun k => nu k * f k) + mu.

(** Uniquely solvable for all right-hand sides. *)
Definition UK_regular (n m : nat) (G F : mat) : Prop :=
  forall g f, exists w mu nu, UK_system n m G F g f w mu nu /\
    forall w' mu' nu', UK_system n m G F g f w' mu' nu' -> veq n w' w /\ mu' = mu /\ veq m nu' nu.

(** ---- drift functions ---- *)
Definition coord (k : nat) (p : vec3) : R :=
  match k with 0%nat => fst (fst p) | 1%nat => snd (fst p) | _ => snd p end.

(** A location in the object's rotated and stretched frame. *)
Definition center3 (o : obj) : vec3 := loc (o_dim o) (o_center o 0%nat) (o_center o 1%nat) (o_center o 2%nat).
Definition frame (o : obj) (p : vec3) : vec3 :=
  let d := sub3 p (center3 o) in
  add3 (center3 o)
    (if Nat.eqb (o_dim o) 3 then
       let e k := rotated_axis (rad (o_angle o 0%nat)) (rad (o_angle o 1%nat)) (rad (o_angle o 2%nat)) k in
       (dot3 (e (1,0,0)) d, o_scaling o 0%nat * dot3 (e (0,1,0)) d, o_scaling o 1%nat * dot3 (e (0,0,1)) d)
     else
       let a := rad (o_angle o 0%nat) in
       (dot3 (cos a, sin a, 0) d, o_scaling o 0%nat * dot3 (- sin a, cos a, 0) d, 0)).

(** A drift function: its values at the data and at the cells of a query
    (flat index, location). *)
Record term := { t_data : nat -> R; t_query : nat -> vec3 -> R }.
Definition spatial (o : obj) (f : vec3 -> R) : term :=
  {| t_data := fun i => f (datum o i); t_query := fun _ pos => f pos |}.

(** logarithm of a distance, -100 for distance 0 *)
Definition logd (d : R) : R := if Reqb d 0 then -100 else ln d.
Definition plane_dist (p : vec3) (x y : R) : R := sqrt ((coord 0 p - x)² + (coord 1 p - y)²).

(** value of the external drift grid at a location (see C28) *)
Definition ext_at (arr : mat) (ex ey : list R) (p : vec3) : R :=
  match zscalar arr ex ey (coord 0 p) (coord 1 p) with Ok v => v | Err _ => 0 end.

(** value of an array passed to execute at flat cell p; arrays of shape (ny, nx)
    / (nz, ny, nx) directly, (nx, ny) / (nx, ny, nz) with reversed axes *)
Definition spec_at (q : query) (s : spec_arr) (p : nat) : R :=
  let nx := List.length (xs q) in let ny := List.length (ys q) in let nz := List.length (zs q) in
  match s with
  | Spec1 _ f => f p
  | Spec2 r c f => if Nat.eqb r ny && Nat.eqb c nx then f (p / nx)%nat (p mod nx)%nat else f (p mod nx)%nat (p / nx)%nat
  | Spec3 d0 d1 d2 f =>
      if Nat.eqb d0 nz && Nat.eqb d1 ny && Nat.eqb d2 nx
      then f (p / nx / ny)%nat (p / nx mod ny)%nat (p mod nx)%nat
      else f (p mod nx)%nat (p / nx mod ny)%nat (p / nx / ny)%nat
  end.

Definition opt_list {A} (x : option (list A)) : list A := match x with Some l => l | None => [] end.

Definition linear_terms (u : uobj) : list term :=
  if dr_linear (u_drift u)
  then map (fun k => spatial (u_obj u) (fun p => coord k (frame (u_obj u) p))) (seq 0 (o_dim (u_obj u)))
  else [].
Definition well_terms (u : uobj) : list term :=
  map (fun w => let '(wx, wy, strength) := w in
         spatial (u_obj u) (fun p => - strength * logd (plane_dist (frame (u_obj u) p) wx wy)))
      (opt_list (dr_wells (u_drift u))).
Definition ext_terms (u : uobj) : list term :=
  match dr_ext (u_drift u) with
  | Some (arr, ex, ey, _) => [spatial (u_obj u) (ext_at arr ex ey)]
  | None => []
  end.
Definition spec_terms (u : uobj) (q : query) (specs : list spec_arr) : list term :=
  match dr_spec (u_drift u) with
  | Some ds => map (fun '(d, s) => {| t_data := d; t_query := fun p _ => spec_at q s p |}) (combine ds specs)
  | None => []
  end.
Definition fun_terms (u : uobj) : list term :=
  map (fun f => spatial (u_obj u) (fun p => let c := frame (u_obj u) p in f (coord 0 c) (coord 1 c) (coord 2 c)))
      (opt_list (dr_fun (u_drift u))).

(** The drift functions of an object, in order. *)
Definition drift_terms (u : uobj) (q : query) (specs : list spec_arr) : list term :=
  linear_terms u ++ well_terms u ++ ext_terms u ++ spec_terms u q specs ++ fun_terms u.

Definition no_term : term := {| t_data := fun _ => 0; t_query := fun _ _ => 0 |}.
Definition F_of (ts : list term) : mat := fun k i => t_data (nth k ts no_term) i.
Definition f_of (ts : list term) (p : nat) (pos : vec3) : vec := fun k => t_query (nth k ts no_term) p pos.

(** Objects a user can have. *)
Definition with_obj (u : uobj) (o : obj) : uobj := {| u_obj := o; u_drift := u_drift u |}.
Inductive ureachable (E : env) : uobj -> Prop :=
| ur_new : forall c A D u, c = UK2 \/ c = UK3 -> List.length (c_coords A) = cdim c ->
    construct_uk E c A D = Ok u -> ureachable E u
| ur_update : forall u v, ureachable E u -> ureachable E (fst (update_uk E u v))
| ur_verbose : forall u, ureachable E u -> ureachable E (with_obj u (switch_verbose (u_obj u)))
| ur_plotting : forall u, ureachable E u -> ureachable E (with_obj u (switch_plotting (u_obj u))).

(** A successful call of execute. *)
Definition urun (E : env) (u : uobj) (q : query) (specs : list spec_arr) (r : result) : Prop :=
  env_ok E /\ ureachable E u /\ exists warn, execute_uk E u q specs = Ok (r, warn).

(** The universal kriging system at a cell has a solution (automatic without
    pseudo_inv). *)
Definition usolvable (u : uobj) (q : query) (specs : list spec_arr) (p : nat) (pos : vec3) : Prop :=
  let ts := drift_terms u q specs in
  exists w mu nu, UK_system (o_n (u_obj u)) (List.length ts) (G_of (u_obj u)) (F_of ts)
                    (g_of (u_obj u) pos) (f_of ts p pos) w mu nu.
Definition uwell_posed (u : uobj) (q : query) (specs : list spec_arr) (p : nat) (pos : vec3) : Prop :=
  o_pinv (u_obj u) = false \/ usolvable u q specs p pos.

Definition uregular (u : uobj) (q : query) (specs : list spec_arr) : Prop :=
  o_pinv (u_obj u) = false \/
  UK_regular (o_n (u_obj u)) (List.length (drift_terms u q specs)) (G_of (u_obj u)) (F_of (drift_terms u q specs)).

(** As many specified drift arrays in the call as in the constructor. *)
Definition specs_fit (u : uobj) (specs : list spec_arr) : Prop :=
  dr_spec (u_drift u) <> None -> List.length specs = olen (dr_spec (u_drift u)).
(** The backend evaluates specified drifts at the right cell: 'vectorized' does, and
    'loop' does when there are none (see C26_specified_drift_refuted). *)
Definition faithful_specs (u : uobj) (q : query) : Prop :=
  q_backend q = "vectorized"%string \/ dr_spec (u_drift u) = None.
(** No shown cell is at a point_log well. *)
Definition off_wells (u : uobj) (q : query) : Prop :=
  forall p pos wx wy s, shown (u_obj u) q p pos -> In (wx, wy, s) (opt_list (dr_wells (u_drift u))) ->
    plane_dist (frame (u_obj u) pos) wx wy <> 0.
(** The result of a call without the warning flag. *)
Definition arrays (x : res (result * bool)) : res result := do (r, _) <- x ;; Ok r.

(** Linear combination of drift values with coefficients [cs] (missing ones: 0). *)
Fixpoint combination (cs vs : list R) : R :=
  match cs, vs with c :: cs', v :: vs' => c * v + combination cs' vs' | _, _ => 0 end.

(** Objects by history (see [built] in S_Execute). *)
Definition after_uupdates (E : env) (us : list vargs) (u : uobj) : uobj :=
  fold_left (fun u v => fst (update_uk E u v)) us u.
Definition ubuilt (E : env) (c : kclass) (A : cargs) (D : dargs) (us : list vargs) (u : uobj) : Prop :=
  List.length (c_coords A) = cdim c /\ exists u0, construct_uk E c A D = Ok u0 /\ u = after_uupdates E us u0.

(** The ordinary and the universal kriging class of the same dimension. *)
Definition counterparts (c c' : kclass) : Prop := (c = OK2 /\ c' = UK2) \/ (c = OK3 /\ c' = UK3).

(** [o'] is the 3D object for the data of the 2D object [o] placed in the plane
    z = h, with the same variogram and anisotropy (no rotation about x and y). *)
Definition lift (h : R) (p : vec3) : vec3 := let '(x, y, _) := p in (x, y, h).
Record coplanar (h : R) (o o' : obj) : Prop := {
  cp_class : o_class o = OK2; cp_class' : o_class o' = OK3;
  cp_ct : o_ct o = Euclidean; cp_ct' : o_ct o' = Euclidean;
  cp_exact : o_exact o' = o_exact o; cp_fun : o_fun o' = o_fun o; cp_params : o_params o' = o_params o;
  cp_scaling : o_scaling o' 0%nat = o_scaling o 0%nat;
  cp_angle : o_angle o' 0%nat = 0 /\ o_angle o' 1%nat = 0 /\ o_angle o' 2%nat = o_angle o 0%nat;
  cp_n : o_n o' = o_n o;
  cp_datum : forall i, (i < o_n o)%nat -> datum o' i = lift h (datum o i);
  cp_values : forall i, (i < o_n o)%nat -> o_values o' i = o_values o i }.

(** What the user asked for, in terms of the constructor arguments [D] (drift
    lists given as None count as empty; the constructor raises in that case). *)
Definition asked (D : dargs) (t : string) : bool := existsb (String.eqb t) (d_terms D).
(** the external drift grid with rows along y: as given, or transposed if only that fits *)
Definition drift_grid (D : dargs) : option (mat * list R * list R) :=
  match d_ext D, d_ext_x D, d_ext_y D with
  | Some (rows, cols, f), Some ex, Some ey =>
      Some ((if Nat.eqb rows (List.length ey) && Nat.eqb cols (List.length ex) then f else fun i j => f j i), ex, ey)
  | _, _, _ => None
  end.
Definition user_terms (c : kclass) (D : dargs) (o : obj) (q : query) (specs : list spec_arr) : list term :=
  let two := match c with UK2 => true | _ => false end in
  (if asked D "regional_linear" then map (fun k => spatial o (fun p => coord k (frame o p))) (seq 0 (cdim c)) else []) ++
  (if two && asked D "point_log" then
     map (fun w => let '(x, y, strength) := w in
       spatial o (fun p => let a := frame o p in let b := frame o (x, y, 0) in
                           - strength * logd (plane_dist a (coord 0 b) (coord 1 b))))
       (match d_point D with Some (_, rows) => rows | None => [] end)
   else []) ++
  (if two && asked D "external_Z" then
     match drift_grid D with Some (f, ex, ey) => [spatial o (ext_at f ex ey)] | None => [] end
   else []) ++
  (if asked D "specified" then
     map (fun '(d, s) => {| t_data := rnth d; t_query := fun p _ => spec_at q s p |}) (combine (opt_list (d_spec D)) specs)
   else []) ++
  (if asked D "functional" then
     map (fun f => spatial o (fun p => let c := frame o p in f (coord 0 c) (coord 1 c) (coord 2 c))) (opt_list (d_fun D))
   else []).
