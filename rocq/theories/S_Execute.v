(** SPECIFICATION vocabulary for the kriging objects: which objects exist, where
    the cells of a result are, and what the separation of two locations is. *)
From Coq Require Import String.
From Verif Require Import Base Sums Matrix M_Variogram M_Geometry S_Geometry M_Kriging S_Kriging M_Init M_Object M_Execute.

(** Objects a user can have: built by the constructor, then changed by any
    sequence of method calls (successful or raising). *)
Inductive reachable (E : env) : obj -> Prop :=
| reach_new : forall c A o, List.length (c_coords A) = cdim c -> construct E c A = Ok o -> reachable E o
| reach_update : forall o v, reachable E o -> reachable E (fst (update_variogram_model E o v))
| reach_verbose : forall o, reachable E o -> reachable E (switch_verbose o)
| reach_plotting : forall o, reachable E o -> reachable E (switch_plotting o).

(** What is assumed of the environment's numerical routines. *)
Definition env_ok (E : env) : Prop :=
  linalg_ok (e_la E) /\ optimiser_ok (e_fit E) /\ kd_ok (e_kd E).

(** Locations are triples; the third coordinate is 0 in 2D. *)
Definition loc (dim : nat) (x y z : R) : vec3 := (x, y, if Nat.eqb dim 3 then z else 0).
Definition sub3 (p q : vec3) : vec3 :=
  let '(x, y, z) := p in let '(u, v, w) := q in (x - u, y - v, z - w).
Definition add3 (p q : vec3) : vec3 :=
  let '(x, y, z) := p in let '(u, v, w) := q in (x + u, y + v, z + w).

(** Anisotropic separation: the coordinates of p - q in the rotated frame, the
    second (and third) stretched. *)
Definition aniso2 (s angle : R) (d : vec3) : R :=
  let a := rad angle in
  sqrt ((dot3 (cos a, sin a, 0) d)² + s² * (dot3 (- sin a, cos a, 0) d)²).
Definition aniso3 (sy sz ax ay az : R) (d : vec3) : R :=
  let e k := rotated_axis (rad ax) (rad ay) (rad az) k in
  sqrt ((dot3 (e (1,0,0)) d)² + sy² * (dot3 (e (0,1,0)) d)² + sz² * (dot3 (e (0,0,1)) d)²).

Definition lon (p : vec3) : R := fst (fst p).
Definition lat (p : vec3) : R := snd (fst p).

Definition separation (o : obj) (p q : vec3) : R :=
  match o_ct o with
  | Geographic => great_circle_distance (lon p) (lat p) (lon q) (lat q)
  | Euclidean =>
      if Nat.eqb (o_dim o) 3
      then aniso3 (o_scaling o 0%nat) (o_scaling o 1%nat) (o_angle o 0%nat) (o_angle o 1%nat) (o_angle o 2%nat) (sub3 p q)
      else aniso2 (o_scaling o 0%nat) (o_angle o 0%nat) (sub3 p q)
  end.

(** Row i of a coordinate array as a location. *)
Definition loc_of (dim : nat) (m : mat) (i : nat) : vec3 := loc dim (m i 0%nat) (m i 1%nat) (m i 2%nat).
(** The i-th data location, as given by the user. *)
Definition datum (o : obj) (i : nat) : vec3 :=
  loc (o_dim o) (o_orig o i 0%nat) (o_orig o i 1%nat) (o_orig o i 2%nat).

(** Semivariances between data, and between data and a location. *)
Definition G_of (o : obj) : mat :=
  data_semivariance (o_vg o) (fun i j => separation o (datum o i) (datum o j)).
Definition g_of (o : obj) (p : vec3) : vec :=
  query_semivariance (o_vg o) eps (o_exact o) (fun i => separation o p (datum o i)).

(** Cells of a result: flat (C-order) index and location.  'points': the p-th
    cell is at (x_p, y_p, z_p); grids: cell [i][j] ([k][i][j] in 3D) is at
    (x_j, y_i, z_k). *)
Definition xs (q : query) : list R := nth 0 (q_pts q) [].
Definition ys (q : query) : list R := nth 1 (q_pts q) [].
Definition zs (q : query) : list R := nth 2 (q_pts q) [].

Inductive cell (dim : nat) (q : query) : nat -> vec3 -> Prop :=
| cell_point : forall p, q_style q = "points"%string -> (p < List.length (xs q))%nat ->
    cell dim q p (loc dim (rnth (xs q) p) (rnth (ys q) p) (rnth (zs q) p))
| cell_grid2 : forall i j, (q_style q = "grid" \/ q_style q = "masked")%string -> dim = 2%nat ->
    (i < List.length (ys q))%nat -> (j < List.length (xs q))%nat ->
    cell dim q (i * List.length (xs q) + j) (loc dim (rnth (xs q) j) (rnth (ys q) i) 0)
| cell_grid3 : forall k i j, (q_style q = "grid" \/ q_style q = "masked")%string -> dim = 3%nat ->
    (k < List.length (zs q))%nat -> (i < List.length (ys q))%nat -> (j < List.length (xs q))%nat ->
    cell dim q ((k * List.length (ys q) + i) * List.length (xs q) + j)
         (loc dim (rnth (xs q) j) (rnth (ys q) i) (rnth (zs q) k)).

(** The user's mask at cell [i][j] / [k][i][j]: arrays of shape (ny, nx) are
    read directly, arrays of shape (nx, ny) transposed; in 3D (nz, ny, nx)
    directly and (nx, ny, nz) with the axes reversed. *)
Definition mask_at2 (m : mask_arg) (ny nx i j : nat) : bool :=
  match m with
  | Mask2 r c f => if Nat.eqb r ny && Nat.eqb c nx then f i j else f j i
  | Mask3 _ _ _ _ => false
  end.
Definition mask_at3 (m : mask_arg) (nz ny nx k i j : nat) : bool :=
  match m with
  | Mask3 d0 d1 d2 f => if Nat.eqb d0 nz && Nat.eqb d1 ny && Nat.eqb d2 nx then f k i j else f j i k
  | Mask2 _ _ _ => false
  end.

(** The kriging system of object [o] at location [p] has a solution (always the
    case for a regular kriging matrix). *)
Definition solvable (o : obj) (p : vec3) : Prop :=
  exists w mu, OK_system (o_n o) (G_of o) (g_of o p) w mu.
Definition regular (o : obj) : Prop := OK_regular (o_n o) (G_of o).

(** Variogram functions for which backend 'C' has its own code: the built-in
    ones except hole-effect (with a positive range where one is needed). *)
Definition c_supported (o : obj) : Prop :=
  exists key, dict_get variogram_dict key = Some (o_fun o) /\ key <> "hole-effect"%string /\
    (key = "gaussian"%string \/ key = "spherical"%string -> 0 < rnth (o_params o) 1).

(** Indices of the k data nearest to [pos], in order of separation. *)
Definition nearest (o : obj) (k : nat) (pos : vec3) (sel : nat -> nat) : Prop :=
  (forall a, (a < k)%nat -> (sel a < o_n o)%nat) /\
  (forall a b, (a < k)%nat -> (b < k)%nat -> sel a = sel b -> a = b) /\
  (forall a b, (a <= b)%nat -> (b < k)%nat ->
     separation o pos (datum o (sel a)) <= separation o pos (datum o (sel b))) /\
  (forall a j, (a < k)%nat -> (j < o_n o)%nat -> (forall b, (b < k)%nat -> sel b <> j) ->
     separation o pos (datum o (sel a)) <= separation o pos (datum o j)).

(** Ordinary kriging with the data [sel 0 .. sel (k-1)] only. *)
Definition local_estimate (o : obj) (k : nat) (sel : nat -> nat) (pos : vec3) (v s : R) : Prop :=
  OK_estimate k (fun a b => G_of o (sel a) (sel b)) (fun a => g_of o pos (sel a))
              (fun a => o_values o (sel a)) v s.
Definition local_regular (o : obj) (k : nat) (sel : nat -> nat) : Prop :=
  OK_regular k (fun a b => G_of o (sel a) (sel b)).

(** Cells hidden by the user's mask. *)
Inductive hidden (dim : nat) (q : query) : nat -> Prop :=
| hidden2 : forall i j m, q_style q = "masked"%string -> dim = 2%nat -> q_mask q = Some m ->
    (i < List.length (ys q))%nat -> (j < List.length (xs q))%nat ->
    mask_at2 m (List.length (ys q)) (List.length (xs q)) i j = true ->
    hidden dim q (i * List.length (xs q) + j)
| hidden3 : forall k i j m, q_style q = "masked"%string -> dim = 3%nat -> q_mask q = Some m ->
    (k < List.length (zs q))%nat -> (i < List.length (ys q))%nat -> (j < List.length (xs q))%nat ->
    mask_at3 m (List.length (zs q)) (List.length (ys q)) (List.length (xs q)) k i j = true ->
    hidden dim q ((k * List.length (ys q) + i) * List.length (xs q) + j).

(** The two ordinary kriging classes. *)
Definition ordinary (o : obj) : Prop := o_class o = OK2 \/ o_class o = OK3.

(** The variogram evaluated by the backend is the object's: always, except that
    backend 'C' (with the extension installed) has its own variogram code. *)
Definition faithful_backend (E : env) (o : obj) (q : query) : Prop :=
  q_backend q = "C"%string -> e_cython E = true -> c_supported o.

(** [v], [s] are the ordinary kriging estimate and variance at [pos], from all
    data or (moving window) from the k nearest ones. *)
Definition kriged (o : obj) (q : query) (pos : vec3) (v s : R) : Prop :=
  match q_window q with
  | None => OK_estimate (o_n o) (G_of o) (g_of o pos) (o_values o) v s
  | Some k => (2 <= k <= o_n o)%nat /\ exists sel,
      nearest o k pos sel /\ local_regular o k sel /\ local_estimate o k sel pos v s
  end.

(** Equality of results: same shape, same entries (None = masked). *)
Definition shape_size (s : list nat) : nat := fold_right Nat.mul 1%nat s.

Definition result_eq (r r' : result) : Prop :=
  r_shape r = r_shape r' /\
  forall p, (p < shape_size (r_shape r))%nat ->
    r_value r p = r_value r' p /\ r_variance r p = r_variance r' p.

(** Same outcome of two calls: both succeed with equal results, or both raise
    (the same exception). *)
Definition same_outcome (x y : res result) : Prop :=
  match x, y with
  | Ok r, Ok r' => result_eq r r'
  | Err e, Err e' => e = e'
  | _, _ => False
  end.
Definition both_or_neither (x y : res result) : Prop :=
  match x, y with
  | Ok r, Ok r' => result_eq r r'
  | Err _, Err _ => True
  | _, _ => False
  end.

(** A successful call of execute on an ordinary kriging object. *)
Definition run (E : env) (o : obj) (q : query) (r : result) : Prop :=
  env_ok E /\ reachable E o /\ ordinary o /\ faithful_backend E o q /\ execute E o q = Ok r.
(** Flat index p is an unmasked cell at location pos. *)
Definition shown (o : obj) (q : query) (p : nat) (pos : vec3) : Prop :=
  cell (o_dim o) q p pos /\ ~ hidden (o_dim o) q p.
(** The kriging system is solved exactly (automatic without pseudo_inv, and
    with a moving window, which never uses the pseudo-inverse). *)
Definition well_posed (o : obj) (q : query) (pos : vec3) : Prop :=
  o_pinv o = false \/ q_window q <> None \/ solvable o pos.

(** Same query, other backend / style. *)
Definition with_backend (q : query) (b : string) : query :=
  {| q_style := q_style q; q_pts := q_pts q; q_int := q_int q; q_mask := q_mask q;
     q_backend := b; q_window := q_window q |}.
Definition with_window (q : query) (w : option nat) : query :=
  {| q_style := q_style q; q_pts := q_pts q; q_int := q_int q; q_mask := q_mask q;
     q_backend := q_backend q; q_window := w |}.
Definition with_style (q : query) (s : string) : query :=
  {| q_style := s; q_pts := q_pts q; q_int := q_int q; q_mask := q_mask q;
     q_backend := q_backend q; q_window := q_window q |}.

(** The data used for a location: all of them, or the k nearest. *)
Definition uses (o : obj) (q : query) (pos : vec3) (m : nat) (sel : nat -> nat) : Prop :=
  match q_window q with
  | None => m = o_n o /\ (forall a, sel a = a)
  | Some k => m = k /\ nearest o k pos sel
  end.

(** The kriging system has exactly one solution (automatic without pseudo_inv
    and with a moving window). *)
Definition regular_for (o : obj) (q : query) : Prop := o_pinv o = false \/ q_window q <> None \/ regular o.

(** All data at different separations from [pos] (no ties for a moving window). *)
Definition no_ties (o : obj) (pos : vec3) : Prop :=
  forall i j, (i < o_n o)%nat -> (j < o_n o)%nat -> i <> j ->
    separation o pos (datum o i) <> separation o pos (datum o j).

(** Objects by history: the constructor with arguments [A], then
    update_variogram_model calls [us] (successful or raising). *)
Definition after_updates (E : env) (us : list vargs) (o : obj) : obj :=
  fold_left (fun o v => fst (update_variogram_model E o v)) us o.
Definition built (E : env) (c : kclass) (A : cargs) (us : list vargs) (o : obj) : Prop :=
  List.length (c_coords A) = cdim c /\ exists o0, construct E c A = Ok o0 /\ o = after_updates E us o0.

(** Constructor arguments that differ in one point. *)
Definition with_exact (A : cargs) (b : bool) : cargs :=
  {| c_coords := c_coords A; c_values := c_values A; c_v := c_v A; c_verbose := c_verbose A;
     c_plotting := c_plotting A; c_stat := c_stat A; c_ct := c_ct A; c_exact := Some b;
     c_pinv := c_pinv A; c_pinv_type := c_pinv_type A |}.
Definition with_pinv (A : cargs) (b : bool) (t : string) : cargs :=
  {| c_coords := c_coords A; c_values := c_values A; c_v := c_v A; c_verbose := c_verbose A;
     c_plotting := c_plotting A; c_stat := c_stat A; c_ct := c_ct A; c_exact := c_exact A;
     c_pinv := b; c_pinv_type := t |}.
Definition with_values (A : cargs) (z : list R) : cargs :=
  {| c_coords := c_coords A; c_values := z; c_v := c_v A; c_verbose := c_verbose A;
     c_plotting := c_plotting A; c_stat := c_stat A; c_ct := c_ct A; c_exact := c_exact A;
     c_pinv := c_pinv A; c_pinv_type := c_pinv_type A |}.
Definition with_data (A : cargs) (coords : list (list R)) (z : list R) : cargs :=
  {| c_coords := coords; c_values := z; c_v := c_v A; c_verbose := c_verbose A;
     c_plotting := c_plotting A; c_stat := c_stat A; c_ct := c_ct A; c_exact := c_exact A;
     c_pinv := c_pinv A; c_pinv_type := c_pinv_type A |}.

(** Backends that exist for the object: 'C' only for OrdinaryKriging (2D), and,
    with the compiled extension, only for the variograms it has code for. *)
Definition available (E : env) (o : obj) (b : string) : Prop :=
  b = "vectorized"%string \/ b = "loop"%string \/
  (o_class o = OK2 /\ b = "C"%string /\ (e_cython E = true -> c_supported o)).

(** The query for one location alone. *)
Definition single (q : query) (pos : vec3) : query :=
  let '(x, y, z) := pos in
  {| q_style := "points"; q_pts := [[x]; [y]; [z]]; q_int := [false; false; false]; q_mask := None;
     q_backend := q_backend q; q_window := q_window q |}.

(** The variogram parameters are given (or come with a GSTools model): no automatic fit. *)
Definition explicit_params (v : vargs) : Prop := a_params v <> PNone \/ exists m, a_model v = VModel m.

(** List [l'] is [l] rearranged: its i-th entry is entry [s i] of [l]. *)
Definition rearranged (s : nat -> nat) (l l' : list R) : Prop :=
  List.length l' = List.length l /\ forall i, (i < List.length l)%nat -> rnth l' i = rnth l (s i).

(** The i-th data location given to a constructor. *)
Definition input (c : kclass) (A : cargs) (i : nat) : vec3 :=
  loc (cdim c) (rnth (nth 0 (c_coords A) []) i) (rnth (nth 1 (c_coords A) []) i) (rnth (nth 2 (c_coords A) []) i).

(** A query whose locations and mask are acceptable. *)
Definition good_query (o : obj) (q : query) : Prop :=
  (q_style q = "grid"%string \/
   (q_style q = "points"%string /\ List.length (ys q) = List.length (xs q) /\
      (o_dim o = 3%nat -> List.length (zs q) = List.length (xs q))) \/
   (q_style q = "masked"%string /\
      ((o_dim o = 2%nat /\ exists r c f, q_mask q = Some (Mask2 r c f) /\
          ((r = List.length (ys q) /\ c = List.length (xs q)) \/ (r = List.length (xs q) /\ c = List.length (ys q)))) \/
       (o_dim o = 3%nat /\ exists d0 d1 d2 f, q_mask q = Some (Mask3 d0 d1 d2 f) /\
          ((d0 = List.length (zs q) /\ d1 = List.length (ys q) /\ d2 = List.length (xs q)) \/
           (d0 = List.length (xs q) /\ d1 = List.length (ys q) /\ d2 = List.length (zs q)))))) ) /\
  (o_ct o = Euclidean -> In false (q_int q)).

(** Data i and j are at the same place. *)
Definition coincident (o : obj) (i j : nat) : Prop :=
  (i < o_n o)%nat /\ (j < o_n o)%nat /\ i <> j /\ separation o (datum o i) (datum o j) = 0.

(** Indices without j: 0, .., j-1, j+1, .. *)
Definition skip (j a : nat) : nat := if Nat.ltb a j then a else S a.
(** [o'] is [o] with datum j removed and the value of datum i replaced by the mean. *)
Record merges (i j : nat) (o o' : obj) : Prop := {
  mg_class : o_class o' = o_class o; mg_ct : o_ct o' = o_ct o; mg_exact : o_exact o' = o_exact o;
  mg_fun : o_fun o' = o_fun o; mg_params : o_params o' = o_params o;
  mg_scaling : o_scaling o' = o_scaling o; mg_angle : o_angle o' = o_angle o;
  mg_n : o_n o = S (o_n o');
  mg_datum : forall a, (a < o_n o')%nat -> datum o' a = datum o (skip j a);
  mg_values : forall a, (a < o_n o')%nat ->
    o_values o' a = if Nat.eqb (skip j a) i then (o_values o i + o_values o j) / 2 else o_values o (skip j a) }.


(** Anisotropy settings without any stretching (the angles do not matter). *)
Definition isotropic (c : kclass) (v : vargs) : Prop :=
  match a_model v with
  | VName _ => a_scaling v 0%nat = 1 /\ (cdim c = 3%nat -> a_scaling v 1%nat = 1)
  | VModel m => gs_scaling c m 0%nat = 1 /\ (cdim c = 3%nat -> gs_scaling c m 1%nat = 1)
  end.

(** [o'] is [o] with all lengths multiplied by k, also in the variogram. *)
Definition scale3 (k : R) (p : vec3) : vec3 := let '(x, y, z) := p in (k * x, k * y, k * z).
Record magnified (k : R) (o o' : obj) : Prop := {
  mf_class : o_class o' = o_class o; mf_ct : o_ct o = Euclidean; mf_ct' : o_ct o' = Euclidean;
  mf_exact : o_exact o' = o_exact o;
  mf_scaling : o_scaling o' = o_scaling o; mf_angle : o_angle o' = o_angle o;
  mf_n : o_n o' = o_n o;
  mf_datum : forall i, (i < o_n o)%nat -> datum o' i = scale3 k (datum o i);
  mf_values : forall i, (i < o_n o)%nat -> o_values o' i = o_values o i;
  mf_vg : forall d, 0 <= d -> o_vg o' (k * d) = o_vg o d }.

(** Documented option values. *)
Definition style_names : list string := ["grid"; "masked"; "points"]%string.
Definition builtin_names : list string :=
  ["linear"; "power"; "gaussian"; "spherical"; "exponential"; "hole-effect"]%string.

(** No moving window, or one of 2 .. n data. *)
Definition window_in_range (o : obj) (q : query) : Prop :=
  match q_window q with Some k => (2 <= k <= o_n o)%nat | None => True end.

(** Same numbers, other dtypes of the query arrays ([true]: integer). *)
Definition with_dtypes (q : query) (l : list bool) : query :=
  {| q_style := q_style q; q_pts := q_pts q; q_int := l; q_mask := q_mask q;
     q_backend := q_backend q; q_window := q_window q |}.

