(** SPECIFICATION for C69, C70: names, order and defaults of the arguments, as the
    docstrings document them. *)
From Coq Require Import String Permutation.
From Verif Require Import Base Sums Matrix M_Variogram M_Geometry S_Geometry M_Kriging M_Init M_Object M_Execute S_Execute M_UK M_Compat.
Open Scope string_scope.

(** A call f( *pos, **kw ) with the parameters [required] (no defaults), then [dfl]:
    positional arguments are keyword arguments under the names in order; a keyword
    left out has its default; the order of keywords is irrelevant; too many
    arguments, unknown names, names given twice, missing arguments are TypeErrors. *)
Record convention {A} (call : list pyval -> kwargs -> A) (type_error : A) (required : list string) (dfl : kwargs) : Prop := {
  cv_positional : forall pos kw, let ps := (required ++ map fst dfl)%list in
    (List.length pos <= List.length ps)%nat -> (forall k, In k (map fst kw) -> ~ In k (firstn (List.length pos) ps)) ->
    call pos kw = call [] (combine ps pos ++ kw)%list;
  cv_default : forall kw k v, In (k, v) dfl -> ~ In k (map fst kw) -> call [] kw = call [] ((k, v) :: kw);
  cv_order : forall kw kw', NoDup (map fst kw) -> Permutation kw kw' -> call [] kw = call [] kw';
  cv_error : forall pos kw, let ps := (required ++ map fst dfl)%list in
    (List.length ps < List.length pos)%nat \/
    (exists k, In k (map fst kw) /\ ~ In k ps) \/
    (exists k, In k (map fst kw) /\ In k (firstn (List.length pos) ps)) \/
    (exists k, In k required /\ ~ In k (map fst kw) /\ ~ In k (firstn (List.length pos) ps)) ->
    call pos kw = type_error }.

(** Data arguments, which have no default. *)
Definition data_names (c : kclass) : list string := match c with OK2 | UK2 => ["x"; "y"; "z"] | OK3 | UK3 => ["x"; "y"; "z"; "val"] end.

(** The optional arguments with their documented defaults, in order.  Docstrings:
    ok.py 42-175, uk.py 40-206, ok3d.py 41-186, uk3d.py 40-201. *)
Definition default_variogram : kwargs :=
  [("variogram_model", V_model (VName "linear")); ("variogram_parameters", V_params PNone); ("variogram_function", V_fun FNone);
   ("nlags", V_nat 6); ("weight", V_bool false)].
Definition default_anisotropy_2d : kwargs := [("anisotropy_scaling", V_real 1); ("anisotropy_angle", V_real 0)].
Definition default_anisotropy_3d : kwargs :=
  [("anisotropy_scaling_y", V_real 1); ("anisotropy_scaling_z", V_real 1);
   ("anisotropy_angle_x", V_real 0); ("anisotropy_angle_y", V_real 0); ("anisotropy_angle_z", V_real 0)].
Definition default_output : kwargs := [("verbose", V_bool false); ("enable_plotting", V_bool false)].
Definition default_solver : kwargs := [("exact_values", V_exact (Some true)); ("pseudo_inv", V_bool false); ("pseudo_inv_type", V_str "pinv")].
Definition defaults (c : kclass) : kwargs :=
  (match c with
  | OK2 => default_variogram ++ default_anisotropy_2d ++ default_output ++
           [("enable_statistics", V_bool false); ("coordinates_type", V_str "euclidean")] ++ default_solver
  | UK2 => default_variogram ++ default_anisotropy_2d ++
           [("drift_terms", V_terms []); ("point_drift", V_wells None); ("external_drift", V_grid None); ("external_drift_x", V_axis None);
            ("external_drift_y", V_axis None); ("specified_drift", V_spec None); ("functional_drift", V_funs None)] ++ default_output ++ default_solver
  | OK3 => default_variogram ++ default_anisotropy_3d ++ default_output ++ default_solver
  | UK3 => default_variogram ++ default_anisotropy_3d ++
           [("drift_terms", V_terms []); ("specified_drift", V_spec None); ("functional_drift", V_funs None)] ++ default_output ++ default_solver
  end)%list.
Definition parameters (c : kclass) : list string := (data_names c ++ map fst (defaults c))%list.

(** The constructor arguments of Class(x, y, values), Class(x, y, z, values). *)
Definition only_data (coords : list (list R)) (values : list R) : cargs :=
  {| c_coords := coords; c_values := values;
     c_v := {| a_model := VName "linear"; a_params := PNone; a_fun := FNone; a_nlags := 6; a_weight := false;
               a_scaling := rnth (repeat 1 (List.length coords - 1)); a_angle := rnth (repeat 0 (if Nat.eqb (List.length coords) 2 then 1 else 3)) |};
     c_verbose := false; c_plotting := false; c_stat := false; c_ct := "euclidean";
     c_exact := Some true; c_pinv := false; c_pinv_type := "pinv" |}.
Definition no_drift : dargs :=
  {| d_terms := []; d_point := None; d_ext := None; d_ext_x := None; d_ext_y := None; d_spec := None; d_fun := None |}.

(** update_variogram_model: the model first; the rest optional.  ok.py 389-424,
    uk.py 640-672, ok3d.py 381-426, uk3d.py 465-511. *)
Definition update_defaults (dim : nat) : kwargs :=
  ([("variogram_parameters", V_params PNone); ("variogram_function", V_fun FNone); ("nlags", V_nat 6); ("weight", V_bool false)] ++
   (if Nat.eqb dim 2 then default_anisotropy_2d else default_anisotropy_3d))%list.
Definition update_parameters (dim : nat) : list string := "variogram_model" :: map fst (update_defaults dim).

(** The arguments of update_variogram_model(model). *)
Definition only_model (dim : nat) (m : vm_arg) : vargs :=
  {| a_model := m; a_params := PNone; a_fun := FNone; a_nlags := 6; a_weight := false;
     a_scaling := rnth (repeat 1 (dim - 1)); a_angle := rnth (repeat 0 (if Nat.eqb dim 2 then 1 else 3)) |}.
(** Distance without anisotropy. *)
Definition plain_distance (dim : nat) (p q : vec3) : R :=
  if Nat.eqb dim 3 then dist3 p q else sqrt ((lon p - lon q) * (lon p - lon q) + (lat p - lat q) * (lat p - lat q)).
(** The arguments of execute(style, xpoints, ypoints), execute(style, xpoints, ypoints, zpoints). *)
Definition only_points (style : string) (x : list (bool * list R)) : query :=
  {| q_style := style; q_pts := map snd x; q_int := map fst x; q_mask := None; q_backend := "vectorized"; q_window := None |}.

(** execute: ok.py 769-829, ok3d.py 745-825, uk.py 1099-1161, uk3d.py 887-973. *)
Definition query_names (dim : nat) : list string :=
  (["style"; "xpoints"; "ypoints"] ++ if Nat.eqb dim 3 then ["zpoints"] else [])%list.
Definition execute_defaults (m : kmodel) : kwargs :=
  ([("mask", V_mask None); ("backend", V_str "vectorized")] ++
   match m with KOrd _ => [("n_closest_points", V_window None)] | KUni _ => [("specified_drift_arrays", V_specs [])] end)%list.

(** Krige: compat.py 99-140 (the values in the signature, 142-163). *)
Definition krige_defaults : kwargs :=
  [("method", V_str "ordinary"); ("variogram_model", V_model (VName "linear")); ("nlags", V_nat 6); ("weight", V_bool false);
   ("n_closest_points", V_window (Some 10%nat)); ("verbose", V_bool false); ("exact_values", V_exact (Some true));
   ("pseudo_inv", V_bool false); ("pseudo_inv_type", V_str "pinv"); ("variogram_parameters", V_params PNone);
   ("variogram_function", V_fun FNone); ("anisotropy_scaling", V_reals [1; 1]); ("anisotropy_angle", V_reals [0; 0; 0]);
   ("enable_statistics", V_bool false); ("coordinates_type", V_str "euclidean"); ("drift_terms", V_terms []);
   ("point_drift", V_wells None); ("ext_drift_grid", V_ext None None None); ("functional_drift", V_funs None)].

(** The type an argument of each name has. *)
Definition same_kind (v w : pyval) : Prop :=
  match v, w with
  | V_array _ _, V_array _ _ | V_model _, V_model _ | V_params _, V_params _ | V_fun _, V_fun _ | V_nat _, V_nat _ | V_bool _, V_bool _
  | V_real _, V_real _ | V_str _, V_str _ | V_exact _, V_exact _ | V_terms _, V_terms _ | V_wells _, V_wells _ | V_grid _, V_grid _
  | V_axis _, V_axis _ | V_spec _, V_spec _ | V_funs _, V_funs _ | V_mask _, V_mask _ | V_window _, V_window _ | V_specs _, V_specs _
  | V_reals _, V_reals _ | V_ext _ _ _, V_ext _ _ _ | V_learner _, V_learner _ => True
  | _, _ => False
  end.
Definition right_kind (name : string) (v : pyval) : Prop := exists w, In (name, w) krige_defaults /\ same_kind v w.

(** [d] with the entries of [kw]: later ones win. *)
Definition overridden (d : string -> option pyval) (kw : kwargs) (name : string) : option pyval :=
  match dict_get (rev kw) name with Some v => Some v | None => d name end.

(** All arguments at once.  The optional constructor arguments every class has. *)
Record common := { m_model : vm_arg; m_params : user_params; m_fun : fun_arg; m_nlags : nat; m_weight : bool;
  m_verbose : bool; m_plotting : bool; m_exact : option bool; m_pinv : bool; m_pinv_type : string }.
Definition head_values (m : common) : list pyval :=
  [V_model (m_model m); V_params (m_params m); V_fun (m_fun m); V_nat (m_nlags m); V_bool (m_weight m)].
Definition talk_values (m : common) : list pyval := [V_bool (m_verbose m); V_bool (m_plotting m)].
Definition solver_values (m : common) : list pyval := [V_exact (m_exact m); V_bool (m_pinv m); V_str (m_pinv_type m)].
Definition model_args (m : common) (scaling angle : list R) : vargs :=
  {| a_model := m_model m; a_params := m_params m; a_fun := m_fun m; a_nlags := m_nlags m; a_weight := m_weight m;
     a_scaling := rnth scaling; a_angle := rnth angle |}.
Definition all_args (coords : list (list R)) (values : list R) (m : common) (scaling angle : list R) (stat : bool) (ct : string) : cargs :=
  {| c_coords := coords; c_values := values; c_v := model_args m scaling angle; c_verbose := m_verbose m; c_plotting := m_plotting m;
     c_stat := stat; c_ct := ct; c_exact := m_exact m; c_pinv := m_pinv m; c_pinv_type := m_pinv_type m |}.
Close Scope string_scope.
