(** MODEL: calls as the user writes them, with positional and keyword arguments, of
    the constructors, update_variogram_model, execute and Krige; scikit-learn's
    parameter interface (BaseEstimator.set_params, clone) applied to Krige. *)
From Coq Require Import String.
From Verif Require Import Base Sums Matrix M_Variogram M_Geometry M_Kriging M_Init M_Object M_Execute M_UK M_Compat.
Open Scope string_scope.

(** Python's binding of f( *pos, **kw ) to a signature: too many positional arguments,
    or one given twice, is a TypeError; otherwise they are keyword arguments under
    their names. *)
Definition positional (sig : signature) (pos : list pyval) (kw : kwargs) : res kwargs :=
  if Nat.ltb (List.length sig) (List.length pos) then Err TypeError
  else
    let given := combine (map fst sig) pos in
    if existsb (fun '(k, _) => in_names k (map fst given)) kw then Err TypeError
    else Ok (given ++ kw)%list.

(** Class( *pos, **kw ): ok.py 187-206, uk.py 220-244, ok3d.py 198-219, uk3d.py 215-239 *)
Definition construct_call (E : env) (c : kclass) (pos : list pyval) (kw : kwargs) : res kmodel :=
  do kw' <- positional (init_sig c) pos kw ;; construct_kw E c kw'.

(** object.execute( *pos, **kw ): ok.py 760-768, ok3d.py 735-744, uk.py 1090-1098, uk3d.py 877-886 *)
Definition model_exec_sig (m : kmodel) : signature :=
  match m with KOrd o => exec_sig true (o_dim o) | KUni u => exec_sig false (o_dim (u_obj u)) end.
Definition execute_call (E : env) (m : kmodel) (pos : list pyval) (kw : kwargs) : res result :=
  do kw' <- positional (model_exec_sig m) pos kw ;; execute_kw E m kw'.

(** ok.py 379-388, uk.py 630-639, ok3d.py 368-380, uk3d.py 452-464 *)
Definition update_sig (dim : nat) : signature :=
  ([("variogram_model", None); ("variogram_parameters", Some (V_params PNone)); ("variogram_function", Some (V_fun FNone));
    ("nlags", Some (V_nat 6)); ("weight", Some (V_bool false))] ++ aniso_sig dim)%list.
Definition vargs_of (dim : nat) (d : kwargs) : res vargs :=
  let two := Nat.eqb dim 2 in
  do model <- get_model d "variogram_model" ;;
  do params <- get_params d "variogram_parameters" ;;
  do fn <- get_fun d "variogram_function" ;;
  do nlags <- get_nat d "nlags" ;;
  do weight <- get_bool d "weight" ;;
  do scaling <- mapM (get_real d) (if two then ["anisotropy_scaling"] else ["anisotropy_scaling_y"; "anisotropy_scaling_z"]) ;;
  do angle <- mapM (get_real d) (if two then ["anisotropy_angle"] else ["anisotropy_angle_x"; "anisotropy_angle_y"; "anisotropy_angle_z"]) ;;
  Ok {| a_model := model; a_params := params; a_fun := fn; a_nlags := nlags; a_weight := weight;
        a_scaling := rnth scaling; a_angle := rnth angle |}.
Definition model_dim (m : kmodel) : nat := match m with KOrd o => o_dim o | KUni u => o_dim (u_obj u) end.
(** object.update_variogram_model( *pos, **kw ); nothing is assigned when the binding fails *)
Definition update_call (E : env) (m : kmodel) (pos : list pyval) (kw : kwargs) : kmodel * option exn :=
  match (do kw' <- positional (update_sig (model_dim m)) pos kw ;;
         do d <- bind_args (update_sig (model_dim m)) kw' ;; vargs_of (model_dim m) d) with
  | Err e => (m, Some e)
  | Ok v => match m with
            | KOrd o => let '(o', e) := update_variogram_model E o v in (KOrd o', e)
            | KUni u => let '(u', e) := update_uk E u v in (KUni u', e)
            end
  end.

(** ---- Krige ---- *)
(** compat.py 142-163 *)
Definition krige_sig : signature :=
  [("method", Some (V_str "ordinary")); ("variogram_model", Some (V_model (VName "linear"))); ("nlags", Some (V_nat 6));
   ("weight", Some (V_bool false)); ("n_closest_points", Some (V_window (Some 10%nat))); ("verbose", Some (V_bool false));
   ("exact_values", Some (V_exact (Some true))); ("pseudo_inv", Some (V_bool false)); ("pseudo_inv_type", Some (V_str "pinv"));
   ("variogram_parameters", Some (V_params PNone)); ("variogram_function", Some (V_fun FNone));
   ("anisotropy_scaling", Some (V_reals [1; 1])); ("anisotropy_angle", Some (V_reals [0; 0; 0]));
   ("enable_statistics", Some (V_bool false)); ("coordinates_type", Some (V_str "euclidean"));
   ("drift_terms", Some (V_terms [])); ("point_drift", Some (V_wells None)); ("ext_drift_grid", Some (V_ext None None None));
   ("functional_drift", Some (V_funs None))].
Definition get_reals d k := do v <- get d k ;; match v with V_reals l => Ok l | _ => Err TypeError end.
Definition get_ext d k := do v <- get d k ;; match v with V_ext g x y => Ok (g, x, y) | _ => Err TypeError end.
(** the attributes assigned by __init__, compat.py 166-186 (each to the argument of its name) *)
Definition krige_of (d : kwargs) : res krige :=
  do model <- get_model d "variogram_model" ;;
  do params <- get_params d "variogram_parameters" ;;
  do fn <- get_fun d "variogram_function" ;;
  do nlags <- get_nat d "nlags" ;;
  do weight <- get_bool d "weight" ;;
  do verbose <- get_bool d "verbose" ;;
  do exact <- get_exact d "exact_values" ;;
  do pinv <- get_bool d "pseudo_inv" ;;
  do pinv_type <- get_str d "pseudo_inv_type" ;;
  do scaling <- get_reals d "anisotropy_scaling" ;;
  do angle <- get_reals d "anisotropy_angle" ;;
  do stat <- get_bool d "enable_statistics" ;;
  do ct <- get_str d "coordinates_type" ;;
  do terms <- get_terms d "drift_terms" ;;
  do point <- get_wells d "point_drift" ;;
  do ext <- get_ext d "ext_drift_grid" ;;
  do funs <- get_funs d "functional_drift" ;;
  do window <- get_window d "n_closest_points" ;;
  do method <- get_str d "method" ;;
  Ok {| k_method := method; k_model := model; k_params := params; k_fun := fn; k_nlags := nlags; k_weight := weight;
        k_verbose := verbose; k_exact := exact; k_pinv := pinv; k_pinv_type := pinv_type; k_scaling := scaling; k_angle := angle;
        k_stat := stat; k_ct := ct; k_terms := terms; k_point := point;
        k_ext := fst (fst ext); k_ext_x := snd (fst ext); k_ext_y := snd ext; k_funs := funs; k_window := window; k_fitted := None |}.
(** Krige( *pos, **kw ), compat.py 142-186 *)
Definition krige_call (pos : list pyval) (kw : kwargs) : res krige :=
  do kw' <- positional krige_sig pos kw ;;
  do d <- bind_args krige_sig kw' ;;
  do k <- krige_of d ;;
  krige_init k.

(** BaseEstimator.get_params: the attributes named by the signature of __init__ *)
Definition get_params_of (k : krige) : kwargs :=
  [("method", V_str (k_method k)); ("variogram_model", V_model (k_model k)); ("nlags", V_nat (k_nlags k));
   ("weight", V_bool (k_weight k)); ("n_closest_points", V_window (k_window k)); ("verbose", V_bool (k_verbose k));
   ("exact_values", V_exact (k_exact k)); ("pseudo_inv", V_bool (k_pinv k)); ("pseudo_inv_type", V_str (k_pinv_type k));
   ("variogram_parameters", V_params (k_params k)); ("variogram_function", V_fun (k_fun k));
   ("anisotropy_scaling", V_reals (k_scaling k)); ("anisotropy_angle", V_reals (k_angle k));
   ("enable_statistics", V_bool (k_stat k)); ("coordinates_type", V_str (k_ct k));
   ("drift_terms", V_terms (k_terms k)); ("point_drift", V_wells (k_point k)); ("ext_drift_grid", V_ext (k_ext k) (k_ext_x k) (k_ext_y k));
   ("functional_drift", V_funs (k_funs k))].
(** setattr(self, name, v) for a parameter name.  A value of the wrong kind is a
    TypeError here (Python stores it, and fails later). *)
Definition setattr (k : krige) (name : string) (v : pyval) : res krige :=
  do k' <- krige_of (dict_set (get_params_of k) name v) ;; Ok (set_fitted k' (k_fitted k)).
(** BaseEstimator.set_params: one after the other; the first unknown name raises
    ValueError, and what was assigned before stays.  (Names with a double underscore
    address parameters of nested estimators; Krige has none.) *)
Fixpoint set_params (k : krige) (kw : kwargs) : krige * option exn :=
  match kw with
  | [] => (k, None)
  | (name, v) :: kw' =>
      if in_names name (map fst krige_sig) then
        match setattr k name v with Ok k' => set_params k' kw' | Err e => (k, Some e) end
      else (k, Some ValueError)
  end.
(** sklearn.base.clone: a new instance with the same parameters *)
Definition clone (k : krige) : res krige := krige_call [] (get_params_of k).
Close Scope string_scope.
