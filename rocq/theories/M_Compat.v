(** MODEL: the scikit-learn wrapper Krige, /repo/src/pykrige/compat.py 32-291, with
    Python's keyword calls: dictionaries of named values bound to the signatures of
    the four kriging classes.  scikit-learn is taken to be installed.  Printing is
    not modelled. *)
From Coq Require Import String.
From Verif Require Import Base Sums Matrix M_Variogram M_Geometry M_Kriging M_Init M_Object M_Execute M_UK.

(** Values passed by keyword.  A value of the wrong kind is a TypeError in the model
    (Python would fail somewhere inside the class). *)
Inductive pyval :=
| V_array (ints : bool) (l : list R)                 (* 1-D array; integer dtype? *)
| V_model (m : vm_arg) | V_params (p : user_params) | V_fun (f : fun_arg)
| V_nat (n : nat) | V_bool (b : bool) | V_real (r : R) | V_str (s : string)
| V_exact (b : option bool)                          (* None: not a bool *)
| V_terms (l : list string)                          (* [] also stands for None *)
| V_wells (w : option (bool * list (R * R * R)))
| V_grid (g : option (nat * nat * mat)) | V_axis (a : option (list R))
| V_spec (s : option (list (list R))) | V_funs (f : option (list (R -> R -> R -> R)))
| V_mask (m : option mask_arg) | V_window (w : option nat)
| V_specs (s : list spec_arr)                        (* [] also stands for None *)
| V_reals (l : list R)                               (* a tuple of numbers *)
| V_ext (g : option (nat * nat * mat)) (x y : option (list R))    (* ext_drift_grid: a triple *)
| V_learner (l : nat).                               (* a scikit-learn estimator: an object, by identity (M_Learner) *)
Definition kwargs := list (string * pyval).

(** d[k] = v; d.update(d') *)
Fixpoint dict_set (d : kwargs) (k : string) (v : pyval) : kwargs :=
  match d with
  | [] => [(k, v)]
  | (k', v') :: d' => if String.eqb k k' then (k, v) :: d' else (k', v') :: dict_set d' k v
  end.
Definition dict_update (d d' : kwargs) : kwargs := fold_left (fun d '(k, v) => dict_set d k v) d' d.

(** f( **kw ) for a signature with defaults (None: required argument): unknown or
    missing arguments are TypeErrors *)
Definition signature := list (string * option pyval).
Definition bind_args (sig : signature) (kw : kwargs) : res kwargs :=
  if forallb (fun '(k, _) => in_names k (map fst sig)) kw then
    mapM (fun '(k, default) => match dict_get kw k, default with
                               | Some v, _ => Ok (k, v)
                               | None, Some v => Ok (k, v)
                               | None, None => Err TypeError
                               end) sig
  else Err TypeError.

(** ---- constructor signatures ---- *)
Open Scope string_scope.
Definition variogram_sig : signature :=
  [("variogram_model", Some (V_model (VName "linear"))); ("variogram_parameters", Some (V_params PNone));
   ("variogram_function", Some (V_fun FNone)); ("nlags", Some (V_nat 6)); ("weight", Some (V_bool false))].
Definition tail_sig : signature :=
  [("exact_values", Some (V_exact (Some true))); ("pseudo_inv", Some (V_bool false)); ("pseudo_inv_type", Some (V_str "pinv"))].
Definition talk_sig : signature := [("verbose", Some (V_bool false)); ("enable_plotting", Some (V_bool false))].
Definition aniso_sig (dim : nat) : signature :=
  if Nat.eqb dim 2 then [("anisotropy_scaling", Some (V_real 1)); ("anisotropy_angle", Some (V_real 0))]
  else [("anisotropy_scaling_y", Some (V_real 1)); ("anisotropy_scaling_z", Some (V_real 1));
        ("anisotropy_angle_x", Some (V_real 0)); ("anisotropy_angle_y", Some (V_real 0)); ("anisotropy_angle_z", Some (V_real 0))].

(** ok.py 187-206, uk.py 220-244, ok3d.py 198-219, uk3d.py 215-239 *)
Definition init_sig (c : kclass) : signature :=
  (match c with
  | OK2 => [("x", None); ("y", None); ("z", None)] ++ variogram_sig ++ aniso_sig 2 ++ talk_sig ++
           [("enable_statistics", Some (V_bool false)); ("coordinates_type", Some (V_str "euclidean"))] ++ tail_sig
  | UK2 => [("x", None); ("y", None); ("z", None)] ++ variogram_sig ++ aniso_sig 2 ++
           [("drift_terms", Some (V_terms [])); ("point_drift", Some (V_wells None)); ("external_drift", Some (V_grid None));
            ("external_drift_x", Some (V_axis None)); ("external_drift_y", Some (V_axis None));
            ("specified_drift", Some (V_spec None)); ("functional_drift", Some (V_funs None))] ++ talk_sig ++ tail_sig
  | OK3 => [("x", None); ("y", None); ("z", None); ("val", None)] ++ variogram_sig ++ aniso_sig 3 ++ talk_sig ++ tail_sig
  | UK3 => [("x", None); ("y", None); ("z", None); ("val", None)] ++ variogram_sig ++ aniso_sig 3 ++
           [("drift_terms", Some (V_terms [])); ("specified_drift", Some (V_spec None)); ("functional_drift", Some (V_funs None))]
           ++ talk_sig ++ tail_sig
  end)%list.

(** Reading bound arguments *)
Definition get (d : kwargs) (k : string) : res pyval := match dict_get d k with Some v => Ok v | None => Err TypeError end.
Definition get_array d k := do v <- get d k ;; match v with V_array i l => Ok (i, l) | _ => Err TypeError end.
Definition get_model d k := do v <- get d k ;; match v with V_model m => Ok m | _ => Err TypeError end.
Definition get_params d k := do v <- get d k ;; match v with V_params p => Ok p | _ => Err TypeError end.
Definition get_fun d k := do v <- get d k ;; match v with V_fun f => Ok f | _ => Err TypeError end.
Definition get_nat d k := do v <- get d k ;; match v with V_nat n => Ok n | _ => Err TypeError end.
Definition get_bool d k := do v <- get d k ;; match v with V_bool b => Ok b | _ => Err TypeError end.
Definition get_real d k := do v <- get d k ;; match v with V_real r => Ok r | _ => Err TypeError end.
Definition get_str d k := do v <- get d k ;; match v with V_str s => Ok s | _ => Err TypeError end.
Definition get_exact d k := do v <- get d k ;; match v with V_exact b => Ok b | _ => Err TypeError end.
Definition get_terms d k := do v <- get d k ;; match v with V_terms l => Ok l | _ => Err TypeError end.
Definition get_wells d k := do v <- get d k ;; match v with V_wells w => Ok w | _ => Err TypeError end.
Definition get_grid d k := do v <- get d k ;; match v with V_grid g => Ok g | _ => Err TypeError end.
Definition get_axis d k := do v <- get d k ;; match v with V_axis a => Ok a | _ => Err TypeError end.
Definition get_spec d k := do v <- get d k ;; match v with V_spec s => Ok s | _ => Err TypeError end.
Definition get_funs d k := do v <- get d k ;; match v with V_funs f => Ok f | _ => Err TypeError end.
Definition get_mask d k := do v <- get d k ;; match v with V_mask m => Ok m | _ => Err TypeError end.
Definition get_window d k := do v <- get d k ;; match v with V_window w => Ok w | _ => Err TypeError end.
Definition get_specs d k := do v <- get d k ;; match v with V_specs s => Ok s | _ => Err TypeError end.

(** the record arguments of M_Object.construct from bound keywords; per axis the
    anisotropy arguments are (scaling) / (scaling_y, scaling_z) and (angle) /
    (angle_x, angle_y, angle_z) *)
Definition cargs_of (c : kclass) (d : kwargs) : res cargs :=
  let two := Nat.eqb (cdim c) 2 in
  do x <- get_array d "x" ;;
  do y <- get_array d "y" ;;
  do z <- get_array d "z" ;;
  do val <- (if two then Ok z else get_array d "val") ;;
  do model <- get_model d "variogram_model" ;;
  do params <- get_params d "variogram_parameters" ;;
  do fn <- get_fun d "variogram_function" ;;
  do nlags <- get_nat d "nlags" ;;
  do weight <- get_bool d "weight" ;;
  do scaling <- mapM (get_real d) (if two then ["anisotropy_scaling"] else ["anisotropy_scaling_y"; "anisotropy_scaling_z"]) ;;
  do angle <- mapM (get_real d) (if two then ["anisotropy_angle"] else ["anisotropy_angle_x"; "anisotropy_angle_y"; "anisotropy_angle_z"]) ;;
  do verbose <- get_bool d "verbose" ;;
  do plotting <- get_bool d "enable_plotting" ;;
  do stat <- (match c with OK2 => get_bool d "enable_statistics" | _ => Ok false end) ;;
  do ct <- (match c with OK2 => get_str d "coordinates_type" | _ => Ok "euclidean" end) ;;
  do exact <- get_exact d "exact_values" ;;
  do pinv <- get_bool d "pseudo_inv" ;;
  do pinv_type <- get_str d "pseudo_inv_type" ;;
  Ok {| c_coords := (if two then [snd x; snd y] else [snd x; snd y; snd z]); c_values := snd val;
        c_v := {| a_model := model; a_params := params; a_fun := fn; a_nlags := nlags; a_weight := weight;
                  a_scaling := rnth scaling; a_angle := rnth angle |};
        c_verbose := verbose; c_plotting := plotting; c_stat := stat; c_ct := ct; c_exact := exact;
        c_pinv := pinv; c_pinv_type := pinv_type |}.
Definition dargs_of (c : kclass) (d : kwargs) : res dargs :=
  let two := Nat.eqb (cdim c) 2 in
  do terms <- get_terms d "drift_terms" ;;
  do wells <- (if two then get_wells d "point_drift" else Ok None) ;;
  do grid <- (if two then get_grid d "external_drift" else Ok None) ;;
  do gx <- (if two then get_axis d "external_drift_x" else Ok None) ;;
  do gy <- (if two then get_axis d "external_drift_y" else Ok None) ;;
  do spec <- get_spec d "specified_drift" ;;
  do funs <- get_funs d "functional_drift" ;;
  Ok {| d_terms := terms; d_point := wells; d_ext := grid; d_ext_x := gx; d_ext_y := gy; d_spec := spec; d_fun := funs |}.

Inductive kmodel := KOrd (o : obj) | KUni (u : uobj).
Definition is_ordinary (c : kclass) : bool := match c with OK2 | OK3 => true | _ => false end.

(** Class( **kw ) *)
Definition construct_kw (E : env) (c : kclass) (kw : kwargs) : res kmodel :=
  do d <- bind_args (init_sig c) kw ;;
  do A <- cargs_of c d ;;
  if is_ordinary c then do o <- construct E c A ;; Ok (KOrd o)
  else do D <- dargs_of c d ;; do u <- construct_uk E c A D ;; Ok (KUni u).

(** model.execute( **kw ): ok.py 760-768, ok3d.py 735-744, uk.py 1090-1098, uk3d.py 877-886 *)
Definition exec_sig (ordinary : bool) (dim : nat) : signature :=
  ([("style", None); ("xpoints", None); ("ypoints", None)] ++
  (if Nat.eqb dim 3 then [("zpoints", None)] else []) ++
  [("mask", Some (V_mask None)); ("backend", Some (V_str "vectorized"))] ++
  (if ordinary then [("n_closest_points", Some (V_window None))] else [("specified_drift_arrays", Some (V_specs []))]))%list.
Definition query_of (ordinary : bool) (dim : nat) (d : kwargs) : res query :=
  do style <- get_str d "style" ;;
  do x <- get_array d "xpoints" ;;
  do y <- get_array d "ypoints" ;;
  do z <- (if Nat.eqb dim 3 then get_array d "zpoints" else Ok (false, [])) ;;
  do mask <- get_mask d "mask" ;;
  do backend <- get_str d "backend" ;;
  do window <- (if ordinary then get_window d "n_closest_points" else Ok None) ;;
  Ok {| q_style := style; q_pts := (if Nat.eqb dim 3 then [snd x; snd y; snd z] else [snd x; snd y]);
        q_int := (if Nat.eqb dim 3 then [fst x; fst y; fst z] else [fst x; fst y]);
        q_mask := mask; q_backend := backend; q_window := window |}.
Definition execute_kw (E : env) (m : kmodel) (kw : kwargs) : res result :=
  match m with
  | KOrd o => do d <- bind_args (exec_sig true (o_dim o)) kw ;;
              do q <- query_of true (o_dim o) d ;; execute E o q
  | KUni u => do d <- bind_args (exec_sig false (o_dim (u_obj u))) kw ;;
              do q <- query_of false (o_dim (u_obj u)) d ;;
              do s <- get_specs d "specified_drift_arrays" ;;
              do (r, _) <- execute_uk E u q s ;; Ok r
  end.

(** ---- class Krige ---- *)
(** compat.py 32-37 *)
Definition krige_methods : list (string * kclass) :=
  [("ordinary", OK2); ("universal", UK2); ("ordinary3d", OK3); ("universal3d", UK3)].
(** compat.py 39 *)
Definition threed_krige : list string := ["ordinary3d"; "universal3d"].
(** compat.py 41-74 *)
Definition krige_methods_kws : list (string * list string) :=
  [("ordinary", ["anisotropy_scaling"; "anisotropy_angle"; "enable_statistics"; "coordinates_type"]);
   ("universal", ["anisotropy_scaling"; "anisotropy_angle"; "drift_terms"; "point_drift"; "external_drift";
                  "external_drift_x"; "external_drift_y"; "functional_drift"]);
   ("ordinary3d", ["anisotropy_scaling_y"; "anisotropy_scaling_z"; "anisotropy_angle_x"; "anisotropy_angle_y"; "anisotropy_angle_z"]);
   ("universal3d", ["anisotropy_scaling_y"; "anisotropy_scaling_z"; "anisotropy_angle_x"; "anisotropy_angle_y"; "anisotropy_angle_z";
                    "drift_terms"; "functional_drift"])].

(** the attributes, compat.py 165-186; the anisotropy tuples are lists *)
Record krige := {
  k_method : string;
  k_model : vm_arg; k_params : user_params; k_fun : fun_arg;
  k_nlags : nat; k_weight : bool; k_verbose : bool; k_exact : option bool;
  k_pinv : bool; k_pinv_type : string;
  k_scaling : list R; k_angle : list R;
  k_stat : bool; k_ct : string;
  k_terms : list string; k_point : option (bool * list (R * R * R));
  k_ext : option (nat * nat * mat); k_ext_x : option (list R); k_ext_y : option (list R);   (* ext_drift_grid *)
  k_funs : option (list (R -> R -> R -> R));
  k_window : option nat;                 (* n_closest_points *)
  k_fitted : option kmodel }.            (* self.model *)

(** compat.py 81-86, 165: __init__ validates the method only; [k] holds the arguments *)
Definition krige_init (k : krige) : res krige :=
  match dict_get krige_methods (k_method k) with
  | Some _ => Ok {| k_method := k_method k; k_model := k_model k; k_params := k_params k; k_fun := k_fun k;
       k_nlags := k_nlags k; k_weight := k_weight k; k_verbose := k_verbose k; k_exact := k_exact k;
       k_pinv := k_pinv k; k_pinv_type := k_pinv_type k; k_scaling := k_scaling k; k_angle := k_angle k;
       k_stat := k_stat k; k_ct := k_ct k; k_terms := k_terms k; k_point := k_point k;
       k_ext := k_ext k; k_ext_x := k_ext_x k; k_ext_y := k_ext_y k; k_funs := k_funs k;
       k_window := k_window k; k_fitted := None |}
  | None => Err ValueError
  end.
Definition set_fitted (k : krige) (m : option kmodel) : krige :=
  {| k_method := k_method k; k_model := k_model k; k_params := k_params k; k_fun := k_fun k;
     k_nlags := k_nlags k; k_weight := k_weight k; k_verbose := k_verbose k; k_exact := k_exact k;
     k_pinv := k_pinv k; k_pinv_type := k_pinv_type k; k_scaling := k_scaling k; k_angle := k_angle k;
     k_stat := k_stat k; k_ct := k_ct k; k_terms := k_terms k; k_point := k_point k;
     k_ext := k_ext k; k_ext_x := k_ext_x k; k_ext_y := k_ext_y k; k_funs := k_funs k;
     k_window := k_window k; k_fitted := m |}.

(** A 2-D array (N, d) given by its columns, and whether its dtype is integer *)
Record points := { p_int : bool; p_cols : list (list R) }.
Definition column (x : points) (k : nat) : pyval := V_array (p_int x) (nth k (p_cols x) []).

(** compat.py 235-249; [Ok None]: an unknown method falls through and returns None *)
Definition dimensionality_check (k : krige) (x : points) (ext : string) : res (option kwargs) :=
  if in_names (k_method k) ["ordinary"; "universal"] then
    if negb (Nat.eqb (List.length (p_cols x)) 2) then Err ValueError
    else Ok (Some [("x" ++ ext, column x 0); ("y" ++ ext, column x 1)])%string
  else if in_names (k_method k) ["ordinary3d"; "universal3d"] then
    if negb (Nat.eqb (List.length (p_cols x)) 3) then Err ValueError
    else Ok (Some [("x" ++ ext, column x 0); ("y" ++ ext, column x 1); ("z" ++ ext, column x 2)])%string
  else Ok None.

(** t[i] *)
Definition index (t : list R) (i : nat) : res R := match nth_error t i with Some v => Ok v | None => Err IndexError end.

(** compat.py 199-233 *)
Definition fit_kwargs (k : krige) (x : points) (y : list R) : res kwargs :=
  let val_kw := if in_names (k_method k) threed_krige then "val" else "z" in
  let setup := [("variogram_model", V_model (k_model k)); ("variogram_parameters", V_params (k_params k));
                ("variogram_function", V_fun (k_fun k)); ("nlags", V_nat (k_nlags k)); ("weight", V_bool (k_weight k));
                ("verbose", V_bool (k_verbose k)); ("exact_values", V_exact (k_exact k));
                ("pseudo_inv", V_bool (k_pinv k)); ("pseudo_inv_type", V_str (k_pinv_type k))] in
  do s0 <- index (k_scaling k) 0 ;;
  do a0 <- index (k_angle k) 0 ;;
  do s1 <- index (k_scaling k) 1 ;;
  do a1 <- index (k_angle k) 1 ;;
  do a2 <- index (k_angle k) 2 ;;
  let add_setup := [("anisotropy_scaling", V_real s0); ("anisotropy_angle", V_real a0);
                    ("enable_statistics", V_bool (k_stat k)); ("coordinates_type", V_str (k_ct k));
                    ("anisotropy_scaling_y", V_real s0); ("anisotropy_scaling_z", V_real s1);
                    ("anisotropy_angle_x", V_real a0); ("anisotropy_angle_y", V_real a1); ("anisotropy_angle_z", V_real a2);
                    ("drift_terms", V_terms (k_terms k)); ("point_drift", V_wells (k_point k));
                    ("external_drift", V_grid (k_ext k)); ("external_drift_x", V_axis (k_ext_x k));
                    ("external_drift_y", V_axis (k_ext_y k)); ("functional_drift", V_funs (k_funs k))] in
  match dict_get krige_methods_kws (k_method k) with
  | None => Err KeyError
  | Some kws =>
      do setup <- foldM (fun s kw => match dict_get add_setup kw with Some v => Ok (dict_set s kw v) | None => Err KeyError end) kws setup ;;
      do input_kw <- dimensionality_check k x "" ;;
      match input_kw with
      | None => Err AttributeErr
      | Some input_kw => Ok (dict_set (dict_update input_kw setup) val_kw (V_array false y))
      end
  end.
Definition krige_fit (E : env) (k : krige) (x : points) (y : list R) : krige * option exn :=
  match (do kw <- fit_kwargs k x y ;;
         match dict_get krige_methods (k_method k) with
         | None => Err KeyError
         | Some c => construct_kw E c kw
         end) with
  | Ok m => (set_fitted k (Some m), None)
  | Err e => (k, Some e)
  end.

(** compat.py 269-291; [extra]: the **kwargs *)
Definition krige_execute (E : env) (k : krige) (pts extra : kwargs) : res result :=
  let default_kw := dict_update [("style", V_str "points"); ("backend", V_str "loop")] extra in
  let pts := dict_update pts default_kw in
  match k_fitted k with
  | None => Err AttributeErr
  | Some m =>
      let pts := match m with KOrd _ => dict_set pts "n_closest_points" (V_window (k_window k)) | KUni _ => pts end in
      execute_kw E m pts
  end.

(** compat.py 251-267: the first of the two arrays *)
Definition krige_predict (E : env) (k : krige) (x : points) (extra : kwargs) : res (list nat * (nat -> option R)) :=
  match k_fitted k with
  | None => Err PlainException
  | Some _ =>
      do pts <- dimensionality_check k x "points" ;;
      match pts with
      | None => Err AttributeErr
      | Some pts => do r <- krige_execute E k pts extra ;; Ok (r_shape r, r_value r)
      end
  end.
Close Scope string_scope.
