(** PROPERTIES C69, C70: names, order and defaults of arguments; parameters of the
    scikit-learn wrapper.  Vocabulary: S_Call. *)
From Coq Require Import String Permutation.
From Verif Require Import Base Sums Matrix M_Variogram M_Geometry S_Geometry M_Kriging S_Kriging M_Init M_Object M_Execute S_Execute M_UK S_UK M_Compat S_Compat
  M_Call S_Call P_Call P_Call2 P_Call3 P_Call4.

(** C69.  Positional and keyword arguments of the four constructors mean what the
    docstrings say, whatever else is passed. *)
Theorem C69_constructors : forall E c, convention (construct_call E c) (Err TypeError) (data_names c) (defaults c).
Proof. exact constructor_convention. Qed.
Print Assumptions C69_constructors.

Theorem C69_update : forall E m, convention (update_call E m) (m, Some TypeError) ["variogram_model"%string] (update_defaults (model_dim m)).
Proof. exact update_convention. Qed.
Print Assumptions C69_update.

Theorem C69_execute : forall E m, convention (execute_call E m) (Err TypeError) (query_names (model_dim m)) (execute_defaults m).
Proof. exact execute_convention. Qed.
Print Assumptions C69_execute.

Theorem C69_krige : convention krige_call (Err TypeError) [] krige_defaults.
Proof. exact krige_convention. Qed.
Print Assumptions C69_krige.

(** Class(x, y, values) spelled out: a linear variogram fitted with 6 lags, no
    weighting, no anisotropy, exact values, no pseudo-inverse, no drift. *)
Theorem C69_data_only : forall E x y z val i j k l,
  construct_call E OK2 [V_array i x; V_array j y; V_array k z] [] = (do o <- construct E OK2 (only_data [x; y] z) ;; Ok (KOrd o)) /\
  construct_call E OK3 [V_array i x; V_array j y; V_array k z; V_array l val] [] = (do o <- construct E OK3 (only_data [x; y; z] val) ;; Ok (KOrd o)) /\
  construct_call E UK2 [V_array i x; V_array j y; V_array k z] [] = (do u <- construct_uk E UK2 (only_data [x; y] z) no_drift ;; Ok (KUni u)) /\
  construct_call E UK3 [V_array i x; V_array j y; V_array k z; V_array l val] [] =
    (do u <- construct_uk E UK3 (only_data [x; y; z] val) no_drift ;; Ok (KUni u)).
Proof.
  intros E x y z val i j k l. destruct (only_data_ordinary E x y z val i j k l) as [H1 H2]. destruct (only_data_universal E x y z val i j k l) as [H3 H4]. auto.
Qed.
Print Assumptions C69_data_only.

(** execute(style, x, y) uses the vectorized backend, no mask, all data. *)
Theorem C69_points_only : forall E o u s x,
  (List.length x = o_dim o ->
   execute_call E (KOrd o) (V_str s :: map (fun a => V_array (fst a) (snd a)) x) [] = execute E o (only_points s x)) /\
  (List.length x = o_dim (u_obj u) ->
   execute_call E (KUni u) (V_str s :: map (fun a => V_array (fst a) (snd a)) x) [] = (do (r, _) <- execute_uk E u (only_points s x) [] ;; Ok r)).
Proof. intros E o u s x. split; [apply only_points_ordinary|apply only_points_universal]. Qed.
Print Assumptions C69_points_only.

(** update_variogram_model(model) spelled out: fitted parameters, 6 lags, no weighting. *)
Theorem C69_model_only : forall E o u m,
  update_call E (KOrd o) [V_model m] [] =
    (KOrd (fst (update_variogram_model E o (only_model (o_dim o) m))), snd (update_variogram_model E o (only_model (o_dim o) m))) /\
  update_call E (KUni u) [V_model m] [] =
    (KUni (fst (update_uk E u (only_model (o_dim (u_obj u)) m))), snd (update_uk E u (only_model (o_dim (u_obj u)) m))).
Proof. intros E o u m. split; [apply only_model_ordinary|apply only_model_universal]. Qed.
Print Assumptions C69_model_only.

(** With all arguments given, each reaches its place (with the theorems above: in
    whatever way it is passed). *)
Theorem C69_every_constructor_argument : forall E x y z val i j k l m sc sy sz an ax ay az stat ct D,
  (construct_call E OK2 ([V_array i x; V_array j y; V_array k z] ++ head_values m ++ [V_real sc; V_real an] ++ talk_values m ++ [V_bool stat; V_str ct] ++ solver_values m) [] =
    (do o <- construct E OK2 (all_args [x; y] z m [sc] [an] stat ct) ;; Ok (KOrd o)) /\
  construct_call E OK3 ([V_array i x; V_array j y; V_array k z; V_array l val] ++ head_values m ++ [V_real sy; V_real sz; V_real ax; V_real ay; V_real az] ++
      talk_values m ++ solver_values m) [] =
    (do o <- construct E OK3 (all_args [x; y; z] val m [sy; sz] [ax; ay; az] false "euclidean") ;; Ok (KOrd o)) /\
  construct_call E UK2 ([V_array i x; V_array j y; V_array k z] ++ head_values m ++ [V_real sc; V_real an] ++
      [V_terms (d_terms D); V_wells (d_point D); V_grid (d_ext D); V_axis (d_ext_x D); V_axis (d_ext_y D); V_spec (d_spec D); V_funs (d_fun D)] ++
      talk_values m ++ solver_values m) [] =
    (do u <- construct_uk E UK2 (all_args [x; y] z m [sc] [an] false "euclidean") D ;; Ok (KUni u)) /\
  construct_call E UK3 ([V_array i x; V_array j y; V_array k z; V_array l val] ++ head_values m ++ [V_real sy; V_real sz; V_real ax; V_real ay; V_real az] ++
      [V_terms (d_terms D); V_spec (d_spec D); V_funs (d_fun D)] ++ talk_values m ++ solver_values m) [] =
    (do u <- construct_uk E UK3 (all_args [x; y; z] val m [sy; sz] [ax; ay; az] false "euclidean")
       {| d_terms := d_terms D; d_point := None; d_ext := None; d_ext_x := None; d_ext_y := None; d_spec := d_spec D; d_fun := d_fun D |} ;; Ok (KUni u)))%list.
Proof. exact every_construct. Qed.
Print Assumptions C69_every_constructor_argument.

Theorem C69_every_update_argument : forall E o u m sc sy sz an ax ay az,
  ((o_dim o = 2%nat -> update_call E (KOrd o) (head_values m ++ [V_real sc; V_real an]) [] =
    (KOrd (fst (update_variogram_model E o (model_args m [sc] [an]))), snd (update_variogram_model E o (model_args m [sc] [an])))) /\
  (o_dim o = 3%nat -> update_call E (KOrd o) (head_values m ++ [V_real sy; V_real sz; V_real ax; V_real ay; V_real az]) [] =
    (KOrd (fst (update_variogram_model E o (model_args m [sy; sz] [ax; ay; az]))), snd (update_variogram_model E o (model_args m [sy; sz] [ax; ay; az])))) /\
  (o_dim (u_obj u) = 2%nat -> update_call E (KUni u) (head_values m ++ [V_real sc; V_real an]) [] =
    (KUni (fst (update_uk E u (model_args m [sc] [an]))), snd (update_uk E u (model_args m [sc] [an])))) /\
  (o_dim (u_obj u) = 3%nat -> update_call E (KUni u) (head_values m ++ [V_real sy; V_real sz; V_real ax; V_real ay; V_real az]) [] =
    (KUni (fst (update_uk E u (model_args m [sy; sz] [ax; ay; az]))), snd (update_uk E u (model_args m [sy; sz] [ax; ay; az])))))%list.
Proof. exact every_update. Qed.
Print Assumptions C69_every_update_argument.

Theorem C69_every_execute_argument : forall E o u s x mask b w specs,
  ((List.length x = o_dim o ->
   execute_call E (KOrd o) (V_str s :: map (fun a => V_array (fst a) (snd a)) x ++ [V_mask mask; V_str b; V_window w]) [] =
   execute E o {| q_style := s; q_pts := map snd x; q_int := map fst x; q_mask := mask; q_backend := b; q_window := w |}) /\
  (List.length x = o_dim (u_obj u) ->
   execute_call E (KUni u) (V_str s :: map (fun a => V_array (fst a) (snd a)) x ++ [V_mask mask; V_str b; V_specs specs]) [] =
   (do (r, _) <- execute_uk E u {| q_style := s; q_pts := map snd x; q_int := map fst x; q_mask := mask; q_backend := b; q_window := None |} specs ;; Ok r)))%list.
Proof. exact every_execute. Qed.
Print Assumptions C69_every_execute_argument.

(** In particular an update that does not repeat the anisotropy removes it: distances
    are plain distances afterwards, whatever they were before. *)
Theorem C69_update_removes_anisotropy :
  forall E m m' name kw p q, update_call E m [V_model (VName name)] kw = (m', None) -> o_ct (kobj m) = Euclidean ->
    (forall k, In k (map fst kw) ->
       ~ In k (map fst (if Nat.eqb (model_dim m) 2 then default_anisotropy_2d else default_anisotropy_3d))) ->
    separation (kobj m') p q = plain_distance (model_dim m) p q.
Proof. exact update_removes. Qed.
Print Assumptions C69_update_removes_anisotropy.
Example C69_nonvacuous : exists E m m', o_ct (kobj m) = Euclidean /\ o_n (kobj m) = 4%nat /\ o_scaling (kobj m) 0%nat = 2 /\
  update_call E m [V_model (VName "spherical")] [("variogram_parameters"%string, V_params (PList [2; 3; 1]))] = (m', None).
Proof. exact ex_update_removes. Qed.

(** C70.  set_params changes exactly the named parameters, and not the fitted model. *)
Theorem C70_set_params :
  forall k kw k', set_params k kw = (k', None) ->
    k_fitted k' = k_fitted k /\
    forall name, dict_get (get_params_of k') name = overridden (dict_get (get_params_of k)) kw name.
Proof.
  intros k kw k' H. destruct (set_params_effect k kw k' H) as [H1 H2]. split; [exact H2|]. intros name. rewrite H1. apply update_get.
Qed.
Print Assumptions C70_set_params.

(** It accepts every parameter of the constructor ... *)
Theorem C70_set_params_accepts :
  forall k kw, (forall name v, In (name, v) kw -> right_kind name v) -> exists k', set_params k kw = (k', None).
Proof. exact set_params_ok. Qed.
Print Assumptions C70_set_params_accepts.

(** ... and refuses any other name, keeping the assignments made before it. *)
Theorem C70_set_params_refuses :
  forall k kw name v rest, (forall n w, In (n, w) kw -> right_kind n w) -> ~ In name (map fst krige_defaults) ->
    set_params k (kw ++ (name, v) :: rest)%list = (fst (set_params k kw), Some ValueError).
Proof. exact set_params_unknown. Qed.
Print Assumptions C70_set_params_refuses.

(** Fitting afterwards is fitting a new estimator with those parameters: nothing of an
    earlier fit or of the earlier parameters is left. *)
Theorem C70_set_params_then_fit :
  forall E k kw k' k0 x y, set_params k kw = (k', None) -> krige_call [] (dict_update (get_params_of k) kw) = Ok k0 ->
    krige_fit E k' x y = match krige_fit E k0 x y with (k1, None) => (k1, None) | (_, Some e) => (k', Some e) end.
Proof. exact set_params_then_fit. Qed.
Print Assumptions C70_set_params_then_fit.

(** clone: all parameters, no fitted model. *)
Theorem C70_clone :
  forall k c, class_of (k_method k) = Some c -> clone k = Ok (set_fitted k None).
Proof. intros k c H. rewrite clone_spec, H. reflexivity. Qed.
Print Assumptions C70_clone.

(** Until the next fit, predict goes on with the fitted model: only n_closest_points
    (and method, below) have an effect. *)
Theorem C70_predict_before_refit :
  forall E k kw k' x extra, set_params k kw = (k', None) ->
    (forall name, In name (map fst kw) -> name <> "method"%string /\ name <> "n_closest_points"%string) ->
    krige_predict E k' x extra = krige_predict E k x extra.
Proof. exact set_params_predict. Qed.
Print Assumptions C70_predict_before_refit.

Theorem C70_n_closest_points_before_refit :
  forall E k m c w x, fitted_as k m c -> List.length (p_cols x) = cdim c ->
    exists k', set_params k [("n_closest_points"%string, V_window w)] = (k', None) /\
      krige_predict E k' x [] = direct_predict E (with_ncp k w) m x "loop".
Proof. exact window_before_refit. Qed.
Print Assumptions C70_n_closest_points_before_refit.

(** A method with another number of dimensions makes predict fail until the next fit. *)
Theorem C70_method_before_refit :
  forall E k m c method c' k' x extra, fitted_as k m c -> class_of method = Some c' -> cdim c' <> cdim c ->
    set_params k [("method"%string, V_str method)] = (k', None) -> dict_get extra "zpoints"%string = None ->
    krige_predict E k' x extra = Err (if Nat.eqb (List.length (p_cols x)) (cdim c') then TypeError else ValueError).
Proof. exact set_method_predict. Qed.
Print Assumptions C70_method_before_refit.

Example C70_nonvacuous : exists k k' k0, krige_call [] nlags_4 = Ok k /\ k_window k = Some 10%nat /\ set_params k spherical_5 = (k', None) /\
  krige_call [] (dict_update (get_params_of k) spherical_5) = Ok k0 /\ k_nlags k0 = 5%nat /\ k_method k0 = "ordinary"%string /\
  (forall name v, In (name, v) spherical_5 -> right_kind name v) /\
  (forall name, In name (map fst spherical_5) -> name <> "method"%string /\ name <> "n_closest_points"%string).
Proof. exact ex_set_params. Qed.
Example C70_method_nonvacuous : exists k m k', fitted_as k m OK2 /\ class_of "ordinary3d" = Some OK3 /\ cdim OK3 <> cdim OK2 /\
  set_params k [("method"%string, V_str "ordinary3d")] = (k', None).
Proof.
  destruct (ex_fitted 0 1) as (k & m & HF).
  destruct (set_params_ok k [("method"%string, V_str "ordinary3d")]) as [k' Hk'].
  - intros name w [H|[]]. injection H as <- <-. exists (V_str "ordinary"). split; [left; reflexivity|exact I].
  - exists k, m, k'. repeat (split; [first [assumption|reflexivity|discriminate]|]). exact Hk'.
Qed.
