(** PROPERTIES C29-C33: histories of an object, failed updates, sharing with the
    user's arrays, talk-back switches.  Vocabulary: S_State, S_Heap, S_HeapUK. *)
From Coq Require Import String.
From Verif Require Import Base Sums Matrix M_Variogram M_Geometry S_Geometry M_Kriging S_Kriging M_Init M_Object M_Execute S_Execute
  M_UK S_UK S_State P_Object P_Data P_State P_State2 P_State3 P_State4 P_State5 P_State6 P_State7 P_State8
  M_Heap S_Heap M_HeapUK S_HeapUK P_Heap P_Heap2 P_Heap3 P_HeapUK P_Heap4 P_HeapUK2 Witness Witness3 P_UK8.

(** C29.  Whatever calls cs came before (updates that succeed or fail, executes,
    switches, getters), after a successful update_variogram_model(v) the object
    behaves like one built from the same data with v; and if the update raises,
    so does the constructor. *)
Theorem C29_update_is_rebuild :
  forall E c A o0 cs v, List.length (c_coords A) = cdim c -> construct E c A = Ok o0 ->
    let o := fold_left (after_call E) cs o0 in
    match update_variogram_model E o v with
    | (o', None) => exists o'', construct E c (with_v A v) = Ok o'' /\ equivalent E o' o'' /\
                      (computes_statistics c A -> o_stats o' = o_stats o'')
    | (_, Some e) => computes_statistics c A -> construct E c (with_v A v) = Err e
    end.
Proof. exact rebuild_after_session. Qed.
Print Assumptions C29_update_is_rebuild.

(** universal kriging, also after any calls cs *)
Theorem C29_universal_update_is_rebuild :
  forall E c A D u0 cs v, c = UK2 \/ c = UK3 -> List.length (c_coords A) = cdim c -> construct_uk E c A D = Ok u0 ->
    let u := fold_left (uafter_call E) cs u0 in
    match update_uk E u v with
    | (u', None) =>
        (c = UK2 -> asked D "point_log" = true ->
           same_anisotropy 2 (o_scaling (u_obj u0)) (o_scaling (u_obj u')) (o_angle (u_obj u0)) (o_angle (u_obj u'))) ->
        exists u'', construct_uk E c (with_v A v) D = Ok u'' /\ uequivalent E u' u'' /\ o_stats (u_obj u') = o_stats (u_obj u'')
    | (_, Some e) => construct_uk E c (with_v A v) D = Err e
    end.
Proof. exact urebuild_after_session. Qed.
Print Assumptions C29_universal_update_is_rebuild.

(** the point_log condition is needed: the wells keep the old anisotropy *)
Theorem C29_point_log_refuted : exists E A D u v u' u'' q r r'',
  env_ok E /\ ubuilt E UK2 A D [] u /\ update_uk E u v = (u', None) /\ construct_uk E UK2 (with_v A v) D = Ok u'' /\
  execute_uk E u' q [] = Ok (r, false) /\ execute_uk E u'' q [] = Ok (r'', false) /\
  shown (u_obj u') q 0 (9, 1, 0) /\ r_value r 0 <> r_value r'' 0.
Proof. exact ex_wells_stale. Qed.
Print Assumptions C29_point_log_refuted.

Example C29_nonvacuous : exists o o',
  construct WE OK2 (two_args 1 0 0 3 true false) = Ok o /\ List.length (c_coords (two_args 1 0 0 3 true false)) = cdim OK2 /\
  update_variogram_model WE o (scaled (PList [1; 0]) 2) = (o', None) /\ o_scaling o 0%nat = 1 /\ o_scaling o' 0%nat = 2.
Proof. exact ex_update_scaled. Qed.

Example C29_universal_nonvacuous : exists u u',
  construct_uk WE UK2 (two_args 1 0 0 3 true false) (fun_args fx) = Ok u /\
  update_uk WE (uafter_call WE u (USwitch Verbose)) (scaled (PList [1; 0]) 2) = (u', None) /\
  o_scaling (u_obj u) 0%nat = 1 /\ o_scaling (u_obj u') 0%nat = 2 /\ asked (fun_args fx) "point_log" = false.
Proof. exact ex_uupdate. Qed.

(** C30.  However the object was reached, the distances between data, and from
    query points to data, are those of the original coordinates under the current
    anisotropy settings; data and class are the constructor's. *)
Theorem C30_coordinates_in_step :
  forall E c A us o, built E c A us o ->
    o_orig o = columns (c_coords A) /\ o_values o = rnth (c_values A) /\ o_n o = List.length (nth 0 (c_coords A) []) /\ o_class o = c /\
    (forall i j, data_distances o i j = separation o (datum o i) (datum o j)) /\
    (forall ints at_ pts p i, adjust_query o ints at_ = Ok pts ->
       query_distances o pts p i = separation o (loc_of (o_dim o) at_ p) (datum o i)).
Proof. exact in_step. Qed.
Print Assumptions C30_coordinates_in_step.

(** universal kriging; moreover the drift attributes never change *)
Theorem C30_universal_coordinates_in_step :
  forall E c A D us u, ubuilt E c A D us u ->
    let o := u_obj u in
    o_orig o = columns (c_coords A) /\ o_values o = rnth (c_values A) /\ o_n o = List.length (nth 0 (c_coords A) []) /\ o_class o = c /\
    (forall i j, data_distances o i j = separation o (datum o i) (datum o j)) /\
    (forall ints at_ pts p i, adjust_query o ints at_ = Ok pts ->
       query_distances o pts p i = separation o (loc_of (o_dim o) at_ p) (datum o i)) /\
    (forall u0, construct_uk E c A D = Ok u0 -> u_drift u = u_drift u0).
Proof. exact uin_step. Qed.
Print Assumptions C30_universal_coordinates_in_step.

(** after a successful update the settings are those of the call *)
Theorem C30_settings_of_the_last_update :
  forall E o v, snd (update_variogram_model E o v) = None -> o_ct o = Euclidean ->
    let o' := fst (update_variogram_model E o v) in
    exists name prm fn sc an, resolve_gs E (o_class o) "euclidean" v = Ok (name, prm, fn, sc, an) /\
      same_anisotropy (o_dim o) sc (o_scaling o') an (o_angle o').
Proof. exact update_settings. Qed.
Print Assumptions C30_settings_of_the_last_update.

(** C31.  A call that is rejected because of its model changes no prediction. *)
Theorem C31_rejected_model_changes_nothing :
  forall E o v, model_rejected E o v ->
    exists o' e, update_variogram_model E o v = (o', Some e) /\ forall q, execute E o' q = execute E o q.
Proof. exact rejected_model_predictions. Qed.
Print Assumptions C31_rejected_model_changes_nothing.

Theorem C31_universal_rejected_model_changes_nothing :
  forall E u v, model_rejected E (u_obj u) v ->
    exists u' e, update_uk E u v = (u', Some e) /\ forall q specs, execute_uk E u' q specs = execute_uk E u q specs.
Proof. exact urejected_model_predictions. Qed.
Print Assumptions C31_universal_rejected_model_changes_nothing.

(** a call that is rejected later can change predictions: here the parameter list
    is too short and the anisotropy has already been replaced *)
Theorem C31_failed_update_refuted : exists E A o v o' q r r',
  built E OK2 A [] o /\ update_variogram_model E o v = (o', Some ValueError) /\
  run E o q r /\ run E o' q r' /\ shown o q 0 (3 / 2, 2, 0) /\ shown o' q 0 (3 / 2, 2, 0) /\ r_variance r 0 <> r_variance r' 0.
Proof. exact ex_failed_update_anisotropy. Qed.
Print Assumptions C31_failed_update_refuted.

(** but data, class and options survive every failed call, and C29 says that the next
    successful update repairs the object completely *)
Theorem C31_data_survive :
  forall E o v, let o' := fst (update_variogram_model E o v) in
    o_class o' = o_class o /\ o_pinv o' = o_pinv o /\ o_pinv_type o' = o_pinv_type o /\
    o_exact o' = o_exact o /\ o_ct o' = o_ct o /\ o_n o' = o_n o /\ o_orig o' = o_orig o /\
    o_values o' = o_values o /\ o_center o' = o_center o /\ o_verbose o' = o_verbose o /\ o_plotting o' = o_plotting o.
Proof. exact update_preserves. Qed.
Print Assumptions C31_data_survive.

Theorem C31_universal_data_survive :
  forall E u v, let u' := fst (update_uk E u v) in
    u_drift u' = u_drift u /\
    o_class (u_obj u') = o_class (u_obj u) /\ o_pinv (u_obj u') = o_pinv (u_obj u) /\ o_pinv_type (u_obj u') = o_pinv_type (u_obj u) /\
    o_exact (u_obj u') = o_exact (u_obj u) /\ o_ct (u_obj u') = o_ct (u_obj u) /\ o_n (u_obj u') = o_n (u_obj u) /\
    o_orig (u_obj u') = o_orig (u_obj u) /\ o_values (u_obj u') = o_values (u_obj u) /\ o_center (u_obj u') = o_center (u_obj u) /\
    o_verbose (u_obj u') = o_verbose (u_obj u) /\ o_plotting (u_obj u') = o_plotting (u_obj u).
Proof. exact uupdate_preserves. Qed.
Print Assumptions C31_universal_data_survive.

Example C31_nonvacuous : exists o v, construct WE OK2 (two_args 1 0 0 3 true false) = Ok o /\ model_rejected WE o v.
Proof. exact ex_rejected. Qed.

(** C32.  On the heap: the constructor computes the object of the pure model and
    modifies nothing that existed before ([only_adds]). *)
Theorem C32_construct_leaves_arrays_alone :
  forall E c A h, args_exist h A ->
    exists h' x, construct_h E c A h = (h', x) /\ only_adds h h' /\
      match x with
      | Ok x => construct E c (deref h A) = Ok (view h' x) /\ object_exists h' x /\
                (forall r, shared h' x r -> r = x_params x /\ keeps_list (g_v A) r)
      | Err e => construct E c (deref h A) = Err e
      end.
Proof. exact construct_alone. Qed.
Print Assumptions C32_construct_leaves_arrays_alone.

Theorem C32_update_leaves_arrays_alone :
  forall E x v h, object_exists h x -> params_exist h (v_params v) ->
    match update_h E x v h with
    | (h', x', e) => only_adds h h' /\ object_exists h' x' /\ update_variogram_model E (view h x) (deref_v h v) = (view h' x', e) /\
        (forall r, shared h' x' r -> shared h x r \/ keeps_list v r)
    end.
Proof. exact update_alone. Qed.
Print Assumptions C32_update_leaves_arrays_alone.

Theorem C32_execute_leaves_arrays_alone :
  forall E x q h, object_exists h x -> Forall (fun r => (r < h_next h)%nat) (k_pts q) ->
    match execute_h E x q h with
    | (h', r) => only_adds h h' /\ r = execute E (view h x) (deref_q h q)
    end.
Proof. exact execute_h_spec. Qed.
Print Assumptions C32_execute_leaves_arrays_alone.

(** Histories.  The user may overwrite his arrays and lists at any time: the object
    remains the one built from the arrays as they were at construction, updated by
    the calls as they were when made - unless he overwrites a parameter list that he
    gave for the linear, power or custom model. *)
Theorem C32_later_changes_have_no_effect :
  forall E c A h h1 x es us h' x',
    args_exist h A -> construct_h E c A h = (h1, Ok x) ->
    history E (h1, x) es us (h', x') -> (forall r c, In (Overwrites r c) es -> ~ kept_list (g_v A) es r) ->
    exists o, construct E c (deref h A) = Ok o /\ view h' x' = after_updates E us o.
Proof. exact later_changes. Qed.
Print Assumptions C32_later_changes_have_no_effect.

Theorem C32_linear_parameters_refuted : exists E A h h' x r c q res res',
  env_ok E /\ args_exist h A /\ construct_h E OK2 A h = (h', Ok x) /\ h_user h' r = true /\
  execute E (view h' x) q = Ok res /\ execute E (view (write r c h') x) q = Ok res' /\ r_variance res 0 <> r_variance res' 0.
Proof. exact ex_linear_list_kept. Qed.
Print Assumptions C32_linear_parameters_refuted.

(** universal kriging: also the list of functional drifts is kept, nothing else *)
Theorem C32_universal_construct :
  forall E c A D h, args_exist h A -> drift_exists h D ->
    exists h' x, construct_uk_h E c A D h = (h', x) /\ only_adds h h' /\
      match x with
      | Ok x => construct_uk E c (deref h A) (deref_d h D) = Ok (uview h' x) /\
                (forall r, In r (urefs x) -> h_user h' r = true -> keeps_list (g_v A) r \/ t_fun D = Some r)
      | Err e => construct_uk E c (deref h A) (deref_d h D) = Err e
      end.
Proof. exact uconstruct_alone. Qed.
Print Assumptions C32_universal_construct.

Theorem C32_universal_update_leaves_arrays_alone :
  forall E x v h, uobject_exists h x -> params_exist h (v_params v) ->
    match update_uk_h E x v h with
    | (h', x', e) => only_adds h h' /\ uobject_exists h' x' /\ update_uk E (uview h x) (deref_v h v) = (uview h' x', e) /\
        (forall r, ushared h' x' r -> ushared h x r \/ keeps_list v r)
    end.
Proof. exact uupdate_alone. Qed.
Print Assumptions C32_universal_update_leaves_arrays_alone.

(** also the specified drift arrays given to execute *)
Theorem C32_universal_execute_leaves_arrays_alone :
  forall E x q specs h, uobject_exists h x -> Forall (fun r => (r < h_next h)%nat) (k_pts q) -> Forall (spec_exists h) specs ->
    match execute_uk_h E x q specs h with
    | (h', r) => only_adds h h' /\ r = execute_uk E (uview h x) (deref_q h q) (map (deref_spec h) specs)
    end.
Proof. exact uexecute_h_spec. Qed.
Print Assumptions C32_universal_execute_leaves_arrays_alone.

(** histories: the lists that matter are those of [ukept_list] *)
Theorem C32_universal_later_changes_have_no_effect :
  forall E c A D h h1 x es us h' x',
    args_exist h A -> drift_exists h D -> construct_uk_h E c A D h = (h1, Ok x) ->
    uhistory E (h1, x) es us (h', x') -> (forall r c, In (UOverwrites r c) es -> ~ ukept_list (g_v A) D es r) ->
    exists u, construct_uk E c (deref h A) (deref_d h D) = Ok u /\ uview h' x' = after_uupdates E us u.
Proof. exact ulater_changes. Qed.
Print Assumptions C32_universal_later_changes_have_no_effect.

Theorem C32_functional_drift_refuted : exists E A D h h' x r c q,
  env_ok E /\ args_exist h A /\ drift_exists h D /\ construct_uk_h E UK2 A D h = (h', Ok x) /\ h_user h' r = true /\
  (exists res, execute_uk E (uview h' x) q [] = Ok res) /\ (forall res, execute_uk E (uview (write r c h') x) q [] <> Ok res).
Proof. exact ex_functional_list_kept. Qed.
Print Assumptions C32_functional_drift_refuted.

(** a history: built with a parameter list for the spherical model; then the user
    overwrites his x array and the parameter list *)
Example C32_nonvacuous : exists A h h1 x, args_exist h A /\ construct_h WE OK2 A h = (h1, Ok x) /\
  (forall r, ~ kept_list (g_v A) [Overwrites 0%nat (Row [7; 7]); Overwrites 3%nat (Row [5; 5; 5])] r) /\
  exists h' x', history WE (h1, x) [Overwrites 0%nat (Row [7; 7]); Overwrites 3%nat (Row [5; 5; 5])] [] (h', x') /\
    rd h' 3%nat = [5; 5; 5] /\ o_params (view h' x') = [1; 2; 0].
Proof. exact ex_private. Qed.

(** both the parameter list and the list of functional drifts are kept; the user
    overwrites his coordinates and values *)
Example C32_universal_nonvacuous : let es := [UOverwrites 0%nat (Row [7; 7]); UOverwrites 2%nat (Row [5; 5])] in
  exists A D h h1 x, args_exist h A /\ drift_exists h D /\ construct_uk_h WE UK2 A D h = (h1, Ok x) /\
  (forall r c, In (UOverwrites r c) es -> ~ ukept_list (g_v A) D es r) /\ ukept_list (g_v A) D es 4%nat /\
  exists h', uhistory WE (h1, x) es [] (h', x) /\ rd h' 2%nat = [5; 5] /\ o_values (u_obj (uview h' x)) 1%nat = 3.
Proof. exact ex_uprivate. Qed.

(** C33. *)
Theorem C33_switches_do_not_change_answers :
  forall E cs o, filter no_switch_answer (session E o cs) = session E o (filter (fun c => negb (is_switch c)) cs).
Proof. exact session_no_switch. Qed.
Print Assumptions C33_switches_do_not_change_answers.

Theorem C33_switch_twice : forall s o, flip s (flip s o) = o.
Proof. exact flip_twice. Qed.
Print Assumptions C33_switch_twice.

(** Only updates and switches change the object (execute and the getters assign no attribute). *)
Theorem C33_execute_is_pure :
  forall E cs o, fold_left (after_call E) cs o = fold_left (after_call E) (filter (fun c => is_update c || is_switch c) cs) o.
Proof. exact session_only_updates. Qed.
Print Assumptions C33_execute_is_pure.

(** universal kriging *)
Theorem C33_universal_switches_do_not_change_answers :
  forall E cs u, filter no_uswitch_answer (usession E u cs) = usession E u (filter (fun c => negb (is_uswitch c)) cs).
Proof. exact usession_no_switch. Qed.
Print Assumptions C33_universal_switches_do_not_change_answers.

Theorem C33_universal_execute_is_pure :
  forall E cs u, fold_left (uafter_call E) cs u = fold_left (uafter_call E) (filter (fun c => is_uupdate c || is_uswitch c) cs) u.
Proof. exact usession_only_updates. Qed.
Print Assumptions C33_universal_execute_is_pure.
