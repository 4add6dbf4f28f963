(** PROPERTY C74: what pseudo_inv=True buys, for any data and any variogram (singular
    systems included).  Vocabulary: S_Pinv.  svd_converges: the singular value
    decompositions behind scipy.linalg.pinv / pinvh and numpy.linalg.lstsq converge. *)
From Coq Require Import String.
From Verif Require Import Base Sums Matrix M_Variogram M_Geometry S_Geometry M_Kriging S_Kriging M_Init M_Object M_Execute S_Execute
  M_UK S_UK S_UK2 S_Valid S_Drift S_Pinv P_UK8 P_Pinv2 P_Pinv3.

(** Ordinary kriging without a moving window returns, whatever the data. *)
Theorem C74_execute_returns :
  forall E o q, svd_converges E -> reachable E o -> ordinary o -> o_pinv o = true -> q_window q = None ->
    good_query o q -> available E o (q_backend q) -> exists r, execute E o q = Ok r.
Proof. exact pseudo_execute. Qed.
Print Assumptions C74_execute_returns.
Example C74_nonvacuous : exists E o q, env_ok E /\ svd_converges E /\ reachable E o /\ ordinary o /\ o_pinv o = true /\ q_window q = None /\
  good_query o q /\ available E o (q_backend q) /\ coincident o 0 1 /\ o_vg o 0 = 0.
Proof. exact ex_pseudo. Qed.

(** With a moving window it does not help: the window systems go to
    scipy.linalg.solve all the same. *)
Theorem C74_moving_window_refuted :
  exists E o q, env_ok E /\ svd_converges E /\ reachable E o /\ ordinary o /\ o_pinv o = true /\
    good_query o q /\ q_window q = Some 2%nat /\ has_backend o q /\ forall r, execute E o q <> Ok r.
Proof. exact window_pseudo. Qed.
Print Assumptions C74_moving_window_refuted.

(** Universal kriging: only the shape of the arguments, the external drift grid and the
    wells matter (compare C71). *)
Theorem C74_universal_vectorized_returns_iff :
  forall E u q specs, svd_converges E -> ureachable E u -> o_pinv (u_obj u) = true -> q_backend q = "vectorized"%string ->
    ((exists r w, execute_uk E u q specs = Ok (r, w)) <->
     good_query (u_obj u) q /\ good_specs u q specs /\ (forall p pos, cell (o_dim (u_obj u)) q p pos -> in_grid u pos)).
Proof. exact pseudo_vectorized_iff. Qed.
Print Assumptions C74_universal_vectorized_returns_iff.

Theorem C74_universal_loop_returns_iff :
  forall E u q specs, svd_converges E -> ureachable E u -> o_pinv (u_obj u) = true -> q_backend q = "loop"%string ->
    ((exists r w, execute_uk E u q specs = Ok (r, w)) <->
     good_query (u_obj u) q /\ good_specs u q specs /\
     (forall p pos, shown (u_obj u) q p pos ->
        in_grid u pos /\ not_at_well u pos /\
        (dr_spec (u_drift u) <> None -> (rows_through_specified u <= cells (o_dim (u_obj u)) q)%nat))).
Proof. exact pseudo_loop_iff. Qed.
Print Assumptions C74_universal_loop_returns_iff.

(** Constructors: pseudo_inv=True turns LinAlgError into success and changes no other
    outcome; update_variogram_model never raises LinAlgError. *)
Theorem C74_constructor :
  forall E c A t, svd_converges E -> In (c_pinv_type A) pinv_types -> In t pinv_types ->
    ((exists o, construct E c A = Ok o) \/ construct E c A = Err LinAlgError -> exists o, construct E c (with_pinv A true t) = Ok o) /\
    (forall e, construct E c A = Err e -> e <> LinAlgError -> construct E c (with_pinv A true t) = Err e).
Proof. exact pseudo_construct. Qed.
Print Assumptions C74_constructor.
Example C74_constructor_nonvacuous : exists E A, svd_converges E /\ env_ok E /\ In (c_pinv_type A) pinv_types /\ construct E UK2 A = Err LinAlgError.
Proof. exact ex_pseudo_construct. Qed.

Theorem C74_update :
  forall E o v, svd_converges E -> o_pinv o = true -> snd (update_variogram_model E o v) <> Some LinAlgError.
Proof. exact pseudo_update. Qed.
Print Assumptions C74_update.

(** Whatever the inverse, the weights behind the prediction and variance solve the
    kriging equations in the least squares sense, with minimal norm. *)
Theorem C74_least_squares :
  forall E o q r p pos, run E o q r -> q_window q = None -> shown o q p pos ->
    exists w mu, OK_least_squares (o_n o) (G_of o) (g_of o pos) w mu /\
      r_value r p = Some (bsum (o_n o) (fun i => w i * o_values o i)) /\
      r_variance r p = Some (bsum (o_n o) (fun i => w i * g_of o pos i) + mu).
Proof. exact ordinary_least_squares. Qed.
Print Assumptions C74_least_squares.

Theorem C74_universal_least_squares :
  forall E u q specs r p pos, urun E u q specs r -> faithful_specs u q -> shown (u_obj u) q p pos ->
    let ts := drift_terms u q specs in let n := o_n (u_obj u) in let m := List.length ts in
    exists w mu nu, UK_least_squares n m (G_of (u_obj u)) (F_of ts) (g_of (u_obj u) pos) (f_of ts p pos) w mu nu /\
      r_value r p = Some (bsum n (fun i => w i * o_values (u_obj u) i)) /\
      r_variance r p = Some (bsum n (fun i => w i * g_of (u_obj u) pos i) + bsum m (fun k => nu k * f_of ts p pos k) + mu).
Proof. exact universal_least_squares. Qed.
Print Assumptions C74_universal_least_squares.

(** the universal example: two of three data at the same place, functional drift *)
Example C74_universal_nonvacuous : exists E u u' q r r', urun E u q [] r /\ urun E u' q [] r' /\ faithful_specs u q /\
  shown (u_obj u) q 0 (1, 1, 0) /\ umerges 0 2 u u' /\ same_place u 0 2 /\ o_vg (u_obj u) 0 = 0 /\ drift_regular u' q [] /\
  o_pinv (u_obj u) = true /\ dr_fun (u_drift u) = Some [fx] /\
  svd_converges E /\ q_backend q = "vectorized"%string /\ good_query (u_obj u) q /\ good_specs u q [].
Proof. exact ex_universal_averaged. Qed.
