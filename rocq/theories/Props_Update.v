(** C83: adding a datum, and the form of the prediction surface. *)
From Coq Require Import String.
From Verif Require Import Base Sums Matrix M_Variogram M_Geometry S_Geometry M_Kriging S_Kriging M_Init M_Object M_Execute S_Execute
  S_Valid M_UK S_UK S_Line S_Update P_Far P_UK8 P_Valid5 Witness P_Update2 P_Update3 P_Update4 P_Update5.

(** With one more datum, every prediction moves by lam times the error of the old prediction
    at the new place, and its variance falls by lam^2 times the old variance there; lam is the
    prediction from the new locations with value 1 at the new datum and 0 elsewhere. *)
Theorem C83_one_more_datum :
  forall E o o' qP rP pP q r p q' r' p' pos,
  adds o o' -> run E o qP rP -> run E o q r -> run E o' q' r' ->
  shown o qP pP (new_place o o') -> shown o q p pos -> shown o' q' p' pos ->
  q_window qP = None -> q_window q = None -> q_window q' = None -> regular_for o q -> regular_for o' q' ->
  (o_exact o = true -> away o (new_place o o')) ->
  exists vP sP v s lam, r_value rP pP = Some vP /\ r_variance rP pP = Some sP /\ r_value r p = Some v /\ r_variance r p = Some s /\ sP <> 0 /\
    r_value r' p' = Some (v + lam * (new_value o o' - vP)) /\ r_variance r' p' = Some (s - lam² * sP) /\
    forall o'' q'' r'' p'', indicator (o_n o) o' o'' -> run E o'' q'' r'' -> shown o'' q'' p'' pos -> q_window q'' = None -> regular_for o'' q'' ->
      r_value r'' p'' = Some lam.
Proof. exact one_more. Qed.
Print Assumptions C83_one_more_datum.

(** A datum equal to the prediction at its place changes no prediction. *)
Theorem C83_predicted_datum_changes_nothing :
  forall E o o' qP rP pP q r p q' r' p' pos,
  adds o o' -> run E o qP rP -> run E o q r -> run E o' q' r' ->
  shown o qP pP (new_place o o') -> shown o q p pos -> shown o' q' p' pos ->
  q_window qP = None -> q_window q = None -> q_window q' = None -> regular_for o q -> regular_for o' q' ->
  (o_exact o = true -> away o (new_place o o')) ->
  r_value rP pP = Some (new_value o o') -> r_value r' p' = r_value r p.
Proof. exact predicted_datum. Qed.
Print Assumptions C83_predicted_datum_changes_nothing.

(** Two constructor calls, the second with one more datum, give such objects when the
    variogram parameters are given. *)
Theorem C83_constructor :
  forall E c A A' o o', appended A A' -> c_coords A <> [] -> construct E c A = Ok o -> construct E c A' = Ok o' -> explicit_params (c_v A) -> adds o o'.
Proof. exact constructor_adds. Qed.
Print Assumptions C83_constructor.

Example C83_nonvacuous : exists E A A' o o' rP r r', appended A A' /\ explicit_params (c_v A) /\ construct E OK2 A = Ok o /\ construct E OK2 A' = Ok o' /\
  adds o o' /\ run E o at_6 rP /\ run E o (at_1 "vectorized" None) r /\ run E o' (at_1 "vectorized" None) r' /\
  shown o at_6 0 (new_place o o') /\ shown o (at_1 "vectorized" None) 0 (1, 0, 0) /\ shown o' (at_1 "vectorized" None) 0 (1, 0, 0) /\
  regular_for o (at_1 "vectorized" None) /\ regular_for o' (at_1 "vectorized" None) /\ (o_exact o = true -> away o (new_place o o')) /\ o_n o = 3%nat.
Proof. exact ex_adds. Qed.

(** Every prediction is a constant plus a fixed combination, with coefficients of sum 0, of
    the variogram values between the query location and the data; the coefficients do not
    depend on the query or the backend. *)
Theorem C83_prediction_surface :
  forall o, regular o -> exists c a, bsum (o_n o) c = 0 /\
  forall E q r p pos, run E o q r -> q_window q = None -> shown o q p pos ->
    r_value r p = Some (a + bsum (o_n o) (fun i => c i * g_of o pos i)).
Proof. exact surface. Qed.
Print Assumptions C83_prediction_surface.

Example C83_surface_nonvacuous : exists E o r, regular o /\ run E o (at_1 "vectorized" None) r /\ shown o (at_1 "vectorized" None) 0 (1, 0, 0) /\ o_n o = 3%nat.
Proof.
  destruct ex_adds as (E & A & A' & o & o' & rP & r & r' & _ & _ & _ & _ & _ & _ & HR & _ & _ & HS & _ & HG & _ & _ & Hn).
  exists E, o, r. split; [exact (run_is_regular _ _ _ _ HR HG eq_refl)|]. auto.
Qed.

(** Universal kriging: the same, when the two objects have the same drift functions. *)
Theorem C83_universal_one_more_datum :
  forall E u u' qP q q' sP s s' rP r r' pP p p' pos,
  adds (u_obj u) (u_obj u') -> urun E u qP sP rP -> urun E u q s r -> urun E u' q' s' r' ->
  shown (u_obj u) qP pP (new_place (u_obj u) (u_obj u')) -> shown (u_obj u) q p pos -> shown (u_obj u') q' p' pos ->
  faithful_specs u qP -> faithful_specs u q -> faithful_specs u' q' -> uregular u qP sP -> uregular u q s -> uregular u' q' s' ->
  (o_exact (u_obj u) = true -> away (u_obj u) (new_place (u_obj u) (u_obj u'))) ->
  drift_adds (o_n (u_obj u)) (new_place (u_obj u) (u_obj u')) pos (drift_terms u q s) p (drift_terms u qP sP) pP (drift_terms u' q' s') p' ->
  exists vP vaP v va lam, r_value rP pP = Some vP /\ r_variance rP pP = Some vaP /\ r_value r p = Some v /\ r_variance r p = Some va /\ vaP <> 0 /\
    r_value r' p' = Some (v + lam * (new_value (u_obj u) (u_obj u') - vP)) /\ r_variance r' p' = Some (va - lam² * vaP).
Proof. exact u_one_more. Qed.
Print Assumptions C83_universal_one_more_datum.

(** In particular with the same drift configuration, no specified drifts and no anisotropy. *)
Theorem C83_universal_same_configuration :
  forall E u u' qP q q' sP s s' rP r r' pP p p' pos,
  adds (u_obj u) (u_obj u') -> u_drift u' = u_drift u -> dr_spec (u_drift u) = None ->
  (forall k, o_scaling (u_obj u) k = 1) -> (forall k, o_angle (u_obj u) k = 0) ->
  urun E u qP sP rP -> urun E u q s r -> urun E u' q' s' r' ->
  shown (u_obj u) qP pP (new_place (u_obj u) (u_obj u')) -> shown (u_obj u) q p pos -> shown (u_obj u') q' p' pos ->
  uregular u qP sP -> uregular u q s -> uregular u' q' s' ->
  (o_exact (u_obj u) = true -> away (u_obj u) (new_place (u_obj u) (u_obj u'))) ->
  exists vP vaP v va lam, r_value rP pP = Some vP /\ r_variance rP pP = Some vaP /\ r_value r p = Some v /\ r_variance r p = Some va /\ vaP <> 0 /\
    r_value r' p' = Some (v + lam * (new_value (u_obj u) (u_obj u') - vP)) /\ r_variance r' p' = Some (va - lam² * vaP).
Proof. exact u_one_more_user. Qed.
Print Assumptions C83_universal_same_configuration.

(** Universal prediction surface: constant + drift functions + variogram values, the
    coefficients of the latter orthogonal to the constant and to the drift functions. *)
Theorem C83_universal_surface :
  forall E0 u q0 s0 r0, urun E0 u q0 s0 r0 -> uregular u q0 s0 -> dr_spec (u_drift u) = None ->
  let ts := drift_terms u q0 s0 in
  exists c a b, bsum (o_n (u_obj u)) c = 0 /\ (forall k, (k < List.length ts)%nat -> bsum (o_n (u_obj u)) (fun i => c i * F_of ts k i) = 0) /\
  forall E q s r p pos, urun E u q s r -> shown (u_obj u) q p pos ->
    r_value r p = Some (a + bsum (List.length ts) (fun k => b k * f_of ts p pos k) + bsum (o_n (u_obj u)) (fun i => c i * g_of (u_obj u) pos i)).
Proof. exact u_surface_user. Qed.
Print Assumptions C83_universal_surface.

Example C83_universal_nonvacuous : exists u u' rP r r', let qP := one_point 2 2 "vectorized" in let q := one_point 1 1 "vectorized" in
  adds (u_obj u) (u_obj u') /\ u_drift u' = u_drift u /\ dr_spec (u_drift u) = None /\
  (forall k, o_scaling (u_obj u) k = 1) /\ (forall k, o_angle (u_obj u) k = 0) /\
  urun WE u qP [] rP /\ urun WE u q [] r /\ urun WE u' q [] r' /\
  shown (u_obj u) qP 0 (new_place (u_obj u) (u_obj u')) /\ shown (u_obj u) q 0 (1, 1, 0) /\ shown (u_obj u') q 0 (1, 1, 0) /\
  uregular u qP [] /\ uregular u q [] /\ uregular u' q [] /\ (o_exact (u_obj u) = true -> away (u_obj u) (new_place (u_obj u) (u_obj u'))) /\
  List.length (drift_terms u q []) = 2%nat /\ o_n (u_obj u) = 3%nat.
Proof. exact ex_uadds. Qed.
