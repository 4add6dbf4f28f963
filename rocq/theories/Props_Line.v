(** PROPERTIES C77-C79: closed forms, far from the data, continuity.  Vocabulary: S_Line.
    [uses o q pos m sel]: the data used for the location are sel 0 .. sel (m-1) (all of them
    without a moving window). *)
From Coq Require Import String.
From Verif Require Import Base Sums Matrix M_Variogram M_Geometry S_Geometry M_Kriging S_Kriging M_Init M_Object M_Execute S_Execute
  S_Valid S_Line P_Line P_Far P_Far2 P_Far3 P_Line2 P_Line3 M_UK S_UK P_UKGrid P_UKFar P_UKFar2 P_UKFar3.

(** ** C77 *)
(** Linear variogram without nugget, data and location on a line: linear interpolation between
    the two neighbours (among the data used), with variance 2 slope (x-a)(b-x)/(b-a). *)
Theorem C77_line_between :
  forall E o q r p pos t x s, run E o q r -> shown o q p pos -> regular_for o q -> on_line o t pos x -> resolved o pos ->
    (forall d, 0 <= d -> o_vg o d = s * d) ->
    exists m sel, uses o q pos m sel /\
      forall a b, (a < m)%nat -> (b < m)%nat -> t (sel a) < t (sel b) -> t (sel a) <= x <= t (sel b) ->
        (forall c, (c < m)%nat -> ~ (t (sel a) < t (sel c) < t (sel b))) ->
        r_value r p = Some (((t (sel b) - x) * o_values o (sel a) + (x - t (sel a)) * o_values o (sel b)) / (t (sel b) - t (sel a))) /\
        r_variance r p = Some (2 * s * (x - t (sel a)) * (t (sel b) - x) / (t (sel b) - t (sel a))).
Proof. exact line_between. Qed.
Print Assumptions C77_line_between.

(** Outside: the value of the nearest datum; the variance grows linearly. *)
Theorem C77_line_outside :
  forall E o q r p pos t x s, run E o q r -> shown o q p pos -> regular_for o q -> on_line o t pos x -> resolved o pos ->
    (forall d, 0 <= d -> o_vg o d = s * d) ->
    exists m sel, uses o q pos m sel /\
      forall a, (a < m)%nat ->
        ((forall c, (c < m)%nat -> t (sel a) <= t (sel c)) /\ x <= t (sel a) \/ (forall c, (c < m)%nat -> t (sel c) <= t (sel a)) /\ t (sel a) <= x) ->
        r_value r p = Some (o_values o (sel a)) /\ r_variance r p = Some (2 * s * Rabs (x - t (sel a))).
Proof. exact line_outside. Qed.
Print Assumptions C77_line_outside.
Example C77_nonvacuous : exists E o q r t, run E o q r /\ shown o q 0 (2, 0, 0) /\ regular_for o q /\ on_line o t (2, 0, 0) 2 /\ resolved o (2, 0, 0) /\
  (forall d, 0 <= d -> o_vg o d = 2 * d) /\ q_window q = None /\ o_n o = 3%nat /\ t 0%nat = 0 /\ t 1%nat = 1 /\ t 2%nat = 3.
Proof. exact ex_line. Qed.

(** Two data, any variogram. *)
Theorem C77_two_data :
  forall E o q r p pos, run E o q r -> shown o q p pos -> regular_for o q -> o_n o = 2%nat ->
    let g0 := g_of o pos 0%nat in let g1 := g_of o pos 1%nat in let c := o_vg o (separation o (datum o 0%nat) (datum o 1%nat)) in
    c <> 0 ->
    r_value r p = Some ((o_values o 0%nat + o_values o 1%nat) / 2 + (o_values o 1%nat - o_values o 0%nat) * (g0 - g1) / (2 * c)) /\
    r_variance r p = Some (g0 + g1 - c / 2 - (g0 - g1)² / (2 * c)).
Proof. exact two_data. Qed.
Print Assumptions C77_two_data.

(** Predictions are not bound to the range of the data. *)
Theorem C77_within_data_range_refuted : exists E o q r pos v, run E o q r /\ shown o q 0 pos /\ proper o /\ q_window q = None /\ o_pinv o = false /\ o_n o = 2%nat /\
  r_value r 0%nat = Some v /\ forall i, (i < o_n o)%nat -> o_values o i < v.
Proof. exact range_left. Qed.
Print Assumptions C77_within_data_range_refuted.

(** ** C78 *)
(** A pure nugget gives the mean of the data used. *)
Theorem C78_pure_nugget :
  forall E o q r p pos c, run E o q r -> shown o q p pos -> regular_for o q -> 0 < c -> (forall d, 0 <= d -> o_vg o d = c) ->
    (o_exact o = true -> away o pos) ->
    exists m sel, uses o q pos m sel /\
      r_value r p = Some (mean m (fun a => o_values o (sel a))) /\ r_variance r p = Some (c * (1 + / INR m)).
Proof. exact pure_nugget. Qed.
Print Assumptions C78_pure_nugget.
Example C78_nugget_nonvacuous : exists E o q r, run E o q r /\ shown o q 0 (1, 0, 0) /\ regular_for o q /\ (forall d, 0 <= d -> o_vg o d = 3) /\
  away o (1, 0, 0) /\ q_window q = None /\ o_n o = 3%nat.
Proof. exact ex_pure_nugget. Qed.

(** Models with a sill: far from all data every location gets (nearly) the same prediction, a
    weighted mean of the data, and the same variance, which is at least the sill. *)
Theorem C78_far_from_the_data :
  forall o, o_ct o = Euclidean -> sill_model o -> regular o ->
    exists v s, sill o <= s /\
      (exists w, bsum (o_n o) w = 1 /\ v = bsum (o_n o) (fun i => w i * o_values o i)) /\
      forall e, 0 < e -> exists D, forall E q r p pos, run E o q r -> q_window q = None -> shown o q p pos ->
        (forall i, (i < o_n o)%nat -> D < separation o pos (datum o i)) ->
        exists v' s', r_value r p = Some v' /\ r_variance r p = Some s' /\ Rabs (v' - v) < e /\ Rabs (s' - s) < e.
Proof. exact far_limit. Qed.
Print Assumptions C78_far_from_the_data.

(** Beyond the range of a spherical model exactly the same. *)
Theorem C78_beyond_the_range :
  forall E o q q' r r' p p' pos pos', o_ct o = Euclidean -> o_fun o = f_spherical -> sill_model o -> regular_for o q ->
    run E o q r -> run E o q' r' -> q_window q = None -> q_window q' = None -> shown o q p pos -> shown o q' p' pos' ->
    (forall i, (i < o_n o)%nat -> Rmax eps (rnth (o_params o) 1) < separation o pos (datum o i) /\ Rmax eps (rnth (o_params o) 1) < separation o pos' (datum o i)) ->
    r_value r p = r_value r' p' /\ r_variance r p = r_variance r' p' /\ exists s, r_variance r p = Some s /\ sill o <= s.
Proof. exact beyond_range. Qed.
Print Assumptions C78_beyond_the_range.
Example C78_far_nonvacuous : exists E o q q' r r', run E o q r /\ run E o q' r' /\ shown o q 0 (10, 0, 0) /\ shown o q' 0 (0, -20, 0) /\ q_window q = None /\ q_window q' = None /\
  o_ct o = Euclidean /\ o_fun o = f_spherical /\ sill_model o /\ sill o = 1 /\ regular_for o q /\ regular o /\ (2 <= o_n o)%nat /\
  (forall i, (i < o_n o)%nat -> Rmax eps (rnth (o_params o) 1) < separation o (10, 0, 0) (datum o i) /\ Rmax eps (rnth (o_params o) 1) < separation o (0, -20, 0) (datum o i)).
Proof. exact ex_far. Qed.

(** ** C79 *)
(** Predictions and variances depend continuously on the location, away from the data. *)
Theorem C79_continuous :
  forall E o q r p pos, run E o q r -> shown o q p pos -> regular_for o q -> q_window q = None ->
    (o_exact o = true -> away o pos) -> (forall i, (i < o_n o)%nat -> continuous_at (o_vg o) (separation o pos (datum o i))) ->
    forall e, 0 < e -> exists delta, 0 < delta /\ forall q' r' p' pos', run E o q' r' -> q_window q' = None -> shown o q' p' pos' ->
      separation o pos' pos < delta ->
      exists v v' s s', r_value r p = Some v /\ r_value r' p' = Some v' /\ r_variance r p = Some s /\ r_variance r' p' = Some s' /\
        Rabs (v' - v) < e /\ Rabs (s' - s) < e.
Proof. exact continuous_predictions. Qed.
Print Assumptions C79_continuous.
Example C79_nonvacuous : exists E o q r, run E o q r /\ shown o q 0 (2, 0, 0) /\ regular_for o q /\ q_window q = None /\ o_exact o = true /\ away o (2, 0, 0) /\ o_n o = 3%nat /\
  (forall i, (i < o_n o)%nat -> continuous_at (o_vg o) (separation o (2, 0, 0) (datum o i))).
Proof. exact ex_continuous. Qed.

(** The built-in models are continuous. *)
Theorem C79_builtin_models :
  forall f m d, In f (map snd variogram_dict) -> 0 < d -> (f <> f_linear -> f <> f_power -> 0 < rnth m 1) -> continuous_at (fcall f m) d.
Proof. exact builtin_continuous. Qed.
Print Assumptions C79_builtin_models.

(** Not everywhere: with a nugget and exact_values there is a jump around each datum. *)
Theorem C79_everywhere_refuted : exists E o q r pos v, run E o q r /\ shown o q 0 pos /\ proper o /\ q_window q = None /\ o_pinv o = false /\ o_exact o = true /\ 0 < o_vg o 0 /\
  r_value r 0%nat = Some v /\
  forall delta, 0 < delta -> exists q' r' pos' v', run E o q' r' /\ q_window q' = None /\ shown o q' 0 pos' /\ separation o pos' pos < delta /\
    r_value r' 0%nat = Some v' /\ 1 / 4 <= Rabs (v' - v).
Proof. exact jump_at_data. Qed.
Print Assumptions C79_everywhere_refuted.

(** With a moving window, where no two data are equally far: also continuous. *)
Theorem C79_continuous_moving_window :
  forall E o q r p pos k, run E o q r -> shown o q p pos -> q_window q = Some k -> no_ties o pos ->
    (o_exact o = true -> away o pos) -> (forall i, (i < o_n o)%nat -> continuous_at (o_vg o) (separation o pos (datum o i))) ->
    forall e, 0 < e -> exists delta, 0 < delta /\ forall q' r' p' pos', run E o q' r' -> q_window q' = Some k -> shown o q' p' pos' ->
      separation o pos' pos < delta ->
      exists v v' s s', r_value r p = Some v /\ r_value r' p' = Some v' /\ r_variance r p = Some s /\ r_variance r' p' = Some s' /\
        Rabs (v' - v) < e /\ Rabs (s' - s) < e.
Proof. exact continuous_window. Qed.
Print Assumptions C79_continuous_moving_window.
Example C79_moving_window_nonvacuous : exists E o q r, run E o q r /\ shown o q 0 (1, 0, 0) /\ q_window q = Some 2%nat /\ no_ties o (1, 0, 0) /\ o_exact o = true /\ away o (1, 0, 0) /\ o_n o = 4%nat /\
  (forall i, (i < o_n o)%nat -> continuous_at (o_vg o) (separation o (1, 0, 0) (datum o i))).
Proof. exact ex_window. Qed.

(** With a moving window predictions jump where the set of nearest data changes: data 2, 5, 1 at
    0, 1, 3 and a linear variogram; two nearest data; on both sides of 3/2. *)
Theorem C79_moving_window_refuted :
  exists E o, env_ok E /\ proper o /\ ordinary o /\ o_pinv o = false /\ o_exact o = true /\ o_n o = 3%nat /\ (forall d, 0 <= d -> o_vg o d = 2 * d) /\
    forall delta, 0 < delta -> exists q q' r r' pos pos' v v', run E o q r /\ run E o q' r' /\ q_window q = Some 2%nat /\ q_window q' = Some 2%nat /\
      shown o q 0 pos /\ shown o q' 0 pos' /\ away o pos /\ away o pos' /\ separation o pos' pos < delta /\
      r_value r 0 = Some v /\ r_value r' 0 = Some v' /\ v' + 1 < v.
Proof. exact window_jump. Qed.
Print Assumptions C79_moving_window_refuted.

(** Universal kriging: continuous in the location and the values of the drift functions there ... *)
Theorem C79_universal_location_and_drift :
  forall E u q specs r p pos, urun E u q specs r -> shown (u_obj u) q p pos -> uregular u q specs -> faithful_specs u q ->
    (o_exact (u_obj u) = true -> away (u_obj u) pos) ->
    (forall i, (i < o_n (u_obj u))%nat -> continuous_at (o_vg (u_obj u)) (separation (u_obj u) pos (datum (u_obj u) i))) ->
    forall e, 0 < e -> exists delta, 0 < delta /\ forall q' specs' r' p' pos', urun E u q' specs' r' -> faithful_specs u q' -> shown (u_obj u) q' p' pos' ->
      near delta pos pos' ->
      (forall k, (k < List.length (drift_terms u q specs))%nat -> Rabs (f_of (drift_terms u q' specs') p' pos' k - f_of (drift_terms u q specs) p pos k) < delta) ->
      exists v v' s s', r_value r p = Some v /\ r_value r' p' = Some v' /\ r_variance r p = Some s /\ r_variance r' p' = Some s' /\
        Rabs (v' - v) < e /\ Rabs (s' - s) < e.
Proof. exact uk_continuous_values. Qed.
Print Assumptions C79_universal_location_and_drift.

(** ... and, without specified drift arrays, in the location: regional linear drift, wells (not at a
    well), external grid (also across its cells), functions of the user (where continuous). *)
Theorem C79_universal_continuous :
  forall E u q r p pos, urun E u q [] r -> shown (u_obj u) q p pos -> uregular u q [] -> dr_spec (u_drift u) = None ->
    (o_exact (u_obj u) = true -> away (u_obj u) pos) ->
    (forall i, (i < o_n (u_obj u))%nat -> continuous_at (o_vg (u_obj u)) (separation (u_obj u) pos (datum (u_obj u) i))) ->
    drift_continuous u pos ->
    forall e, 0 < e -> exists delta, 0 < delta /\ forall q' r' p' pos', urun E u q' [] r' -> shown (u_obj u) q' p' pos' -> near delta pos pos' ->
      exists v v' s s', r_value r p = Some v /\ r_value r' p' = Some v' /\ r_variance r p = Some s /\ r_variance r' p' = Some s' /\
        Rabs (v' - v) < e /\ Rabs (s' - s) < e.
Proof. exact uk_continuous. Qed.
Print Assumptions C79_universal_continuous.
Example C79_universal_nonvacuous : exists E u q r pos, urun E u q [] r /\ shown (u_obj u) q 0 pos /\ uregular u q [] /\ dr_spec (u_drift u) = None /\
  o_exact (u_obj u) = true /\ away (u_obj u) pos /\ o_n (u_obj u) = 2%nat /\
  (forall i, (i < o_n (u_obj u))%nat -> continuous_at (o_vg (u_obj u)) (separation (u_obj u) pos (datum (u_obj u) i))) /\
  drift_continuous u pos /\ opt_list (dr_wells (u_drift u)) <> [].
Proof. exact ex_uk_continuous. Qed.
