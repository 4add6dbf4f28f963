(** Specification vocabulary for C75: the cross-validation statistics of two objects. *)
From Coq Require Import String.
From Verif Require Import Base Sums Matrix M_Variogram M_Geometry M_Kriging M_Init M_Object M_Execute S_Execute.

(** Residuals times [a], standard deviations times [k]: what becomes of the normalised
    residuals epsilon = residual / standard deviation, of Q1 (|mean epsilon|), Q2 (mean
    epsilon^2) and cR (Q2 times the geometric mean of the variances). *)
Record stats_scaled (a k : R) (st st' : stats) : Prop := {
  ss_delta : st_delta st' = map (fun x => a * x) (st_delta st);
  ss_sigma : st_sigma st' = map (fun x => k * x) (st_sigma st);
  ss_epsilon : st_epsilon st' = map (fun x => a / k * x) (st_epsilon st);
  ss_Q1 : st_Q1 st' = option_map (fun x => Rabs a / k * x) (st_Q1 st);
  ss_Q2 : st_Q2 st' = option_map (fun x => (a / k)² * x) (st_Q2 st);
  ss_cR : st_cR st' = option_map (fun x => a² * x) (st_cR st) }.

(** The statistics of both objects, related so. *)
Definition statistics_scaled (a k : R) (o o' : obj) : Prop :=
  exists st st', o_stats o = Some st /\ o_stats o' = Some st' /\ stats_scaled a k st st'.

(** No residual was left out (all prediction variances are above 1e-10). *)
Definition all_residuals (o : obj) : Prop :=
  exists st, o_stats o = Some st /\ List.length (st_delta st) = (o_n o - 1)%nat.

(** An object whose statistics belong to its current variogram: freshly constructed (with
    enable_statistics, an option of OrdinaryKriging), or its last update_variogram_model
    returned. *)
Definition current_statistics (E : env) (c : kclass) (A : cargs) (us : list vargs) (o : obj) : Prop :=
  built E c A us o /\
  ((us = [] /\ (c = OK2 -> c_stat A = true)) \/
   exists us0 v o0, us = us0 ++ [v] /\ built E c A us0 o0 /\ update_variogram_model E o0 v = (o, None)).
