(** SPECIFICATION for C72. *)
From Coq Require Import String.
From Verif Require Import Base Sums Matrix M_Variogram M_Geometry M_Kriging M_Init M_Object M_Execute M_UK M_Compat M_Call M_Ilr M_Learn M_Learner S_Call.
Open Scope string_scope.

(** RegressionKriging, ClassificationKriging: the estimator first (by default one object,
    number 0), then the options of Krige in an order of their own. *)
Definition learn_defaults (model : string) : kwargs :=
  [(model, V_learner 0); ("method", V_str "ordinary"); ("variogram_model", V_model (VName "linear"));
   ("n_closest_points", V_window (Some 10%nat)); ("nlags", V_nat 6); ("weight", V_bool false); ("verbose", V_bool false);
   ("exact_values", V_exact (Some true)); ("pseudo_inv", V_bool false); ("pseudo_inv_type", V_str "pinv");
   ("variogram_parameters", V_params PNone); ("variogram_function", V_fun FNone); ("anisotropy_scaling", V_reals [1; 1]);
   ("anisotropy_angle", V_reals [0; 0; 0]); ("enable_statistics", V_bool false); ("coordinates_type", V_str "euclidean");
   ("drift_terms", V_terms []); ("point_drift", V_wells None); ("ext_drift_grid", V_ext None None None); ("functional_drift", V_funs None)].
Close Scope string_scope.

(** The object an operation is about. *)
Definition rk_about {P} (op : rk_op P) : option nat :=
  match op with RNew _ _ => None | RFit j _ _ _ | RPredict j _ _ _ | RResidual j _ _ | RScore j _ _ _ _ _ | RSetN j _ => Some j end.
Definition ck_about {P} (op : ck_op P) : option nat :=
  match op with CNew _ _ => None | CFit j _ _ _ | CPredict j _ _ _ | CResidual j _ _ | CScore j _ _ _ _ | CSetN j _ => Some j end.
Definition is_about (a : option nat) (i : nat) : bool := match a with Some j => Nat.eqb j i | None => false end.
(** The part of a program, or of its outcomes, about object i. *)
Definition rk_ops_on {P} (i : nat) (ops : list (rk_op P)) := filter (fun op => is_about (rk_about op) i) ops.
Definition rk_outcomes_on {P} (i : nat) (tr : list (rk_op P * outcome)) := filter (fun e => is_about (rk_about (fst e)) i) tr.
Definition ck_ops_on {P} (i : nat) (ops : list (ck_op P)) := filter (fun op => is_about (ck_about op) i) ops.
Definition ck_outcomes_on {P} (i : nat) (tr : list (ck_op P * outcome)) := filter (fun e => is_about (ck_about (fst e)) i) tr.

(** The estimator (identity) of the i-th object. *)
Definition learner_of {L A} (w : world L A) (i : nat) : option nat := option_map ob_learner (nth_error (w_objs w) i).
(** No object shares its estimator with object i. *)
Definition own_learner {L A} (w : world L A) (i : nat) : Prop :=
  exists a, learner_of w i = Some a /\ forall j, j <> i -> learner_of w j <> Some a.

(** What the i-th object answers now. *)
Definition shows_rk {P} (E : env) (w : world (rk_learner P) rk_own) (op : rk_op P) : outcome := snd (step w (rk_action E op)).
Definition shows_ck {P} (E : env) (w : world (ck_learner P nat) (ck_own nat)) (op : ck_op P) : outcome := snd (step w (ck_action E op)).
Definition rk_fits {P} (op : rk_op P) (j : nat) : Prop := exists p x y, op = RFit j p x y.
Definition ck_fits {P} (op : ck_op P) (j : nat) : Prop := exists p x y, op = CFit j p x y.
(** The same objects, but the estimator [a] has learned [f]. *)
Definition with_learned {Fit F A} (w : world (learner Fit F) A) (a : nat) (f : F) : world (learner Fit F) A :=
  {| w_learners := fun b => if Nat.eqb b a then {| ln_ok := ln_ok (w_learners w a); ln_fit := ln_fit (w_learners w a); ln_fitted := Some f |} else w_learners w b;
     w_objs := w_objs w |}.
(** Keyword arguments without the estimator, which is the default one. *)
Definition fresh_world {Fit F A} (l : nat -> learner Fit F) : world (learner Fit F) A := {| w_learners := l; w_objs := [] |}.
