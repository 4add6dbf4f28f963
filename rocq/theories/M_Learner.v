(** MODEL: the constructors of RegressionKriging (/repo/src/pykrige/rk.py 58-104) and
    ClassificationKriging (/repo/src/pykrige/ck.py 59-105) as the user calls them, and
    programs that use several such objects.  A scikit-learn estimator is a mutable
    object, held by reference: two objects built with the same estimator share it.  The
    defaults SVR() and SVC() are evaluated once, when the class is defined, so they are
    one object each, shared by all calls that leave the argument out: identity 0. *)
From Coq Require Import String.
From Verif Require Import Base Sums Matrix M_Variogram M_Geometry M_Kriging M_Init M_Object M_Execute M_UK M_Compat M_Call M_Ilr M_Learn.

(** An estimator: is it an instance of BaseEstimator and RegressorMixin (ClassifierMixin)?
    its fit method, and what it has learned. *)
Record learner (Fit F : Type) := { ln_ok : bool; ln_fit : Fit; ln_fitted : option F }.
Arguments ln_ok {Fit F}. Arguments ln_fit {Fit F}. Arguments ln_fitted {Fit F}.

(** Objects hold the identity of their estimator, and attributes of their own. *)
Record obj (A : Type) := { ob_learner : nat; ob_own : A }.
Arguments ob_learner {A}. Arguments ob_own {A}.
Record world (L A : Type) := { w_learners : nat -> L; w_objs : list (obj A) }.
Arguments w_learners {L A}. Arguments w_objs {L A}.

(** What an operation shows: nothing, an exception, or the value returned. *)
Inductive outcome := Nothing | Raised (e : exn) | Values (l : list R) | Rows (l : list (list R)) | Classes (l : list nat)
| Score2 (r : option R) | Accuracy (r : R).
Definition raised (e : option exn) : outcome := match e with Some e => Raised e | None => Nothing end.
Definition returned {A} (f : A -> outcome) (r : res A) : outcome := match r with Ok a => f a | Err e => Raised e end.

(** Python: o = Class( ... ); or a method of the j-th object, which may change the object
    and its estimator. *)
Inductive action (L A : Type) :=
| Create (make : (nat -> L) -> res (obj A))
| Act (j : nat) (f : L -> A -> L * A * outcome).
Arguments Create {L A}. Arguments Act {L A}.
Fixpoint replace_nth {A} (j : nat) (a : A) (l : list A) : list A :=
  match l, j with [], _ => [] | _ :: l, 0%nat => a :: l | b :: l, S j => b :: replace_nth j a l end.
Definition step {L A} (w : world L A) (a : action L A) : world L A * outcome :=
  match a with
  | Create make =>
      match make (w_learners w) with
      | Err e => (w, Raised e)
      | Ok o => ({| w_learners := w_learners w; w_objs := w_objs w ++ [o] |}, Nothing)
      end
  | Act j f =>
      match nth_error (w_objs w) j with
      | None => (w, Nothing)
      | Some o =>
          let '(l, own, out) := f (w_learners w (ob_learner o)) (ob_own o) in
          ({| w_learners := fun b => if Nat.eqb b (ob_learner o) then l else w_learners w b;
              w_objs := replace_nth j {| ob_learner := ob_learner o; ob_own := own |} (w_objs w) |}, out)
      end
  end.

(** ---- the constructors ---- *)
Open Scope string_scope.
(** rk.py 58-80, ck.py 59-81 *)
Definition learn_sig (model : string) : signature :=
  [(model, Some (V_learner 0)); ("method", Some (V_str "ordinary")); ("variogram_model", Some (V_model (VName "linear")));
   ("n_closest_points", Some (V_window (Some 10%nat))); ("nlags", Some (V_nat 6)); ("weight", Some (V_bool false));
   ("verbose", Some (V_bool false)); ("exact_values", Some (V_exact (Some true))); ("pseudo_inv", Some (V_bool false));
   ("pseudo_inv_type", Some (V_str "pinv")); ("variogram_parameters", Some (V_params PNone)); ("variogram_function", Some (V_fun FNone));
   ("anisotropy_scaling", Some (V_reals [1; 1])); ("anisotropy_angle", Some (V_reals [0; 0; 0]));
   ("enable_statistics", Some (V_bool false)); ("coordinates_type", Some (V_str "euclidean"));
   ("drift_terms", Some (V_terms [])); ("point_drift", Some (V_wells None)); ("ext_drift_grid", Some (V_ext None None None));
   ("functional_drift", Some (V_funs None))].
(** method=method, ...: rk.py 84-104, ck.py 85-105 *)
Definition forwarded : list string :=
  ["method"; "variogram_model"; "nlags"; "weight"; "n_closest_points"; "verbose"; "exact_values"; "pseudo_inv"; "pseudo_inv_type";
   "variogram_parameters"; "variogram_function"; "anisotropy_scaling"; "anisotropy_angle"; "enable_statistics"; "coordinates_type";
   "drift_terms"; "point_drift"; "ext_drift_grid"; "functional_drift"].
Definition forward (d : kwargs) : res kwargs := mapM (fun k => do v <- get d k ;; Ok (k, v)) forwarded.
(** compat.py 294-307 *)
Definition check_sklearn_model {Fit F} (learners : nat -> learner Fit F) (v : pyval) : res nat :=
  match v with V_learner l => if ln_ok (learners l) then Ok l else Err RuntimeErr | _ => Err RuntimeErr end.

(** A RegressionKriging: rk.py 81-83 *)
Record rk_own := { ro_ncp : option nat; ro_krige : krige }.
Definition rk_learner (P : Type) := learner (regressor P) (P -> res (list R)).
(** RegressionKriging( *pos, **kw ): rk.py 58-104 *)
Definition rk_call {P} (pos : list pyval) (kw : kwargs) (learners : nat -> rk_learner P) : res (obj rk_own) :=
  do kw' <- positional (learn_sig "regression_model") pos kw ;;
  do d <- bind_args (learn_sig "regression_model") kw' ;;
  do v <- get d "regression_model" ;;
  do l <- check_sklearn_model learners v ;;
  do fw <- forward d ;;
  do k <- krige_call [] fw ;;
  Ok {| ob_learner := l; ob_own := {| ro_ncp := k_window k; ro_krige := k |} |}.

(** A ClassificationKriging: ck.py 82-84; the keyword arguments are kept for fit, as the
    options of a Krige not yet made.  (A value of the wrong kind is a TypeError here;
    Python would raise later.) *)
Record ck_own (L : Type) := { co_ncp : option nat; co_options : krige; co_classes : list L; co_krige : list krige }.
Arguments co_ncp {L}. Arguments co_options {L}. Arguments co_classes {L}. Arguments co_krige {L}.
Definition ck_learner (P L : Type) := learner (classifier P L) (P -> res (list (list R))).
(** ClassificationKriging( *pos, **kw ): ck.py 59-105 *)
Definition ck_call {P L} (pos : list pyval) (kw : kwargs) (learners : nat -> ck_learner P L) : res (obj (ck_own L)) :=
  do kw' <- positional (learn_sig "classification_model") pos kw ;;
  do d <- bind_args (learn_sig "classification_model") kw' ;;
  do v <- get d "classification_model" ;;
  do l <- check_sklearn_model learners v ;;
  do fw <- forward d ;;
  do d' <- bind_args krige_sig fw ;;
  do k <- krige_of d' ;;
  Ok {| ob_learner := l; ob_own := {| co_ncp := k_window k; co_options := k; co_classes := []; co_krige := [] |} |}.
Close Scope string_scope.

(** ---- methods of RegressionKriging, on the estimator it refers to ---- *)
Definition rk_view {P} (l : rk_learner P) (o : rk_own) : rk_state P := {| rk_reg := ln_fitted l; rk_krige := ro_krige o |}.
Inductive rk_op (P : Type) :=
| RNew (pos : list pyval) (kw : kwargs)                                         (* rk.py 58-104 *)
| RFit (j : nat) (p : P) (x : points) (y : list R)                              (* rk.py 106-127 *)
| RPredict (j : nat) (p : P) (x : points) (extra : kwargs)                      (* rk.py 129-149 *)
| RResidual (j : nat) (x : points) (extra : kwargs)                             (* rk.py 151-166 *)
| RScore (j : nat) (p : P) (x : points) (y : list R) (w : option (list R)) (extra : kwargs)   (* rk.py 168-186 *)
| RSetN (j : nat) (n : option nat).                                             (* object.n_closest_points = n *)
Arguments RNew {P}. Arguments RFit {P}. Arguments RPredict {P}. Arguments RResidual {P}. Arguments RScore {P}. Arguments RSetN {P}.
Definition rk_action {P} (E : env) (op : rk_op P) : action (rk_learner P) rk_own :=
  match op with
  | RNew pos kw => Create (rk_call pos kw)
  | RFit j p x y => Act j (fun l o => let '(s, e) := rk_fit E (ln_fit l) (rk_view l o) p x y in
      ({| ln_ok := ln_ok l; ln_fit := ln_fit l; ln_fitted := rk_reg s |}, {| ro_ncp := ro_ncp o; ro_krige := rk_krige s |}, raised e))
  | RPredict j p x extra => Act j (fun l o => (l, o, returned Values (rk_predict E (rk_view l o) p x extra)))
  | RResidual j x extra => Act j (fun l o => (l, o, returned Values (rk_krige_residual E (rk_view l o) x extra)))
  | RScore j p x y w extra => Act j (fun l o => (l, o, returned Score2 (rk_score E (rk_view l o) p x y w extra)))
  | RSetN j n => Act j (fun l o => (l, {| ro_ncp := n; ro_krige := ro_krige o |}, Nothing))
  end.

(** ---- methods of ClassificationKriging ---- *)
Definition ck_view {P L} (l : ck_learner P L) (o : ck_own L) : ck_state P L :=
  {| ck_options := co_options o; ck_classes := co_classes o; ck_proba := ln_fitted l; ck_krige := co_krige o |}.
Inductive ck_op (P : Type) :=
| CNew (pos : list pyval) (kw : kwargs)                                         (* ck.py 59-105 *)
| CFit (j : nat) (p : P) (x : points) (y : labels nat)                          (* ck.py 107-141 *)
| CPredict (j : nat) (p : P) (x : points) (extra : kwargs)                      (* ck.py 143-170 *)
| CResidual (j : nat) (x : points) (extra : kwargs)                             (* ck.py 172-192 *)
| CScore (j : nat) (p : P) (x : points) (y : list nat) (extra : kwargs)         (* ck.py 194-212 *)
| CSetN (j : nat) (n : option nat).                                             (* object.n_closest_points = n *)
Arguments CNew {P}. Arguments CFit {P}. Arguments CPredict {P}. Arguments CResidual {P}. Arguments CScore {P}. Arguments CSetN {P}.
Definition ck_action {P} (E : env) (op : ck_op P) : action (ck_learner P nat) (ck_own nat) :=
  match op with
  | CNew pos kw => Create (ck_call pos kw)
  | CFit j p x y => Act j (fun l o => let '(s, e) := ck_fit E Nat.eqb (ln_fit l) (ck_view l o) p x y in
      ({| ln_ok := ln_ok l; ln_fit := ln_fit l; ln_fitted := ck_proba s |},
       {| co_ncp := co_ncp o; co_options := co_options o; co_classes := ck_classes s; co_krige := ck_krige s |}, raised e))
  | CPredict j p x extra => Act j (fun l o => (l, o, returned Classes (ck_predict E (ck_view l o) p x extra)))
  | CResidual j x extra => Act j (fun l o => (l, o, returned Rows (ck_krige_residual E (ck_view l o) x extra)))
  | CScore j p x y extra => Act j (fun l o => (l, o, returned Accuracy (ck_score E (ck_view l o) p x y extra)))
  | CSetN j n => Act j (fun l o => (l, {| co_ncp := n; co_options := co_options o; co_classes := co_classes o; co_krige := co_krige o |}, Nothing))
  end.

(** ---- programs ---- *)
(** the operations in order, with what each shows *)
Fixpoint run_ops {L A Op} (act : Op -> action L A) (w : world L A) (ops : list Op) : world L A * list (Op * outcome) :=
  match ops with
  | [] => (w, [])
  | op :: ops =>
      let '(w1, out) := step w (act op) in
      let '(w2, tr) := run_ops act w1 ops in
      (w2, (op, out) :: tr)
  end.
Definition run_rk {P} (E : env) := @run_ops _ _ (rk_op P) (rk_action E).
Definition run_ck {P} (E : env) := @run_ops _ _ (ck_op P) (ck_action E).
