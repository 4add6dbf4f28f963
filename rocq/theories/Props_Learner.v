(** PROPERTY C72: construction of RegressionKriging and ClassificationKriging, and their
    estimators, which are shared by reference.  Vocabulary: S_Learner, S_Call. *)
From Coq Require Import String.
From Verif Require Import Base Sums Matrix M_Variogram M_Geometry M_Kriging M_Init M_Object M_Execute M_UK M_Compat M_Call S_Call M_Ilr M_Learn M_Learner S_Learner
  P_Learn3 Witness P_UK8 P_Call3 P_Learner P_Learner2 P_Learner3 P_Learner4.

(** Positional and keyword arguments of the constructors. *)
Theorem C72_regression_arguments : forall P (learners : nat -> rk_learner P),
  convention (fun pos kw => rk_call pos kw learners) (Err TypeError) [] (learn_defaults "regression_model").
Proof. intros P learners. apply learn_convention. left. reflexivity. Qed.
Print Assumptions C72_regression_arguments.
Theorem C72_classification_arguments : forall P L (learners : nat -> ck_learner P L),
  convention (fun pos kw => ck_call pos kw learners) (Err TypeError) [] (learn_defaults "classification_model").
Proof. intros P L learners. apply learn_convention. right. reflexivity. Qed.
Print Assumptions C72_classification_arguments.

(** All other options go to Krige, which checks them at once ... *)
Theorem C72_regression_options : forall P (learners : nat -> rk_learner P) l kw, (forall k, In k (map fst kw) -> In k (map fst krige_defaults)) ->
  rk_call [] (("regression_model"%string, V_learner l) :: kw) learners =
  if ln_ok (learners l) then (do k <- krige_call [] kw ;; Ok {| ob_learner := l; ob_own := {| ro_ncp := k_window k; ro_krige := k |} |}) else Err RuntimeErr.
Proof. exact @rk_call_options. Qed.
Print Assumptions C72_regression_options.
Example C72_options_nonvacuous : exists o,
  rk_call [] [("regression_model"%string, V_learner 1); ("n_closest_points"%string, V_window (Some 3%nat))] regressors = Ok o /\
  ob_learner o = 1%nat /\ k_window (ro_krige (ob_own o)) = Some 3%nat /\ k_nlags (ro_krige (ob_own o)) = 6%nat.
Proof. exact rk_new_example. Qed.

(** ... or which are kept for fit, unchecked: any method name is accepted here. *)
Theorem C72_classification_options : forall P L (learners : nat -> ck_learner P L) l kw,
  (forall name v, In (name, v) kw -> right_kind name v) -> ln_ok (learners l) = true ->
  exists k, ck_call [] (("classification_model"%string, V_learner l) :: kw) learners =
    Ok {| ob_learner := l; ob_own := {| co_ncp := k_window k; co_options := k; co_classes := []; co_krige := [] |} |} /\
    k_fitted k = None /\
    forall name, dict_get (get_params_of k) name = match dict_get kw name with Some v => Some v | None => dict_get krige_defaults name end.
Proof. exact @ck_options_spec. Qed.
Print Assumptions C72_classification_options.
Example C72_unchecked_nonvacuous : right_kind "method"%string (V_str "no such method").
Proof. exists (V_str "ordinary"). split; [left; reflexivity|exact I]. Qed.

(** Anything but an estimator of the right kind is a RuntimeError. *)
Theorem C72_needs_an_estimator : forall P L (regressors : nat -> rk_learner P) (classifiers : nat -> ck_learner P L) v kw,
  (forall k, In k (map fst kw) -> In k (map fst krige_defaults)) ->
  ((forall l, v = V_learner l -> ln_ok (regressors l) = false) -> rk_call [] (("regression_model"%string, v) :: kw) regressors = Err RuntimeErr) /\
  ((forall l, v = V_learner l -> ln_ok (classifiers l) = false) -> ck_call [] (("classification_model"%string, v) :: kw) classifiers = Err RuntimeErr).
Proof. exact @needs_estimator. Qed.
Print Assumptions C72_needs_an_estimator.

(** Objects with estimators of their own do not influence each other: in any program,
    what object i shows is what it shows when the rest of the program is left out. *)
Theorem C72_separate_estimators :
  forall P E (w : world (rk_learner P) rk_own) ops i, own_learner (fst (run_rk E w ops)) i -> learner_of w i <> None ->
    rk_outcomes_on i (snd (run_rk E w ops)) = snd (run_rk E w (rk_ops_on i ops)).
Proof. intros P E. exact (rk_isolated E). Qed.
Print Assumptions C72_separate_estimators.
Theorem C72_separate_classifiers :
  forall P E (w : world (ck_learner P nat) (ck_own nat)) ops i, own_learner (fst (run_ck E w ops)) i -> learner_of w i <> None ->
    ck_outcomes_on i (snd (run_ck E w ops)) = snd (run_ck E w (ck_ops_on i ops)).
Proof. intros P E. exact (ck_isolated E). Qed.
Print Assumptions C72_separate_classifiers.
Example C72_separate_nonvacuous : exists w, run_rk WE own_two fit_both = (w, combine fit_both [Nothing; Nothing; Values [0; 1]]) /\ own_learner w 0.
Proof. exact rk_own_two. Qed.

(** Two objects left at the default estimator share it, and do: fitting the second
    changes the predictions of the first. *)
Theorem C72_default_estimator_refuted : exists w, run_rk WE (fresh_world regressors) two_defaults =
  (w, combine two_defaults [Nothing; Nothing; Nothing; Values [0; 1]; Nothing; Values [5; 6]]) /\ learner_of w 0 = Some 0%nat /\ learner_of w 1 = Some 0%nat.
Proof. exact rk_two_defaults. Qed.
Print Assumptions C72_default_estimator_refuted.

(** In general the first object adds its own kriged residuals to the trend learned last. *)
Theorem C72_shared_estimator :
  forall P E (w : world (rk_learner P) rk_own) i j a p x y q xq extra predict v m r, i <> j -> learner_of w i = Some a -> learner_of w j = Some a ->
    ln_fit (w_learners w a) p y = Ok predict -> predict q = Ok m ->
    shows_rk E w (RResidual i xq extra) = Values v ->
    shows_rk E (fst (run_rk E w [RFit j p x y])) (RPredict i q xq extra) = Values r ->
    List.length v = List.length m /\ List.length r = List.length m /\ forall t, (t < List.length m)%nat -> rnth r t = rnth v t + rnth m t.
Proof. intros P E. exact (rk_shared E). Qed.
Print Assumptions C72_shared_estimator.
Theorem C72_shared_classifier :
  forall P E (w : world (ck_learner P nat) (ck_own nat)) i j a p x y classes proba q xq extra, i <> j -> learner_of w i = Some a -> learner_of w j = Some a ->
    ln_fit (w_learners w a) p (l_list y) = Ok (classes, proba) ->
    let w' := fst (run_ck E w [CFit j p x y]) in
    shows_ck E w' (CPredict i q xq extra) = shows_ck E (with_learned w a proba) (CPredict i q xq extra) /\
    shows_ck E w' (CResidual i xq extra) = shows_ck E w (CResidual i xq extra).
Proof. exact @ck_shared. Qed.
Print Assumptions C72_shared_classifier.

(** Only fits of an object with the same estimator have an effect: new objects,
    predictions, scores and fits with other estimators change nothing. *)
Theorem C72_only_fits_matter :
  forall P E (w : world (rk_learner P) rk_own) ops i op, rk_about op = Some i -> learner_of w i <> None ->
    (forall op' j, In op' ops -> rk_fits op' j -> learner_of (fst (run_rk E w ops)) j <> learner_of w i) ->
    shows_rk E (fst (run_rk E w ops)) op = shows_rk E w op.
Proof. intros P E. exact (rk_unaffected E). Qed.
Print Assumptions C72_only_fits_matter.
Theorem C72_only_classifier_fits_matter :
  forall P E (w : world (ck_learner P nat) (ck_own nat)) ops i op, ck_about op = Some i -> learner_of w i <> None ->
    (forall op' j, In op' ops -> ck_fits op' j -> learner_of (fst (run_ck E w ops)) j <> learner_of w i) ->
    shows_ck E (fst (run_ck E w ops)) op = shows_ck E w op.
Proof. intros P E. exact (ck_unaffected E). Qed.
Print Assumptions C72_only_classifier_fits_matter.

(** The attribute n_closest_points is never read: assigning it changes nothing later. *)
Theorem C72_n_closest_points_attribute :
  forall P E (w : world (rk_learner P) rk_own) (w' : world (ck_learner P nat) (ck_own nat)) ops ops' j n,
    snd (run_rk E w (RSetN j n :: ops)) = (RSetN j n, Nothing) :: snd (run_rk E w ops) /\
    snd (run_ck E w' (CSetN j n :: ops')) = (CSetN j n, Nothing) :: snd (run_ck E w' ops').
Proof. intros P E w w' ops ops' j n. split; [apply rk_attribute|apply ck_attribute]. Qed.
Print Assumptions C72_n_closest_points_attribute.

(** An object that was never fitted raises, also when its estimator has been fitted
    through another object. *)
Theorem C72_never_fitted_regression :
  forall P E (learners : nat -> rk_learner P) ops i, let w := fst (run_rk E (fresh_world learners) ops) in
  learner_of w i <> None -> (forall op, In op ops -> ~ rk_fits op i) ->
  forall p x y sw extra, shows_rk E w (RPredict i p x extra) = Raised PlainException /\
    shows_rk E w (RResidual i x extra) = Raised PlainException /\ shows_rk E w (RScore i p x y sw extra) = Raised PlainException.
Proof. exact rk_never_fitted. Qed.
Print Assumptions C72_never_fitted_regression.
Theorem C72_never_fitted_classification :
  forall P E (learners : nat -> ck_learner P nat) ops i, let w := fst (run_ck E (fresh_world learners) ops) in
  learner_of w i <> None -> (forall op, In op ops -> ~ ck_fits op i) ->
  forall p x y extra, shows_ck E w (CResidual i x extra) = Raised AttributeErr /\
    (exists e, shows_ck E w (CPredict i p x extra) = Raised e) /\ (exists e, shows_ck E w (CScore i p x y extra) = Raised e).
Proof. exact ck_never_fitted. Qed.
Print Assumptions C72_never_fitted_classification.
Example C72_never_fitted_nonvacuous : let w := fst (run_rk WE (fresh_world regressors) one_fitted) in
  learner_of w 1 = Some 0%nat /\ (forall op, In op one_fitted -> ~ rk_fits op 1).
Proof. exact (one_fitted_case WE). Qed.
