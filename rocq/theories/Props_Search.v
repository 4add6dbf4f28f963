(** PROPERTY C73: score, cross-validation and parameter search of Krige.
    Vocabulary: S_Search, S_Compat, S_Learn. *)
From Coq Require Import String.
From Verif Require Import Base Sums Matrix M_Variogram M_Geometry S_Geometry M_Kriging S_Kriging M_Init M_Object M_Execute S_Execute M_UK S_UK M_Compat S_Compat
  M_Call S_Call M_Learn S_Learn P_Learn3 Witness P_UK8 M_Search S_Search P_Search.

(** C73.  Krige.score is the coefficient of determination of predict. *)
Theorem C73_score :
  forall E k x y w v, krige_score E k x y w = Ok (Some v) -> (forall i, (i < List.length y)%nat -> 0 < weights_of w i) ->
    exists a p, krige_predict E k x [] = Ok a /\ as_list a = Ok p /\ List.length p = List.length y /\ v <= 1 /\
      (v = 1 <-> forall i, (i < List.length y)%nat -> rnth p i = rnth y i) /\
      let n := List.length y in
      let tot := wsquares n (weights_of w) (rnth y) (fun _ => wmean n (weights_of w) (rnth y)) in
      (tot <> 0 -> v = 1 - wsquares n (weights_of w) (rnth y) (rnth p) / tot).
Proof. exact score_is_r2. Qed.
Print Assumptions C73_score.

(** On the data it was fitted to, an exact model has score 1. *)
Theorem C73_training_score :
  forall E k x y k' a c w, env_ok E -> class_of (k_method k) = Some c -> krige_fit E k x y = (k', None) ->
    k_exact k = Some true -> k_pinv k = false -> apart k' -> krige_predict E k' x [] = Ok a ->
    List.length y = n_rows x -> (2 <= List.length y)%nat -> match w with Some l => List.length l = List.length y | None => True end ->
    krige_score E k' x y w = Ok (Some 1).
Proof. exact training_score. Qed.
Print Assumptions C73_training_score.
Example C73_training_nonvacuous : exists k', krige_fit WE kopt pts2 [1; 5] = (k', None) /\ krige_score WE k' pts2 [1; 5] None = Ok (Some 1).
Proof. exact kopt_scores. Qed.

(** Cross-validation: every score is that of a model constructed directly from the
    training rows alone, whatever the estimator was fitted to before. *)
Theorem C73_cross_validation :
  forall E k c x y cv ts j train test, cross_validate E k x y cv = Ok ts -> nth_error cv j = Some (train, test) ->
    class_of (k_method k) = Some c -> full_tuples k -> List.length (p_cols x) = cdim c ->
    exists t, nth_error ts j = Some t /\
      (t_failed t = true <-> exists e, direct_call E k c (rows x train) (entries y train) = Err e) /\
      direct_score E k c x y train test (t_test t) /\ direct_score E k c x y train train (t_train t).
Proof. exact cross_validation_direct. Qed.
Print Assumptions C73_cross_validation.

(** A data set of another dimension than the method: all fits fail, which is an error. *)
Theorem C73_wrong_dimension :
  forall E k c x y cv, class_of (k_method k) = Some c -> List.length (p_cols x) <> cdim c -> cross_validate E k x y cv = Err ValueError.
Proof. exact cross_validation_dimension. Qed.
Print Assumptions C73_wrong_dimension.

(** Leave-one-out gives no score (R2 needs two values); nor do training sets with fewer
    rows than n_closest_points (10 by default), although every fit succeeds. *)
Theorem C73_leave_one_out :
  forall E k x y cv ts t, cross_validate E k x y cv = Ok ts -> (forall s, In s cv -> List.length (snd s) = 1%nat) -> In t ts -> t_test t = None.
Proof. exact cross_validation_single. Qed.
Print Assumptions C73_leave_one_out.
Theorem C73_few_data :
  forall E k c w x y cv ts t, env_ok E -> cross_validate E k x y cv = Ok ts -> class_of (k_method k) = Some c -> c = OK2 \/ c = OK3 ->
    k_window k = Some w -> (forall s, In s cv -> (List.length (fst s) < w)%nat /\ snd s <> []) -> In t ts -> t_test t = None.
Proof. exact cross_validation_few. Qed.
Print Assumptions C73_few_data.
Example C73_few_nonvacuous : exists ts, cross_validate WE kten pts2 [1; 2] one_split = Ok ts /\ class_of (k_method kten) = Some OK2 /\
  k_window kten = Some 10%nat /\ (forall s, In s one_split -> (List.length (fst s) < 10)%nat /\ snd s <> []).
Proof. exact ex_few. Qed.
Example C73_single_nonvacuous : exists ts, cross_validate WE kopt pts2 [1; 5] [([0; 1], [1])]%nat = Ok ts.
Proof. exact ex_single. Qed.

(** Grid search: the scores of a candidate are those of cross-validating a new Krige
    with its parameters, whatever the other candidates are; a candidate that the
    constructor refuses counts as failed. *)
Theorem C73_candidates :
  forall E k cands cv x y f i, grid_search E k cands cv x y = Ok f -> (i < List.length cands)%nat ->
    let row := nth i (f_tasks f) [] in
    List.length (f_tasks f) = List.length cands /\ List.length row = List.length cv /\ mean_of row (nth i (f_means f) None) /\
    match new_with k (nth i cands []) with
    | Ok k0 => cross_validate E k0 x y cv = if forallb t_failed row then Err ValueError else Ok row
    | Err _ => row = map (fun _ => {| t_failed := true; t_test := None; t_train := None |}) cv
    end.
Proof. exact search_rows. Qed.
Print Assumptions C73_candidates.

(** The best candidate is the first one with the largest mean score (nan is worst); the
    model found is a new Krige with its parameters, fitted to all data. *)
Theorem C73_best :
  forall E k cands cv x y f, grid_search E k cands cv x y = Ok f ->
    let score j := nth j (f_means f) None in
    (f_best f < List.length cands)%nat /\
    (forall j, (j < List.length cands)%nat -> no_better (score j) (score (f_best f))) /\
    (forall j, (j < f_best f)%nat -> ~ no_better (score (f_best f)) (score j)) /\
    exists k0, new_with k (nth (f_best f) cands []) = Ok k0 /\ krige_fit E k0 x y = (f_model f, None).
Proof. exact search_best. Qed.
Print Assumptions C73_best.

(** Nothing but the parameters of the estimator matters. *)
Theorem C73_history :
  forall E k k' cands cv x y, get_params_of k' = get_params_of k ->
    cross_validate E k' x y cv = cross_validate E k x y cv /\ grid_search E k' cands cv x y = grid_search E k cands cv x y.
Proof. intros E k k' cands cv x y H. split; [exact (cross_history E k k' x y cv H)|exact (search_history E k k' cands cv x y H)]. Qed.
Print Assumptions C73_history.
Example C73_history_nonvacuous : exists k', get_params_of k' = get_params_of kopt /\ k_fitted k' <> None.
Proof. destruct kopt_scores as (k' & H & _). exists k'. exact (fit_keeps _ _ _ _ _ H). Qed.

(** A search over known parameters returns when one candidate is scored on every test
    set and candidates that fit the training sets fit all data. *)
Theorem C73_returns :
  forall E k cands cv x y c, class_of (k_method k) = Some c -> cv <> [] ->
    (forall kw, In kw cands -> forall name v, In (name, v) kw -> right_kind name v) ->
    (exists kw k0, In kw cands /\ new_with k kw = Ok k0 /\
      forall s, In s cv -> exists k1 v, krige_fit E k0 (rows x (fst s)) (entries y (fst s)) = (k1, None) /\
        krige_score E k1 (rows x (snd s)) (entries y (snd s)) None = Ok (Some v)) ->
    (forall kw k0, In kw cands -> new_with k kw = Ok k0 ->
      (forall s, In s cv -> exists k1, krige_fit E k0 (rows x (fst s)) (entries y (fst s)) = (k1, None)) ->
      exists k1, krige_fit E k0 x y = (k1, None)) ->
    exists f, grid_search E k cands cv x y = Ok f.
Proof. exact search_returns. Qed.
Print Assumptions C73_returns.
(** Three candidates: a method of the wrong dimension, too large a neighbourhood, and
    one with score 1, which is found. *)
Example C73_nonvacuous : exists f, grid_search WE kten three_cands one_split pts2 [1; 5] = Ok f /\ f_best f = 2%nat /\
  nth 0 (f_means f) None = None /\ nth 1 (f_means f) None = None /\ nth 2 (f_means f) None = Some 1.
Proof. exact ex_search. Qed.
