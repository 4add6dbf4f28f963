(** MODEL: scoring and parameter search of the wrapper Krige (compat.py 89-291), which
    gets both from scikit-learn: RegressorMixin.score, and clone / set_params / fit /
    score as GridSearchCV and cross_val_score call them (examples/08_krige_cv.py,
    tests/test_api.py).  scikit-learn's part is modelled from its documentation:
    default scoring (the estimator's own), error_score=nan, refit=True. *)
From Coq Require Import String.
From Verif Require Import Base Sums Matrix M_Variogram M_Geometry M_Kriging M_Init M_Object M_Execute M_UK M_Compat M_Call M_Ilr M_Learn.

(** RegressorMixin.score (compat.py 89: class Krige(RegressorMixin, BaseEstimator)):
    r2_score(y, self.predict(X), sample_weight).  [Ok None]: nan *)
Definition krige_score (E : env) (k : krige) (x : points) (y : list R) (w : option (list R)) : res (option R) :=
  do a <- krige_predict E k x [] ;; do p <- as_list a ;; r2_score y p w.

(** X[index], y[index] for an array of row numbers *)
Definition rows (x : points) (l : list nat) : points := {| p_int := p_int x; p_cols := map (fun c => map (rnth c) l) (p_cols x) |}.
Definition entries (y : list R) (l : list nat) : list R := map (rnth y) l.
(** a pair of a training and a test set, as row numbers *)
Definition split := (list nat * list nat)%type.

(** One fit: whether it raised, and the scores on the test and training rows; nan
    (error_score) when fit or score raises *)
Record task := { t_failed : bool; t_test : option R; t_train : option R }.
Definition or_nan (s : res (option R)) : option R := match s with Ok v => v | Err _ => None end.
(** sklearn _fit_and_score: clone(estimator).set_params( **parameters ), fit on the
    training rows, score.  Parameters that set_params refuses are an exception. *)
Definition fit_and_score (E : env) (k : krige) (kw : kwargs) (x : points) (y : list R) (s : split) : res task :=
  do k <- clone k ;;
  match set_params k kw with
  | (_, Some e) => Err e
  | (k, None) =>
      match krige_fit E k (rows x (fst s)) (entries y (fst s)) with
      | (_, Some _) => Ok {| t_failed := true; t_test := None; t_train := None |}
      | (k, None) => Ok {| t_failed := false;
                           t_test := or_nan (krige_score E k (rows x (snd s)) (entries y (snd s)) None);
                           t_train := or_nan (krige_score E k (rows x (fst s)) (entries y (fst s)) None) |}
      end
  end.

(** cross_validate(estimator, X, y, cv=splits): no parameters are set; ValueError when
    every fit fails *)
Definition cross_validate (E : env) (k : krige) (x : points) (y : list R) (cv : list split) : res (list task) :=
  do ts <- mapM (fit_and_score E k [] x y) cv ;;
  if forallb t_failed ts then Err ValueError else Ok ts.

(** the mean of the test scores: nan if one of them is nan *)
Fixpoint sum_opt (l : list (option R)) : option R :=
  match l with
  | [] => Some 0
  | a :: l => match a, sum_opt l with Some r, Some s => Some (r + s) | _, _ => None end
  end.
Definition mean_score (ts : list task) : option R :=
  match sum_opt (map t_test ts) with Some s => Some (s / INR (List.length ts)) | None => None end.

(** best_index_: the first candidate of rank 1; nan ranks last *)
Definition better (a b : option R) : bool := match a, b with Some r, Some s => Rltb s r | Some _, None => true | None, _ => false end.
Definition best_of (means : list (option R)) : nat :=
  fold_left (fun best i => if better (nth i means None) (nth best means None) then i else best) (seq 1 (List.length means - 1)) 0%nat.

Record found := { f_tasks : list (list task); f_means : list (option R); f_best : nat; f_model : krige }.
(** GridSearchCV(estimator, candidates, cv=splits).fit(X, y); an empty list of
    candidates is a ValueError.  The estimator is cloned once before all tasks. *)
Definition grid_search (E : env) (k : krige) (cands : list kwargs) (cv : list split) (x : points) (y : list R) : res found :=
  do k <- clone k ;;
  do ts <- mapM (fun kw => mapM (fit_and_score E k kw x y) cv) cands ;;
  if forallb (forallb t_failed) ts then Err ValueError
  else
    let means := map mean_score ts in
    let b := best_of means in
    do k <- clone k ;;
    match set_params k (nth b cands []) with
    | (_, Some e) => Err e
    | (k, None) =>
        match krige_fit E k x y with
        | (k, None) => Ok {| f_tasks := ts; f_means := means; f_best := b; f_model := k |}
        | (_, Some e) => Err e
        end
    end.
