(** MODEL: RegressionKriging (/repo/src/pykrige/rk.py) and ClassificationKriging
    (/repo/src/pykrige/ck.py 15-212).  The scikit-learn estimators are arbitrary
    functions: [P] is the type of predictor arrays, [L] the type of labels. *)
From Coq Require Import String.
From Verif Require Import Base Sums Matrix M_Variogram M_Geometry M_Kriging M_Init M_Object M_Execute M_UK M_Compat M_Ilr.

(** elementwise operation on 1-D arrays; arrays of different length raise
    ValueError (broadcasting of one-element arrays is not modelled) *)
Fixpoint zip_with {A B C} (f : A -> B -> C) (l : list A) (l' : list B) : list C :=
  match l, l' with a :: l, b :: l' => f a b :: zip_with f l l' | _, _ => [] end.
Definition np_map2 (f : R -> R -> R) (x y : list R) : res (list R) :=
  if Nat.eqb (List.length x) (List.length y) then Ok (zip_with f x y) else Err ValueError.

(** the array returned by Krige.predict as a list; masked entries cannot occur with
    style 'points' and read as 0; other shapes than 1-D are not modelled (ValueError) *)
Definition as_list (a : list nat * (nat -> option R)) : res (list R) :=
  match fst a with
  | [n] => Ok (map (fun i => match snd a i with Some v => v | None => 0 end) (seq 0 n))
  | _ => Err ValueError
  end.

(** ---- regression kriging ---- *)
(** a regressor: fit returns the prediction function or raises *)
Definition regressor (P : Type) := P -> list R -> res (P -> res (list R)).
Record rk_state (P : Type) := { rk_reg : option (P -> res (list R)); rk_krige : krige }.
Arguments rk_reg {P}. Arguments rk_krige {P}.

(** rk.py 58-104: the options go to Krige unchanged; [k]: the options.  The check
    of the model's class (compat.py 294-307) always succeeds for a [regressor]. *)
Definition rk_init (P : Type) (k : krige) : res (rk_state P) :=
  do k <- krige_init k ;; Ok {| rk_reg := None; rk_krige := k |}.

(** rk.py 106-127 *)
Definition rk_fit {P} (E : env) (reg : regressor P) (s : rk_state P) (p : P) (x : points) (y : list R) : rk_state P * option exn :=
  match reg p y with
  | Err e => (s, Some e)
  | Ok predict =>
    let s := {| rk_reg := Some predict; rk_krige := rk_krige s |} in
    match (do ml_pred <- predict p ;; np_map2 Rminus y ml_pred) with
    | Err e => (s, Some e)
    | Ok residual =>
      let '(k, e) := krige_fit E (rk_krige s) x residual in
      ({| rk_reg := rk_reg s; rk_krige := k |}, e)
    end
  end.

(** rk.py 151-166 *)
Definition rk_krige_residual {P} (E : env) (s : rk_state P) (x : points) (extra : kwargs) : res (list R) :=
  do a <- krige_predict E (rk_krige s) x extra ;; as_list a.

(** rk.py 129-149; predicting with an unfitted regressor raises sklearn's NotFittedError *)
Definition rk_predict {P} (E : env) (s : rk_state P) (p : P) (x : points) (extra : kwargs) : res (list R) :=
  do r <- rk_krige_residual E s x extra ;;
  do ml_pred <- match rk_reg s with Some predict => predict p | None => Err SklearnExc end ;;
  np_map2 Rplus r ml_pred.

(** ---- classification kriging ---- *)
(** a classifier: fit returns classes_ and predict_proba (a list of rows) *)
Definition classifier (P L : Type) := P -> list L -> res (list L * (P -> res (list (list R)))).
Record ck_state (P L : Type) := {
  ck_options : krige;                                (* _kriging_kwargs *)
  ck_classes : list L;
  ck_proba : option (P -> res (list (list R)));
  ck_krige : list krige }.
Arguments ck_options {P L}. Arguments ck_classes {P L}. Arguments ck_proba {P L}. Arguments ck_krige {P L}.

(** ck.py 59-105; before fit there is no attribute krige *)
Definition ck_init (P L : Type) (k : krige) : ck_state P L :=
  {| ck_options := k; ck_classes := []; ck_proba := None; ck_krige := [] |}.

(** position of a label in classes_, for OneHotEncoder(categories=[classes_]); an
    unknown label raises ValueError *)
Fixpoint position {L} (eqb : L -> L -> bool) (l : list L) (a : L) : option nat :=
  match l with
  | [] => None
  | b :: l => if eqb a b then Some 0%nat else option_map S (position eqb l a)
  end.
Definition one_hot {L} (eqb : L -> L -> bool) (classes : list L) (a : L) : res vec :=
  match position eqb classes a with
  | Some k => Ok (fun j => if Nat.eqb j k then 1 else 0)
  | None => Err ValueError
  end.

(** self.krige[i].fit(...) for i = 0, 1, ...; [res i]: the i-th column of residuals *)
Fixpoint fit_all (E : env) (x : points) (residual : nat -> list R) (i : nat) (ks : list krige) : list krige * option exn :=
  match ks with
  | [] => ([], None)
  | k :: ks =>
      match krige_fit E k x (residual i) with
      | (k', Some e) => (k' :: ks, Some e)
      | (k', None) => let '(ks', e) := fit_all E x residual (S i) ks in (k' :: ks', e)
      end
  end.

(** The labels: an array of shape (Ns, 1) or (Ns,) *)
Record labels (L : Type) := { l_column : bool; l_list : list L }.
Arguments l_column {L}. Arguments l_list {L}.

(** ck.py 107-141.  The classifier is fitted on y.ravel(); OneHotEncoder.fit_transform
    (ck.py 134) refuses 1-D arrays with ValueError.  Rows of predict_proba have as many
    entries as there are classes. *)
Definition ck_fit {P L} (E : env) (eqb : L -> L -> bool) (cl : classifier P L) (s : ck_state P L) (p : P) (x : points) (y : labels L)
  : ck_state P L * option exn :=
  match cl p (l_list y) with
  | Err e => (s, Some e)
  | Ok (classes, proba) =>
    let K := List.length classes in
    let s1 ks := {| ck_options := ck_options s; ck_classes := classes; ck_proba := Some proba; ck_krige := ks |} in
    match mapM (fun _ => krige_init (ck_options s)) (seq 0 (K - 1)) with
    | Err e => (s1 [], Some e)
    | Ok ks =>
      match (do ml_pred <- proba p ;;
             do y_ohe <- (if l_column y then mapM (one_hot eqb classes) (l_list y) else Err ValueError) ;;
             if Nat.eqb (List.length ml_pred) (List.length y_ohe)
             then Ok (fun i => zip_with (fun yo ml => ilr K yo i - ilr K (rnth ml) i) y_ohe ml_pred)
             else Err ValueError) with
      | Err e => (s1 ks, Some e)
      | Ok residual => let '(ks, e) := fit_all E x residual 0 ks in (s1 ks, e)
      end
    end
  end.

(** ck.py 172-192: the list of K-1 kriged residual arrays.  Before fit there is no
    attribute classes_ (AttributeError; a fitted classifier has at least one class, so
    no classes means not fitted); np.vstack of no array (one class) raises ValueError;
    self.krige is empty with two classes or more when fit failed before the first Krige
    was made (IndexError) *)
Definition ck_krige_residual {P L} (E : env) (s : ck_state P L) (x : points) (extra : kwargs) : res (list (list R)) :=
  match ck_krige s with
  | [] => Err (match ck_classes s with [] => AttributeErr | [_] => ValueError | _ => IndexError end)
  | ks => mapM (fun k => do a <- krige_predict E k x extra ;; as_list a) ks
  end.

(** np.argmax of a row of n entries: the first maximum *)
Definition argmax (n : nat) (f : vec) : nat :=
  fold_left (fun best j => if Rltb (f best) (f j) then j else best) (seq 1 (n - 1)) 0%nat.

(** ck.py 164-170: class indices *)
Definition ck_composition {P L} (s : ck_state P L) (rs : list (list R)) (ml : list (list R)) (i : nat) : vec :=
  let K := List.length (ck_classes s) in
  inverse_ilr (K - 1) (fun k => rnth (nth k rs []) i + ilr K (rnth (nth i ml [])) k).
Definition ck_predict {P L} (E : env) (s : ck_state P L) (p : P) (x : points) (extra : kwargs) : res (list nat) :=
  do ml <- match ck_proba s with Some proba => proba p | None => Err SklearnExc end ;;
  do rs <- ck_krige_residual E s x extra ;;
  if forallb (fun r => Nat.eqb (List.length r) (List.length ml)) rs
  then Ok (map (fun i => argmax (List.length (ck_classes s)) (ck_composition s rs ml i)) (seq 0 (List.length ml)))
  else Err ValueError.

(** ---- scores ---- *)
(** sklearn.metrics.r2_score(y_true, y_pred, sample_weight) for 1-D arrays with the default
    multioutput and force_finite=True: 1 - SSres / SStot, 1 when SSres is zero, 0 when only
    SStot is; nan (None) for fewer than two samples.  Arrays of different lengths and empty
    arrays raise ValueError.  [w]: the sample weights, all 1 by default *)
Definition r2 (n : nat) (y p w : vec) : R :=
  let avg := bsum n (fun i => w i * y i) / bsum n w in
  let res := bsum n (fun i => w i * (y i - p i)²) in
  let tot := bsum n (fun i => w i * (y i - avg)²) in
  if Reqb res 0 then 1 else if Reqb tot 0 then 0 else 1 - res / tot.
Definition r2_score (y p : list R) (w : option (list R)) : res (option R) :=
  let n := List.length y in
  if negb (Nat.eqb n (List.length p)) || match w with Some w => negb (Nat.eqb n (List.length w)) | None => false end || Nat.eqb n 0
  then Err ValueError
  else if Nat.ltb n 2 then Ok None
  else Ok (Some (r2 n (rnth y) (rnth p) (match w with Some w => rnth w | None => fun _ => 1 end))).

(** rk.py 168-186 *)
Definition rk_score {P} (E : env) (s : rk_state P) (p : P) (x : points) (y : list R) (w : option (list R)) (extra : kwargs) : res (option R) :=
  do pred <- rk_predict E s p x extra ;; r2_score y pred w.

(** sklearn.metrics.accuracy_score(y_true, y_pred) without weights: the fraction of equal
    entries; here for integer labels.  Empty arrays are not modelled (ValueError) *)
Definition accuracy_score (y p : list nat) : res R :=
  if negb (Nat.eqb (List.length y) (List.length p)) || Nat.eqb (List.length y) 0 then Err ValueError
  else Ok (bsum (List.length y) (fun i => if Nat.eqb (nth i y 0%nat) (nth i p 0%nat) then 1 else 0) / INR (List.length y)).

(** ck.py 194-212: the predicted class indices are compared with the labels *)
Definition ck_score {P} (E : env) (s : ck_state P nat) (p : P) (x : points) (y : list nat) (extra : kwargs) : res R :=
  do pred <- ck_predict E s p x extra ;; accuracy_score y pred.
