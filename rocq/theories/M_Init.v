(** MODEL: initialisation of the variogram, automatic fit, cross-validation
    statistics.  /repo/src/pykrige/core.py 379-851. *)
From Coq Require Import String.
From Verif Require Import Base Sums Matrix M_Variogram M_Geometry M_Kriging.

(** ---- distances ---- *)
Inductive coord_type := Euclidean | Geographic.

(** scipy cdist / pdist, metric="euclidean", between rows [p] and [q]; the
    squares are added in column order (relevant only for rounding). *)
Definition euclid (ndim : nat) (p q : vec) : R :=
  sqrt (bsum ndim (fun k => (p k - q k) * (p k - q k))).

(** The distance between two coordinate rows for each coordinates_type. *)
Definition distance (ct : coord_type) (ndim : nat) (p q : vec) : R :=
  match ct with
  | Euclidean => euclid ndim p q
  | Geographic => great_circle_distance (p 0%nat) (p 1%nat) (q 0%nat) (q 1%nat)
  end.

(** ---- _initialize_variogram_model, core.py 379-535 ---- *)

(** Index pairs in the order of the distance vector.
    Euclidean: pdist's condensed order, (i,j) with i < j (core.py 429-431);
    geographic: row-major selection of row > column (core.py 437-449). *)
Definition pairs_euclid (n : nat) : list (nat * nat) :=
  flat_map (fun i => map (fun j => (i, j)) (seq (S i) (n - S i))) (seq 0 n).
Definition pairs_geo (n : nat) : list (nat * nat) :=
  flat_map (fun i => map (fun j => (j, i)) (seq 0 i)) (seq 0 n).
Definition pairs (ct : coord_type) (n : nat) : list (nat * nat) :=
  match ct with Euclidean => pairs_euclid n | Geographic => pairs_geo n end.

(** (distance, semivariance) of every pair: d and g *)
Definition pair_data (ct : coord_type) (ndim n : nat) (X : mat) (y : vec) : list (R * R) :=
  map (fun '(i, j) => (distance ct ndim (X i) (X j), / 2 * ((y i - y j) * (y i - y j)))) (pairs ct n).

(** The binning code is written over an abstract number type so that it can be
    instantiated both at R and at IEEE binary64. *)
Record numops := {
  num : Type;
  n_add : num -> num -> num;
  n_sub : num -> num -> num;
  n_mul : num -> num -> num;
  n_div : num -> num -> num;
  n_leb : num -> num -> bool;
  n_ltb : num -> num -> bool;
  n_of_nat : nat -> num;
  n_milli : num                     (* the literal 0.001 *)
}.

Definition amax_gen (O : numops) (l : list (num O)) : option (num O) :=
  match l with
  | [] => None
  | x :: r => Some (fold_left (fun m v => if n_ltb O m v then v else m) r x)
  end.
Definition amin_gen (O : numops) (l : list (num O)) : option (num O) :=
  match l with
  | [] => None
  | x :: r => Some (fold_left (fun m v => if n_ltb O v m then v else m) r x)
  end.

Definition mean_gen (O : numops) (l : list (num O)) : num O :=
  n_div O (fold_left (n_add O) l (n_of_nat O 0)) (n_of_nat O (List.length l)).

(** core.py 463-468: the bin limits; bins[nlags] = dmax + 0.001 *)
Definition bin_limit (O : numops) (dmin dmax : num O) (nlags n : nat) : num O :=
  if Nat.ltb n nlags
  then n_add O dmin (n_mul O (n_of_nat O n) (n_div O (n_sub O dmax dmin) (n_of_nat O nlags)))
  else n_add O dmax (n_milli O).

(** [(d >= bins[n]) & (d < bins[n + 1])] *)
Definition in_bin (O : numops) (dmin dmax : num O) (nlags n : nat) (d : num O) : bool :=
  n_leb O (bin_limit O dmin dmax nlags n) d && n_ltb O d (bin_limit O dmin dmax nlags (S n)).

Definition bin_members (O : numops) (dmin dmax : num O) (nlags n : nat) (dg : list (num O * num O))
  : list (num O * num O) :=
  filter (fun p => in_bin O dmin dmax nlags n (fst p)) dg.

(** core.py 488-502: [None] is the NaN stored for an empty bin *)
Definition bin_entry (O : numops) (dmin dmax : num O) (nlags : nat) (dg : list (num O * num O)) (n : nat)
  : option (num O * num O) :=
  match bin_members O dmin dmax nlags n dg with
  | [] => None
  | sel => Some (mean_gen O (map fst sel), mean_gen O (map snd sel))
  end.

(** core.py 504-505: the NaN entries are removed *)
Definition drop_nan {A} (l : list (option A)) : list A :=
  flat_map (fun o => match o with Some a => [a] | None => [] end) l.

(** core.py 461-505.  np.amax of an empty array raises ValueError. *)
Definition experimental_gen (O : numops) (nlags : nat) (dg : list (num O * num O))
  : res (list (num O * num O)) :=
  match amax_gen O (map fst dg), amin_gen O (map fst dg) with
  | Some dmax, Some dmin =>
      Ok (drop_nan (map (bin_entry O dmin dmax nlags dg) (seq 0 nlags)))
  | _, _ => Err ValueError
  end.

Definition Rops : numops :=
  {| num := R; n_add := Rplus; n_sub := Rminus; n_mul := Rmult; n_div := Rdiv;
     n_leb := Rleb; n_ltb := Rltb; n_of_nat := INR; n_milli := / 1000 |}.

Definition experimental_variogram (ct : coord_type) (ndim n nlags : nat) (X : mat) (y : vec)
  : res (list (R * R)) :=
  experimental_gen Rops nlags (pair_data ct ndim n X y).

(** ---- _variogram_residuals, core.py 538-579 ---- *)
(** np.amax / np.amin of a non-empty array *)
Definition amax (l : list R) : R := match amax_gen Rops l with Some v => v | None => 0 end.
Definition amin (l : list R) : R := match amin_gen Rops l with Some v => v | None => 0 end.

(** core.py 569-574 *)
Definition lag_weights (x : list R) : list R :=
  let drange := amax x - amin x in
  let k := 21972 / 10000 / (/ 10 * drange) in
  let x0 := 7 / 10 * drange + amin x in
  let weights := map (fun v => 1 / (1 + exp (- k * (x0 - v)))) x in
  map (fun w => w / lsum weights) weights.

(** [None]: NaN entries (0/0 in the weights when there is only one distinct lag) *)
Definition variogram_residuals (f : pyfun) (weight : bool) (x y params : list R) : option (list R) :=
  let diff := map (fun '(xi, yi) => fcall f params xi - yi) (combine x y) in
  if weight then
    if Reqb (amax x) (amin x) then None
    else Some (map (fun '(di, wi) => di * wi) (combine diff (lag_weights x)))
  else Some diff.

(** ---- _calculate_variogram_model, core.py 582-651 ---- *)
(** Upper bounds: [None] is np.inf.  Initial guess: [None] is NaN (0/0). *)
Definition slope_guess (lags semivariance : list R) : option R :=
  if Reqb (amax lags) (amin lags) then None
  else Some ((amax semivariance - amin semivariance) / (amax lags - amin lags)).

Definition start_guess (model : string) (lags semivariance : list R) : list (option R) :=
  if String.eqb model "linear" then
    [slope_guess lags semivariance; Some (amin semivariance)]
  else if String.eqb model "power" then
    [slope_guess lags semivariance; Some (11 / 10); Some (amin semivariance)]
  else [Some (amax semivariance - amin semivariance); Some (/ 4 * amax lags); Some (amin semivariance)].

Definition fit_bounds (model : string) (lags semivariance : list R) : list R * list (option R) :=
  if String.eqb model "linear" then
    ([0; 0], [None; Some (amax semivariance)])
  else if String.eqb model "power" then
    ([0; 1 / 1000; 0], [None; Some (1999 / 1000); Some (amax semivariance)])
  else ([0; 0; 0], [Some (10 * amax semivariance); Some (amax lags); Some (amax semivariance)]).

Definition le_ub (x : R) (u : option R) : bool := match u with Some u => Rleb x u | None => true end.
Definition lt_ub (x : R) (u : option R) : bool := match u with Some u => Rltb x u | None => true end.

(** scipy.optimize.least_squares: argument checks (bounds must satisfy lb < ub,
    x0 must be within them, residuals at x0 must be finite; all ValueError),
    then an external optimiser [fit]. *)
Definition least_squares
  (fit : (list R -> option (list R)) -> list R -> list R -> list (option R) -> list R)
  (fn : list R -> option (list R)) (x0 : list (option R)) (lb : list R) (ub : list (option R))
  : res (list R) :=
  if negb (forallb (fun '(l, u) => lt_ub l u) (combine lb ub)) then Err ValueError
  else if negb (forallb (fun '(x, (l, u)) =>
                  match x with Some v => Rleb l v && le_ub v u | None => false end)
                (combine x0 (combine lb ub))) then Err ValueError
  else let x := drop_nan x0 in
       match fn x with
       | None => Err ValueError
       | Some _ => Ok (fit fn x lb ub)
       end.

(** The optimiser; what the model assumes of it: the result has the length of
    the bounds and lies within them. *)
Definition optimiser : Type :=
  (list R -> option (list R)) -> list R -> list R -> list (option R) -> list R.
Definition within (x lb : list R) (ub : list (option R)) : Prop :=
  List.length x = List.length lb /\
  forall k, (k < List.length lb)%nat ->
    rnth lb k <= rnth x k /\
    match nth k ub None with Some u => rnth x k <= u | None => True end.
Definition optimiser_ok (fit : optimiser) : Prop :=
  forall fn x0 lb ub, within x0 lb ub -> within (fit fn x0 lb ub) lb ub.

Definition calculate_variogram_model (fit : optimiser) (lags semivariance : list R)
    (model : string) (f : pyfun) (weight : bool) : res (list R) :=
  let x0 := start_guess model lags semivariance in
  let '(lb, ub) := fit_bounds model lags semivariance in
  least_squares fit (variogram_residuals f weight lags semivariance) x0 lb ub.

(** core.py 507-535.  np.amax of an empty lag list (nlags = 0) raises ValueError. *)
Definition initialize_variogram_model (fit : optimiser) (ct : coord_type) (ndim n : nat) (X : mat)
    (nvals : nat) (y : vec) (model : string) (params : option (list R)) (f : pyfun)
    (nlags : nat) (weight : bool) : res (list R * list R * list R) :=
  match ct, Nat.eqb ndim 2 with
  | Geographic, false => Err ValueError
  | _, _ =>
    (* lengths of coordinates and values differ: the boolean index into g
       raises IndexError (core.py 448-449, 490-493); for Euclidean data this
       comes after np.amax of an empty distance vector (ValueError); for
       nlags = 0 there is no bin to index, the model then just reports ValueError *)
    if negb (Nat.eqb nvals n) then
      match ct with
      | Euclidean => if Nat.leb n 1 then Err ValueError
                     else if Nat.eqb nlags 0 then Err ValueError else Err IndexError
      | Geographic => Err IndexError
      end
    else
    do ls <- experimental_variogram ct ndim n nlags X y ;;
    let lags := map fst ls in
    let semivariance := map snd ls in
    match params with
    | Some p =>
        if String.eqb model "linear" && negb (Nat.eqb (List.length p) 2) then Err ValueError
        else if in_names model ("power"%string :: three_param_models) && negb (Nat.eqb (List.length p) 3)
        then Err ValueError
        else Ok (lags, semivariance, p)
    | None =>
        if String.eqb model "custom" then Err ValueError
        else match lags with
             | [] => Err ValueError
             | _ => do p <- calculate_variogram_model fit lags semivariance model f weight ;;
                    Ok (lags, semivariance, p)
             end
    end
  end.

(** ---- _find_statistics, core.py 759-836 ---- *)
Definition eps : R := 1 / 10000000000.

(** core._krige on the first [i] points (core.py 654-756) *)
Definition krige_first (L : linalg) (ct : coord_type) (ndim : nat) (X : mat) (y : vec)
    (vg : R -> R) (pseudo_inv : bool) (i : nat) : res (R * R) :=
  krige1 L i vg (fun a b => distance ct ndim (X b) (X a))
         (fun a => distance ct ndim (X a) (X i)) y pseudo_inv.

(** One entry of (delta, sigma): sigma [None] is the NaN of np.sqrt of a
    negative number; skipped entries keep the initial zeros. *)
Definition stat_entry (L : linalg) (ct : coord_type) (ndim : nat) (X : mat) (y : vec)
    (vg : R -> R) (pseudo_inv : bool) (i : nat) : res (R * option R) :=
  if Nat.eqb i 0 then Ok (0, Some 0) else
  do (k, ss) <- krige_first L ct ndim X y vg pseudo_inv i ;;
  if Rltb (Rabs ss) eps then Ok (0, Some 0)
  else Ok (y i - k, if Rltb ss 0 then None else Some (sqrt ss)).

Fixpoint mapM {A B} (f : A -> res B) (l : list A) : res (list B) :=
  match l with
  | [] => Ok []
  | x :: l' => do y <- f x ;; do ys <- mapM f l' ;; Ok (y :: ys)
  end.

(** [delta[sigma > eps]], [sigma[sigma > eps]], epsilon *)
Definition keep_entries (l : list (R * option R)) : list (R * R) :=
  flat_map (fun '(d, s) => match s with
                           | Some s => if Rltb eps s then [(d, s)] else []
                           | None => []
                           end) l.

Record stats := { st_delta : list R; st_sigma : list R; st_epsilon : list R;
                  st_Q1 : option R; st_Q2 : option R; st_cR : option R }.

Definition find_statistics (L : linalg) (ct : coord_type) (ndim n : nat) (X : mat) (y : vec)
    (vg : R -> R) (pseudo_inv : bool) : res (list R * list R * list R) :=
  do l <- mapM (stat_entry L ct ndim X y vg pseudo_inv) (seq 0 n) ;;
  let kept := keep_entries l in
  Ok (map fst kept, map snd kept, map (fun '(d, s) => d / s) kept).

(** core.py 839-851.  [None]: numpy returns nan or inf (division by zero). *)
Definition calcQ1 (epsilon : list R) : option R :=
  if Nat.eqb (List.length epsilon) 1 then None
  else Some (Rabs (lsum epsilon / (INR (List.length epsilon) - 1))).
Definition calcQ2 (epsilon : list R) : option R :=
  if Nat.eqb (List.length epsilon) 1 then None
  else Some (lsum (map (fun e => e * e) epsilon) / (INR (List.length epsilon) - 1)).
Definition calc_cR (Q2 : option R) (sigma : list R) : option R :=
  match Q2, sigma with
  | Some q, _ :: _ =>
      Some (q * exp (lsum (map (fun s => ln (s * s)) sigma) / INR (List.length sigma)))
  | _, _ => None
  end.

Definition all_statistics (L : linalg) (ct : coord_type) (ndim n : nat) (X : mat) (y : vec)
    (vg : R -> R) (pseudo_inv : bool) : res stats :=
  do (delta, sigma, epsilon) <- find_statistics L ct ndim n X y vg pseudo_inv ;;
  let Q2 := calcQ2 epsilon in
  Ok {| st_delta := delta; st_sigma := sigma; st_epsilon := epsilon;
        st_Q1 := calcQ1 epsilon; st_Q2 := Q2; st_cR := calc_cR Q2 sigma |}.
