(** MODEL: variogram functions.
    /repo/src/pykrige/variogram_models.py and /repo/src/pykrige/lib/variogram_models.pyx *)
From Coq Require Import String.
From Verif Require Import Base Sums Matrix.

(** [d ** e] on non-negative floats (Python / numpy / C pow): 0**0 = 1 and
    0**e = 0 for e > 0.  Simplification: 0**e for e < 0 is [inf] in the code and
    0 here; the theorems about the power model assume e > 0. *)
Definition npow (d e : R) : R :=
  if Reqb d 0 then (if Reqb e 0 then 1 else 0) else Rpower d e.

(** variogram_models.py 25-29 *)
Definition linear_variogram_model (m : list R) (d : R) : R :=
  let slope := rnth m 0 in
  let nugget := rnth m 1 in
  slope * d + nugget.

(** variogram_models.py 32-37 *)
Definition power_variogram_model (m : list R) (d : R) : R :=
  let scale := rnth m 0 in
  let exponent := rnth m 1 in
  let nugget := rnth m 2 in
  scale * npow d exponent + nugget.

(** variogram_models.py 40-45.  [x ** 2.0] is written [x * x]. *)
Definition gaussian_variogram_model (m : list R) (d : R) : R :=
  let psill := rnth m 0 in
  let range_ := rnth m 1 in
  let nugget := rnth m 2 in
  let s := range_ * 4 / 7 in
  psill * (1 - exp (- (d * d) / (s * s))) + nugget.

(** variogram_models.py 48-53 *)
Definition exponential_variogram_model (m : list R) (d : R) : R :=
  let psill := rnth m 0 in
  let range_ := rnth m 1 in
  let nugget := rnth m 2 in
  psill * (1 - exp (- d / (range_ / 3))) + nugget.

(** variogram_models.py 56-70.  np.piecewise: for a real d exactly one of the
    two conditions holds. *)
Definition spherical_variogram_model (m : list R) (d : R) : R :=
  let psill := rnth m 0 in
  let range_ := rnth m 1 in
  let nugget := rnth m 2 in
  if Rleb d range_
  then psill * ((3 * d) / (2 * range_) - (d * d * d) / (2 * (range_ * range_ * range_))) + nugget
  else psill + nugget.

(** variogram_models.py 73-81 *)
Definition hole_effect_variogram_model (m : list R) (d : R) : R :=
  let psill := rnth m 0 in
  let range_ := rnth m 1 in
  let nugget := rnth m 2 in
  psill * (1 - (1 - d / (range_ / 3)) * exp (- d / (range_ / 3))) + nugget.

(** A Python function object: its [__name__] and its behaviour. *)
Record pyfun := mkfun { fname : string; fcall : list R -> R -> R }.

Open Scope string_scope.

(** The function objects of variogram_models.py. *)
Definition f_linear := mkfun "linear_variogram_model" linear_variogram_model.
Definition f_power := mkfun "power_variogram_model" power_variogram_model.
Definition f_gaussian := mkfun "gaussian_variogram_model" gaussian_variogram_model.
Definition f_exponential := mkfun "exponential_variogram_model" exponential_variogram_model.
Definition f_spherical := mkfun "spherical_variogram_model" spherical_variogram_model.
Definition f_hole := mkfun "hole_effect_variogram_model" hole_effect_variogram_model.

(** [variogram_dict], ok.py 176-183, ok3d.py 187-194, uk.py 209-216, uk3d.py 204-211. *)
Definition variogram_dict : list (string * pyfun) :=
  [ ("linear", f_linear); ("power", f_power); ("gaussian", f_gaussian);
    ("spherical", f_spherical); ("exponential", f_exponential); ("hole-effect", f_hole) ].

Fixpoint dict_get {A} (d : list (string * A)) (k : string) : option A :=
  match d with
  | [] => None
  | (k', v) :: d' => if String.eqb k k' then Some v else dict_get d' k
  end.

Close Scope string_scope.

(** ---- Cython versions: lib/variogram_models.pyx ---- *)

(** [out[k] = v] *)
Definition upd {A} (f : nat -> A) (k : nat) (v : A) : nat -> A :=
  fun i => if Nat.eqb i k then v else f i.

(** The common loop [for k in range(n): out[k] = f(dist[k])]. *)
Definition c_fill (f : R -> R) (n : nat) (dist out : vec) : vec :=
  fold_left (fun o k => upd o k (f (dist k))) (seq 0 n) out.

(** variogram_models.pyx 25-34 *)
Definition c_linear (params : list R) (n : nat) (dist out : vec) : vec :=
  let a := rnth params 0 in let b := rnth params 1 in
  c_fill (fun d => a * d + b) n dist out.

(** variogram_models.pyx 37-47 *)
Definition c_power (params : list R) (n : nat) (dist out : vec) : vec :=
  let a := rnth params 0 in let b := rnth params 1 in let c := rnth params 2 in
  c_fill (fun d => a * npow d b + c) n dist out.

(** variogram_models.pyx 50-59 (note [-(d/s)**2] against [-(d**2)/s**2] in Python) *)
Definition c_gaussian (params : list R) (n : nat) (dist out : vec) : vec :=
  let a := rnth params 0 in let b := rnth params 1 in let c := rnth params 2 in
  c_fill (fun d => a * (1 - exp (- ((d / (b * 4 / 7)) * (d / (b * 4 / 7))))) + c) n dist out.

(** variogram_models.pyx 62-71 *)
Definition c_exponential (params : list R) (n : nat) (dist out : vec) : vec :=
  let a := rnth params 0 in let b := rnth params 1 in let c := rnth params 2 in
  c_fill (fun d => a * (1 - exp (- d / (b / 3))) + c) n dist out.

(** variogram_models.pyx 74-87 (strict comparison) *)
Definition c_spherical (params : list R) (n : nat) (dist out : vec) : vec :=
  let a := rnth params 0 in let b := rnth params 1 in let c := rnth params 2 in
  c_fill (fun d => if Rltb d b
                   then a * ((3 * d) / (2 * b) - (d * d * d) / (2 * (b * b * b))) + c
                   else a + c) n dist out.

(** variogram_models.pyx 6-22 *)
Definition get_variogram_model (name : string) : res (list R -> nat -> vec -> vec -> vec) :=
  if String.eqb name "linear_variogram_model" then Ok c_linear
  else if String.eqb name "power_variogram_model" then Ok c_power
  else if String.eqb name "gaussian_variogram_model" then Ok c_gaussian
  else if String.eqb name "exponential_variogram_model" then Ok c_exponential
  else if String.eqb name "spherical_variogram_model" then Ok c_spherical
  else Err NotImplementedErr.

(** ---- core.py 196-376, _make_variogram_parameter_list ---- *)

(** What the user can pass: None, a dict, a list, something else.
    Simplification: entries are numbers. *)
Inductive user_params :=
| PNone
| PDict (d : list (string * R))
| PList (l : list R)
| POther.

Definition has_key {A} (d : list (string * A)) (k : string) : bool :=
  match dict_get d k with Some _ => true | None => false end.
Definition item (d : list (string * R)) (k : string) : R :=
  match dict_get d k with Some v => v | None => 0 end.

Definition three_param_models : list string :=
  ["gaussian"%string; "spherical"%string; "exponential"%string; "hole-effect"%string].
Definition in_names (s : string) (l : list string) : bool := existsb (String.eqb s) l.

Definition make_parameter_list (model : string) (p : user_params) : res (option (list R)) :=
  match p with
  | PNone => Ok None
  | PDict d =>
      if String.eqb model "linear" then
        if negb (has_key d "slope") || negb (has_key d "nugget") then Err KeyError
        else Ok (Some [item d "slope"; item d "nugget"])
      else if String.eqb model "power" then
        if negb (has_key d "scale") || negb (has_key d "exponent") || negb (has_key d "nugget")
        then Err KeyError
        else Ok (Some [item d "scale"; item d "exponent"; item d "nugget"])
      else if in_names model three_param_models then
        if negb (has_key d "range") || negb (has_key d "nugget") then Err KeyError
        else if has_key d "sill" then
          Ok (Some [item d "sill" - item d "nugget"; item d "range"; item d "nugget"])
        else if has_key d "psill" then
          Ok (Some [item d "psill"; item d "range"; item d "nugget"])
        else Err KeyError
      else if String.eqb model "custom" then Err TypeError
      else Err ValueError
  | PList l =>
      if String.eqb model "linear" then
        if negb (Nat.eqb (length l) 2) then Err ValueError else Ok (Some l)
      else if String.eqb model "power" then
        if negb (Nat.eqb (length l) 3) then Err ValueError else Ok (Some l)
      else if in_names model three_param_models then
        if negb (Nat.eqb (length l) 3) then Err ValueError
        else Ok (Some [rnth l 0 - rnth l 2; rnth l 1; rnth l 2])
      else if String.eqb model "custom" then Ok (Some l)
      else Err ValueError
  | POther => Err TypeError
  end.
