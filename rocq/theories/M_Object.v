(** MODEL: the kriging objects.  Constructor and update_variogram_model of
    OrdinaryKriging (ok.py 187-553), OrdinaryKriging3D (ok3d.py 198-550),
    UniversalKriging (uk.py 220-415, 630-788) and UniversalKriging3D
    (uk3d.py 215-390, 452-635); the four classes share this code up to the
    differences parametrised by [kclass].  The drift terms of the universal
    classes are in M_UK.v.  Printing (verbose) and matplotlib windows
    (enable_plotting) have no effect on the object and are not modelled. *)
From Coq Require Import String.
From Verif Require Import Base Sums Matrix M_Variogram M_Geometry M_Kriging M_Init.

Inductive kclass := OK2 | UK2 | OK3 | UK3.
Definition cdim (c : kclass) : nat := match c with OK2 | UK2 => 2 | OK3 | UK3 => 3 end.

(** A GSTools CovModel (an object with a [pykrige_kwargs] attribute). *)
Record gsmodel := {
  gs_is_covmodel : bool;       (* isinstance(model, gs.CovModel) *)
  gs_field_dim : nat;
  gs_latlon : bool;
  gs_vario : pyfun;            (* pykrige_vario *)
  gs_anis2 : R;                (* pykrige_anis *)
  gs_angle2 : R;               (* pykrige_angle *)
  gs_anis3 : vec;              (* pykrige_anis_y, pykrige_anis_z *)
  gs_angle3 : vec              (* pykrige_angle_x, _y, _z *)
}.

(** The environment: installed packages and numerical routines. *)
Record env := {
  e_la : linalg;
  e_lu : vec -> vec;                                 (* see M_Kriging.dgesv *)
  e_fit : optimiser;
  e_kd : nat -> nat -> mat -> nat -> vec -> (nat -> xdist) * (nat -> nat);  (* cKDTree, see M_Execute *)
  e_vinf : pyfun -> list R -> option R;              (* variogram function at inf *)
  e_cython : bool;                                   (* lib/cok importable *)
  e_gstools : option (nat * nat)                     (* version if installed *)
}.

Inductive vm_arg := VName (s : string) | VModel (g : gsmodel).
Inductive fun_arg := FNone | FCallable (f : pyfun) | FNotCallable.

(** compat_gstools.py 20-36 *)
Definition version_lt (v : nat * nat) (major minor : nat) : bool :=
  Nat.ltb (fst v) major || (Nat.eqb (fst v) major && Nat.ltb (snd v) minor).
Definition validate_gstools (E : env) (m : gsmodel) : res unit :=
  match e_gstools E with
  | None => Err GSToolsExc
  | Some v =>
      if negb (gs_is_covmodel m) then Err GSToolsExc
      else if version_lt v 1 3 then Err GSToolsExc
      else if gs_latlon m && version_lt v 1 4 then Err GSToolsExc
      else Ok tt
  end.

(** Arguments shared by the constructor and update_variogram_model.  [a_scaling]
    holds anisotropy_scaling (2D) or anisotropy_scaling_y, _z (3D); [a_angle]
    holds anisotropy_angle (2D) or anisotropy_angle_x, _y, _z (3D).
    nlags is a non-negative integer. *)
Record vargs := {
  a_model : vm_arg; a_params : user_params; a_fun : fun_arg;
  a_nlags : nat; a_weight : bool; a_scaling : vec; a_angle : vec }.

(** Constructor arguments.  [c_exact = None]: not a bool.  [c_ct] and [c_stat]
    (enable_statistics) exist for OK2 only. *)
Record cargs := {
  c_coords : list (list R);            (* x, y (, z) as given by the user *)
  c_values : list R;
  c_v : vargs;
  c_verbose : bool; c_plotting : bool; c_stat : bool;
  c_ct : string;
  c_exact : option bool;
  c_pinv : bool; c_pinv_type : string }.

Record obj := {
  o_class : kclass;
  o_pinv : bool; o_pinv_type : string;
  o_exact : bool;
  o_ct : coord_type;
  o_model : vm_arg;                    (* self.variogram_model *)
  o_fun : pyfun;                       (* self.variogram_function *)
  o_params : list R;                   (* self.variogram_model_parameters *)
  o_n : nat;                           (* number of data *)
  o_orig : mat;                        (* X_ORIG, Y_ORIG (, Z_ORIG) as columns *)
  o_values : vec;                      (* Z / VALUES *)
  o_center : vec; o_scaling : vec; o_angle : vec;
  o_adj : mat;                         (* X_ADJUSTED, ... as columns *)
  o_lags : list R; o_semivariance : list R;
  o_stats : option stats;
  o_verbose : bool; o_plotting : bool }.

Definition o_dim (o : obj) : nat := cdim (o_class o).
(** variogram_function(variogram_model_parameters, .) *)
Definition o_vg (o : obj) : R -> R := fcall (o_fun o) (o_params o).

(** GSTools branch, ok.py 224-239 and 430-445, ok3d.py 235-248 and 432-445, uk.py 268-282
    and 678-692, uk3d.py 263-276 and 517-530.
    Returns the effective variogram name, parameters, function, scaling, angle. *)
Definition gs_scaling (c : kclass) (m : gsmodel) : vec :=
  match cdim c with 2%nat => fun _ => gs_anis2 m | _ => gs_anis3 m end.
Definition gs_angle (c : kclass) (m : gsmodel) : vec :=
  match cdim c with 2%nat => fun _ => gs_angle2 m | _ => gs_angle3 m end.

Definition resolve_gs (E : env) (c : kclass) (ct : string) (v : vargs)
  : res (string * user_params * fun_arg * vec * vec) :=
  match a_model v with
  | VName s => Ok (s, a_params v, a_fun v, a_scaling v, a_angle v)
  | VModel m =>
      do _ <- validate_gstools E m ;;
      do _ <- (match c with
               | OK2 => if Nat.eqb (gs_field_dim m) 3 then Err ValueError
                        else if gs_latlon m && String.eqb ct "euclidean" then Err ValueError
                        else Ok tt
               | UK2 => if Nat.eqb (gs_field_dim m) 3 then Err ValueError
                        else if gs_latlon m then Err ValueError else Ok tt
               | OK3 => if Nat.ltb (gs_field_dim m) 3 then Err ValueError else Ok tt
               | UK3 => if Nat.ltb (gs_field_dim m) 3 then Err ValueError else Ok tt
               end) ;;
      Ok ("custom"%string, PList [], FCallable (gs_vario m), gs_scaling c m, gs_angle c m)
  end.

(** ok.py 242-258 and copies *)
Definition resolve_fun (name : string) (f : fun_arg) : res pyfun :=
  match dict_get variogram_dict name with
  | Some g => Ok g
  | None =>
      if String.eqb name "custom" then
        match f with FCallable g => Ok g | _ => Err ValueError end
      else Err ValueError
  end.

(** (np.amax(c) + np.amin(c)) / 2; ValueError for an empty array *)
Definition center_of (l : list R) : res R :=
  match amax_gen Rops l, amin_gen Rops l with
  | Some a, Some b => Ok ((a + b) / 2)
  | _, _ => Err ValueError
  end.

(** np.vstack of the coordinate arrays: ValueError unless all have equal length *)
Definition same_length (ls : list (list R)) : bool :=
  match ls with
  | [] => true
  | l :: r => forallb (fun l' => Nat.eqb (List.length l') (List.length l)) r
  end.
Definition columns (ls : list (list R)) : mat := fun i j => rnth (nth j ls []) i.

(** Column-wise equality test of the anisotropy settings, ok.py 454-457,
    ok3d.py 461-467 and copies *)
Definition aniso_differs (ndim : nat) (sc sc' an an' : vec) : bool :=
  match ndim with
  | 2%nat => negb (Reqb (sc 0%nat) (sc' 0%nat)) || negb (Reqb (an 0%nat) (an' 0%nat))
  | _ => negb (Reqb (sc 0%nat) (sc' 0%nat)) || negb (Reqb (sc 1%nat) (sc' 1%nat))
         || negb (Reqb (an 0%nat) (an' 0%nat)) || negb (Reqb (an 1%nat) (an' 1%nat))
         || negb (Reqb (an 2%nat) (an' 2%nat))
  end.

Definition pinv_types : list string := ["pinv"%string; "pinvh"%string].   (* core.py 33 *)

(** coordinates_type: only OrdinaryKriging has it *)
Definition class_ct (c : kclass) (ct : string) : string :=
  match c with OK2 => ct | _ => "euclidean"%string end.

(** The constructor *)
Definition construct (E : env) (c : kclass) (A : cargs) : res obj :=
  if negb (in_names (c_pinv_type A) pinv_types) then Err ValueError else
  match c_exact A with
  | None => Err ValueError
  | Some exact =>
    let ct := class_ct c (c_ct A) in
    do (name, prm, fn, scaling, angle) <- resolve_gs E c ct (c_v A) ;;
    do f <- resolve_fun name fn ;;
    let ndim := cdim c in
    let X := columns (c_coords A) in
    let n := List.length (nth 0 (c_coords A) []) in
    do (ct', center, sc, an, Xadj) <-
       (if String.eqb ct "euclidean" then
          do cs <- mapM center_of (c_coords A) ;;
          if negb (same_length (c_coords A)) then Err ValueError else
          do Xadj <- adjust_for_anisotropy false ndim X (rnth cs) scaling angle ;;
          Ok (Euclidean, rnth cs, scaling, angle, Xadj)
        else if String.eqb ct "geographic" then
          Ok (Geographic, (fun _ => 0), (fun _ => 1), (fun _ => 0), X)
        else Err ValueError) ;;
    do vp <- make_parameter_list name prm ;;
    (* np.vstack((X_ADJUSTED, Y_ADJUSTED)): ok.py 325 *)
    if negb (same_length (c_coords A)) then Err ValueError else
    do (lags, semivariance, params) <-
       initialize_variogram_model (e_fit E) ct' ndim n Xadj
         (List.length (c_values A)) (rnth (c_values A)) name vp f
         (a_nlags (c_v A)) (a_weight (c_v A)) ;;
    do st <- (match c, c_stat A with
              | OK2, false => Ok None
              | _, _ => do s <- all_statistics (e_la E) ct' ndim n Xadj (rnth (c_values A))
                                  (fcall f params) (c_pinv A) ;; Ok (Some s)
              end) ;;
    Ok {| o_class := c; o_pinv := c_pinv A; o_pinv_type := c_pinv_type A; o_exact := exact;
          o_ct := ct'; o_model := VName name; o_fun := f; o_params := params;
          o_n := n; o_orig := X; o_values := rnth (c_values A);
          o_center := center; o_scaling := sc; o_angle := an; o_adj := Xadj;
          o_lags := lags; o_semivariance := semivariance; o_stats := st;
          o_verbose := c_verbose A; o_plotting := c_plotting A |}
  end.

(** ---- update_variogram_model ---- *)
(** Field updates (self.attr = value). *)
Definition set_model (o : obj) (m : vm_arg) : obj :=
  {| o_class := o_class o; o_pinv := o_pinv o; o_pinv_type := o_pinv_type o; o_exact := o_exact o;
     o_ct := o_ct o; o_model := m; o_fun := o_fun o; o_params := o_params o;
     o_n := o_n o; o_orig := o_orig o; o_values := o_values o;
     o_center := o_center o; o_scaling := o_scaling o; o_angle := o_angle o; o_adj := o_adj o;
     o_lags := o_lags o; o_semivariance := o_semivariance o; o_stats := o_stats o;
     o_verbose := o_verbose o; o_plotting := o_plotting o |}.
Definition set_fun (o : obj) (f : pyfun) : obj :=
  {| o_class := o_class o; o_pinv := o_pinv o; o_pinv_type := o_pinv_type o; o_exact := o_exact o;
     o_ct := o_ct o; o_model := o_model o; o_fun := f; o_params := o_params o;
     o_n := o_n o; o_orig := o_orig o; o_values := o_values o;
     o_center := o_center o; o_scaling := o_scaling o; o_angle := o_angle o; o_adj := o_adj o;
     o_lags := o_lags o; o_semivariance := o_semivariance o; o_stats := o_stats o;
     o_verbose := o_verbose o; o_plotting := o_plotting o |}.
Definition set_aniso (o : obj) (sc an : vec) (adj : mat) : obj :=
  {| o_class := o_class o; o_pinv := o_pinv o; o_pinv_type := o_pinv_type o; o_exact := o_exact o;
     o_ct := o_ct o; o_model := o_model o; o_fun := o_fun o; o_params := o_params o;
     o_n := o_n o; o_orig := o_orig o; o_values := o_values o;
     o_center := o_center o; o_scaling := sc; o_angle := an; o_adj := adj;
     o_lags := o_lags o; o_semivariance := o_semivariance o; o_stats := o_stats o;
     o_verbose := o_verbose o; o_plotting := o_plotting o |}.
Definition set_variogram (o : obj) (lags semivariance params : list R) : obj :=
  {| o_class := o_class o; o_pinv := o_pinv o; o_pinv_type := o_pinv_type o; o_exact := o_exact o;
     o_ct := o_ct o; o_model := o_model o; o_fun := o_fun o; o_params := params;
     o_n := o_n o; o_orig := o_orig o; o_values := o_values o;
     o_center := o_center o; o_scaling := o_scaling o; o_angle := o_angle o; o_adj := o_adj o;
     o_lags := lags; o_semivariance := semivariance; o_stats := o_stats o;
     o_verbose := o_verbose o; o_plotting := o_plotting o |}.
Definition set_stats (o : obj) (s : option stats) : obj :=
  {| o_class := o_class o; o_pinv := o_pinv o; o_pinv_type := o_pinv_type o; o_exact := o_exact o;
     o_ct := o_ct o; o_model := o_model o; o_fun := o_fun o; o_params := o_params o;
     o_n := o_n o; o_orig := o_orig o; o_values := o_values o;
     o_center := o_center o; o_scaling := o_scaling o; o_angle := o_angle o; o_adj := o_adj o;
     o_lags := o_lags o; o_semivariance := o_semivariance o; o_stats := s;
     o_verbose := o_verbose o; o_plotting := o_plotting o |}.
Definition set_flags (o : obj) (v p : bool) : obj :=
  {| o_class := o_class o; o_pinv := o_pinv o; o_pinv_type := o_pinv_type o; o_exact := o_exact o;
     o_ct := o_ct o; o_model := o_model o; o_fun := o_fun o; o_params := o_params o;
     o_n := o_n o; o_orig := o_orig o; o_values := o_values o;
     o_center := o_center o; o_scaling := o_scaling o; o_angle := o_angle o; o_adj := o_adj o;
     o_lags := o_lags o; o_semivariance := o_semivariance o; o_stats := o_stats o;
     o_verbose := v; o_plotting := p |}.

(** A method call: the object afterwards, and the exception if it raised. *)
Definition outcome : Type := (obj * option exn)%type.

Definition ct_name (t : coord_type) : string :=
  match t with Euclidean => "euclidean"%string | Geographic => "geographic"%string end.

(** ok.py 379-553, ok3d.py 368-550, uk.py 630-788, uk3d.py 452-635, statement
    by statement.  self.model (the GSTools object) is write-only and omitted. *)
Definition update_variogram_model (E : env) (o : obj) (v : vargs) : outcome :=
  let c := o_class o in
  let o := set_model o (a_model v) in
  match resolve_gs E c (ct_name (o_ct o)) v with
  | Err e => (o, Some e)
  | Ok (name, prm, fn, scaling, angle) =>
    let o := set_model o (VName name) in
    match resolve_fun name fn with
    | Err e => (o, Some e)
    | Ok f =>
      let o := set_fun o f in
      let ndim := o_dim o in
      let oe :=
        if aniso_differs ndim scaling (o_scaling o) angle (o_angle o) then
          match o_ct o with
          | Euclidean =>
              match adjust_for_anisotropy false ndim (o_orig o) (o_center o) scaling angle with
              | Ok adj => (set_aniso o scaling angle adj, None)
              | Err e => (set_aniso o scaling angle (o_adj o), Some e)
              end
          | Geographic => (set_aniso o (fun _ => 1) (fun _ => 0) (o_orig o), None)
          end
        else (o, None) in
      match oe with
      | (o, Some e) => (o, Some e)
      | (o, None) =>
        match make_parameter_list name prm with
        | Err e => (o, Some e)
        | Ok vp =>
          match initialize_variogram_model (e_fit E) (o_ct o) ndim (o_n o) (o_adj o)
                  (o_n o) (o_values o) name vp (o_fun o) (a_nlags v) (a_weight v) with
          | Err e => (o, Some e)
          | Ok (lags, semivariance, params) =>
            let o := set_variogram o lags semivariance params in
            match all_statistics (e_la E) (o_ct o) ndim (o_n o) (o_adj o) (o_values o)
                    (o_vg o) (o_pinv o) with
            | Err e => (o, Some e)
            | Ok s => (set_stats o (Some s), None)
            end
          end
        end
      end
    end
  end.

(** ok.py 589-595 and copies *)
Definition switch_verbose (o : obj) : obj := set_flags o (negb (o_verbose o)) (o_plotting o).
Definition switch_plotting (o : obj) : obj := set_flags o (o_verbose o) (negb (o_plotting o)).

(** get_variogram_points (ok.py 569-587, uk.py only in 2D), get_statistics,
    get_epsilon_residuals *)
Definition get_variogram_points (o : obj) : list R * list R := (o_lags o, map (o_vg o) (o_lags o)).
Definition get_statistics (o : obj) : option (option R * option R * option R) :=
  option_map (fun s => (st_Q1 s, st_Q2 s, st_cR s)) (o_stats o).
Definition get_epsilon_residuals (o : obj) : option (list R) := option_map st_epsilon (o_stats o).
