(** PROPERTIES C01-C06: variogram functions and their parameters. *)
From Coq Require Import String.
From Verif Require Import Base Sums Matrix M_Variogram P_Variogram.

(** C01.  At distance 0 every built-in model returns its nugget parameter. *)
Theorem C01_nugget_at_zero_lag :
  forall (slope scale exponent psill range nugget : R),
    0 < exponent -> 0 < range ->
    linear_variogram_model [slope; nugget] 0 = nugget /\
    power_variogram_model [scale; exponent; nugget] 0 = nugget /\
    gaussian_variogram_model [psill; range; nugget] 0 = nugget /\
    exponential_variogram_model [psill; range; nugget] 0 = nugget /\
    spherical_variogram_model [psill; range; nugget] 0 = nugget /\
    hole_effect_variogram_model [psill; range; nugget] 0 = nugget.
Proof.
  intros slope scale e psill r nug He Hr.
  exact (conj (nugget_linear slope nug) (conj (nugget_power scale e nug He)
        (conj (nugget_gaussian psill r nug) (conj (nugget_exponential psill r nug)
        (conj (nugget_spherical psill r nug (Rlt_le _ _ Hr)) (nugget_hole psill r nug)))))).
Qed.
Print Assumptions C01_nugget_at_zero_lag.

(** C02.  Non-decreasing in the distance and never below the nugget. *)
Theorem C02_variograms_nondecreasing :
  forall (slope scale exponent psill range nugget d1 d2 : R),
    0 <= slope -> 0 <= scale -> 0 < exponent -> 0 <= psill -> 0 < range -> 0 <= d1 <= d2 ->
    (nugget <= linear_variogram_model [slope; nugget] d1
            <= linear_variogram_model [slope; nugget] d2) /\
    (nugget <= power_variogram_model [scale; exponent; nugget] d1
            <= power_variogram_model [scale; exponent; nugget] d2) /\
    (nugget <= gaussian_variogram_model [psill; range; nugget] d1
            <= gaussian_variogram_model [psill; range; nugget] d2) /\
    (nugget <= exponential_variogram_model [psill; range; nugget] d1
            <= exponential_variogram_model [psill; range; nugget] d2) /\
    (nugget <= spherical_variogram_model [psill; range; nugget] d1
            <= spherical_variogram_model [psill; range; nugget] d2) /\
    nugget <= hole_effect_variogram_model [psill; range; nugget] d1.
Proof.
  intros slope scale e psill r nug d1 d2 H1 H2 H3 H4 H5 H6.
  exact (conj (mono_linear slope nug d1 d2 H1 H6) (conj (mono_power scale e nug d1 d2 H2 H3 H6)
        (conj (mono_gaussian psill r nug d1 d2 H4 H5 H6) (conj (mono_exponential psill r nug d1 d2 H4 H5 H6)
        (conj (mono_spherical psill r nug d1 d2 H4 H5 H6) (hole_lower psill r nug d1 H4 H5 (proj1 H6))))))).
Qed.
Print Assumptions C02_variograms_nondecreasing.

(** ... and the hole-effect model really is not monotone, whatever its
    (positive) partial sill and range. *)
Theorem C02_hole_effect_monotone_refuted :
  forall psill range nugget, 0 < psill -> 0 < range ->
    exists d1 d2, 0 <= d1 <= d2 /\
      hole_effect_variogram_model [psill; range; nugget] d2
      < hole_effect_variogram_model [psill; range; nugget] d1.
Proof.
  intros psill r nug Hp Hr. exists (2 * (r / 3)), r.
  split; [lra|exact (hole_after_peak psill r nug Hp Hr)].
Qed.
Print Assumptions C02_hole_effect_monotone_refuted.

(** C03.  Sill and range. *)
Theorem C03_sill_and_range :
  forall (psill range nugget d : R), 0 <= psill -> 0 < range -> 0 <= d ->
    gaussian_variogram_model [psill; range; nugget] d <= psill + nugget /\
    exponential_variogram_model [psill; range; nugget] d <= psill + nugget /\
    spherical_variogram_model [psill; range; nugget] d <= psill + nugget /\
    (range <= d -> spherical_variogram_model [psill; range; nugget] d = psill + nugget) /\
    (range <= d -> 95 / 100 * psill + nugget <= gaussian_variogram_model [psill; range; nugget] d) /\
    (range <= d -> 95 / 100 * psill + nugget <= exponential_variogram_model [psill; range; nugget] d) /\
    hole_effect_variogram_model [psill; range; nugget] d <= psill * (1 + exp (-2)) + nugget /\
    (* the bound for hole-effect is sharp *)
    hole_effect_variogram_model [psill; range; nugget] (2 * (range / 3)) = psill * (1 + exp (-2)) + nugget.
Proof.
  intros psill r nug d Hp Hr Hd.
  split; [exact (gaussian_upper psill r nug d Hp)|].
  split; [exact (exponential_upper psill r nug d Hp)|].
  split; [exact (proj2 (sph_bounds psill r nug d Hp Hr Hd))|].
  split; [exact (sph_beyond psill r nug d Hr)|].
  split; [intros H; exact (Rle_trans _ _ _ (gaussian_95 psill r nug Hp Hr)
            (proj2 (mono_gaussian psill r nug r d Hp Hr (conj (Rlt_le _ _ Hr) H))))|].
  split; [intros H; exact (Rle_trans _ _ _ (exponential_95 psill r nug Hp Hr)
            (proj2 (mono_exponential psill r nug r d Hp Hr (conj (Rlt_le _ _ Hr) H))))|].
  split; [exact (hole_upper psill r nug d Hp Hr)|exact (hole_peak psill r nug Hr)].
Qed.
Print Assumptions C03_sill_and_range.

(** C04.  A model function f from [variogram_dict] handed to backend 'C' by its
    name either yields a C routine that fills out[0..n) with f's values (and
    touches nothing else), or NotImplementedError; only hole-effect is refused. *)
Theorem C04_cython_variograms_agree :
  forall key f, dict_get variogram_dict key = Some f ->
    match get_variogram_model (fname f) with
    | Ok cf => key <> "hole-effect"%string /\
        forall m n dist out,
          (key = "gaussian"%string \/ key = "spherical"%string -> 0 < rnth m 1) ->
          (forall i, (i < n)%nat -> 0 <= dist i) ->
          forall i, cf m n dist out i = if Nat.ltb i n then fcall f m (dist i) else out i
    | Err e => key = "hole-effect"%string /\ e = NotImplementedErr
    end.
Proof. exact cython_dispatch_agrees. Qed.
Print Assumptions C04_cython_variograms_agree.

Theorem C04_unknown_names_rejected :
  forall name, ~ In name ["linear_variogram_model"; "power_variogram_model"; "gaussian_variogram_model";
                          "exponential_variogram_model"; "spherical_variogram_model"]%string ->
    get_variogram_model name = Err NotImplementedErr.
Proof. exact cython_unknown_rejected. Qed.
Print Assumptions C04_unknown_names_rejected.

(** Finding: the dispatch is by [__name__], so a user's custom function that
    happens to be called like a built-in is silently replaced by the built-in. *)
Theorem C04_custom_function_name_clash_refuted :
  exists (f : pyfun) cf m dist,
    get_variogram_model (fname f) = Ok cf /\ 0 <= dist O /\
    cf m 1%nat dist (fun _ => 0) O <> fcall f m (dist O).
Proof. exact cython_name_clash. Qed.
Print Assumptions C04_custom_function_name_clash_refuted.

(** C05.  List and dict spellings of the same model. *)
Theorem C05_list_and_dict_agree :
  forall (d : list (string * R)) (a b c : R),
    (* three-parameter models, sill spelling; extra keys and 'psill' are ignored *)
    (forall model, In model ["gaussian"; "spherical"; "exponential"; "hole-effect"]%string ->
       dict_get d "sill" = Some a -> dict_get d "range" = Some b -> dict_get d "nugget" = Some c ->
       make_parameter_list model (PDict d) = make_parameter_list model (PList [a; b; c]) /\
       make_parameter_list model (PList [a; b; c]) = Ok (Some [a - c; b; c])) /\
    (* psill spelling *)
    (forall model, In model ["gaussian"; "spherical"; "exponential"; "hole-effect"]%string ->
       dict_get d "sill" = None -> dict_get d "psill" = Some (a - c) ->
       dict_get d "range" = Some b -> dict_get d "nugget" = Some c ->
       make_parameter_list model (PDict d) = make_parameter_list model (PList [a; b; c])) /\
    (dict_get d "slope" = Some a -> dict_get d "nugget" = Some b ->
       make_parameter_list "linear" (PDict d) = make_parameter_list "linear" (PList [a; b]) /\
       make_parameter_list "linear" (PList [a; b]) = Ok (Some [a; b])) /\
    (dict_get d "scale" = Some a -> dict_get d "exponent" = Some b -> dict_get d "nugget" = Some c ->
       make_parameter_list "power" (PDict d) = make_parameter_list "power" (PList [a; b; c]) /\
       make_parameter_list "power" (PList [a; b; c]) = Ok (Some [a; b; c])).
Proof. exact list_dict_agree. Qed.
Print Assumptions C05_list_and_dict_agree.

Theorem C05_bad_parameters_rejected :
  forall (model : string) (d : list (string * R)) (l : list R),
    (* missing keys *)
    (model = "linear"%string -> dict_get d "slope" = None \/ dict_get d "nugget" = None ->
       make_parameter_list model (PDict d) = Err KeyError) /\
    (model = "power"%string ->
       dict_get d "scale" = None \/ dict_get d "exponent" = None \/ dict_get d "nugget" = None ->
       make_parameter_list model (PDict d) = Err KeyError) /\
    (In model ["gaussian"; "spherical"; "exponential"; "hole-effect"]%string ->
       dict_get d "range" = None \/ dict_get d "nugget" = None \/
       (dict_get d "sill" = None /\ dict_get d "psill" = None) ->
       make_parameter_list model (PDict d) = Err KeyError) /\
    (* wrong lengths *)
    (model = "linear"%string -> length l <> 2%nat -> make_parameter_list model (PList l) = Err ValueError) /\
    (In model ["power"; "gaussian"; "spherical"; "exponential"; "hole-effect"]%string ->
       length l <> 3%nat -> make_parameter_list model (PList l) = Err ValueError) /\
    (* wrong kinds *)
    make_parameter_list "custom" (PDict d) = Err TypeError /\
    make_parameter_list model POther = Err TypeError /\
    make_parameter_list "custom" (PList l) = Ok (Some l) /\
    make_parameter_list model PNone = Ok None /\
    (~ In model ["linear"; "power"; "gaussian"; "spherical"; "exponential"; "hole-effect"; "custom"]%string ->
       make_parameter_list model (PDict d) = Err ValueError /\
       make_parameter_list model (PList l) = Err ValueError).
Proof. exact bad_parameters_rejected. Qed.
Print Assumptions C05_bad_parameters_rejected.

(** Every accepted explicit parameter set has the length the model function reads. *)
Theorem C05_accepted_lists_have_the_right_length :
  forall model p l, make_parameter_list model p = Ok (Some l) ->
    (model = "linear"%string -> length l = 2%nat) /\
    (In model ["power"; "gaussian"; "spherical"; "exponential"; "hole-effect"]%string -> length l = 3%nat).
Proof. exact accepted_length. Qed.
Print Assumptions C05_accepted_lists_have_the_right_length.

(** C06.  variogram_parameters=[sill, range, nugget]: the model's sill is [sill]. *)
Theorem C06_requested_sill_is_the_sill :
  forall (sill range nugget : R), 0 < range -> nugget <= sill ->
    (exists p, make_parameter_list "spherical" (PList [sill; range; nugget]) = Ok (Some p) /\
       forall d, (0 <= d -> spherical_variogram_model p d <= sill) /\
                 (range <= d -> spherical_variogram_model p d = sill)) /\
    (exists p, make_parameter_list "gaussian" (PList [sill; range; nugget]) = Ok (Some p) /\
       (forall d, gaussian_variogram_model p d <= sill) /\
       forall eps, 0 < eps -> exists D, forall d, D <= d -> sill - eps < gaussian_variogram_model p d) /\
    (exists p, make_parameter_list "exponential" (PList [sill; range; nugget]) = Ok (Some p) /\
       (forall d, exponential_variogram_model p d <= sill) /\
       forall eps, 0 < eps -> exists D, forall d, D <= d -> sill - eps < exponential_variogram_model p d).
Proof. exact requested_sill. Qed.
Print Assumptions C06_requested_sill_is_the_sill.

(** Non-vacuity: concrete parameters meeting the hypotheses above. *)
Example C01_C06_hypotheses_inhabited :
  0 < 3 / 2 /\ 0 < 200 /\ 0 <= 5 /\ 0 <= 10 <= 50 /\ 1 <= 6 /\
  dict_get variogram_dict "spherical" = Some f_spherical /\
  dict_get [("nugget"%string, 1); ("range"%string, 200); ("sill"%string, 6)] "sill" = Some 6 /\
  ~ In "cubic"%string ["linear"; "power"; "gaussian"; "spherical"; "exponential"; "hole-effect"; "custom"]%string.
Proof.
  repeat split; try lra; try reflexivity.
  simpl. intros H. repeat destruct H as [H|H]; try discriminate; contradiction.
Qed.
