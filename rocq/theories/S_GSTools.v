(** SPECIFICATION for C50: which GSTools covariance models a kriging class takes. *)
From Coq Require Import String.
From Verif Require Import Base Sums Matrix M_Variogram M_Geometry M_Kriging M_Init M_Object.

(** version (a, b) is at least (c, d) *)
Definition at_least (v : nat * nat) (c d : nat) : Prop := (c < fst v)%nat \/ (fst v = c /\ (d <= snd v)%nat).
(** the package can handle the object *)
Definition package_ok (gs : option (nat * nat)) (m : gsmodel) : Prop :=
  exists v, gs = Some v /\ gs_is_covmodel m = true /\ at_least v 1 3 /\ (gs_latlon m = true -> at_least v 1 4).
(** what the class takes; [geographic]: coordinates_type='geographic' *)
Definition model_fits (c : kclass) (geographic : bool) (m : gsmodel) : Prop :=
  match c with
  | OK2 => gs_field_dim m <> 3%nat /\ (gs_latlon m = true -> geographic = true)
  | UK2 => gs_field_dim m <> 3%nat /\ gs_latlon m = false
  | OK3 | UK3 => (3 <= gs_field_dim m)%nat
  end.
(** the same arguments with the model's variogram as a custom function without
    parameters and the model's anisotropy *)
Definition as_custom (c : kclass) (m : gsmodel) (v : vargs) : vargs :=
  {| a_model := VName "custom"; a_params := PList []; a_fun := FCallable (gs_vario m);
     a_nlags := a_nlags v; a_weight := a_weight v;
     a_scaling := match cdim c with 2%nat => fun _ => gs_anis2 m | _ => gs_anis3 m end;
     a_angle := match cdim c with 2%nat => fun _ => gs_angle2 m | _ => gs_angle3 m end |}.
Definition with_v (A : cargs) (v : vargs) : cargs :=
  {| c_coords := c_coords A; c_values := c_values A; c_v := v; c_verbose := c_verbose A; c_plotting := c_plotting A;
     c_stat := c_stat A; c_ct := c_ct A; c_exact := c_exact A; c_pinv := c_pinv A; c_pinv_type := c_pinv_type A |}.
Definition with_model (v : vargs) (m : vm_arg) : vargs :=
  {| a_model := m; a_params := a_params v; a_fun := a_fun v; a_nlags := a_nlags v; a_weight := a_weight v;
     a_scaling := a_scaling v; a_angle := a_angle v |}.
(** coordinates_type is one of the two known values; only OrdinaryKriging has it *)
Definition ct_ok (c : kclass) (A : cargs) : Prop := c = OK2 -> (c_ct A = "euclidean" \/ c_ct A = "geographic")%string.
Definition is_geo (c : kclass) (A : cargs) : bool := match c with OK2 => String.eqb (c_ct A) "geographic" | _ => false end.
Definition o_geo (o : obj) : bool := match o_ct o with Geographic => true | Euclidean => false end.
