(** SPECIFICATION for C29-C33: histories of an object. *)
From Coq Require Import String.
From Verif Require Import Base Sums Matrix M_Variogram M_Geometry M_Kriging M_Init M_Object M_Execute S_Execute M_UK S_UK.

(** The same constructor call with other variogram and anisotropy arguments. *)
Definition with_v (A : cargs) (v : vargs) : cargs :=
  {| c_coords := c_coords A; c_values := c_values A; c_v := v; c_verbose := c_verbose A;
     c_plotting := c_plotting A; c_stat := c_stat A; c_ct := c_ct A; c_exact := c_exact A;
     c_pinv := c_pinv A; c_pinv_type := c_pinv_type A |}.

(** Everything observable except printing and plotting: results of execute for
    all queries, and the public attributes. *)
Record equivalent (E : env) (o o' : obj) : Prop := {
  eq_execute : forall q, execute E o q = execute E o' q;
  eq_class : o_class o = o_class o';
  eq_params : o_params o = o_params o';
  eq_fun : o_fun o = o_fun o';
  eq_model : o_model o = o_model o';
  eq_lags : o_lags o = o_lags o'; eq_semivariance : o_semivariance o = o_semivariance o';
  eq_adj : o_adj o = o_adj o'; eq_orig : o_orig o = o_orig o'; eq_values : o_values o = o_values o';
  eq_separation : forall p p', separation o p p' = separation o' p p' }.

(** Statistics are computed by the constructor (always, except OrdinaryKriging
    with enable_statistics=False). *)
Definition computes_statistics (c : kclass) (A : cargs) : Prop := c = OK2 -> c_stat A = true.

(** The anisotropy settings that matter in the object's dimension. *)
Definition same_anisotropy (dim : nat) (sc sc' an an' : vec) : Prop :=
  (forall k, (S k < dim)%nat -> sc k = sc' k) /\
  (if Nat.eqb dim 2 then an 0%nat = an' 0%nat else forall k, (k < 3)%nat -> an k = an' k).

(** Talk-back calls *)
Inductive switch := Verbose | Plotting.
Definition flip (s : switch) (o : obj) : obj := match s with Verbose => switch_verbose o | Plotting => switch_plotting o end.
Definition flips (l : list switch) (o : obj) : obj := fold_left (fun o s => flip s o) l o.

(** Universal kriging objects that behave the same. *)
Record uequivalent (E : env) (u u' : uobj) : Prop := {
  ueq_execute : forall q specs, execute_uk E u q specs = execute_uk E u' q specs;
  ueq_obj : equivalent E (u_obj u) (u_obj u') }.

(** Sessions: a sequence of method calls and what each call returns. *)
Inductive call :=
| Update (v : vargs) | Execute (q : query) | Switch (s : switch)
| GetPoints | GetStatistics | GetResiduals.
Inductive answer :=
| AUpdate (e : option exn) | AExecute (r : res result) | ASwitch
| APoints (p : list R * list R) | AStatistics (s : option (option R * option R * option R)) | AResiduals (l : option (list R)).
Definition answer_of (E : env) (o : obj) (c : call) : answer :=
  match c with
  | Update v => AUpdate (snd (update_variogram_model E o v))
  | Execute q => AExecute (execute E o q)
  | Switch _ => ASwitch
  | GetPoints => APoints (get_variogram_points o)
  | GetStatistics => AStatistics (get_statistics o)
  | GetResiduals => AResiduals (get_epsilon_residuals o)
  end.
(** the object after a call; only update_variogram_model and the switches assign attributes *)
Definition after_call (E : env) (o : obj) (c : call) : obj :=
  match c with
  | Update v => fst (update_variogram_model E o v)
  | Switch s => flip s o
  | _ => o
  end.
Fixpoint session (E : env) (o : obj) (cs : list call) : list answer :=
  match cs with
  | [] => []
  | c :: cs => answer_of E o c :: session E (after_call E o c) cs
  end.
Definition is_switch (c : call) : bool := match c with Switch _ => true | _ => false end.
Definition is_update (c : call) : bool := match c with Update _ => true | _ => false end.
Definition no_switch_answer (a : answer) : bool := match a with ASwitch => false | _ => true end.

(** Models that update_variogram_model and the constructors refuse: unknown names,
    'custom' without a callable, GSTools models that are not usable (package missing
    or too old, not a CovModel, wrong dimension, latlon where not supported). *)
Definition model_rejected (E : env) (o : obj) (v : vargs) : Prop :=
  (exists s, a_model v = VName s /\
     ~ In s ["linear"; "power"; "gaussian"; "spherical"; "exponential"; "hole-effect"]%string /\
     (s = "custom"%string -> ~ exists g, a_fun v = FCallable g)) \/
  (exists m, a_model v = VModel m /\
     ((e_gstools E = None \/
       (gs_is_covmodel m = false \/ (match e_gstools E with Some ver => version_lt ver 1 3 = true | None => False end) \/
        (gs_latlon m = true /\ match e_gstools E with Some ver => version_lt ver 1 4 = true | None => False end))) \/
      match o_class o with
      | OK2 => gs_field_dim m = 3%nat \/ (gs_latlon m = true /\ o_ct o = Euclidean)
      | UK2 => gs_field_dim m = 3%nat \/ gs_latlon m = true
      | _ => (gs_field_dim m < 3)%nat
      end)).

(** Sessions with a universal kriging object. *)
Inductive ucall :=
| UUpdate (v : vargs) | UExecute (q : query) (specs : list spec_arr) | USwitch (s : switch)
| UGetPoints | UGetStatistics | UGetResiduals.
Inductive uanswer :=
| BUpdate (e : option exn) | BExecute (r : res (result * bool)) | BSwitch
| BPoints (p : list R * list R) | BStatistics (s : option (option R * option R * option R)) | BResiduals (l : option (list R)).
Definition uanswer_of (E : env) (u : uobj) (c : ucall) : uanswer :=
  match c with
  | UUpdate v => BUpdate (snd (update_uk E u v))
  | UExecute q specs => BExecute (execute_uk E u q specs)
  | USwitch _ => BSwitch
  | UGetPoints => BPoints (get_variogram_points (u_obj u))
  | UGetStatistics => BStatistics (get_statistics (u_obj u))
  | UGetResiduals => BResiduals (get_epsilon_residuals (u_obj u))
  end.
Definition uafter_call (E : env) (u : uobj) (c : ucall) : uobj :=
  match c with
  | UUpdate v => fst (update_uk E u v)
  | USwitch s => with_obj u (flip s (u_obj u))
  | _ => u
  end.
Fixpoint usession (E : env) (u : uobj) (cs : list ucall) : list uanswer :=
  match cs with
  | [] => []
  | c :: cs => uanswer_of E u c :: usession E (uafter_call E u c) cs
  end.
Definition is_uswitch (c : ucall) : bool := match c with USwitch _ => true | _ => false end.
Definition is_uupdate (c : ucall) : bool := match c with UUpdate _ => true | _ => false end.
Definition no_uswitch_answer (a : uanswer) : bool := match a with BSwitch => false | _ => true end.
