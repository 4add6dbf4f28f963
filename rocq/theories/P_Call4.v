(** Fitting after set_params; examples for C69, C70. *)
From Coq Require Import String Permutation.
From Verif Require Import Base Sums Matrix M_Variogram M_Geometry S_Geometry M_Kriging S_Kriging M_Init M_Object M_Execute S_Execute M_UK S_UK S_Valid M_Compat S_Compat M_Call S_Call
  P_Object P_Compat P_Call P_Call2 P_Call3 P_Valid6 P_Valid7 P_UK8 P_Learn3 Witness.

Theorem set_params_then_fit E k kw k' k0 x y : set_params k kw = (k', None) -> krige_call [] (dict_update (get_params_of k) kw) = Ok k0 ->
  krige_fit E k' x y = match krige_fit E k0 x y with (k1, None) => (k1, None) | (_, Some e) => (k', Some e) end.
Proof.
  intros H1 H2. rewrite (set_params_new k kw k' k0 H1 H2).
  assert (HK : k' = set_fitted (set_fitted k' None) (k_fitted k')) by (destruct k'; reflexivity).
  rewrite HK at 1. rewrite fit_forgets. rewrite <- HK. reflexivity.
Qed.

Lemma ex_update_removes : exists E m m', o_ct (kobj m) = Euclidean /\ o_n (kobj m) = 4%nat /\ o_scaling (kobj m) 0%nat = 2 /\
  update_call E m [V_model (VName "spherical")] [("variogram_parameters"%string, V_params (PList [2; 3; 1]))] = (m', None).
Proof.
  destruct ex_spherical_call as (HC & HV & HD).
  destruct (construct_execute WE OK3 space_args "spherical" [2; 3; 0] (wit_env_ok _ _) HC HV (or_intror eq_refl) (or_intror HD)) as (o & Ho & HP & _).
  destruct (construct_inv WE OK3 _ o Ho) as (ex & name & prm & fn & sc & an & f & vp & lags & sv & params & Hall).
  destruct Hall as (_&Hex&Hgs&Hf&Hmp&_&Hini&_&Hc&Hpi&_&Hexo&_&Hfo&Hpo&Hn&Horig&Hval&_&_&_&_&Hct).
  cbn in Hgs, Hn, Hpi. injection Hgs as <- <- <- <- <-.
  destruct Hct as [(_ & Hct & _ & Hs & Ha & _)|(Hg & _)]; [|discriminate].
  assert (Hre : reachable WE o) by (refine (reach_new WE OK3 space_args o _ Ho); reflexivity).
  pose (v := {| a_model := VName "spherical"; a_params := PList [2; 3; 1]; a_fun := FNone; a_nlags := 6; a_weight := false;
     a_scaling := rnth [1; 1]; a_angle := rnth [0; 0; 0] |}).
  destruct (update_proper WE o v "spherical" [2; 3; 1] (wit_env_ok _ _) Hre Hct Hpi ltac:(rewrite Hn; lia)) as (o' & Ho' & _).
  { split; cbn; try reflexivity.
    - apply request_sill; [right; right; reflexivity|lra..].
    - rewrite Hc. intros k Hk. cbn in Hk. destruct k as [|[|k]]; [cbn; lra..|lia]. }
  { left. cbn. lra. }
  exists WE, (KOrd o), (KOrd o'). split; [exact Hct|]. split; [exact Hn|]. split; [cbn [kobj]; rewrite Hs; reflexivity|].
  unfold update_call, model_dim. assert (Hdim : o_dim o = 3%nat) by (unfold o_dim; rewrite Hc; reflexivity). rewrite Hdim.
  cbn -[update_variogram_model]. change (update_variogram_model WE o _) with (update_variogram_model WE o v). rewrite Ho'. reflexivity.
Qed.

(** Krige(nlags=4), fitted, then set_params(variogram_model='spherical', nlags=5) *)
Definition nlags_4 : kwargs := [("nlags"%string, V_nat 4)].
Definition spherical_5 : kwargs := [("variogram_model"%string, V_model (VName "spherical")); ("nlags"%string, V_nat 5)].
Definition default_with (model : string) (nlags : nat) : krige :=
  {| k_method := "ordinary"; k_model := VName model; k_params := PNone; k_fun := FNone; k_nlags := nlags; k_weight := false; k_verbose := false;
     k_exact := Some true; k_pinv := false; k_pinv_type := "pinv"; k_scaling := [1; 1]; k_angle := [0; 0; 0]; k_stat := false; k_ct := "euclidean";
     k_terms := []; k_point := None; k_ext := None; k_ext_x := None; k_ext_y := None; k_funs := None; k_window := Some 10%nat; k_fitted := None |}.
Lemma ex_set_params : exists k k' k0, krige_call [] nlags_4 = Ok k /\ k_window k = Some 10%nat /\ set_params k spherical_5 = (k', None) /\
  krige_call [] (dict_update (get_params_of k) spherical_5) = Ok k0 /\ k_nlags k0 = 5%nat /\ k_method k0 = "ordinary"%string /\
  (forall name v, In (name, v) spherical_5 -> right_kind name v) /\
  (forall name, In name (map fst spherical_5) -> name <> "method"%string /\ name <> "n_closest_points"%string).
Proof.
  exists (default_with "linear" 4), (default_with "spherical" 5), (default_with "spherical" 5). split; [reflexivity|]. split; [reflexivity|]. split; [reflexivity|]. split; [reflexivity|]. split; [reflexivity|]. split; [reflexivity|]. split.
  - intros name v [H|[H|[]]]; injection H as <- <-; eexists; (split; [cbn; tauto|exact I]).
  - intros name [<-|[<-|[]]]; split; discriminate.
Qed.
Theorem window_before_refit E k m c w x : fitted_as k m c -> List.length (p_cols x) = cdim c ->
  exists k', set_params k [("n_closest_points"%string, V_window w)] = (k', None) /\
    krige_predict E k' x [] = direct_predict E (with_ncp k w) m x "loop".
Proof.
  intros HF HX. exists (with_ncp k w). split; [apply set_params_window|].
  apply (predict_with_backend E (with_ncp k w) x c m "loop" []); [exact HF|exact HX|left; split; reflexivity].
Qed.
Lemma ex_fitted (z0 z1 : R) : exists k m, fitted_as k m OK2.
Proof.
  destruct (kopt_fit z0 z1) as (k' & HF & _). rewrite (fit_is_direct WE kopt pts2 [z0; z1] OK2 eq_refl eq_refl ltac:(cbn; lia) ltac:(cbn; lia)) in HF.
  destruct (direct_call WE kopt OK2 pts2 [z0; z1]) as [m|e] eqn:ED; [|discriminate]. exists (set_fitted kopt (Some m)), m.
  apply (fit_fitted WE kopt pts2 [z0; z1] OK2 m eq_refl ED).
Qed.
