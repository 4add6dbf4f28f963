(** Examples for C39-C43, C56: two points (0,0), (3,4), linear variogram, ordinary kriging. *)
From Coq Require Import String.
From Verif Require Import Base Sums Matrix M_Variogram M_Geometry S_Geometry M_Kriging S_Kriging M_Init M_Object M_Execute S_Execute M_UK S_UK M_Compat S_Compat
  M_Ilr M_Learn S_Learn P_Object P_Execute P_OK P_Compat P_Ilr P_Learn P_Learn2 P_Cells P_Kriging Witness P_UK8.

Definition wrap (method : string) (scaling angle : list R) (w : option nat) : krige :=
  {| k_method := method; k_model := VName "linear"; k_params := PList [1; 0]; k_fun := FNone; k_nlags := 6; k_weight := false;
     k_verbose := false; k_exact := Some true; k_pinv := false; k_pinv_type := "pinv"; k_scaling := scaling; k_angle := angle;
     k_stat := false; k_ct := "euclidean"; k_terms := []; k_point := None; k_ext := None; k_ext_x := None; k_ext_y := None;
     k_funs := None; k_window := w; k_fitted := None |}.
Definition kopt := wrap "ordinary" [1; 1] [0; 0; 0] None.
Definition pts2 : points := {| p_int := false; p_cols := [[0; 3]; [0; 4]] |}.

Lemma kopt_direct z0 z1 : exists o, direct_call WE kopt OK2 pts2 [z0; z1] = Ok (KOrd o) /\ construct WE OK2 (direct_args kopt OK2 pts2 [z0; z1]) = Ok o.
Proof.
  destruct (construct_explicit WE (direct_args kopt OK2 pts2 [z0; z1]) "linear" f_linear [1; 0] [0; 3] [0; 4]) as [o Ho]; cbn; try reflexivity; try lia; eauto.
  repeat split; reflexivity.
Qed.
Lemma kopt_fields z0 z1 o : construct WE OK2 (direct_args kopt OK2 pts2 [z0; z1]) = Ok o ->
  reachable WE o /\ coords_inv o /\ o_class o = OK2 /\ o_n o = 2%nat /\ o_ct o = Euclidean /\ o_exact o = true /\ o_pinv o = false /\
  (forall d, o_vg o d = 1 * d + 0) /\ o_values o = rnth [z0; z1] /\
  datum o 0%nat = (0, 0, 0) /\ datum o 1%nat = (3, 4, 0) /\
  forall p q, separation o p q = sqrt ((lon p - lon q)² + (lat p - lat q)²).
Proof.
  intros H. assert (Hre : reachable WE o) by (refine (reach_new WE OK2 (direct_args kopt OK2 pts2 [z0; z1]) o _ H); reflexivity).
  split; [exact Hre|]. split; [apply (reachable_inv WE o Hre)|].
  destruct (construct_inv WE OK2 _ o H) as (ex & name & prm & fn & sc & an & f & vp & lags & sv & params & Hall).
  destruct Hall as (_&Hex&Hgs&Hf&Hmp&_&Hini&_&Hc&Hpi&_&Hexo&_&Hfo&Hpo&Hn&Horig&Hval&_&_&_&_&Hct).
  cbn in Hex, Hgs, Hn, Horig, Hval, Hpi. injection Hex as <-. injection Hgs as <- <- <- <- <-.
  cbn in Hf. injection Hf as <-. cbn in Hmp. injection Hmp as <-.
  destruct Hct as [(_ & Hct & _ & Hs & Ha & _)|(Hg & _)]; [|discriminate].
  assert (Hpar : params = [1; 0]).
  { unfold initialize_variogram_model in Hini. rewrite Hct in Hini. cbn [cdim Nat.eqb] in Hini. rewrite Hn in Hini. cbn [List.length direct_args c_values Nat.eqb negb] in Hini.
    bindok Hini. cbn in Hini. injection Hini as _ _ <-. reflexivity. }
  rewrite Hpar in Hpo.
  assert (Hdim : o_dim o = 2%nat) by (unfold o_dim; rewrite Hc; reflexivity).
  assert (Hvg : forall d, o_vg o d = 1 * d + 0) by (intros d; unfold o_vg; rewrite Hfo, Hpo; reflexivity).
  assert (Hd0 : datum o 0%nat = (0, 0, 0)) by (unfold datum, loc; rewrite Hdim, Horig; reflexivity).
  assert (Hd1 : datum o 1%nat = (3, 4, 0)) by (unfold datum, loc; rewrite Hdim, Horig; reflexivity).
  repeat (split; [first [assumption|reflexivity]|]).
  intros [[x y] z] [[u v] w]. unfold separation, lon, lat. rewrite Hct, Hdim, Hs, Ha. cbn [Nat.eqb fst snd rnth nth firstn Nat.sub cdim].
  unfold aniso2, rad, dot3, sub3. cbv zeta. cbn. replace (0 * PI / 180) with 0 by field. rewrite cos_0, sin_0. f_equal. unfold Rsqr. ring.
Qed.
Lemma kopt_sep z0 z1 o : construct WE OK2 (direct_args kopt OK2 pts2 [z0; z1]) = Ok o -> separation o (datum o 0%nat) (datum o 1%nat) = 5.
Proof.
  intros H. destruct (kopt_fields _ _ _ H) as (_&_&_&_&_&_&_&_&_&H0&H1&Hs). rewrite Hs, H0, H1. unfold lon, lat. cbn [fst snd]. apply sqrt_25.
Qed.
Lemma eps_lt_5 : eps < 5. Proof. unfold eps. lra. Qed.

(** fitting and predicting at the training points works *)
Lemma kopt_fit z0 z1 : exists k', krige_fit WE kopt pts2 [z0; z1] = (k', None) /\ apart k' /\
  exists sh v, krige_predict WE k' pts2 [] = Ok (sh, v).
Proof.
  destruct (kopt_direct z0 z1) as (o & HD & HC). exists (set_fitted kopt (Some (KOrd o))).
  assert (HF : krige_fit WE kopt pts2 [z0; z1] = (set_fitted kopt (Some (KOrd o)), None)).
  { rewrite (fit_is_direct WE kopt pts2 [z0; z1] OK2); [|reflexivity|reflexivity|cbn; lia|cbn; lia]. rewrite HD. reflexivity. }
  split; [exact HF|]. pose proof (kopt_sep _ _ _ HC) as HS.
  destruct (kopt_fields _ _ _ HC) as (Hre & Hinv & Hc & Hn & Hct & Hex & Hpi & Hvg & Hv & Hd0 & Hd1 & Hs).
  split.
  - exists (KOrd o). split; [reflexivity|]. cbn [kobj]. rewrite Hn. intros i j Hi Hj NE.
    assert (HS' : separation o (datum o 1%nat) (datum o 0%nat) = 5) by (rewrite separation_sym; exact HS).
    destruct i as [|[|i]]; destruct j as [|[|j]]; try lia; rewrite ?HS, ?HS'; apply eps_lt_5.
  - rewrite (predict_with_backend WE _ pts2 OK2 (KOrd o) "loop" []); [|exact (fit_fitted WE kopt pts2 [z0; z1] OK2 (KOrd o) eq_refl HD)|reflexivity|left; auto].
    unfold direct_predict. assert (Hdim : o_dim o = 2%nat) by (unfold o_dim; rewrite Hc; reflexivity).
    assert (HG : G_of o 0%nat 1%nat = 5) by (unfold G_of, data_semivariance; cbn [Nat.eqb]; rewrite Hvg, HS; ring).
    assert (HL : exists l, locate (o_dim o) "points" (p_cols pts2) None = Ok l) by (rewrite Hdim; eexists; reflexivity). destruct HL as [l HL].
    destruct (execute_succeeds WE o (points_query pts2 "loop" None) l) as [r Hr]; try assumption.
    + apply wit_env_ok.
    + left; exact Hc.
    + reflexivity.
    + right; left; reflexivity.
    + apply two_regular; [exact Hn|rewrite HG; lra].
    + intros _. reflexivity.
    + change (k_window (set_fitted kopt (Some (KOrd o)))) with (@None nat). rewrite Hr. eauto.
Qed.

(** a regressor that always predicts the constant 7 *)
Definition const_reg : regressor nat := fun _ _ => Ok (fun n => Ok (repeat 7 n)).
Lemma rk_example y0 y1 : exists s s' r, rk_init nat kopt = Ok s /\ rk_fit WE const_reg s 2%nat pts2 [y0; y1] = (s', None) /\ apart (rk_krige s') /\
  rk_predict WE s' 2%nat pts2 [] = Ok r.
Proof.
  destruct (kopt_fit (y0 - 7) (y1 - 7)) as (k' & HF & HA & sh & v & HP).
  assert (HC : class_of (k_method kopt) = Some OK2) by reflexivity.
  destruct (fit_inv WE kopt pts2 _ k' OK2 HC HF) as (m & HD & Hk & _).
  exists {| rk_reg := None; rk_krige := kopt |}, {| rk_reg := Some (fun n => Ok (repeat 7 n)); rk_krige := k' |}.
  assert (Hsh : sh = [2%nat]).
  { rewrite Hk in HP. exact (proj1 (predict_shape WE _ m OK2 pts2 [] sh v (fit_fitted WE kopt pts2 _ OK2 m HC HD) (or_introl eq_refl) HP)). }
  subst sh. eexists. split; [reflexivity|]. split.
  - unfold rk_fit, const_reg. cbn [rk_krige bind repeat np_map2 List.length Nat.eqb zip_with]. rewrite HF. reflexivity.
  - split; [exact HA|]. unfold rk_predict, rk_krige_residual. cbn [rk_krige rk_reg]. rewrite HP. cbn. reflexivity.
Qed.

(** labels 10 and 20, a classifier without any information *)
Definition flat : classifier nat nat := fun _ _ => Ok ([10; 20]%nat, fun n => Ok (repeat [/ 2; / 2] n)).
Definition tens : labels nat := {| l_column := true; l_list := [10; 20]%nat |}.
Lemma ck_example : exists s' r, ck_fit WE Nat.eqb flat (ck_init nat nat kopt) 2%nat pts2 tens = (s', None) /\
  (forall k, In k (ck_krige s') -> apart k) /\ ck_predict WE s' 2%nat pts2 [] = Ok r /\ ck_classes s' = [10; 20]%nat /\ r = [0; 1]%nat.
Proof.
  assert (HFIT : exists s' r, ck_fit WE Nat.eqb flat (ck_init nat nat kopt) 2%nat pts2 tens = (s', None) /\
    (forall k, In k (ck_krige s') -> apart k) /\ ck_predict WE s' 2%nat pts2 [] = Ok r /\ ck_classes s' = [10; 20]%nat /\ ck_proba s' = Some (fun n => Ok (repeat [/ 2; / 2] n)) /\ List.length r = 2%nat).
  { set (o1 := fun j : nat => if Nat.eqb j 0 then 1 else 0). set (o2 := fun j : nat => if Nat.eqb j 1 then 1 else 0).
    destruct (kopt_fit (ilr 2 o1 0%nat - ilr 2 (rnth [/ 2; / 2]) 0%nat) (ilr 2 o2 0%nat - ilr 2 (rnth [/ 2; / 2]) 0%nat)) as (k' & HF & HA & sh & v & HP).
    assert (HC : class_of (k_method kopt) = Some OK2) by reflexivity.
    destruct (fit_inv WE kopt pts2 _ k' OK2 HC HF) as (m & HD & Hk & _).
    assert (Hsh : sh = [2%nat]).
    { rewrite Hk in HP. exact (proj1 (predict_shape WE _ m OK2 pts2 [] sh v (fit_fitted WE kopt pts2 _ OK2 m HC HD) (or_introl eq_refl) HP)). }
    subst sh.
    exists {| ck_options := kopt; ck_classes := [10; 20]%nat; ck_proba := Some (fun n => Ok (repeat [/ 2; / 2] n)); ck_krige := [k'] |}.
    eexists. split.
    - unfold ck_fit, flat, tens, ck_init. cbn [ck_options l_list l_column List.length seq Nat.sub mapM bind repeat Nat.eqb].
      replace (krige_init kopt) with (@Ok krige kopt) by reflexivity. cbn [bind one_hot position Nat.eqb option_map mapM fit_all zip_with List.length].
      fold o1 o2. rewrite HF. reflexivity.
    - split; [intros k [<-|[]]; exact HA|]. split.
      + unfold ck_predict, ck_krige_residual. cbn [ck_proba ck_krige ck_classes bind repeat mapM]. rewrite HP.
        cbn [bind as_list fst snd map seq forallb List.length Nat.eqb andb]. reflexivity.
      + cbn [ck_classes ck_proba]. split; [reflexivity|]. split; [reflexivity|]. reflexivity. }
  destruct HFIT as (s' & r & HF & HA & HP & Hcl & Hpr & HL). exists s', r.
  split; [exact HF|]. split; [exact HA|]. split; [exact HP|]. split; [exact Hcl|].
  assert (Heq : forall a b, Nat.eqb a b = true <-> a = b) by (intros a b; apply Nat.eqb_eq).
  assert (HR : forall i a, (i < 2)%nat -> nth_error [10; 20]%nat i = Some a -> index_of [10; 20]%nat a (nth i r 0%nat)).
  { intros i a Hi Ha. destruct (ck_exact WE Nat.eqb flat (ck_init nat nat kopt) 2%nat pts2 tens s' 2%nat pts2 [] r i i
      (fun n => Ok (repeat [/ 2; / 2] n)) (repeat [/ 2; / 2] 2) (repeat [/ 2; / 2] 2) Heq (wit_env_ok _ _) eq_refl eq_refl HF HA HP (or_introl eq_refl) Hpr eq_refl eq_refl eq_refl Hi Hi (fun c => eq_refl) eq_refl) as [_ H].
    rewrite <- Hcl. apply H. exact Ha. }
  destruct r as [|r0 [|r1 [|]]]; cbn in HL; try discriminate HL.
  destruct (HR 0%nat 10%nat ltac:(lia) eq_refl) as [H0 _]. destruct (HR 1%nat 20%nat ltac:(lia) eq_refl) as [H1 _]. cbn [nth] in *.
  destruct r0 as [|[|[|]]]; cbn in H0; try discriminate H0. destruct r1 as [|[|[|]]]; cbn in H1; try discriminate H1. reflexivity.
Qed.

Definition kten := wrap "ordinary" [1; 1] [0; 0; 0] (Some 10%nat).
Lemma kten_fit : exists k', krige_fit WE kten pts2 [1; 2] = (k', None).
Proof.
  destruct (kopt_direct 1 2) as (o & _ & HC).
  exists (set_fitted kten (Some (KOrd o))). rewrite (fit_is_direct WE kten pts2 [1; 2] OK2); [|reflexivity|reflexivity|cbn; lia|cbn; lia].
  unfold direct_call. change (direct_args kten OK2 pts2 [1; 2]) with (direct_args kopt OK2 pts2 [1; 2]). rewrite HC. reflexivity.
Qed.
