(** Proofs for C36 (objects) and C38. *)
From Coq Require Import String Permutation FunctionalExtensionality.
From Verif Require Import Base Sums Matrix M_Variogram M_Geometry S_Geometry P_Geometry M_Kriging S_Kriging M_Init M_Object M_Execute S_Execute
  S_Fit P_Binning P_Object P_Data S_State P_State P_State2 P_Fit P_Fit2 P_Kriging.

Lemma name_fitted name fn f : resolve_fun name fn = Ok f -> name <> "custom"%string -> In name fitted_models.
Proof.
  unfold resolve_fun, variogram_dict. cbn [dict_get]. intros H HC.
  repeat match type of H with context [String.eqb name ?s] =>
    destruct (String.eqb_spec name s) as [->|]; [solve [cbn; auto 10 | contradiction]|] end.
  discriminate H.
Qed.

Lemma make_none name : make_parameter_list name PNone = Ok None.
Proof. reflexivity. Qed.

Lemma sep_nonneg o i j : coords_inv o -> 0 <= sep o i j.
Proof. intros H. apply separation_nonneg. Qed.

Lemma exp_of E c A o : construct E c A = Ok o -> List.length (c_coords A) = cdim c -> o_lags o <> [] ->
  increasing (o_lags o) /\ List.length (o_semivariance o) = List.length (o_lags o) /\
  (forall d, In d (o_lags o) -> 0 <= d) /\ (forall v, In v (o_semivariance o) -> 0 <= v) /\
  (forall v m, (forall i j, (i < j < o_n o)%nat -> (o_values o i - o_values o j)² / 2 <= m) -> In v (o_semivariance o) -> 0 <= v <= m).
Proof.
  intros HC HL HN. pose proof (reachable_inv E o (reach_new E c A o HL HC)) as HI.
  assert (H1 : (1 <= a_nlags (c_v A))%nat).
  { destruct (a_nlags (c_v A)) eqn:EN; [|lia]. exfalso. apply HN.
    pose proof (construct_inv E c A o HC) as (ex & name & prm & fn & sc & an & f & vp & lags & sv & params & Hall).
    destruct Hall as (_&_&_&_&_&_&HV&_&Hcl&_&_&_&_&_&_&_&_&Hval&Hlag&Hsv&_).
    apply initialize_points in HV. destruct HV as (ls & HX & E1 & _). rewrite EN in HX.
    apply experimental_inv in HX. destruct HX as (dmin & dmax & _ & [K _]). rewrite Hlag, E1, K. reflexivity. }
  destruct (experimental_of_object E c A o _ HC HL eq_refl H1) as (dmin & dmax & M & HE & HCl & _ & _ & HX).
  destruct (experimental_shape _ _ _ _ _ _ _ _ _ H1 HE HCl HX) as (S1 & S2 & S3 & S4 & S5).
  split; [exact S3|]. split; [lia|]. split; [|split].
  - intros d Hd. apply S4 in Hd. destruct HE as ((i & j & _ & HD) & _). pose proof (sep_nonneg o i j HI). lra.
  - intros v Hv. destruct (Classical_Prop.classic (exists m, forall i j, (i < j < o_n o)%nat -> (o_values o i - o_values o j)² / 2 <= m)) as [[m Hm]|NE].
    + apply (S5 v m Hm Hv).
    + exfalso. apply NE. clear. induction (o_n o) as [|n [m Hm]].
      * exists 0. intros; lia.
      * assert (K : forall N, exists b, forall i, (i < N)%nat -> (o_values o i - o_values o n)² / 2 <= b).
        { induction N as [|N [b Hb]]; [exists 0; intros; lia|]. exists (Rmax b ((o_values o N - o_values o n)² / 2)). intros i Hi.
          destruct (Nat.eq_dec i N) as [->|]; [apply Rmax_r|]. eapply Rle_trans; [apply Hb; lia|apply Rmax_l]. }
        destruct (K n) as [b Hb]. exists (Rmax m b). intros i j Hij. destruct (Nat.eq_dec j n) as [->|].
        -- eapply Rle_trans; [apply Hb; lia|apply Rmax_r].
        -- eapply Rle_trans; [apply Hm; lia|apply Rmax_l].
  - exact S5.
Qed.

Theorem fitted_object E c A o name : construct E c A = Ok o -> List.length (c_coords A) = cdim c ->
  a_model (c_v A) = VName name -> a_params (c_v A) = PNone ->
  In name fitted_models /\ fit_possible name (a_weight (c_v A)) (o_lags o) (o_semivariance o) /\
  (optimiser_ok (e_fit E) -> bounded_params name (o_lags o) (o_semivariance o) (o_params o)).
Proof.
  intros HC HL HM HP.
  pose proof (construct_inv E c A o HC) as (ex & nm & prm & fn & sc & an & f & vp & lags & sv & params & Hall).
  destruct Hall as (_&_&Hgs&Hfn&Hmk&_&HV&_&Hcl&_&_&_&_&_&Hpa&_&_&Hval&Hlag&Hsv&_).
  unfold resolve_gs in Hgs. rewrite HM, HP in Hgs. injection Hgs as <- <- <- <- <-. injection Hmk as <-.
  assert (HNC : name <> "custom"%string /\ lags <> []).
  { unfold initialize_variogram_model in HV.
    assert (K : exists ls, (if String.eqb name "custom" then Err ValueError
        else match map fst ls with
             | [] => Err ValueError
             | _ => do p <- calculate_variogram_model (e_fit E) (map fst ls) (map snd ls) name f (a_weight (c_v A)) ;;
                    Ok (map fst ls, map snd ls, p)
             end) = Ok (lags, sv, params)).
    { destruct (o_ct o), (Nat.eqb (cdim c) 2); try discriminate HV; destruct (negb (Nat.eqb (List.length (c_values A)) (o_n o)));
        try (destruct (Nat.leb (o_n o) 1), (Nat.eqb (a_nlags (c_v A)) 0); discriminate HV); try discriminate HV;
        bindok HV; exists a; exact HV. }
    destruct K as [ls K]. destruct (String.eqb_spec name "custom") as [|NC]; [discriminate K|]. split; [exact NC|].
    destruct (map fst ls) eqn:EL; [discriminate K|]. bindok K. injection K as <- _ _. discriminate. }
  destruct HNC as [NC NL].
  apply initialize_points in HV. destruct HV as (ls & HX & E1 & E2 & HF). specialize (HF eq_refl).
  pose proof (name_fitted name _ f Hfn NC) as HN.
  assert (NL' : o_lags o <> []) by (rewrite Hlag; exact NL).
  destruct (exp_of E c A o HC HL NL') as (I1 & I2 & I3 & I4 & _). rewrite Hlag, Hsv in *.
  destruct (calculate_spec (e_fit E) lags sv name f (a_weight (c_v A)) NL I2 I1 I3 I4 HN) as [C1 C2].
  assert (FP : fit_possible name (a_weight (c_v A)) lags sv).
  { destruct (Classical_Prop.classic (fit_possible name (a_weight (c_v A)) lags sv)) as [H|H]; [exact H|].
    rewrite (C2 H) in HF. discriminate HF. }
  split; [exact HN|]. split; [exact FP|]. intros HO. destruct (C1 FP) as (p & Hp & HB). rewrite HF in Hp. injection Hp as <-.
  rewrite Hpa. exact (HB HO).
Qed.

Theorem constant_data_raise E c A name : List.length (c_coords A) = cdim c ->
  a_model (c_v A) = VName name -> a_params (c_v A) = PNone ->
  (forall x y, In x (c_values A) -> In y (c_values A) -> x = y) -> forall o, construct E c A <> Ok o.
Proof.
  intros HL HM HP HZ o HC. destruct (fitted_object E c A o name HC HL HM HP) as (HN & ((v & Hv & Hpos) & _) & _).
  assert (NL : o_lags o <> []).
  { intros E0. pose proof (construct_inv E c A o HC) as (ex & nm & prm & fn & sc & an & f & vp & lags & sv & params & Hall).
    destruct Hall as (_&_&_&_&_&_&HV&_&Hcl&_&_&_&_&_&_&_&_&Hval&Hlag&Hsv&_).
    apply initialize_points in HV. destruct HV as (ls & _ & E1 & E2 & _). rewrite Hlag, E1 in E0. apply map_eq_nil in E0. subst ls.
    rewrite Hsv, E2 in Hv. contradiction. }
  destruct (exp_of E c A o HC HL NL) as (_ & _ & _ & _ & S5).
  pose proof (construct_based E c A o HC) as B.
  assert (HV : 0 <= v <= 0); [|lra]. apply S5; [|exact Hv]. intros i j Hij.
  rewrite (ba_values _ _ _ B). pose proof (ba_nvalues _ _ _ B) as HNV.
  rewrite (HZ (rnth (c_values A) i) (rnth (c_values A) j)) by (apply nth_In; lia). rewrite Rminus_diag_eq by reflexivity. unfold Rsqr. lra.
Qed.

Theorem refit_succeeds E A o name weight s0 : construct E OK2 A = Ok o -> List.length (c_coords A) = cdim OK2 -> c_stat A = false ->
  a_model (c_v A) = VName s0 -> o_lags o <> [] ->
  In name fitted_models -> fit_possible name weight (o_lags o) (o_semivariance o) ->
  exists o', construct E OK2 (with_v A (refit (c_v A) name weight)) = Ok o'.
Proof.
  intros HC HL HS HM NL HN FP.
  destruct (exp_of E OK2 A o HC HL NL) as (I1 & I2 & I3 & I4 & _).
  pose proof (construct_inv E OK2 A o HC) as (ex & nm & prm & fn & sc & an & f & vp & lags & sv & params & Hall).
  destruct Hall as (HPT&HEX&Hgs&Hfn&Hmk&HSL&HV&_&Hcl&_&_&_&_&_&Hpa&Hn&Hor&Hval&Hlag&Hsv&_&_&Hcc).
  unfold resolve_gs in Hgs. rewrite HM in Hgs. injection Hgs as <- <- <- <- <-.
  destruct (dict_get variogram_dict name) as [f'|] eqn:ED.
  2:{ exfalso. destruct HN as [<-|[<-|[<-|[<-|[<-|[<-|[]]]]]]]; discriminate ED. }
  apply initialize_points in HV as HV'. destruct HV' as (ls & HX & E1 & E2 & _).
  rewrite Hlag, Hsv in *.
  destruct (calculate_spec (e_fit E) lags sv name f' weight NL I2 I1 I3 I4 HN) as [C1 _]. destruct (C1 FP) as (p & Hp & _).
  assert (NC : String.eqb name "custom" = false) by (destruct HN as [<-|[<-|[<-|[<-|[<-|[<-|[]]]]]]]; reflexivity).
  assert (HI : initialize_variogram_model (e_fit E) (o_ct o) (cdim OK2) (o_n o) (o_adj o)
       (List.length (c_values A)) (rnth (c_values A)) name None f' (a_nlags (c_v A)) weight = Ok (lags, sv, p)).
  { unfold initialize_variogram_model in *. cbn [cdim Nat.eqb] in *.
    assert (EN : negb (Nat.eqb (List.length (c_values A)) (o_n o)) = false).
    { destruct (negb (Nat.eqb (List.length (c_values A)) (o_n o))); [|reflexivity]. exfalso.
      destruct (o_ct o); [destruct (Nat.leb (o_n o) 1), (Nat.eqb (a_nlags (c_v A)) 0)|]; discriminate HV. }
    rewrite EN. clear HV.
    rewrite HX. cbn [bind]. rewrite NC, <- E1, <- E2, Hp. cbn [bind].
    destruct (o_ct o); (destruct lags; [contradiction|reflexivity]). }
  unfold construct. cbn [with_v refit c_pinv_type c_exact c_ct c_coords c_values c_v c_stat c_pinv c_verbose c_plotting a_nlags a_weight class_ct].
  rewrite HPT, HEX, HS. cbn [negb].
  unfold resolve_gs. cbn [a_model a_params a_fun a_scaling a_angle bind refit]. unfold resolve_fun. rewrite ED. cbn [bind].
  rewrite HSL. cbn [negb].
  destruct Hcc as [(K1 & K2 & (cs & K3 & K4) & K5 & K6 & K7)|(K1 & _ & K2 & K3 & K4 & K5 & K6)]; cbn [class_ct] in K1; rewrite K1.
  - cbn [String.eqb Ascii.eqb Bool.eqb]. rewrite K3. cbn [bind]. rewrite Hor, K4 in K7. rewrite K7. cbn [bind]. rewrite make_none. cbn [bind].
    rewrite K2, Hn in HI. rewrite HI. cbn [bind]. eexists. reflexivity.
  - cbn [String.eqb Ascii.eqb Bool.eqb]. cbn [bind]. rewrite make_none. cbn [bind].
    rewrite K2, K6, Hor, Hn in HI. rewrite HI. cbn [bind]. eexists. reflexivity.
Qed.
