(** C34-C36: updated objects; conditions on the data; concrete cases. *)
From Coq Require Import String Permutation FunctionalExtensionality.
From Verif Require Import Base Sums Matrix M_Variogram M_Geometry S_Geometry P_Geometry M_Kriging S_Kriging M_Init M_Object M_Execute S_Execute
  S_Fit P_Kriging P_Binning P_Object P_Cells P_OK P_Data S_State P_State P_State2 P_Fit P_Fit2 P_Fit3 P_Fit4 Witness Witness2 Witness3.

Lemma of_experimental o nlags ls : coords_inv o -> (1 <= nlags)%nat ->
  experimental_variogram (o_ct o) (o_dim o) (o_n o) nlags (o_adj o) (o_values o) = Ok ls ->
  o_lags o = map fst ls -> o_semivariance o = map snd ls -> experimental_variogram_of o nlags.
Proof.
  intros HI Hn HX H1 H2.
  destruct (experimental_inv _ _ _ _ _ _ _ HX) as (dmin & dmax & HE & HP).
  assert (HD : (fun i j => distance (o_ct o) (o_dim o) (o_adj o i) (o_adj o j)) = sep o).
  { apply functional_extensionality; intros i. apply functional_extensionality; intros j. exact (data_distances_sep o i j HI). }
  rewrite HD in HE, HP. set (M := members_of (o_ct o) (o_n o) (sep o) dmin dmax nlags) in *.
  exists dmin, dmax, M. split; [exact HE|]. split; [apply members_classes, HE|].
  destruct (members_once (o_ct o) (o_n o) (sep o) dmin dmax nlags HE Hn) as [O1 O2].
  split; [exact O1|]. split; [exact O2|]. rewrite H1, H2. exact HP.
Qed.

Lemma update_points E o v o' : update_variogram_model E o v = (o', None) -> exists ls,
  experimental_variogram (o_ct o') (o_dim o') (o_n o') (a_nlags v) (o_adj o') (o_values o') = Ok ls /\ o_lags o' = map fst ls /\ o_semivariance o' = map snd ls.
Proof.
  unfold update_variogram_model. cbv zeta.
  destruct (resolve_gs E (o_class o) _ v) as [[[[[nm prm] fn] sc] an]|e]; [|discriminate].
  destruct (resolve_fun nm fn) as [f|e]; [|discriminate].
  set (o1 := set_fun _ f).
  set (oe := if aniso_differs _ _ _ _ _ then _ else _).
  assert (HD : o_dim (fst oe) = o_dim o1).
  { unfold oe. destruct (aniso_differs _ _ _ _ _); [|reflexivity]. destruct (o_ct o1); [|reflexivity].
    destruct (adjust_for_anisotropy _ _ _ _ _ _); reflexivity. }
  destruct oe as [o2 [e|]]; cbn [fst] in HD; [discriminate|].
  destruct (make_parameter_list nm prm) as [vp|e]; [|discriminate].
  destruct (initialize_variogram_model _ _ _ _ _ _ _ _ _ _ _ _) as [[[lags sv] params]|e] eqn:K; [|discriminate].
  destruct (all_statistics _ _ _ _ _ _ _ _) as [s|e]; [|discriminate].
  intros H. apply (f_equal fst) in H. cbn [fst] in H. subst o'. apply initialize_points in K. destruct K as (ls & K & E1 & E2 & _).
  exists ls. rewrite <- HD in K. split; [exact K|]. split; assumption.
Qed.

Theorem experimental_of_update E o v o' : reachable E o -> (1 <= a_nlags v)%nat -> update_variogram_model E o v = (o', None) ->
  experimental_variogram_of o' (a_nlags v).
Proof.
  intros HR Hn HU. destruct (update_points E o v o' HU) as (ls & K & E1 & E2).
  apply (of_experimental o' (a_nlags v) ls); try assumption.
  apply (reachable_inv E). replace o' with (fst (update_variogram_model E o v)) by (rewrite HU; reflexivity). apply reach_update, HR.
Qed.
Theorem experimental_of_construct E c A o : construct E c A = Ok o -> List.length (c_coords A) = cdim c -> (1 <= a_nlags (c_v A))%nat ->
  experimental_variogram_of o (a_nlags (c_v A)).
Proof. intros HC HL Hn. apply (experimental_of_object E c A o _ HC HL eq_refl Hn). Qed.

Lemma shape_of o nlags : (1 <= nlags)%nat -> experimental_variogram_of o nlags -> shape_ok o nlags.
Proof.
  intros Hn (dmin & dmax & M & HE & HCl & _ & _ & HX).
  destruct (experimental_shape _ _ _ _ _ _ _ _ _ Hn HE HCl HX) as (S1 & S2 & S3 & S4 & S5).
  split; [exact S1|]. split; [exact S2|]. split; [exact S3|]. split; [|exact S5].
  intros v Hv. apply S4 in Hv. destruct HE as ((i & j & H1 & E1) & (i' & j' & H2 & E2) & _).
  exists i, j, i', j'. rewrite E1, E2. auto.
Qed.

(** *** what the data must satisfy for a fit *)
Lemma mean_pos l : (forall v, In v l -> 0 <= v) -> (exists v, In v l /\ 0 < v) -> 0 < mean l.
Proof.
  intros H0 (v & Hv & Hp). unfold mean. unfold Rdiv. apply Rmult_lt_0_compat.
  - assert (K : forall l, (forall v, In v l -> 0 <= v) -> 0 <= lsum l) by exact lsum_nonneg.
    revert H0 Hv. induction l as [|a l IH]; [contradiction|]. intros H0 [->|Hv].
    + change (0 < v + lsum l). pose proof (K l (fun u Hu => H0 u (or_intror Hu))). lra.
    + change (0 < a + lsum l). pose proof (H0 a (or_introl eq_refl)). specialize (IH (fun u Hu => H0 u (or_intror Hu)) Hv). lra.
  - apply Rinv_0_lt_compat. destruct l; [contradiction|]. apply lt_0_INR. cbn. lia.
Qed.

Lemma half_sq_nonneg x : 0 <= x² / 2. Proof. pose proof (Rle_0_sqr x). lra. Qed.

Theorem data_fit_possible o nlags name weight : coords_inv o -> experimental_variogram_of o nlags -> (2 <= nlags)%nat ->
  (exists i j, (i < j < o_n o)%nat /\ o_values o i <> o_values o j) ->
  (exists i j i' j', (i < j < o_n o)%nat /\ (i' < j' < o_n o)%nat /\ sep o i j <> sep o i' j') ->
  fit_possible name weight (o_lags o) (o_semivariance o).
Proof.
  intros HI (dmin & dmax & M & HE & HCl & HO & _ & HX) Hn (i & j & Hij & HV) (a & b & a' & b' & Hab & Hab' & HS).
  assert (L : (2 <= List.length (o_lags o))%nat /\ increasing (o_lags o) /\ (forall d, In d (o_lags o) -> dmin <= d)).
  { assert (Hn1 : (1 <= nlags)%nat) by lia. destruct (experimental_shape _ _ _ _ _ _ _ _ _ Hn1 HE HCl HX) as (S1 & S2 & S3 & S4 & S5).
    split; [|split; [exact S3|intros d Hd; apply S4, Hd]].
    destruct HX as [-> _]. rewrite map_length.
    destruct HE as ((p & q & Hpq & E1) & (p' & q' & Hpq' & E2) & EB).
    assert (LT : dmin < dmax).
    { destruct (Rlt_dec dmin dmax) as [|NL]; [assumption|]. exfalso. apply HS. pose proof (EB a b Hab) as B1. pose proof (EB a' b' Hab') as B2. apply Rnot_lt_le in NL. apply Rle_antisym; lra. }
    assert (W : 0 < (dmax - dmin) / INR nlags).
    { unfold Rdiv. apply Rmult_lt_0_compat; [lra|]. apply Rinv_0_lt_compat, lt_0_INR. lia. }
    assert (M0 : nonempty (M 0%nat) = true).
    { destruct (HCl 0%nat ltac:(lia)) as [_ H0]. destruct (M 0%nat); [|reflexivity]. exfalso. apply (proj2 (H0 p q)).
      split; [exact Hpq|]. unfold lag_class. rewrite E1. cbn [INR]. split; [lra|left; lra]. }
    assert (M1 : nonempty (M (nlags - 1)%nat) = true).
    { destruct (HCl (nlags - 1)%nat ltac:(lia)) as [_ H0]. destruct (M (nlags - 1)%nat); [|reflexivity]. exfalso. apply (proj2 (H0 p' q')).
      split; [exact Hpq'|]. unfold lag_class. rewrite E2. split; [|right; lia].
      assert (E3 : dmax - dmin = INR nlags * ((dmax - dmin) / INR nlags)) by (field; apply not_0_INR; lia).
      rewrite minus_INR by lia. cbn [INR]. lra. }
    set (F := filter (fun k => nonempty (M k)) (seq 0 nlags)).
    assert (I : incl [0; nlags - 1]%nat F).
    { intros k [<-|[<-|[]]]; apply filter_In; (split; [apply in_seq; lia|assumption]). }
    assert (ND : NoDup [0; nlags - 1]%nat).
    { constructor; [cbn; intros [K|[]]; lia|]. constructor; [intros []|constructor]. }
    apply (NoDup_incl_length ND) in I. exact I. }
  destruct L as (L1 & L2 & L3). split; [|split].
  - destruct (HO i j Hij) as (k & Hk & Hin & _). destruct HX as [_ HX]. rewrite HX.
    exists (mean (map (fun p => (o_values o (fst p) - o_values o (snd p))² / 2) (M k))). split.
    + apply in_map_iff. exists k. split; [reflexivity|]. apply filter_In. split; [apply in_seq; lia|]. destruct (M k); [contradiction|reflexivity].
    + apply mean_pos.
      * intros v Hv. apply in_map_iff in Hv. destruct Hv as (p & <- & _). apply half_sq_nonneg.
      * exists ((o_values o i - o_values o j)² / 2). split.
        -- apply in_map_iff. exists (i, j). split; [reflexivity|exact Hin].
        -- assert (0 < (o_values o i - o_values o j)²) by (apply Rsqr_pos_lt; lra). lra.
  - intros _. exact L1.
  - intros _. exists (rnth (o_lags o) 1). split; [apply nth_In; lia|].
    assert (0 <= rnth (o_lags o) 0).
    { eapply Rle_trans; [|apply L3, nth_In; lia]. destruct HE as ((p & q & _ & E1) & _). pose proof (sep_nonneg o p q HI). lra. }
    pose proof (L2 0%nat 1%nat ltac:(lia) ltac:(lia)). lra.
Qed.

(** *** a concrete case: data 0, 1, 5 at x = 0, 1, 3 *)
Definition three_args : cargs := gen_args [0; 1; 3] [0; 0; 0] [0; 1; 5] 1 0 true false.
Lemma three_sep E o : construct E OK2 three_args = Ok o ->
  o_n o = 3%nat /\ sep o 0%nat 1%nat = 1 /\ sep o 1%nat 2%nat = 2 /\ sep o 0%nat 2%nat = 3 /\ o_values o 0%nat = 0 /\ o_values o 1%nat = 1 /\ o_values o 2%nat = 5.
Proof.
  intros HC. destruct (gen_fields _ _ _ _ _ _ _ _ _ HC) as (_ & _ & _ & Hn & _ & _ & _ & _ & _ & _ & HV & HD & _ & _ & HS).
  split; [exact Hn|]. unfold sep. rewrite !HD, !HS. cbn [lon lat rnth nth]. rewrite HV. cbn [rnth nth].
  assert (Q : forall a b r, 0 <= r -> a - b = - r -> sqrt ((a - b)² + (0 - 0)²) = r).
  { intros a b r Hr ->. replace ((- r)² + (0 - 0)²) with (r²) by (unfold Rsqr; ring). apply sqrt_Rsqr, Hr. }
  unfold lon, lat. cbn. rewrite (Q 0 1 1), (Q 1 3 2), (Q 0 3 3) by lra. auto 10.
Qed.
Theorem ex_fit E : exists o, construct E OK2 three_args = Ok o /\
  fit_possible "gaussian" true (o_lags o) (o_semivariance o) /\ fit_possible "power" false (o_lags o) (o_semivariance o) /\
  exists o', construct E OK2 (with_v three_args (refit (c_v three_args) "gaussian" true)) = Ok o'.
Proof.
  destruct (gen_construct E [0; 1; 3] [0; 0; 0] [0; 1; 5] 1 0 true false) as [o HC]; try reflexivity; [cbn; lia|].
  exists o. split; [exact HC|]. pose proof (three_sep E o HC) as (Hn & S1 & S2 & S3 & V1 & V2 & V3).
  assert (HI : coords_inv o) by (apply (reachable_inv E), (reach_new E OK2 three_args); [reflexivity|exact HC]).
  assert (FP : forall name w, fit_possible name w (o_lags o) (o_semivariance o)).
  { intros name w. apply (data_fit_possible o 6 name w HI).
    - apply (experimental_of_construct E OK2 three_args o HC); [reflexivity|cbn; lia].
    - lia.
    - exists 0%nat, 1%nat. rewrite V1, V2. split; [lia|lra].
    - exists 0%nat, 1%nat, 1%nat, 2%nat. rewrite S1, S2. split; [lia|]. split; [lia|lra]. }
  split; [apply FP|]. split; [apply FP|].
  apply (refit_succeeds E three_args o "gaussian" true "linear" HC); try reflexivity; [|right; right; left; reflexivity|apply FP].
  destruct (FP "power"%string false) as (_ & H2 & _). specialize (H2 (or_intror (or_introl eq_refl))). destruct (o_lags o); [cbn in H2; lia|discriminate].
Qed.

From Verif Require Import P_State3 P_State7 P_UK8.
Theorem ex_validated : exists o o', env_ok WE /\ reachable WE o /\ update_variogram_model WE o (scaled (PList [1; 0]) 2) = (o', None) /\
  o_pinv o' = false /\ (forall i j, (i < j < o_n o')%nat -> eps < sep o' i j).
Proof.
  destruct (two_construct WE 1 0 0 3 true false) as [o Ho].
  destruct (two_fields _ _ _ _ _ _ _ _ Ho) as (Hre&Hinv&Hc&Hn&Hct&Hex&Hpi&Hf&Hp&Hvg&Hval&H0&H1&Hsep).
  assert (Hs : forall k, o_scaling o k = 1).
  { pose proof (construct_inv WE OK2 _ o Ho) as (ex & name & prm & fn & sc & an & f & vp & lags & sv & params & Hall).
    destruct Hall as (_&_&Hgs&_&_&_&_&_&_&_&_&_&_&_&_&_&_&_&_&_&_&_&Hcc). cbn in Hgs. injection Hgs as <- <- <- <- <-.
    destruct Hcc as [(_&_&_&Hs&_)|(E1&_)]; [rewrite Hs; reflexivity|discriminate E1]. }
  destruct (update_scaled o 2 Hn Hpi Hct Hs) as (o' & HU & _ & _ & Hs' & Ha'); [lra|].
  exists o, o'. split; [apply wit_env_ok|]. split; [exact Hre|]. split; [exact HU|].
  pose proof (update_preserves WE o (scaled (PList [1; 0]) 2)) as P. cbv zeta in P. rewrite HU in P. cbn [fst] in P.
  destruct P as (Pc & Pp & _ & _ & Pct & Pn & Po & _).
  split; [rewrite Pp; exact Hpi|]. intros i j Hij. rewrite Pn, Hn in Hij.
  assert (i = 0%nat) as -> by lia. assert (j = 1%nat) as -> by lia.
  unfold sep, separation. assert (D : forall k, datum o' k = datum o k) by (intros k; unfold datum, o_dim; rewrite Pc, Po; reflexivity).
  rewrite !D, H0, H1, Pct, Hct. unfold o_dim. rewrite Pc, Hc. cbn [cdim Nat.eqb]. rewrite Hs', Ha'. unfold aniso2, sub3, dot3. rewrite rad_0, cos_0, sin_0.
  apply Rlt_le_trans with 1; [apply eps_val|]. rewrite <- sqrt_1 at 1. apply sqrt_le_1_alt. unfold Rsqr. lra.
Qed.
