(** C67: accessor methods. *)
From Coq Require Import String.
From Verif Require Import Base Sums Matrix M_Variogram P_Variogram M_Geometry S_Geometry M_Kriging S_Kriging M_Init M_Object M_Execute S_Execute
  S_State S_Amplify S_Fit S_Access P_Object P_Data P_Fit P_Fit2 P_Fit3 P_Fit4 P_Fit5 P_Amplify.

Lemma spelled_list name s r n p : spelled name s r n p ->
  make_parameter_list name p = make_parameter_list name (PList (if String.eqb name "linear" then [s; n] else [s; r; n])) /\ In name builtin_models.
Proof.
  intros H. unfold builtin_models. destruct H as [Hn|d Hn H1 H2|Hn|d Hn H1 H2 H3|Hin|d Hin H1 H2 H3]; try rewrite Hn.
  - split; [reflexivity|cbn; auto].
  - split; [|cbn; auto]. destruct (list_dict_agree d s n 0) as (_ & _ & L & _). apply (L H1 H2).
  - split; [reflexivity|cbn; auto].
  - split; [|cbn; auto]. destruct (list_dict_agree d s r n) as (_ & _ & _ & L). apply (L H1 H2 H3).
  - cbn in Hin. destruct Hin as [<-|[<-|[<-|[<-|[]]]]]; split; try reflexivity; cbn; auto 10.
  - assert (K : make_parameter_list name (PDict d) = make_parameter_list name (PList [s; r; n])).
    { destruct (list_dict_agree d s r n) as (L1 & L2 & _). destruct H1 as [H1|[H1 H1']]; [apply (L1 name Hin H1 H2 H3)|apply (L2 name Hin H1 H1' H2 H3)]. }
    rewrite K. cbn in Hin. destruct Hin as [<-|[<-|[<-|[<-|[]]]]]; split; try reflexivity; cbn; auto 10.
Qed.

Lemma list_not_none name l : make_parameter_list name (PList l) <> Ok None.
Proof. unfold make_parameter_list. repeat match goal with |- context [if ?b then _ else _] => destruct b end; discriminate. Qed.

(** the function and parameters chosen are the documented model *)
Lemma documented_vg name s r n prm f vp : spelled name s r n prm -> dict_get variogram_dict name = Some f ->
  make_parameter_list name prm = Ok (Some vp) -> (name = "power"%string -> r <> 0) ->
  forall d, fcall f vp d = documented name s r n d.
Proof.
  intros HS Hf H Hr d. destruct (spelled_list _ _ _ _ _ HS) as [K Hin]. rewrite K in H. clear K HS prm.
  unfold builtin_models in Hin. cbn in Hin.
  destruct Hin as [<-|[<-|[<-|[<-|[<-|[<-|[]]]]]]]; cbn in Hf; injection Hf as <-; cbn in H; injection H as <-; unfold documented; cbn.
  - reflexivity.
  - unfold power_variogram_model, npow, to_the, rnth. cbn [nth]. destruct (Reqb d 0); [|reflexivity].
    rewrite (proj2 (Reqb_false r 0)) by (apply Hr; reflexivity). reflexivity.
  - unfold gaussian_variogram_model, rnth. cbn [nth]. cbv zeta.
    replace (- (d * d) / (r * 4 / 7 * (r * 4 / 7))) with (- (d * (d * 1) / (4 / 7 * r * (4 / 7 * r * 1)))); [reflexivity|].
    replace (4 / 7 * r * (4 / 7 * r * 1)) with (r * 4 / 7 * (r * 4 / 7)) by field. unfold Rdiv. ring.
  - unfold spherical_variogram_model, rnth. cbn [nth]. cbv zeta. destruct (Rleb d r); [|reflexivity]. rewrite !Rmult_1_r.
    replace (d * (d * d)) with (d * d * d) by ring. replace (r * (r * r)) with (r * r * r) by ring. reflexivity.
  - unfold exponential_variogram_model, rnth. cbn [nth]. cbv zeta. replace (- (d / (r / 3))) with (- d / (r / 3)) by (unfold Rdiv; ring). reflexivity.
  - unfold hole_effect_variogram_model, rnth. cbn [nth]. cbv zeta. replace (- (d / (r / 3))) with (- d / (r / 3)) by (unfold Rdiv; ring). reflexivity.
Qed.

Theorem construct_documented E c A o name s r n : construct E c A = Ok o -> a_model (c_v A) = VName name ->
  spelled name s r n (a_params (c_v A)) -> (name = "power"%string -> r <> 0) ->
  forall d, o_vg o d = documented name s r n d.
Proof.
  intros H Hm HS Hr d.
  destruct (construct_inv _ _ _ _ H) as (ex & nm & prm & fn & sc & an & f & vp & lags & sv & params & Q1 & Q2 & Q3 & Q4 & Q5 & Q6 & Q7 & Q8 & Q9 & Q10 & Q11 & Q12 & Q13 & Q14 & Q15 & _).
  unfold resolve_gs in Q3. rewrite Hm in Q3. injection Q3 as <- <- <- <- <-.
  destruct (spelled_list _ _ _ _ _ HS) as [K Hin]. apply (builtin_resolve _ _ _ Hin) in Q4.
  destruct vp as [vp|].
  2:{ exfalso. rewrite K in Q5. exact (list_not_none _ _ Q5). }
  apply init_params in Q7. subst params. unfold o_vg. rewrite Q14, Q15.
  exact (documented_vg _ _ _ _ _ _ _ HS Q4 Q5 Hr d).
Qed.

Theorem update_documented E o v o' name s r n : update_variogram_model E o v = (o', None) -> a_model v = VName name ->
  spelled name s r n (a_params v) -> (name = "power"%string -> r <> 0) ->
  forall d, o_vg o' d = documented name s r n d.
Proof.
  intros H Hm HS Hr d. destruct (spelled_list _ _ _ _ _ HS) as [K Hin]. revert H.
  unfold update_variogram_model. cbv zeta. unfold resolve_gs. rewrite Hm.
  destruct (resolve_fun name (a_fun v)) as [f|e] eqn:HF; [|discriminate]. apply (builtin_resolve _ _ _ Hin) in HF.
  set (o1 := set_fun _ f). set (oe := if aniso_differs _ _ _ _ _ then _ else _).
  assert (HFo : o_fun (fst oe) = f).
  { unfold oe. destruct (aniso_differs _ _ _ _ _); [|reflexivity]. destruct (o_ct o1); [|reflexivity].
    destruct (adjust_for_anisotropy _ _ _ _ _ _); reflexivity. }
  destruct oe as [o2 [e|]]; cbn [fst] in HFo; [discriminate|].
  destruct (make_parameter_list name (a_params v)) as [vp|e] eqn:HP; [|discriminate].
  destruct (initialize_variogram_model _ _ _ _ _ _ _ _ _ _ _ _) as [[[lags sv] params]|e] eqn:KI; [|discriminate].
  destruct (all_statistics _ _ _ _ _ _ _ _) as [st|e]; [|discriminate].
  intros H. apply (f_equal fst) in H. cbn [fst] in H. subst o'.
  destruct vp as [vp|].
  2:{ exfalso. exact (list_not_none _ _ (eq_sym K)). }
  apply init_params in KI. subst params. unfold o_vg. cbn. rewrite HFo. exact (documented_vg _ _ _ _ _ _ _ HS HF HP Hr d).
Qed.

(** statistics through the accessors *)
Theorem reported_statistics E c A us o v s st : built E c A us o -> o_stats o = Some st ->
  predicted_from_before o v s -> cross_validation o v s st ->
  reported o v s (filter (fun i => Rleb eps (s i)) (seq 1 (o_n o - 1))).
Proof.
  intros HB Hs HP (D & S & EP). unfold reported. cbv zeta. pose proof (built_stats_ok E c A us o st HB Hs) as HO.
  set (kept := filter _ _) in *. split.
  - unfold get_epsilon_residuals. rewrite Hs. cbn. rewrite EP. reflexivity.
  - intros Hm. destruct (so_values _ _ HO) as (q1 & q2 & cr & E1 & E2 & E3 & F1 & F2 & F3).
    { rewrite D, map_length. exact Hm. }
    rewrite D, map_length in F1, F2, F3.
    assert (HI : INR (List.length kept - 1) <> 0) by (apply not_0_INR; lia).
    exists q1, q2, cr. unfold get_statistics. rewrite Hs. cbn [option_map]. rewrite E1, E2, E3. split; [reflexivity|].
    rewrite EP in F1, F2. split; [rewrite <- F1; field; exact HI|]. split; [rewrite <- F2; field; exact HI|]. split.
    + rewrite F3, S. f_equal. rewrite map_map. f_equal. apply map_ext_in. intros i Hi. apply filter_In in Hi. destruct Hi as [_ Hi].
      apply Rleb_true in Hi. apply sqrt_sqrt. unfold eps in Hi. lra.
    + exact (so_cR _ _ HO cr E3).
Qed.
