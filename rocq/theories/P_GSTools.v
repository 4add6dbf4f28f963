(** Proofs for C50. *)
From Coq Require Import String.
From Verif Require Import Base Sums Matrix M_Variogram M_Geometry M_Kriging M_Init M_Object S_GSTools P_Geometry P_Object Witness.

Lemma at_least_spec v c d : at_least v c d <-> version_lt v c d = false.
Proof.
  unfold at_least, version_lt. destruct v as [a b]. cbn [fst snd].
  destruct (Nat.ltb_spec a c), (Nat.eqb_spec a c), (Nat.ltb_spec b d); cbn; split; intros; try discriminate; try lia; reflexivity.
Qed.
Lemma package_spec E m : (package_ok (e_gstools E) m <-> validate_gstools E m = Ok tt) /\
  (~ package_ok (e_gstools E) m -> validate_gstools E m = Err GSToolsExc).
Proof.
  assert (K : validate_gstools E m = Ok tt \/ validate_gstools E m = Err GSToolsExc).
  { unfold validate_gstools. destruct (e_gstools E) as [v|]; [|auto]. destruct (negb _); [auto|]. destruct (version_lt v 1 3); [auto|]. destruct (_ && _); auto. }
  assert (I : package_ok (e_gstools E) m <-> validate_gstools E m = Ok tt).
  { unfold package_ok, validate_gstools. destruct (e_gstools E) as [v|]; [|split; [intros (v & H & _); discriminate H|discriminate]]. split.
    - intros (v' & Hv & H1 & H2 & H3). injection Hv as <-. apply at_least_spec in H2. rewrite H1, H2. cbn [negb].
      destruct (gs_latlon m); [|reflexivity]. specialize (H3 eq_refl). apply at_least_spec in H3. rewrite H3. reflexivity.
    - intros H. exists v. split; [reflexivity|]. destruct (gs_is_covmodel m); [|discriminate H]. cbn [negb] in H. split; [reflexivity|].
      destruct (version_lt v 1 3) eqn:E1; [discriminate H|]. split; [apply at_least_spec, E1|]. intros HL. rewrite HL in H. cbn [andb] in H.
      destruct (version_lt v 1 4) eqn:E2; [discriminate H|]. apply at_least_spec, E2. }
  split; [exact I|]. intros N. destruct K as [K|K]; [|exact K]. exfalso. apply N, I, K.
Qed.
Lemma fits_spec c ct m : (ct = "euclidean" \/ ct = "geographic")%string ->
  let r := (match c with
            | OK2 => if Nat.eqb (gs_field_dim m) 3 then Err ValueError else if gs_latlon m && String.eqb ct "euclidean" then Err ValueError else Ok tt
            | UK2 => if Nat.eqb (gs_field_dim m) 3 then Err ValueError else if gs_latlon m then Err ValueError else Ok tt
            | OK3 => if Nat.ltb (gs_field_dim m) 3 then Err ValueError else Ok tt
            | UK3 => if Nat.ltb (gs_field_dim m) 3 then Err ValueError else Ok tt
            end) in
  (model_fits c (String.eqb ct "geographic") m <-> r = Ok tt) /\ (~ model_fits c (String.eqb ct "geographic") m -> r = Err ValueError).
Proof.
  intros Hct r. assert (K : r = Ok tt \/ r = Err ValueError).
  { unfold r. destruct c; repeat match goal with |- context [if ?b then _ else _] => destruct b end; auto. }
  assert (I : model_fits c (String.eqb ct "geographic") m <-> r = Ok tt).
  { unfold r, model_fits. destruct c.
    - destruct (Nat.eqb_spec (gs_field_dim m) 3) as [e|n]; [split; [tauto|discriminate]|].
      destruct (gs_latlon m); destruct Hct as [-> | ->]; cbn; split; intros; try discriminate; try reflexivity; try (split; [exact n|intros; first [reflexivity|discriminate]]).
      destruct H as [_ H]. discriminate (H eq_refl).
    - destruct (Nat.eqb_spec (gs_field_dim m) 3) as [e|n]; [split; [tauto|discriminate]|].
      destruct (gs_latlon m); split; intros; try discriminate; try reflexivity; [destruct H; discriminate|split; [exact n|reflexivity]].
    - destruct (Nat.ltb_spec (gs_field_dim m) 3); split; intros; try discriminate; try lia; reflexivity.
    - destruct (Nat.ltb_spec (gs_field_dim m) 3); split; intros; try discriminate; try lia; reflexivity. }
  split; [exact I|]. intros N. destruct K as [K|K]; [|exact K]. exfalso. apply N, I, K.
Qed.

Lemma resolve_ok E c ct v m : (ct = "euclidean" \/ ct = "geographic")%string -> a_model v = VModel m ->
  package_ok (e_gstools E) m -> model_fits c (String.eqb ct "geographic") m ->
  resolve_gs E c ct v = resolve_gs E c ct (as_custom c m v).
Proof.
  intros Hct Hm HP HF. unfold resolve_gs. rewrite Hm. rewrite (proj1 (proj1 (package_spec E m)) HP). cbn [bind].
  pose proof (proj1 (proj1 (fits_spec c ct m Hct)) HF) as HR. cbv zeta in HR. rewrite HR. cbn [bind as_custom a_model a_params a_fun a_scaling a_angle].
  reflexivity.
Qed.
Lemma resolve_err E c ct v m : (ct = "euclidean" \/ ct = "geographic")%string -> a_model v = VModel m ->
  (~ package_ok (e_gstools E) m -> resolve_gs E c ct v = Err GSToolsExc) /\
  (package_ok (e_gstools E) m -> ~ model_fits c (String.eqb ct "geographic") m -> resolve_gs E c ct v = Err ValueError).
Proof.
  intros Hct Hm. unfold resolve_gs. rewrite Hm. split.
  - intros HP. rewrite (proj2 (package_spec E m) HP). reflexivity.
  - intros HP HF. rewrite (proj1 (proj1 (package_spec E m)) HP). cbn [bind].
    pose proof (proj2 (fits_spec c ct m Hct) HF) as HR. cbv zeta in HR. rewrite HR. reflexivity.
Qed.

Lemma class_ct_ok c A : ct_ok c A -> (class_ct c (c_ct A) = "euclidean" \/ class_ct c (c_ct A) = "geographic")%string /\ String.eqb (class_ct c (c_ct A)) "geographic" = is_geo c A.
Proof. intros H. destruct c; cbn; auto. Qed.

Theorem construct_custom E c A m : ct_ok c A -> a_model (c_v A) = VModel m ->
  package_ok (e_gstools E) m -> model_fits c (is_geo c A) m ->
  construct E c A = construct E c (with_v A (as_custom c m (c_v A))).
Proof.
  intros Hct Hm HP HF. destruct (class_ct_ok c A Hct) as [H1 H2]. rewrite <- H2 in HF.
  unfold construct. cbn [with_v c_pinv_type c_exact c_ct c_v c_coords c_values c_stat c_pinv c_verbose c_plotting].
  rewrite (resolve_ok E c _ (c_v A) m H1 Hm HP HF). reflexivity.
Qed.
Theorem construct_refuses E c A m : ct_ok c A -> a_model (c_v A) = VModel m -> (c_pinv_type A = "pinv" \/ c_pinv_type A = "pinvh")%string -> c_exact A <> None ->
  (~ package_ok (e_gstools E) m -> construct E c A = Err GSToolsExc) /\
  (package_ok (e_gstools E) m -> ~ model_fits c (is_geo c A) m -> construct E c A = Err ValueError).
Proof.
  intros Hct Hm Hpi Hex. destruct (class_ct_ok c A Hct) as [H1 H2]. rewrite <- H2.
  destruct (resolve_err E c _ (c_v A) m H1 Hm) as [R1 R2]. unfold construct.
  replace (in_names (c_pinv_type A) pinv_types) with true by (destruct Hpi as [-> | ->]; reflexivity). cbn [negb].
  destruct (c_exact A) as [b|]; [|contradiction]. split.
  - intros HP. rewrite (R1 HP). reflexivity.
  - intros HP HF. rewrite (R2 HP HF). reflexivity.
Qed.

Theorem update_custom E o v m : a_model v = VModel m -> package_ok (e_gstools E) m -> model_fits (o_class o) (o_geo o) m ->
  update_variogram_model E o v = update_variogram_model E o (as_custom (o_class o) m v).
Proof.
  intros Hm HP HF. unfold update_variogram_model. cbn [set_model o_ct].
  assert (H1 : (ct_name (o_ct o) = "euclidean" \/ ct_name (o_ct o) = "geographic")%string) by (destruct (o_ct o); auto).
  assert (H2 : String.eqb (ct_name (o_ct o)) "geographic" = o_geo o) by (unfold o_geo; destruct (o_ct o); reflexivity).
  rewrite <- H2 in HF.
  rewrite (resolve_ok E (o_class o) (ct_name (o_ct o)) v m H1 Hm HP HF). reflexivity.
Qed.
Theorem update_refuses E o v m : a_model v = VModel m ->
  (~ package_ok (e_gstools E) m -> snd (update_variogram_model E o v) = Some GSToolsExc) /\
  (package_ok (e_gstools E) m -> ~ model_fits (o_class o) (o_geo o) m -> snd (update_variogram_model E o v) = Some ValueError).
Proof.
  intros Hm. unfold update_variogram_model. cbn [set_model o_ct].
  assert (H1 : (ct_name (o_ct o) = "euclidean" \/ ct_name (o_ct o) = "geographic")%string) by (destruct (o_ct o); auto).
  assert (H2 : String.eqb (ct_name (o_ct o)) "geographic" = o_geo o) by (unfold o_geo; destruct (o_ct o); reflexivity).
  destruct (resolve_err E (o_class o) (ct_name (o_ct o)) v m H1 Hm) as [R1 R2]. rewrite H2 in R2. split.
  - intros HP. rewrite (R1 HP). reflexivity.
  - intros HP HF. rewrite (R2 HP HF). reflexivity.
Qed.

(** what an accepted model leaves in the object *)
Theorem construct_model_fields E c A m o : ct_ok c A -> a_model (c_v A) = VModel m -> construct E c A = Ok o ->
  package_ok (e_gstools E) m /\ model_fits c (is_geo c A) m /\ o_fun o = gs_vario m /\ o_params o = [] /\
  (is_geo c A = false -> o_scaling o = a_scaling (as_custom c m (c_v A)) /\ o_angle o = a_angle (as_custom c m (c_v A))).
Proof.
  intros Hct Hm HC. pose proof (construct_inv E c A o HC) as (ex & nm & prm & fn & sc & an & f & vp & lags & sv & params & Hall).
  destruct Hall as (Hpt & Hex & Hgs & Hf & Hmp & _ & Hini & _ & _ & _ & _ & _ & _ & Hfo & Hpo & _ & _ & _ & _ & _ & _ & _ & Hco).
  destruct (class_ct_ok c A Hct) as [H1 H2].
  destruct (resolve_err E c _ (c_v A) m H1 Hm) as [R1 R2]. rewrite H2 in R2.
  assert (HP : package_ok (e_gstools E) m).
  { destruct (proj1 (package_spec E m)) as [_ I]. apply I. unfold resolve_gs in Hgs. rewrite Hm in Hgs. destruct (validate_gstools E m) as [[]|]; [reflexivity|discriminate Hgs]. }
  assert (HF : model_fits c (is_geo c A) m).
  { rewrite <- H2. apply (fits_spec c _ m H1). cbv zeta. unfold resolve_gs in Hgs. rewrite Hm, (proj1 (proj1 (package_spec E m)) HP) in Hgs. cbn [bind] in Hgs.
    match type of Hgs with bind ?b _ = _ => destruct b as [[]|]; [reflexivity|discriminate Hgs] end. }
  split; [exact HP|]. split; [exact HF|]. rewrite <- H2 in HF. rewrite (resolve_ok E c _ (c_v A) m H1 Hm HP HF) in Hgs. cbn in Hgs.
  injection Hgs as <- <- <- <- <-. cbn in Hf. injection Hf as <-. cbn in Hmp. injection Hmp as <-.
  split; [exact Hfo|]. split.
  { rewrite Hpo. unfold initialize_variogram_model in Hini. destruct (o_ct o), (Nat.eqb (cdim c) 2); try discriminate Hini;
      (destruct (negb _); [repeat match type of Hini with context [if ?b then _ else _] => destruct b end; discriminate Hini|]); bindok Hini; cbn in Hini; injection Hini as _ _ <-; reflexivity. }
  intros HG. destruct Hco as [(_ & _ & _ & Hs & Ha & _)|(Hg & -> & _)]; [split; assumption|].
  rewrite <- H2, Hg in HG. discriminate HG.
Qed.

(** an example: a spherical-like model of field_dim d *)
Definition gs_of (d : nat) (latlon : bool) : gsmodel :=
  {| gs_is_covmodel := true; gs_field_dim := d; gs_latlon := latlon; gs_vario := mkfun "pykrige_vario" (fun _ h => h);
     gs_anis2 := 2; gs_angle2 := 30; gs_anis3 := (fun _ => 2); gs_angle3 := (fun _ => 30) |}.
Definition gs_args (m : gsmodel) : cargs :=
  {| c_coords := [[0; 3]; [0; 4]]; c_values := [1; 2];
     c_v := {| a_model := VModel m; a_params := PNone; a_fun := FNone;
               a_nlags := 6; a_weight := false; a_scaling := (fun _ => 1); a_angle := (fun _ => 0) |};
     c_verbose := false; c_plotting := false; c_stat := false; c_ct := "euclidean";
     c_exact := Some true; c_pinv := false; c_pinv_type := "pinv" |}.
Definition GE : env := wit_env true (Some (1, 5)%nat).
Lemma gs_package d l : package_ok (e_gstools GE) (gs_of d l).
Proof. exists (1, 5)%nat. split; [reflexivity|]. split; [reflexivity|]. split; [right; cbn; lia|]. intros _. right; cbn; lia. Qed.

Lemma custom_construct d : d <> 3%nat -> exists o, construct GE OK2 (gs_args (gs_of d false)) = Ok o.
Proof.
  intros Hd. unfold construct. cbn [gs_args c_pinv_type c_exact c_ct c_v c_coords c_values c_stat class_ct in_names pinv_types existsb String.eqb Ascii.eqb Bool.eqb orb negb].
  rewrite (resolve_ok GE OK2 "euclidean" _ (gs_of d false)); [|auto|reflexivity|apply gs_package|split; [exact Hd|discriminate]].
  cbn [resolve_gs as_custom a_model a_params a_fun bind]. unfold resolve_fun. cbn [dict_get variogram_dict String.eqb Ascii.eqb Bool.eqb bind].
  destruct (mapM_ok center_of [[0; 3]; [0; 4]]) as [cs Hcs].
  { intros l [<-|[<-|[]]]; apply center_ok; cbn; lia. }
  rewrite Hcs. cbn [bind same_length forallb List.length Nat.eqb andb negb cdim].
  match goal with |- context [adjust_for_anisotropy false 2 ?X ?c ?s ?a] => destruct (adjust_supported 2 X c s a (or_introl eq_refl)) as [Y HY] end.
  rewrite HY. cbn [bind make_parameter_list nth List.length]. 
  unfold initialize_variogram_model, experimental_variogram. cbn [Nat.eqb negb a_nlags].
  match goal with |- context [experimental_gen Rops ?n ?dg] => destruct (experimental_ok Rops n dg) as [ls Hls] end.
  { discriminate. }
  rewrite Hls. cbn. eauto.
Qed.
