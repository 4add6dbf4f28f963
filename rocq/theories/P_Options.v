(** Proofs: option validation (C49), dtype of the query (C51), pseudo_inv (C22). *)
From Coq Require Import String.
From Verif Require Import Base Sums Matrix M_Variogram P_Variogram M_Geometry S_Geometry P_Geometry M_Kriging S_Kriging P_Kriging P_OKSpec
  M_Init M_Object M_Execute S_Execute P_Object P_Execute P_Cells P_Window P_WindowExec P_Master P_Det P_OK P_Similar P_Binning
  P_Data P_Linear Witness P_Exec2 P_Data2 P_Dup.

Lemma in_names_In s l : in_names s l = true <-> In s l.
Proof.
  unfold in_names. rewrite existsb_exists. split.
  - intros (x & Hx & E). apply String.eqb_eq in E. subst. exact Hx.
  - intros H. exists s. split; [exact H|apply String.eqb_refl].
Qed.
Lemma in_names_not s l : ~ In s l -> in_names s l = false.
Proof. intros H. destruct (in_names s l) eqn:E; [|reflexivity]. apply in_names_In in E. contradiction. Qed.

Lemma dict_get_builtin s : (exists f, dict_get variogram_dict s = Some f) <-> In s builtin_names.
Proof.
  unfold variogram_dict, builtin_names, dict_get. cbn [In find fst snd].
  split.
  - intros [f H]. revert H.
    repeat match goal with |- context [String.eqb ?a ?b] => destruct (String.eqb_spec a b); [subst; auto 10|] end; try discriminate.
  - intros H. repeat (destruct H as [<-|H]; [cbn; eauto|]). destruct H.
Qed.

Lemma resolve_fun_bad name fn : ~ In name builtin_names -> (name <> "custom"%string \/ forall f, fn <> FCallable f) ->
  resolve_fun name fn = Err ValueError.
Proof.
  intros H1 H2. unfold resolve_fun. destruct (dict_get variogram_dict name) as [f|] eqn:E.
  - exfalso. apply H1, dict_get_builtin. eauto.
  - destruct (String.eqb_spec name "custom") as [->|]; [|reflexivity].
    destruct H2 as [H2|H2]; [congruence|]. destruct fn as [|f|]; try reflexivity. exfalso. apply (H2 f eq_refl).
Qed.

Lemma construct_pinv_type E c A : ~ In (c_pinv_type A) ["pinv"; "pinvh"]%string -> construct E c A = Err ValueError.
Proof. intros H. unfold construct. rewrite (in_names_not _ pinv_types H). reflexivity. Qed.
Lemma construct_exact_flag E c A : c_exact A = None -> construct E c A = Err ValueError.
Proof. intros H. unfold construct. rewrite H. destruct (in_names _ _); reflexivity. Qed.
Lemma construct_variogram_name E c A name : a_model (c_v A) = VName name -> ~ In name builtin_names ->
  (name <> "custom"%string \/ forall f, a_fun (c_v A) <> FCallable f) -> construct E c A = Err ValueError.
Proof.
  intros HM H1 H2. unfold construct. destruct (in_names (c_pinv_type A) _); [|reflexivity]. destruct (c_exact A); [|reflexivity].
  cbn [negb]. unfold resolve_gs. rewrite HM. cbn [bind]. rewrite (resolve_fun_bad _ _ H1 H2). reflexivity.
Qed.
Lemma construct_coord_type E A name : a_model (c_v A) = VName name ->
  c_ct A <> "euclidean"%string -> c_ct A <> "geographic"%string -> construct E OK2 A = Err ValueError.
Proof.
  intros HM H1 H2. unfold construct. destruct (in_names (c_pinv_type A) _); [|reflexivity]. destruct (c_exact A); [|reflexivity].
  cbn [negb]. unfold resolve_gs. rewrite HM. cbn [bind class_ct].
  assert (HF : forall fn, (exists g, resolve_fun name fn = Ok g) \/ resolve_fun name fn = Err ValueError).
  { intros fn. unfold resolve_fun. destruct (dict_get variogram_dict name); [eauto|]. destruct (String.eqb _ _); [|auto]. destruct fn; eauto. }
  destruct (HF (a_fun (c_v A))) as [[g ->]| ->]; [|reflexivity]. cbn [bind].
  destruct (String.eqb_spec (c_ct A) "euclidean"); [contradiction|].
  destruct (String.eqb_spec (c_ct A) "geographic"); [contradiction|]. reflexivity.
Qed.

Lemma resolve_gs_class E c ct v name prm fn sc an m : resolve_gs E c ct v = Ok (name, prm, fn, sc, an) -> a_model v = VModel m ->
  exists vr, e_gstools E = Some vr.
Proof. intros H HM. unfold resolve_gs in H. rewrite HM in H. unfold validate_gstools in H. destruct (e_gstools E); [eauto|discriminate]. Qed.

(** What a successfully constructed object says about its arguments. *)
Lemma construct_accepts E c A o : List.length (c_coords A) = cdim c -> construct E c A = Ok o ->
  In (c_pinv_type A) ["pinv"; "pinvh"]%string /\ c_exact A <> None /\
  (forall name, a_model (c_v A) = VName name ->
     In name builtin_names \/ (name = "custom"%string /\ exists f, a_fun (c_v A) = FCallable f)) /\
  (c = OK2 -> c_ct A = "euclidean"%string \/ c_ct A = "geographic"%string) /\
  (forall l, In l (c_coords A) -> List.length l = List.length (c_values A)) /\
  (2 <= List.length (c_values A))%nat.
Proof.
  intros HL H. pose proof (construct_inv E c A o H) as HI.
  destruct HI as (ex & name & prm & fn & sc & an & f & vp & lags & sv & params & Hpt&Hex&Hgs&Hf&_&Hsl&Hini&_&Hc&_&_&_&_&_&_&Hn&_&_&_&_&_&_&Hct).
  split; [apply in_names_In, Hpt|]. split; [rewrite Hex; discriminate|]. split.
  { intros nm HM. unfold resolve_gs in Hgs. rewrite HM in Hgs. injection Hgs as <- _ <- _ _.
    unfold resolve_fun in Hf. destruct (dict_get variogram_dict nm) as [g|] eqn:E0.
    - left. apply dict_get_builtin. eauto.
    - right. destruct (String.eqb_spec nm "custom"); [|discriminate]. split; [assumption|].
      destruct (a_fun (c_v A)); try discriminate. eauto. }
  split.
  { intros ->. cbn [class_ct] in Hct. destruct Hct as [(Hct&_)|(Hct&_)]; auto. }
  pose proof (initialize_length _ _ _ _ _ _ _ _ _ _ _ _ _ Hini) as Hlen.
  split.
  { intros l Hl. destruct (In_nth _ _ [] Hl) as (j & Hj & <-). rewrite (same_length_nth _ j Hsl Hj). congruence. }
  unfold initialize_variogram_model in Hini. rewrite Hlen, Nat.eqb_refl in Hini. cbn [negb] in Hini.
  assert (HX : exists ls, experimental_variogram (o_ct o) (cdim c) (o_n o) (a_nlags (c_v A)) (o_adj o) (rnth (c_values A)) = Ok ls).
  { destruct (experimental_variogram _ _ _ _ _ _) as [ls|e]; [eauto|]. destruct (o_ct o); [discriminate|]. destruct (Nat.eqb (cdim c) 2); discriminate. }
  destruct HX as [ls HX]. rewrite Hlen.
  destruct (o_n o) as [|[|n]]; [| |lia]; exfalso; destruct (o_ct o); cbn in HX; discriminate.
Qed.

Lemma construct_too_small E c A o : List.length (c_coords A) = cdim c -> (List.length (c_values A) <= 1)%nat -> construct E c A <> Ok o.
Proof. intros HL Hn H. destruct (construct_accepts E c A o HL H) as (_&_&_&_&_&H2). lia. Qed.
Lemma construct_lengths E c A o l : List.length (c_coords A) = cdim c -> In l (c_coords A) -> List.length l <> List.length (c_values A) ->
  construct E c A <> Ok o.
Proof. intros HL Hin Hn H. destruct (construct_accepts E c A o HL H) as (_&_&_&_&H2&_). apply Hn, H2, Hin. Qed.

(** Valid arguments with explicit parameters are accepted. *)
Lemma construct_explicit_geo E A name f p x y : 
  c_pinv_type A = "pinv"%string \/ c_pinv_type A = "pinvh"%string -> c_exact A <> None -> c_ct A = "euclidean"%string \/ c_ct A = "geographic"%string ->
  c_coords A = [x; y] -> List.length x = List.length y -> List.length (c_values A) = List.length x -> (2 <= List.length x)%nat ->
  a_model (c_v A) = VName name -> explicit name (a_params (c_v A)) f p -> c_stat A = false ->
  exists o, construct E OK2 A = Ok o.
Proof.
  intros Hpt Hb Hct Hco Hxy Hv Hn Hm (Hd & Hmp & Hl) Hst.
  unfold construct. replace (in_names (c_pinv_type A) pinv_types) with true by (destruct Hpt as [-> | ->]; reflexivity).
  destruct (c_exact A) as [b|]; [|congruence]. rewrite Hco, Hst. cbn [class_ct]. unfold resolve_gs. rewrite Hm. cbn [bind].
  unfold resolve_fun. rewrite Hd. cbn [bind negb].
  destruct Hct as [-> | ->]; cbn [String.eqb Ascii.eqb Bool.eqb].
  - destruct (mapM_ok center_of [x; y]) as [cs Hcs].
    { intros l [<-|[<-|[]]]; apply center_ok; lia. }
    rewrite Hcs. cbn [bind same_length forallb]. rewrite Hxy, Nat.eqb_refl. cbn [andb negb cdim].
    destruct (adjust_supported 2 (columns [x; y]) (rnth cs) (a_scaling (c_v A)) (a_angle (c_v A)) (or_introl eq_refl)) as [Y HY].
    rewrite HY. cbn [bind]. rewrite Hmp. cbn [bind nth]. rewrite ?Hxy, ?Nat.eqb_refl. cbn [andb negb].
    rewrite Hv, Hxy.
    destruct (initialize_explicit (e_fit E) Euclidean 2 (List.length y) Y (rnth (c_values A)) name f p (a_nlags (c_v A)) (a_weight (c_v A)))
      as (lags & sv & Hi); try assumption; [intros; discriminate|lia|].
    rewrite Hi. cbn [bind]. eauto.
  - cbn [bind]. rewrite Hmp. cbn [bind nth same_length forallb cdim]. rewrite ?Hxy, ?Nat.eqb_refl. cbn [andb negb].
    rewrite Hv, Hxy.
    destruct (initialize_explicit (e_fit E) Geographic 2 (List.length y) (columns [x; y]) (rnth (c_values A)) name f p (a_nlags (c_v A)) (a_weight (c_v A)))
      as (lags & sv & Hi); try assumption; [reflexivity|lia|].
    rewrite Hi. cbn [bind]. eauto.
Qed.

(** *** execute *)
Lemma execute_bad_style E o q : ordinary o -> ~ In (q_style q) style_names -> execute E o q = Err ValueError.
Proof.
  intros Hord H. apply in_names_not in H. unfold style_names in H. unfold execute.
  destruct Hord as [-> | ->]; unfold execute2, execute3; rewrite H; reflexivity.
Qed.

Lemma good_style o q : good_query o q -> In (q_style q) style_names.
Proof. intros [[->|[(-> & _)|(-> & _)]] _]; cbn; auto. Qed.

Lemma neighbours_no_error E o pts npt k : kd_ok (e_kd E) -> (k <= o_n o)%nat -> neighbours_error E o pts npt k = false.
Proof.
  intros HK Hk. unfold neighbours_error. destruct (o_ct o) eqn:Ect; [reflexivity|].
  apply Bool.not_true_iff_false. intros H. apply existsb_exists in H. destruct H as (p & _ & H).
  apply existsb_exists in H. destruct H as (r & Hr & H). apply in_seq in Hr. unfold neighbours in H. rewrite Ect in H. cbn [snd] in H.
  pose proof (HK (o_n o) 3%nat (unit_vectors (o_adj o)) k (unit_vectors pts p)) as HS.
  destruct (e_kd E (o_n o) 3 (unit_vectors (o_adj o)) k (unit_vectors pts p)) as [ds idx]. destruct HS as (H1 & _).
  destruct (H1 r ltac:(lia) ltac:(lia)) as [H2 _]. cbn [snd] in H. destruct (Nat.ltb_spec (idx r) (o_n o)); [discriminate|lia].
Qed.

Lemma execute_bad_backend E o q : env_ok E -> ordinary o -> good_query o q -> window_in_range o q ->
  ~ (q_backend q = "vectorized"%string /\ q_window q = None) -> q_backend q <> "loop"%string ->
  ~ (q_backend q = "C"%string /\ o_class o = OK2) -> execute E o q = Err ValueError.
Proof.
  intros HE Hord HQ HW Hv Hl Hc. pose proof (good_style o q HQ) as HS. apply in_names_In in HS. unfold style_names in HS.
  destruct (good_locate o q HQ) as [l HL]. destruct (good_adjust o q l HQ) as [pts Hpts].
  unfold execute. destruct Hord as [Hcl|Hcl]; rewrite Hcl; unfold o_dim in HL; rewrite Hcl in HL; cbn [cdim locate] in HL;
    unfold execute2, execute3; rewrite HS; cbn [negb]; unfold window_in_range in HW.
  - assert (HB : effective_backend E (q_backend q) = q_backend q).
    { unfold effective_backend. destruct (String.eqb_spec (q_backend q) "C") as [EC|]; [|reflexivity]. exfalso. apply Hc. auto. }
    rewrite HL. cbn [bind]. rewrite Hpts. cbn [bind]. rewrite HB. clear HB HL Hpts HS.
    destruct (q_window q) as [k|].
    + replace (Nat.leb k 1) with false by (symmetry; apply Nat.leb_gt; lia).
      rewrite (neighbours_no_error E o pts (l_npt l) k (proj2 (proj2 HE)) (proj2 HW)). cbv zeta.
      destruct (String.eqb_spec (q_backend q) "loop"); [contradiction|].
      destruct (String.eqb_spec (q_backend q) "C"); [exfalso; apply Hc; auto|]. reflexivity.
    + cbv zeta. destruct (String.eqb_spec (q_backend q) "vectorized"); [exfalso; apply Hv; auto|].
      destruct (String.eqb_spec (q_backend q) "loop"); [contradiction|].
      destruct (String.eqb_spec (q_backend q) "C"); [exfalso; apply Hc; auto|]. reflexivity.
  - rewrite HL. cbn [bind]. rewrite Hpts. cbn [bind]. cbv zeta. clear HL Hpts HS.
    destruct (q_window q) as [k|].
    + destruct (Nat.eqb_spec k 0); [lia|]. destruct (String.eqb_spec (q_backend q) "loop"); [contradiction|]. reflexivity.
    + destruct (String.eqb_spec (q_backend q) "vectorized"); [exfalso; apply Hv; auto|].
      destruct (String.eqb_spec (q_backend q) "loop"); [contradiction|]. reflexivity.
Qed.

Lemma execute_mismatched E o q : ordinary o -> q_style q = "points"%string ->
  (match q_window q with Some k => (2 <= k)%nat | None => True end) ->
  (List.length (ys q) <> List.length (xs q) \/ (o_dim o = 3%nat /\ List.length (zs q) <> List.length (xs q))) ->
  execute E o q = Err ValueError.
Proof.
  intros Hord HS HW H. apply (execute_locate_err E o q ValueError Hord); [|rewrite HS; reflexivity|exact HW].
  rewrite HS. unfold o_dim in *. destruct Hord as [Hc|Hc]; rewrite Hc in *; cbn [cdim locate] in *; unfold locate2, locate3;
  cbn [String.eqb Ascii.eqb Bool.eqb]; change (size_of (q_pts q) 0) with (List.length (xs q)); change (size_of (q_pts q) 1) with (List.length (ys q));
  try change (size_of (q_pts q) 2) with (List.length (zs q)).
  - destruct H as [H|[H _]]; [|discriminate]. destruct (Nat.eqb_spec (List.length (xs q)) (List.length (ys q))); [congruence|reflexivity].
  - destruct (negb _ && negb _); [reflexivity|].
    destruct (Nat.eqb_spec (List.length (xs q)) (List.length (ys q))); [|reflexivity].
    destruct (Nat.eqb_spec (List.length (xs q)) (List.length (zs q))); [|reflexivity]. exfalso.
    destruct H as [H|[_ H]]; congruence.
Qed.

Lemma execute_adjust_ok E o q r : ordinary o -> execute E o q = Ok r -> exists l pts, adjust_query o (q_int q) (l_at l) = Ok pts.
Proof.
  intros Hord H. unfold execute in H. destruct Hord as [Hc|Hc]; rewrite Hc in H; unfold execute2, execute3 in H.
  - ifd H. ifd H. bindok H. bindok H. eauto.
  - ifd H. bindok H. bindok H. eauto.
Qed.
Lemma adjust_query_ints o l X pts : adjust_query o l X = Ok pts -> o_ct o = Euclidean -> In false l.
Proof.
  unfold adjust_query. intros H Hct. rewrite Hct in H. apply adjust_int_float in H. destruct H as [H _].
  induction l as [|[|] l IH]; cbn in *; [discriminate|right; apply IH, H|left; reflexivity].
Qed.

Lemma execute_accepts E o q r : ordinary o -> execute E o q = Ok r ->
  good_query o q /\
  (match q_window q with Some k => (2 <= k)%nat | None => True end) /\
  (q_backend q = "loop"%string \/ (q_backend q = "vectorized"%string /\ q_window q = None) \/ (q_backend q = "C"%string /\ o_class o = OK2)).
Proof.
  intros Hord H. destruct (execute_locate E o q r Hord H) as (l & HL & _).
  destruct (execute_adjust_ok E o q r Hord H) as (l' & pts & HA).
  split; [apply (locate_good o q l HL); intros Hct; apply (adjust_query_ints _ _ _ _ HA Hct)|].
  destruct (q_window q) as [k|] eqn:HW.
  - destruct (execute_ok_window E o q r k Hord HW H) as [Hk [HB|[HB1 HB2]]]; auto.
  - destruct (execute_ok_backend E o q r Hord H) as [HB|[HB|[HB1 HB2]]]; auto 10.
Qed.

Lemma execute_valid E o q : env_ok E -> reachable E o -> ordinary o -> good_query o q -> q_window q = None ->
  available E o (q_backend q) -> o_pinv o = false -> regular o -> exists r, execute E o q = Ok r.
Proof.
  intros HE Hre Hord HQ HW HB HP HR. destruct (good_locate o q HQ) as [l HL]. destruct (good_adjust o q l HQ) as [pts Hpts].
  pose proof (reachable_inv E o Hre) as Hinv.
  pose proof (execute_ref E o q Hinv Hord HW HB) as Href. unfold ref in Href. rewrite HL in Href. cbn [bind] in Href. rewrite Hpts in Href. cbn [bind] in Href.
  unfold invert in Href. rewrite HP in Href.
  destruct (la_inv (e_la E) (o_n o + 1) (get_kriging_matrix o)) as [B|] eqn:EI.
  - cbn [bind] in Href. destruct Href as (r & Hr & _). eauto.
  - exfalso. apply (inv_none _ (proj1 HE)) in EI. apply EI. apply regular_iff_nonsingular; assumption.
Qed.

(** *** dtype *)
Lemma adjust_query_dtype o l l' X : o_ct o = Geographic \/ (In false l /\ In false l') -> adjust_query o l X = adjust_query o l' X.
Proof.
  intros H. unfold adjust_query. destruct (o_ct o); [|reflexivity]. destruct H as [H|[H H']]; [discriminate|].
  rewrite (all_int_false l H), (all_int_false l' H'). reflexivity.
Qed.
Lemma dtype_irrelevant E o q l : (o_ct o = Geographic \/ (In false (q_int q) /\ In false l)) ->
  execute E o (with_dtypes q l) = execute E o q.
Proof.
  intros H. unfold execute, execute2, execute3. cbn [with_dtypes q_style q_pts q_int q_mask q_backend q_window].
  destruct (o_class o); try reflexivity.
  - destruct (negb _); [reflexivity|]. destruct (match q_window q with Some k => _ | None => _ end); [reflexivity|].
    destruct (locate2 _ _ _) as [lc|e]; [|reflexivity]. cbn [bind]. rewrite (adjust_query_dtype o l (q_int q)) by tauto. reflexivity.
  - destruct (negb _); [reflexivity|].
    destruct (locate3 _ _ _) as [lc|e]; [|reflexivity]. cbn [bind]. rewrite (adjust_query_dtype o l (q_int q)) by tauto. reflexivity.
Qed.

Lemma integer_query_raises E o q : reachable E o -> ordinary o -> o_ct o = Euclidean -> (forall b, In b (q_int q) -> b = true) ->
  (forall l, (forall b, In b l -> b = true) -> execute E o (with_dtypes q l) = execute E o q) /\
  forall r, execute E o q <> Ok r.
Proof.
  intros Hre Hord Hct Hall.
  assert (HN : ~ In false (q_int q)) by (intros HF; specialize (Hall _ HF); discriminate).
  split.
  - intros l Hl. assert (HF : forall l0, (forall b, In b l0 -> b = true) -> forallb (fun b => b) l0 = true).
    { intros l0 H0. apply forallb_forall. exact H0. }
    unfold execute, execute2, execute3. cbn [with_dtypes q_style q_pts q_int q_mask q_backend q_window]. unfold adjust_query. rewrite Hct.
    rewrite (HF l Hl), (HF (q_int q) Hall). reflexivity.
  - intros r H. destruct (execute_adjust_ok E o q r Hord H) as (l & pts & HA). apply HN, (adjust_query_ints _ _ _ _ HA Hct).
Qed.

Lemma integer_type_error : exists E o q r, env_ok E /\ reachable E o /\ o_class o = OK2 /\ q_int q = [true; true] /\
  execute E o q = Err TypeError /\ execute E o (with_dtypes q [false; false]) = Ok r.
Proof.
  destruct (two_run 1 1 7 8 true 1 1 false None ltac:(lra)) as (o & r & Ho & Hrun).
  destruct (two_fields _ _ _ _ _ _ _ _ Ho) as (Hre&Hinv&Hc&Hn&Hct&_).
  exists (wit_env false None), o, (with_dtypes (one_point 1 1 "vectorized") [true; true]), r.
  split; [apply wit_env_ok|]. split; [exact Hre|]. split; [exact Hc|]. split; [reflexivity|]. split.
  - unfold execute. rewrite Hc. unfold execute2. cbn [with_dtypes q_style q_pts q_int q_mask q_backend q_window one_point].
    cbn [in_names existsb String.eqb Ascii.eqb Bool.eqb orb negb].
    unfold locate2. cbn [String.eqb Ascii.eqb Bool.eqb size_of nth List.length Nat.eqb negb bind l_at].
    unfold adjust_query. rewrite Hct. cbn [forallb andb]. unfold o_dim. rewrite Hc. reflexivity.
  - apply Hrun.
Qed.

(** *** pseudo_inv *)
Lemma pinv_irrelevant E c A us b t o o' q r r' p pos : built E c A us o -> built E c (with_pinv A b t) us o' ->
  run E o q r -> run E o' q r' -> shown o q p pos ->
  r_value r p = r_value r' p /\ r_variance r p = r_variance r' p.
Proof.
  intros HB HB' (HE & Hre & Hord & HF & Hx) (_ & Hre' & Hord' & HF' & Hx') HS.
  pose proof (built_agree E c A (with_pinv A b t) us o o' HB HB' eq_refl eq_refl eq_refl eq_refl) as HA.
  assert (HX : o_exact o' = o_exact o).
  { pose proof (built_exact _ _ _ _ _ HB) as H1. pose proof (built_exact _ _ _ _ _ HB') as H2. cbn in H2. congruence. }
  apply (cell_det E o o' q q r r' p p pos HE (reachable_inv _ _ Hre) (reachable_inv _ _ Hre') Hord HA HF HF' eq_refl Hx Hx' HS).
  - unfold shown, o_dim in *. rewrite (ag_class _ _ HA). exact HS.
  - intros i _. rewrite (agree_g _ _ pos HA HX). reflexivity.
Qed.
