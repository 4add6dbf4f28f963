(** Proofs for C39, C40. *)
From Coq Require Import String.
From Verif Require Import Base Sums Matrix M_Variogram M_Geometry M_Kriging M_Init M_Object M_Execute S_Execute M_UK S_UK M_Compat S_Compat P_Object P_UK.

Lemma class_cases method c : class_of method = Some c ->
  (method = "ordinary"%string /\ c = OK2) \/ (method = "universal"%string /\ c = UK2) \/
  (method = "ordinary3d"%string /\ c = OK3) \/ (method = "universal3d"%string /\ c = UK3).
Proof.
  unfold class_of.
  destruct (String.eqb_spec method "ordinary"); [intros H; injection H as <-; auto|].
  destruct (String.eqb_spec method "universal"); [intros H; injection H as <-; auto|].
  destruct (String.eqb_spec method "ordinary3d"); [intros H; injection H as <-; auto|].
  destruct (String.eqb_spec method "universal3d"); [intros H; injection H as <-; auto|discriminate].
Qed.

Lemma two_cols (x : points) : List.length (p_cols x) = 2%nat -> p_cols x = [nth 0 (p_cols x) []; nth 1 (p_cols x) []].
Proof. destruct (p_cols x) as [|a [|b [|]]]; cbn; intros; try lia; reflexivity. Qed.
Lemma three_cols (x : points) : List.length (p_cols x) = 3%nat -> p_cols x = [nth 0 (p_cols x) []; nth 1 (p_cols x) []; nth 2 (p_cols x) []].
Proof. destruct (p_cols x) as [|a [|b [|c [|]]]]; cbn; intros; try lia; reflexivity. Qed.

Theorem fit_is_direct E k x y c : class_of (k_method k) = Some c -> List.length (p_cols x) = cdim c ->
  (2 <= List.length (k_scaling k))%nat -> (3 <= List.length (k_angle k))%nat ->
  krige_fit E k x y = match direct_call E k c x y with Ok m => (set_fitted k (Some m), None) | Err e => (k, Some e) end.
Proof.
  intros HC HX HS HA. unfold krige_fit.
  destruct k as [method vm prm fn nl we ve ex pi pit sc an st ct te po exg exx exy fu wi fi].
  cbn [k_method k_scaling k_angle] in *.
  destruct sc as [|s0 [|s1 sc]]; cbn in HS; try lia. destruct an as [|a0 [|a1 [|a2 an]]]; cbn in HA; try lia. clear HS HA.
  unfold fit_kwargs. cbn [k_method k_scaling k_angle index nth_error bind].
  unfold dimensionality_check. cbn [k_method].
  destruct (class_cases _ _ HC) as [[-> ->]|[[-> ->]|[[-> ->]|[-> ->]]]]; cbn [cdim] in HX; rewrite HX;
    cbn -[construct construct_uk]; unfold direct_call, direct_args; cbn -[construct construct_uk];
    rewrite <- ?(two_cols x HX), <- ?(three_cols x HX).
  all: try (destruct (construct E _ _); reflexivity).
  all: destruct (construct_uk E _ _ _); reflexivity.
Qed.

Theorem fit_wrong_dimension E k x y c : class_of (k_method k) = Some c -> List.length (p_cols x) <> cdim c ->
  (2 <= List.length (k_scaling k))%nat -> (3 <= List.length (k_angle k))%nat -> krige_fit E k x y = (k, Some ValueError).
Proof.
  intros HC HX HS HA. unfold krige_fit.
  destruct k as [method vm prm fn nl we ve ex pi pit sc an st ct te po exg exx exy fu wi fi].
  cbn [k_method k_scaling k_angle] in *.
  destruct sc as [|s0 [|s1 sc]]; cbn in HS; try lia. destruct an as [|a0 [|a1 [|a2 an]]]; cbn in HA; try lia. clear HS HA.
  unfold fit_kwargs. cbn [k_method k_scaling k_angle index nth_error bind].
  unfold dimensionality_check. cbn [k_method]. apply Nat.eqb_neq in HX.
  destruct (class_cases _ _ HC) as [[-> ->]|[[-> ->]|[[-> ->]|[-> ->]]]]; cbn [cdim] in HX; rewrite HX; reflexivity.
Qed.

Theorem fit_short_tuple E k x y : (List.length (k_scaling k) < 2)%nat \/ (List.length (k_angle k) < 3)%nat ->
  krige_fit E k x y = (k, Some IndexError).
Proof.
  intros H. unfold krige_fit, fit_kwargs.
  destruct (k_scaling k) as [|s0 [|s1 sc]]; cbn; [reflexivity|destruct (k_angle k); reflexivity|].
  destruct (k_angle k) as [|a0 [|a1 [|a2 an]]]; try reflexivity. cbn in H. lia.
Qed.

Theorem init_validates k : (class_of (k_method k) = None <-> krige_init k = Err ValueError) /\
  forall c, class_of (k_method k) = Some c -> krige_init k = Ok (set_fitted k None).
Proof.
  assert (D : dict_get krige_methods (k_method k) = class_of (k_method k)) by reflexivity.
  unfold krige_init. rewrite D. split.
  - split; intros H; [rewrite H; reflexivity|]. destruct (class_of (k_method k)); [discriminate H|reflexivity].
  - intros c ->. reflexivity.
Qed.

(** what the wrapper holds after a fit *)
Lemma direct_class E k c x y m : direct_call E k c x y = Ok m -> model_class m = c.
Proof.
  unfold direct_call. intros H.
  assert (K : forall c A o, construct E c A = Ok o -> o_class o = c).
  { intros c' A o HC. pose proof (construct_inv E c' A o HC) as (ex & nm & prm & fn & sc & an & f & vp & lags & sv & params & Hall).
    destruct Hall as (_&_&_&_&_&_&_&_&Hc&_). exact Hc. }
  assert (KU : forall c A D u, construct_uk E c A D = Ok u -> o_class (u_obj u) = c).
  { intros c' A D u HC. unfold construct_uk in HC. bindok HC. bindok HC. injection HC as <-. cbn. eapply K. eassumption. }
  destruct c.
  - destruct (construct E OK2 _) eqn:HC; [|discriminate H]. injection H as <-. exact (K _ _ _ HC).
  - destruct (construct_uk E UK2 _ _) eqn:HC; [|discriminate H]. injection H as <-. exact (KU _ _ _ _ HC).
  - destruct (construct E OK3 _) eqn:HC; [|discriminate H]. injection H as <-. exact (K _ _ _ HC).
  - destruct (construct_uk E UK3 _ _) eqn:HC; [|discriminate H]. injection H as <-. exact (KU _ _ _ _ HC).
Qed.
Lemma direct_kind E k c x y m : direct_call E k c x y = Ok m -> match m with KOrd _ => c = OK2 \/ c = OK3 | KUni _ => c = UK2 \/ c = UK3 end.
Proof.
  unfold direct_call. intros H. destruct c.
  - destruct (construct E OK2 _); [|discriminate H]. injection H as <-. auto.
  - destruct (construct_uk E UK2 _ _); [|discriminate H]. injection H as <-. auto.
  - destruct (construct E OK3 _); [|discriminate H]. injection H as <-. auto.
  - destruct (construct_uk E UK3 _ _); [|discriminate H]. injection H as <-. auto.
Qed.

(** C40 *)
Theorem predict_unfitted E k x extra : k_fitted k = None -> krige_predict E k x extra = Err PlainException.
Proof. intros H. unfold krige_predict. rewrite H. reflexivity. Qed.

Theorem predict_wrong_dimension E k x extra c m : k_fitted k = Some m -> class_of (k_method k) = Some c -> List.length (p_cols x) <> cdim c ->
  krige_predict E k x extra = Err ValueError.
Proof.
  intros H HC HX. unfold krige_predict, dimensionality_check. rewrite H. apply Nat.eqb_neq in HX.
  destruct (class_cases _ _ HC) as [[-> ->]|[[-> ->]|[[-> ->]|[-> ->]]]]; cbn [cdim] in HX; rewrite HX; reflexivity.
Qed.

Lemma fit_fitted E k x y c m : class_of (k_method k) = Some c -> direct_call E k c x y = Ok m -> fitted_as (set_fitted k (Some m)) m c.
Proof.
  intros HC HD. split; [reflexivity|]. split; [exact HC|]. pose proof (direct_class _ _ _ _ _ _ HD) as HK. split; [exact HK|].
  pose proof (direct_kind _ _ _ _ _ _ HD) as H. destruct m; cbn in *; rewrite HK; exact H.
Qed.

Lemma predict_with_backend E k x c m b extra : fitted_as k m c -> List.length (p_cols x) = cdim c ->
  (extra = [] /\ b = "loop"%string \/ extra = [("backend"%string, V_str b)]) ->
  krige_predict E k x extra = direct_predict E k m x b.
Proof.
  intros (HF & HC & HK & HO) HX Hextra. unfold krige_predict, dimensionality_check, krige_execute. rewrite HF.
  destruct x as [ip cols]. cbn [p_cols] in *.
  destruct (class_cases _ _ HC) as [[-> ->]|[[-> ->]|[[-> ->]|[-> ->]]]]; cbn [cdim] in HX;
    (destruct cols as [|c0 [|c1 [|c2 [|? ?]]]]; cbn in HX; try discriminate HX; clear HX);
    (destruct m as [o|u]; cbn in HK; cbn in HO; rewrite HK in HO; destruct HO as [HO|HO]; try discriminate HO; clear HO);
    unfold direct_predict, points_query, execute_kw, o_dim; rewrite HK;
    destruct Hextra as [[-> ->]| ->]; cbn -[execute execute_uk].
  all: try (destruct (execute E o _); reflexivity).
  all: destruct (execute_uk E u _ _) as [[r w]|]; reflexivity.
Qed.

(** n_closest_points cannot be overridden in ordinary methods ... *)
Lemma dict_set_set d k v v' : dict_set (dict_set d k v') k v = dict_set d k v.
Proof.
  induction d as [|[a b] d IH]; cbn; [rewrite String.eqb_refl; reflexivity|].
  destruct (String.eqb_spec k a) as [->|NE]; cbn; [rewrite String.eqb_refl; reflexivity|].
  apply String.eqb_neq in NE. rewrite NE, IH. reflexivity.
Qed.
Theorem ncp_fixed E k o x w : k_fitted k = Some (KOrd o) ->
  krige_predict E k x [("n_closest_points"%string, V_window w)] = krige_predict E k x [].
Proof.
  intros HF. unfold krige_predict. rewrite HF. destruct (dimensionality_check k x "points") as [[pts|]|e] eqn:ED; try reflexivity.
  cbn [bind]. unfold krige_execute. rewrite HF. cbn [dict_update fold_left dict_set String.eqb Ascii.eqb Bool.eqb].
  rewrite dict_set_set. reflexivity.
Qed.
(** ... and is not accepted by the universal ones *)
Theorem ncp_rejected E k u x w c : fitted_as k (KUni u) c -> List.length (p_cols x) = cdim c ->
  krige_predict E k x [("n_closest_points"%string, V_window w)] = Err TypeError.
Proof.
  intros (HF & HC & HK & HO) HX. unfold krige_predict, dimensionality_check, krige_execute. rewrite HF. cbn in HK. cbn in HO. rewrite HK in HO.
  destruct (class_cases _ _ HC) as [[-> ->]|[[-> ->]|[[-> ->]|[-> ->]]]]; cbn [cdim] in HX; rewrite HX;
    (destruct HO as [HO|HO]; try discriminate HO; clear HO);
    unfold execute_kw, o_dim; rewrite HK; reflexivity.
Qed.
(** the stored n_closest_points plays no role in a universal method *)
Theorem ncp_ignored E k u x w extra : k_fitted k = Some (KUni u) ->
  krige_predict E (with_ncp k w) x extra = krige_predict E k x extra.
Proof. intros HF. unfold krige_predict, krige_execute. cbn [with_ncp k_fitted]. rewrite HF. reflexivity. Qed.
(** an option execute does not have *)
Lemma set_keys d k v name : In name (map fst d) \/ name = k -> In name (map fst (dict_set d k v)).
Proof.
  induction d as [|[a b] d IH]; cbn; [intuition|]. intros H. destruct (String.eqb_spec k a) as [->|NE]; cbn; [intuition|].
  destruct H as [[H|H]|H]; [left; exact H|right; apply IH; left; exact H|right; apply IH; right; exact H].
Qed.
Lemma update_keys d' : forall d name, In name (map fst d) \/ In name (map fst d') -> In name (map fst (dict_update d d')).
Proof.
  unfold dict_update. induction d' as [|[k v] d' IH]; cbn; intros d name H; [intuition|]. apply IH.
  destruct H as [H|[<-|H]]; [left; apply set_keys; auto|left; apply set_keys; auto|right; exact H].
Qed.
Lemma bind_unknown sig kw name : In name (map fst kw) -> ~ In name (map fst sig) -> bind_args sig kw = Err TypeError.
Proof.
  intros H1 H2. unfold bind_args. replace (forallb _ kw) with false; [reflexivity|]. symmetry. apply not_true_iff_false. intros H.
  rewrite forallb_forall in H. apply in_map_iff in H1. destruct H1 as ((k, v) & <- & Hin). specialize (H _ Hin). cbn in H.
  unfold in_names in H. apply existsb_exists in H. destruct H as (s & Hs & He). apply String.eqb_eq in He. subst s. exact (H2 Hs).
Qed.
Theorem predict_unknown_option E k m x name v c : fitted_as k m c -> List.length (p_cols x) = cdim c ->
  ~ In name ["style"; "xpoints"; "ypoints"; "zpoints"; "mask"; "backend"; "n_closest_points"; "specified_drift_arrays"]%string ->
  krige_predict E k x [(name, v)] = Err TypeError.
Proof.
  intros (HF & HC & HK & HO) HX HN. unfold krige_predict. rewrite HF.
  assert (D : exists pts, dimensionality_check k x "points" = Ok (Some pts)).
  { unfold dimensionality_check. destruct (class_cases _ _ HC) as [[-> ->]|[[-> ->]|[[-> ->]|[-> ->]]]]; cbn [cdim] in HX; rewrite HX; eexists; reflexivity. }
  destruct D as [pts ->]. cbn [bind]. unfold krige_execute. rewrite HF.
  set (kw := dict_update pts _).
  assert (IN : In name (map fst kw)).
  { apply update_keys. right. apply update_keys. right. left. reflexivity. }
  assert (B : execute_kw E m (match m with KOrd _ => dict_set kw "n_closest_points" (V_window (k_window k)) | KUni _ => kw end) = Err TypeError).
  { destruct m as [o|u]; unfold execute_kw.
    - rewrite (bind_unknown _ _ name); [reflexivity|apply set_keys; auto|]. intros K. apply HN. unfold exec_sig in K. destruct (Nat.eqb (o_dim o) 3); cbn in K |- *; tauto.
    - rewrite (bind_unknown _ _ name); [reflexivity|exact IN|]. intros K. apply HN. unfold exec_sig in K. destruct (Nat.eqb (o_dim (u_obj u)) 3); cbn in K |- *; tauto. }
  rewrite B. reflexivity.
Qed.
(** style, mask and backend given by keyword *)
Theorem predict_overrides E k x c m st mk b : fitted_as k m c -> List.length (p_cols x) = cdim c ->
  krige_predict E k x [("style"%string, V_str st); ("mask"%string, V_mask mk); ("backend"%string, V_str b)] = direct_execute E k m x st mk b.
Proof.
  intros (HF & HC & HK & HO) HX. unfold krige_predict, dimensionality_check, krige_execute. rewrite HF.
  destruct x as [ip cols]. cbn [p_cols] in *.
  destruct (class_cases _ _ HC) as [[-> ->]|[[-> ->]|[[-> ->]|[-> ->]]]]; cbn [cdim] in HX;
    (destruct cols as [|c0 [|c1 [|c2 [|? ?]]]]; cbn in HX; try discriminate HX; clear HX);
    (destruct m as [o|u]; cbn in HK; cbn in HO; rewrite HK in HO; destruct HO as [HO|HO]; try discriminate HO; clear HO);
    unfold direct_execute, styled_query, execute_kw, o_dim; rewrite HK; cbn -[execute execute_uk].
  all: try (destruct (execute E o _); reflexivity).
  all: destruct (execute_uk E u _ _) as [[r w]|]; reflexivity.
Qed.
