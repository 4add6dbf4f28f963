(** Proofs for C70: parameters of the scikit-learn wrapper. *)
From Coq Require Import String Permutation.
From Verif Require Import Base Sums Matrix M_Variogram M_Geometry M_Kriging M_Init M_Object M_Execute S_Execute M_UK M_Compat S_Compat M_Call S_Call P_Compat P_Call.
Open Scope string_scope.

Definition krige_names : list string := map fst krige_defaults.
Lemma krige_of_params k : krige_of (get_params_of k) = Ok (set_fitted k None).
Proof. destruct k; reflexivity. Qed.
Lemma bind_params k : bind_args krige_sig (get_params_of k) = Ok (get_params_of k).
Proof. destruct k; reflexivity. Qed.
Lemma call_params k : krige_call [] (get_params_of k) = match class_of (k_method k) with Some _ => Ok (set_fitted k None) | None => Err ValueError end.
Proof.
  unfold krige_call. rewrite positional_nil. cbn [bind]. rewrite bind_params. cbn [bind]. rewrite krige_of_params. cbn [bind].
  destruct (init_validates (set_fitted k None)) as [H1 H2]. change (k_method (set_fitted k None)) with (k_method k) in *.
  destruct (class_of (k_method k)) as [c|] eqn:E; [rewrite (H2 c eq_refl); reflexivity|apply H1; reflexivity].
Qed.
Lemma clone_spec k : clone k = match class_of (k_method k) with Some _ => Ok (set_fitted k None) | None => Err ValueError end.
Proof. apply call_params. Qed.

(** records from dictionaries *)
Lemma params_of_krige d k : map fst d = krige_names -> krige_of d = Ok k -> get_params_of k = d /\ k_fitted k = None.
Proof.
  intros HN HK. unfold krige_names, krige_defaults in HN. cbn [map fst] in HN.
  do 19 (destruct d as [|[? ?] d]; [discriminate HN|cbn [map fst] in HN; injection HN as ? HN]).
  destruct d; [|discriminate HN]. clear HN. subst.
  unfold krige_of in HK.
  unfold get_model at 1, get at 1 in HK. cbn in HK.
  repeat match type of HK with context [match ?v with V_array _ _ => _ | _ => _ end] => is_var v; destruct v; try discriminate HK; cbn in HK end.
  injection HK as <-. split; reflexivity.
Qed.
Lemma dict_set_keys d k v : In k (map fst d) -> map fst (dict_set d k v) = map fst d.
Proof.
  induction d as [|[k' v'] d IH]; cbn; [intros []|]. destruct (String.eqb_spec k k') as [->|Hn]; [reflexivity|].
  intros [H|H]; [congruence|]. cbn. f_equal. apply IH. exact H.
Qed.
Lemma dict_get_set d k v k' : dict_get (dict_set d k v) k' = if String.eqb k' k then Some v else dict_get d k'.
Proof.
  induction d as [|[k0 v0] d IH]; cbn.
  - reflexivity.
  - destruct (String.eqb_spec k k0) as [->|Hn]; cbn.
    + destruct (String.eqb_spec k' k0); reflexivity.
    + rewrite IH. destruct (String.eqb_spec k' k0) as [->|]; [|reflexivity]. destruct (String.eqb_spec k0 k); congruence.
Qed.
Lemma params_keys k : map fst (get_params_of k) = krige_names.
Proof. destruct k; reflexivity. Qed.
Lemma setattr_params k name v k' : In name krige_names -> setattr k name v = Ok k' ->
  get_params_of k' = dict_set (get_params_of k) name v /\ k_fitted k' = k_fitted k.
Proof.
  intros Hn H. unfold setattr in H. destruct (krige_of (dict_set (get_params_of k) name v)) as [k1|e] eqn:E; [|discriminate]. cbn [bind] in H.
  injection H as <-. destruct (params_of_krige _ k1 (eq_trans (dict_set_keys _ _ _ (eq_rect_r (In name) Hn (params_keys k))) (params_keys k)) E) as [H1 _].
  split; [|reflexivity]. rewrite <- H1. destruct k1; reflexivity.
Qed.
Lemma known name : in_names name (map fst krige_sig) = true <-> In name krige_names.
Proof. apply in_names_iff. Qed.

Theorem set_params_effect k kw k' : set_params k kw = (k', None) ->
  get_params_of k' = dict_update (get_params_of k) kw /\ k_fitted k' = k_fitted k.
Proof.
  revert k. induction kw as [|[name v] kw IH]; intros k H; cbn [set_params] in H; [injection H as <-; split; reflexivity|].
  destruct (in_names name _) eqn:EN; [|discriminate]. apply known in EN.
  destruct (setattr k name v) as [k1|e] eqn:ES; [|discriminate].
  destruct (setattr_params k name v k1 EN ES) as [P1 P2]. destruct (IH k1 H) as [Q1 Q2]. split; [|congruence].
  rewrite Q1, P1. reflexivity.
Qed.
Lemma update_get kw : forall d name, dict_get (dict_update d kw) name = overridden (dict_get d) kw name.
Proof.
  unfold overridden. induction kw as [|[k v] kw IH] using rev_ind; intros d name; [reflexivity|].
  unfold dict_update in *. rewrite fold_left_app, rev_app_distr. cbn [fold_left rev app dict_get]. rewrite dict_get_set.
  destruct (String.eqb name k); [reflexivity|apply IH].
Qed.

(** right kinds *)
Lemma setattr_ok k name v : right_kind name v -> exists k', setattr k name v = Ok k'.
Proof.
  intros (w & Hi & Hk). unfold setattr. unfold krige_defaults in Hi.
  repeat (destruct Hi as [Hi|Hi]; [injection Hi as <- <-; destruct v; try contradiction Hk; destruct k; eexists; reflexivity|]).
  destruct Hi.
Qed.
Lemma right_kind_name name v : right_kind name v -> In name krige_names.
Proof. intros (w & Hi & _). apply in_map_iff. exists (name, w). auto. Qed.
Theorem set_params_ok k kw : (forall name v, In (name, v) kw -> right_kind name v) -> exists k', set_params k kw = (k', None).
Proof.
  revert k. induction kw as [|[name v] kw IH]; intros k H; cbn [set_params]; [eauto|].
  pose proof (H name v (or_introl eq_refl)) as HR. rewrite (proj2 (known name) (right_kind_name _ _ HR)).
  destruct (setattr_ok k name v HR) as [k1 ->]. apply IH. intros n w Hn. apply H. right. exact Hn.
Qed.
Theorem set_params_unknown k kw name v rest : (forall n w, In (n, w) kw -> right_kind n w) -> ~ In name krige_names ->
  set_params k (kw ++ (name, v) :: rest)%list = (fst (set_params k kw), Some ValueError).
Proof.
  revert k. induction kw as [|[n w] kw IH]; intros k H Hn.
  - cbn [app set_params]. destruct (in_names name _) eqn:E; [exfalso; apply Hn, known, E|reflexivity].
  - cbn [app set_params]. pose proof (H n w (or_introl eq_refl)) as HR. rewrite (proj2 (known n) (right_kind_name _ _ HR)).
    destruct (setattr_ok k n w HR) as [k1 ->]. apply IH; [|exact Hn]. intros n' w' Hi. apply H. right. exact Hi.
Qed.

(** fitting afterwards *)
Lemma fit_kwargs_fitted k x y f : fit_kwargs (set_fitted k f) x y = fit_kwargs k x y.
Proof. destruct k; reflexivity. Qed.
Lemma fit_forgets E k x y f : krige_fit E (set_fitted k f) x y =
  match krige_fit E k x y with (k', None) => (k', None) | (_, Some e) => (set_fitted k f, Some e) end.
Proof.
  unfold krige_fit. rewrite fit_kwargs_fitted. change (k_method (set_fitted k f)) with (k_method k).
  destruct (do kw <- fit_kwargs k x y ;; _) as [m|e]; [destruct k; reflexivity|reflexivity].
Qed.
Theorem set_params_new k kw k' k0 : set_params k kw = (k', None) -> krige_call [] (dict_update (get_params_of k) kw) = Ok k0 ->
  k0 = set_fitted k' None.
Proof.
  intros H1 H2. destruct (set_params_effect k kw k' H1) as [H3 _]. rewrite <- H3, call_params in H2.
  destruct (class_of (k_method k')); [injection H2 as <-; reflexivity|discriminate].
Qed.

(** predicting without fitting *)
Lemma predict_same E k k' x extra : dict_get (get_params_of k') "method" = dict_get (get_params_of k) "method" ->
  dict_get (get_params_of k') "n_closest_points" = dict_get (get_params_of k) "n_closest_points" -> k_fitted k' = k_fitted k ->
  krige_predict E k' x extra = krige_predict E k x extra.
Proof.
  cbn. intros H1 H2 H3. injection H1 as H1. injection H2 as H2. unfold krige_predict, dimensionality_check, krige_execute. rewrite H1, H2, H3. reflexivity.
Qed.
Theorem set_params_predict E k kw k' x extra : set_params k kw = (k', None) ->
  (forall name, In name (map fst kw) -> name <> "method" /\ name <> "n_closest_points") ->
  krige_predict E k' x extra = krige_predict E k x extra.
Proof.
  intros H HN. destruct (set_params_effect k kw k' H) as [H1 H2]. apply predict_same; [| |exact H2]; rewrite H1, update_get; unfold overridden;
    rewrite (proj2 (dict_get_none (rev kw) _)); try reflexivity; rewrite map_rev, <- in_rev; intros K; destruct (HN _ K); congruence.
Qed.
Theorem set_params_window k w : set_params k [("n_closest_points", V_window w)] = (with_ncp k w, None).
Proof. destruct k; reflexivity. Qed.

(** predicting after a change of the number of dimensions *)
Theorem set_method_predict E k m c method c' k' x extra : fitted_as k m c -> class_of method = Some c' -> cdim c' <> cdim c ->
  set_params k [("method", V_str method)] = (k', None) -> dict_get extra "zpoints" = None ->
  krige_predict E k' x extra = Err (if Nat.eqb (List.length (p_cols x)) (cdim c') then TypeError else ValueError).
Proof.
  intros (HF & HC & HM & HK) HC' HD HS Hz.
  assert (Hm : k_method k' = method /\ k_fitted k' = Some m).
  { destruct (set_params_effect _ _ _ HS) as [H1 H2]. split; [|congruence].
    apply (f_equal (fun d => dict_get d "method")) in H1. rewrite update_get in H1. cbn in H1. congruence. }
  destruct Hm as [Hm Hf]. unfold krige_predict. rewrite Hf. unfold dimensionality_check. rewrite Hm.
  assert (HG : forall d n, dict_get (dict_update d extra) n = match dict_get (rev extra) n with Some v => Some v | None => dict_get d n end) by (intros; apply update_get).
  assert (Hz' : forall d, dict_get (dict_update d extra) "zpoints" = dict_get d "zpoints").
  { intros d. rewrite HG. rewrite (proj2 (dict_get_none (rev extra) "zpoints")); [reflexivity|]. rewrite map_rev, <- in_rev. apply dict_get_none. exact Hz. }
  (* the dictionary passed to execute has zpoints or not according to the method *)
  assert (HX : forall pts, krige_execute E k' pts extra = match m with
     | KOrd o => execute_kw E m (dict_set (dict_update pts (dict_update [("style", V_str "points"); ("backend", V_str "loop")] extra)) "n_closest_points" (V_window (k_window k')))
     | KUni _ => execute_kw E m (dict_update pts (dict_update [("style", V_str "points"); ("backend", V_str "loop")] extra)) end).
  { intros pts. unfold krige_execute. rewrite Hf. destruct m; reflexivity. }
  assert (HQ : forall pts kw', (kw' = dict_set (dict_update pts (dict_update [("style", V_str "points"); ("backend", V_str "loop")] extra)) "n_closest_points" (V_window (k_window k')) \/
     kw' = dict_update pts (dict_update [("style", V_str "points"); ("backend", V_str "loop")] extra)) ->
     dict_get kw' "zpoints" = dict_get pts "zpoints").
  { intros pts kw' HH.
    assert (HU : dict_get (dict_update pts (dict_update [("style", V_str "points"); ("backend", V_str "loop")] extra)) "zpoints" = dict_get pts "zpoints").
    { rewrite update_get. unfold overridden. rewrite (proj2 (dict_get_none _ "zpoints")); [reflexivity|]. rewrite map_rev, <- in_rev. apply dict_get_none.
      rewrite Hz'. reflexivity. }
    destruct HH as [-> | ->]; [rewrite dict_get_set; exact HU|exact HU]. }
  assert (HT : forall pts, (dict_get pts "zpoints" = None <-> cdim c = 3%nat) -> krige_execute E k' pts extra = Err TypeError).
  { intros pts HP. rewrite HX.
    assert (HE : forall ord kw', dict_get kw' "zpoints" = dict_get pts "zpoints" -> bind_args (exec_sig ord (cdim c)) kw' = Err TypeError).
    { intros ord kw' HE. destruct (dict_get pts "zpoints") as [v|] eqn:EZ.
      - assert (H3 : cdim c <> 3%nat) by (intros K; apply HP in K; congruence). apply dict_get_in in HE.
        apply (bind_unknown _ _ _ _ HE). destruct c; cbn in H3; try (exfalso; apply H3; reflexivity); destruct ord; cbn; intuition discriminate.
      - assert (H3 : cdim c = 3%nat) by (apply HP; reflexivity). apply (bind_missing _ kw' "zpoints").
        + rewrite H3. unfold exec_sig. cbn. tauto.
        + apply dict_get_none. exact HE. }
    destruct m as [o|u]; cbn [execute_kw model_class] in *.
    - unfold o_dim. rewrite HM. rewrite HE; [reflexivity|]. apply HQ. left. reflexivity.
    - unfold o_dim. rewrite HM. rewrite HE; [reflexivity|]. apply HQ. right. reflexivity. }
  destruct (class_cases _ _ HC') as [[-> ->]|[[-> ->]|[[-> ->]|[-> ->]]]]; cbn [in_names existsb String.eqb Ascii.eqb Bool.eqb orb cdim] in *;
    destruct (Nat.eqb (List.length (p_cols x)) _) eqn:EL; cbn [negb]; try reflexivity; cbn [bind]; rewrite HT; try reflexivity; cbn; destruct c; cbn in *; split; intros; try congruence; try lia.
Qed.
Close Scope string_scope.
