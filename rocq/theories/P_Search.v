(** Proofs for C73. *)
From Coq Require Import String Lia Lra.
From Verif Require Import Base Sums Matrix M_Variogram M_Geometry S_Geometry M_Kriging S_Kriging M_Init M_Object M_Execute S_Execute M_UK S_UK M_Compat S_Compat
  M_Call S_Call P_Call P_Call2 P_Call3 P_Call4 P_Compat M_Ilr M_Learn S_Learn P_Learn P_Learn2 P_Learn3 P_Learn4 P_Data2 Witness P_UK8 M_Search S_Search.

(** score *)
Lemma as_list_values a p : as_list a = Ok p -> fst a = [List.length p] /\
  forall i, (i < List.length p)%nat -> rnth p i = match snd a i with Some v => v | None => 0 end.
Proof.
  unfold as_list. destruct a as [sh v]. cbn [fst snd]. destruct sh as [|n [|? ?]]; try discriminate. intros H. injection H as <-.
  rewrite map_length, seq_length. split; [reflexivity|]. intros i Hi. rewrite (rnth_tab (fun i => match v i with Some v => v | None => 0 end)) by exact Hi. reflexivity.
Qed.
Lemma r2_determination y p v : r2_score y p None = Ok v -> determination y p v.
Proof.
  intros H. unfold determination. cbv zeta. split.
  - intros Hn. unfold r2_score in H. destruct (_ || _ || _)%bool; [discriminate|]. apply Nat.ltb_lt in Hn. rewrite Hn in H. injection H as <-. reflexivity.
  - intros Hn. destruct v as [r|].
    + exists r. split; [reflexivity|]. destruct (r2_spec y p None r H) as (_ & _ & H1 & H2 & H3).
      * intros i _. cbn. lra.
      * split; [exact H1|]. split; [exact H2|exact H3].
    + exfalso. unfold r2_score in H. destruct (_ || _ || _)%bool; [discriminate|]. destruct (Nat.ltb_spec (List.length y) 2); [lia|discriminate].
Qed.
Theorem score_is_r2 E k x y w v : krige_score E k x y w = Ok (Some v) ->
  (forall i, (i < List.length y)%nat -> 0 < weights_of w i) ->
  exists a p, krige_predict E k x [] = Ok a /\ as_list a = Ok p /\ List.length p = List.length y /\ v <= 1 /\
    (v = 1 <-> forall i, (i < List.length y)%nat -> rnth p i = rnth y i) /\
    let n := List.length y in
    let tot := wsquares n (weights_of w) (rnth y) (fun _ => wmean n (weights_of w) (rnth y)) in
    (tot <> 0 -> v = 1 - wsquares n (weights_of w) (rnth y) (rnth p) / tot).
Proof.
  intros H HW. unfold krige_score in H. destruct (krige_predict E k x []) as [a|] eqn:HP; [|discriminate]. cbn [bind] in H.
  destruct (as_list a) as [p|] eqn:HL; [|discriminate]. cbn [bind] in H.
  destruct (r2_spec y p w v H HW) as (H1 & _ & H2 & H3 & H4). exists a, p. repeat (split; [first [assumption|reflexivity]|]). exact H4.
Qed.
Lemma predict_list E k m c x extra a : fitted_as k m c -> exact_backend extra -> krige_predict E k x extra = Ok a ->
  exists p, as_list a = Ok p /\ List.length p = n_rows x /\ values_of a p.
Proof.
  intros HF HB HP. destruct a as [sh v]. destruct (predict_shape E k m c x extra sh v HF HB HP) as [-> HV].
  unfold as_list. cbn [fst snd]. eexists. split; [reflexivity|]. rewrite map_length, seq_length. split; [reflexivity|].
  unfold values_of. cbn [fst snd]. rewrite map_length, seq_length. split; [reflexivity|]. intros i Hi. destruct (HV i) as [r Hr]. rewrite Hr. f_equal.
  rewrite (rnth_tab (fun i => match v i with Some v => v | None => 0 end)) by exact Hi. rewrite Hr. reflexivity.
Qed.
Theorem training_score E k x y k' a c w : env_ok E -> class_of (k_method k) = Some c -> krige_fit E k x y = (k', None) ->
  k_exact k = Some true -> k_pinv k = false -> apart k' -> krige_predict E k' x [] = Ok a ->
  List.length y = n_rows x -> (2 <= List.length y)%nat -> match w with Some l => List.length l = List.length y | None => True end ->
  krige_score E k' x y w = Ok (Some 1).
Proof.
  intros HE HC HF Hex Hpi HA HP HL H2 HW. unfold krige_score. rewrite HP. cbn [bind].
  destruct (fit_inv E k x y k' c HC HF) as (m & HD & -> & HX).
  assert (HB : exact_backend []) by (left; reflexivity).
  destruct (predict_list E _ m c x [] a (fit_fitted E k x y c m HC HD) HB HP) as (p & Hp & Hl & HV). rewrite Hp. cbn [bind].
  apply r2_perfect; [congruence|exact H2|exact HW|]. intros i Hi.
  destruct a as [sh v]. destruct HV as [_ HV]. specialize (HV i ltac:(lia)). cbn [snd] in HV.
  rewrite (krige_interpolates E k x y _ x [] sh v i i c HE HC HF Hex Hpi HA HP HB) in HV; try lia; [injection HV as HV; congruence|]. intros a'. reflexivity.
Qed.

(** one task *)
Lemma fit_unknown E k x y : class_of (k_method k) = None -> exists e, krige_fit E k x y = (k, Some e).
Proof.
  intros H. unfold krige_fit. destruct (fit_kwargs k x y) as [kw|e] eqn:EF; cbn [bind]; [|exists e; reflexivity].
  assert (X : dict_get krige_methods (k_method k) = None).
  { unfold class_of in H. unfold krige_methods. cbn [dict_get]. 
    destruct (String.eqb (k_method k) "ordinary"); [discriminate|]. destruct (String.eqb (k_method k) "universal"); [discriminate|].
    destruct (String.eqb (k_method k) "ordinary3d"); [discriminate|]. destruct (String.eqb (k_method k) "universal3d"); [discriminate|]. reflexivity. }
  rewrite X. exists KeyError. reflexivity.
Qed.

(** the task of a candidate is that of a new estimator with its parameters *)
Definition failed_task := {| t_failed := true; t_test := None; t_train := None |}.
Theorem task_new E k kw x y s t : fit_and_score E k kw x y s = Ok t ->
  match new_with k kw with
  | Err _ => t = failed_task
  | Ok k0 => fit_and_score E k0 [] x y s = Ok t /\ k_fitted k0 = None
  end.
Proof.
  intros H. unfold fit_and_score in H. destruct (clone k) as [k1|e] eqn:EC; [|discriminate]. cbn [bind] in H.
  rewrite clone_spec in EC. destruct (class_of (k_method k)) as [c|] eqn:HC; [|discriminate]. injection EC as <-.
  destruct (set_params _ kw) as [k2 [e|]] eqn:ES; [discriminate|].
  assert (X : new_with k kw = match class_of (k_method k2) with Some _ => Ok k2 | None => Err ValueError end).
  { unfold new_with. destruct (set_params_effect _ _ _ ES) as [P1 P2]. 
    replace (get_params_of k) with (get_params_of (set_fitted k None)) by (destruct k; reflexivity). rewrite <- P1, call_params.
    destruct (class_of (k_method k2)); [|reflexivity]. f_equal. destruct k2; cbn in P2 |- *. subst k_fitted. reflexivity. }
  rewrite X. destruct (class_of (k_method k2)) as [c2|] eqn:HC2.
  - destruct (set_params_effect _ _ _ ES) as [_ P2]. split; [|destruct k; cbn in P2; exact P2].
    unfold fit_and_score. rewrite clone_spec, HC2. cbn [bind set_params].
    replace (set_fitted k2 None) with k2 by (destruct k2, k; cbn in P2 |- *; subst; reflexivity). exact H.
  - destruct (fit_unknown E k2 (rows x (fst s)) (entries y (fst s)) HC2) as [e He]. rewrite He in H. injection H as <-. reflexivity.
Qed.
Theorem task_exists E k kw x y s : class_of (k_method k) <> None -> (forall name v, In (name, v) kw -> right_kind name v) ->
  exists t, fit_and_score E k kw x y s = Ok t.
Proof.
  intros HC HK. unfold fit_and_score. rewrite clone_spec. destruct (class_of (k_method k)); [|congruence]. cbn [bind].
  destruct (set_params_ok (set_fitted k None) kw HK) as [k2 ->]. destruct (krige_fit E k2 _ _) as [k3 [e|]]; eexists; reflexivity.
Qed.

Lemma rows_rows x l : (0 < List.length (p_cols x))%nat -> n_rows (rows x l) = List.length l.
Proof. unfold n_rows, rows. cbn [p_cols]. destruct (p_cols x) as [|c cs]; cbn; [lia|]. intros _. apply map_length. Qed.
Lemma rows_cols x l : List.length (p_cols (rows x l)) = List.length (p_cols x).
Proof. unfold rows. cbn [p_cols]. apply map_length. Qed.
Lemma score_direct E k m c x y l v : fitted_as k m c -> List.length (p_cols x) = cdim c ->
  v = or_nan (krige_score E k (rows x l) (entries y l) None) ->
  match direct_predict E k m (rows x l) "loop"%string with
  | Err _ => v = None
  | Ok a => l <> [] -> exists p, values_of a p /\ List.length p = List.length l /\ determination (entries y l) p v
  end.
Proof.
  intros HF HX ->. assert (HX' : List.length (p_cols (rows x l)) = cdim c) by (rewrite rows_cols; exact HX).
  pose proof (predict_with_backend E k (rows x l) c m "loop" [] HF HX' (or_introl (conj eq_refl eq_refl))) as HP.
  unfold krige_score. destruct (direct_predict E k m (rows x l) "loop") as [a|e] eqn:ED; [|rewrite HP; reflexivity].
  intros Hl. rewrite HP. cbn [bind].
  destruct (predict_list E k m c (rows x l) [] a HF (or_introl eq_refl) HP) as (p & Hp & HL & HV).
  assert (D : (0 < List.length (p_cols x))%nat) by (rewrite HX; destruct c; cbn; lia).
  rewrite rows_rows in HL by exact D. exists p. split; [exact HV|]. split; [exact HL|]. rewrite Hp. cbn [bind].
  destruct (r2_score (entries y l) p None) as [v|e] eqn:ER; [exact (r2_determination _ _ _ ER)|exfalso].
  unfold r2_score in ER. unfold entries in ER. rewrite map_length, HL, Nat.eqb_refl in ER. cbn [negb orb] in ER.
  destruct (Nat.eqb_spec (List.length l) 0) as [K|K]; [apply length_zero_iff_nil in K; congruence|]. destruct (Nat.ltb _ 2); discriminate.
Qed.

(** the task of an estimator, by direct calls *)
Theorem task_direct E k c x y s t : fit_and_score E k [] x y s = Ok t -> class_of (k_method k) = Some c -> full_tuples k ->
  List.length (p_cols x) = cdim c -> 
  (t_failed t = true <-> exists e, direct_call E k c (rows x (fst s)) (entries y (fst s)) = Err e) /\
  direct_score E k c x y (fst s) (snd s) (t_test t) /\ direct_score E k c x y (fst s) (fst s) (t_train t).
Proof.
  intros H HC [T1 T2] HX. unfold fit_and_score in H. rewrite clone_spec, HC in H. cbn [bind set_params] in H.
  set (k1 := set_fitted k None) in *. assert (HC1 : class_of (k_method k1) = Some c) by exact HC.
  assert (HX' : forall l, List.length (p_cols (rows x l)) = cdim c) by (intros l; rewrite rows_cols; exact HX).
  assert (HD : forall x y, direct_call E k1 c x y = direct_call E k c x y) by (intros; reflexivity).
  rewrite (fit_is_direct E k1 (rows x (fst s)) (entries y (fst s)) c HC1 (HX' _)) in H by assumption.
  unfold direct_score. rewrite HD in H. destruct (direct_call E k c (rows x (fst s)) (entries y (fst s))) as [m|e] eqn:ED.
  - injection H as <-. cbn [t_failed t_test t_train]. split; [split; [discriminate|intros [? ?]; discriminate]|].
    rewrite <- HD in ED. pose proof (fit_fitted E k1 _ _ c m HC1 ED) as HF.
    split; exact (score_direct E _ m c x y _ _ HF HX eq_refl).
  - injection H as <-. cbn [t_failed t_test t_train]. split; [split; [intros _; exists e; reflexivity|reflexivity]|]. split; reflexivity.
Qed.
Theorem task_wrong_dimension E k c x y s t : fit_and_score E k [] x y s = Ok t -> class_of (k_method k) = Some c ->
  List.length (p_cols x) <> cdim c -> t = failed_task.
Proof.
  intros H HC HX. unfold fit_and_score in H. rewrite clone_spec, HC in H. cbn [bind set_params] in H.
  destruct (krige_fit E _ (rows x (fst s)) (entries y (fst s))) as [k2 [e|]] eqn:EF; [injection H as <-; reflexivity|].
  destruct (fit_inv E (set_fitted k None) _ _ k2 c HC EF) as (m & _ & _ & K). rewrite rows_cols in K. congruence.
Qed.
Theorem task_few E k c w x y s t : env_ok E -> fit_and_score E k [] x y s = Ok t -> class_of (k_method k) = Some c -> c = OK2 \/ c = OK3 ->
  k_window k = Some w -> (List.length (fst s) < w)%nat -> snd s <> [] -> t_test t = None.
Proof.
  intros HE H HC Ho HW Hw Hs. unfold fit_and_score in H. rewrite clone_spec, HC in H. cbn [bind set_params] in H.
  destruct (krige_fit E _ (rows x (fst s)) (entries y (fst s))) as [k2 [e|]] eqn:EF; [injection H as <-; reflexivity|].
  injection H as <-. cbn [t_test]. destruct (fit_inv E (set_fitted k None) _ _ k2 c HC EF) as (m & _ & _ & K). rewrite rows_cols in K.
  assert (D : (0 < List.length (p_cols x))%nat) by (rewrite K; destruct c; cbn; lia).
  destruct (too_few_data E (set_fitted k None) _ _ k2 (rows x (snd s)) [] c w HE HC Ho EF HW) as [e He];
    [rewrite rows_rows by exact D; exact Hw|rewrite rows_rows by exact D; destruct (snd s); [congruence|cbn; lia]|left; reflexivity|].
  unfold krige_score. rewrite He. reflexivity.
Qed.
Theorem task_single E k x y s t a : fit_and_score E k [] x y s = Ok t -> snd s = [a] -> t_test t = None.
Proof.
  intros H Hs. unfold fit_and_score in H. destruct (clone k) as [k1|]; [|discriminate]. cbn [bind set_params] in H.
  destruct (krige_fit E k1 _ _) as [k2 [e|]]; injection H as <-; [reflexivity|]. cbn [t_test]. rewrite Hs. unfold krige_score.
  destruct (krige_predict E k2 _ _) as [b|]; [|reflexivity]. cbn [bind]. destruct (as_list b) as [p|]; [|reflexivity]. cbn [bind].
  unfold r2_score, entries. cbn [map List.length]. destruct (_ || _ || _)%bool; reflexivity.
Qed.

(** the search *)
Lemma mean_spec ts : mean_of ts (mean_score ts).
Proof.
  unfold mean_of, mean_score. split.
  - intros H. replace (sum_opt (map t_test ts)) with (@None R); [reflexivity|]. symmetry.
    induction (map t_test ts) as [|a l IH]; [destruct H|]. cbn [sum_opt]. destruct H as [->|H]; [reflexivity|]. rewrite (IH H). destruct a; reflexivity.
  - intros l H. rewrite H. replace (List.length ts) with (List.length l) by (apply (f_equal (@List.length _)) in H; rewrite !map_length in H; auto).
    replace (sum_opt (map Some l)) with (Some (fold_right Rplus 0 l)); [reflexivity|].
    clear H. induction l as [|a l IH]; [reflexivity|]. cbn [map sum_opt fold_right]. rewrite <- IH. reflexivity.
Qed.
Lemma no_better_trans a b c : no_better a b -> no_better b c -> no_better a c.
Proof. destruct a, b, c; cbn; try tauto. lra. Qed.
Lemma no_better_refl a : no_better a a. Proof. destruct a; cbn; [lra|exact I]. Qed.
Lemma better_spec a b : if better a b then no_better b a /\ ~ no_better a b else no_better a b.
Proof. destruct a as [r|], b as [s|]; cbn; try tauto. destruct (Rltb_spec s r); cbn; lra. Qed.
Lemma best_gen (m : nat -> option R) n : forall lo b0, (b0 < lo)%nat ->
  (forall j, (j < lo)%nat -> no_better (m j) (m b0)) -> (forall j, (j < b0)%nat -> ~ no_better (m b0) (m j)) ->
  let b := fold_left (fun best i => if better (m i) (m best) then i else best) (seq lo n) b0 in
  (b < lo + n)%nat /\ (forall j, (j < lo + n)%nat -> no_better (m j) (m b)) /\ (forall j, (j < b)%nat -> ~ no_better (m b) (m j)).
Proof.
  induction n as [|n IH]; intros lo b0 Hb H1 H2; cbn [seq fold_left].
  - cbv zeta. rewrite Nat.add_0_r. auto.
  - replace (lo + S n)%nat with (S lo + n)%nat by lia. pose proof (better_spec (m lo) (m b0)) as B. destruct (better (m lo) (m b0)).
    + destruct B as [B1 B2]. apply IH; [lia| |].
      * intros j Hj. destruct (Nat.eq_dec j lo) as [->|Hn]; [apply no_better_refl|]. apply no_better_trans with (m b0); [apply H1; lia|exact B1].
      * intros j Hj K. apply B2. apply no_better_trans with (m j); [exact K|apply H1; exact Hj].
    + apply IH; [lia| |exact H2]. intros j Hj. destruct (Nat.eq_dec j lo) as [->|Hn]; [exact B|apply H1; lia].
Qed.
Theorem best_spec means : means <> [] -> let b := best_of means in (b < List.length means)%nat /\
  (forall j, (j < List.length means)%nat -> no_better (nth j means None) (nth b means None)) /\
  (forall j, (j < b)%nat -> ~ no_better (nth b means None) (nth j means None)).
Proof.
  intros H. unfold best_of. assert (L : (0 < List.length means)%nat) by (destruct means; [congruence|cbn; lia]).
  destruct (best_gen (fun i => nth i means None) (List.length means - 1) 1 0 ltac:(lia)) as (H1 & H2 & H3).
  - intros j Hj. replace j with 0%nat by lia. apply no_better_refl.
  - intros j Hj. lia.
  - cbv zeta. replace (1 + (List.length means - 1))%nat with (List.length means) in H1, H2 by lia. auto.
Qed.

Theorem search_inv E k cands cv x y f : grid_search E k cands cv x y = Ok f ->
  exists k0, clone k = Ok k0 /\ mapM (fun kw => mapM (fit_and_score E k0 kw x y) cv) cands = Ok (f_tasks f) /\
    f_means f = map mean_score (f_tasks f) /\ f_best f = best_of (f_means f) /\ cands <> [] /\
    forallb (forallb t_failed) (f_tasks f) = false /\
    exists k1, set_params k0 (nth (f_best f) cands []) = (k1, None) /\ krige_fit E k1 x y = (f_model f, None).
Proof.
  intros H. unfold grid_search in H. destruct (clone k) as [k0|e] eqn:EC; [|discriminate]. cbn [bind] in H. exists k0. split; [reflexivity|].
  destruct (mapM _ cands) as [ts|e] eqn:EM; [|discriminate]. cbn [bind] in H. destruct (forallb (forallb t_failed) ts) eqn:EF; [discriminate|].
  destruct (clone k0) as [k0'|e] eqn:EC2; [|discriminate]. cbn [bind] in H.
  assert (k0' = k0). { rewrite clone_spec in EC. destruct (class_of (k_method k)) eqn:HC; [|discriminate]. injection EC as <-.
    rewrite clone_spec in EC2. cbn [set_fitted k_method] in EC2. rewrite HC in EC2. injection EC2 as <-. reflexivity. }
  subst k0'. destruct (set_params k0 _) as [k1 [e|]] eqn:ES; [discriminate|]. destruct (krige_fit E k1 x y) as [k2 [e|]] eqn:EK; [discriminate|].
  injection H as <-. cbn [f_tasks f_means f_best f_model]. repeat (split; [reflexivity|]).
  split; [intros ->; cbn in EM; injection EM as <-; discriminate EF|]. split; [exact EF|]. exists k1. split; [exact ES|exact EK].
Qed.

Lemma failed_row E k kw x y cv row : mapM (fit_and_score E k kw x y) cv = Ok row -> (exists e, new_with k kw = Err e) ->
  row = map (fun _ => failed_task) cv.
Proof.
  intros H [e He]. revert row H. induction cv as [|s cv IH]; intros row H; cbn [mapM] in H; [injection H as <-; reflexivity|].
  destruct (fit_and_score E k kw x y s) as [t|] eqn:ET; [|discriminate]. cbn [bind] in H. destruct (mapM _ cv) as [r|] eqn:EM; [|discriminate].
  injection H as <-. cbn [map]. pose proof (task_new E k kw x y s t ET) as K. rewrite He in K. subst t. f_equal. apply IH. reflexivity.
Qed.
Lemma new_row E k kw k0 x y cv row : mapM (fit_and_score E k kw x y) cv = Ok row -> new_with k kw = Ok k0 ->
  mapM (fit_and_score E k0 [] x y) cv = Ok row.
Proof.
  intros H He. revert row H. induction cv as [|s cv IH]; intros row H; cbn [mapM] in H |- *; [exact H|].
  destruct (fit_and_score E k kw x y s) as [t|] eqn:ET; [|discriminate]. cbn [bind] in H. destruct (mapM _ cv) as [r|] eqn:EM; [|discriminate].
  pose proof (task_new E k kw x y s t ET) as K. rewrite He in K. destruct K as [-> _]. cbn [bind]. rewrite (IH r eq_refl). exact H.
Qed.
Lemma new_clone k k0 kw : clone k = Ok k0 -> new_with k0 kw = new_with k kw.
Proof.
  intros H. rewrite clone_spec in H. destruct (class_of (k_method k)); [|discriminate]. injection H as <-. unfold new_with. destruct k; reflexivity.
Qed.

(** rows of the table of scores *)
Theorem search_rows E k cands cv x y f i : grid_search E k cands cv x y = Ok f -> (i < List.length cands)%nat ->
  let row := nth i (f_tasks f) [] in
  List.length (f_tasks f) = List.length cands /\ List.length row = List.length cv /\ mean_of row (nth i (f_means f) None) /\
  match new_with k (nth i cands []) with
  | Ok k0 => cross_validate E k0 x y cv = if forallb t_failed row then Err ValueError else Ok row
  | Err _ => row = map (fun _ => {| t_failed := true; t_test := None; t_train := None |}) cv
  end.
Proof.
  intros H Hi. destruct (search_inv E k cands cv x y f H) as (k0 & HC & HM & Hm & _). cbv zeta.
  assert (HL : List.length (f_tasks f) = List.length cands) by exact (mapM_len _ _ _ HM).
  pose proof (mapM_nth _ _ _ i [] [] HM Hi) as HR. cbv beta in HR.
  split; [exact HL|]. split; [exact (mapM_len _ _ _ HR)|]. split.
  - rewrite Hm. change (@None R) with (if true then @None R else None). 
    rewrite nth_indep with (d' := mean_score []) by (rewrite map_length; lia). rewrite (map_nth mean_score). apply mean_spec.
  - rewrite <- (new_clone k k0 (nth i cands []) HC). destruct (new_with k0 (nth i cands [])) as [k1|e] eqn:EN.
    + unfold cross_validate. rewrite (new_row E k0 _ k1 x y cv _ HR EN). reflexivity.
    + apply (failed_row E k0 (nth i cands []) x y cv); [exact HR|exists e; exact EN].
Qed.
Theorem search_best E k cands cv x y f : grid_search E k cands cv x y = Ok f ->
  let score j := nth j (f_means f) None in
  (f_best f < List.length cands)%nat /\
  (forall j, (j < List.length cands)%nat -> no_better (score j) (score (f_best f))) /\
  (forall j, (j < f_best f)%nat -> ~ no_better (score (f_best f)) (score j)) /\
  exists k0, new_with k (nth (f_best f) cands []) = Ok k0 /\ krige_fit E k0 x y = (f_model f, None).
Proof.
  intros H. destruct (search_inv E k cands cv x y f H) as (k0 & HC & HM & Hm & Hb & Hne & _ & k1 & HS & HF). cbv zeta.
  assert (HL : List.length (f_means f) = List.length cands) by (rewrite Hm, map_length; exact (mapM_len _ _ _ HM)).
  assert (N : f_means f <> []) by (intros K; rewrite K in HL; destruct cands; [congruence|discriminate]).
  destruct (best_spec (f_means f) N) as (H1 & H2 & H3). rewrite <- Hb in *. rewrite <- HL. split; [exact H1|]. split; [exact H2|]. split; [exact H3|].
  rewrite <- (new_clone k k0 _ HC). destruct (set_params_effect _ _ _ HS) as [P1 P2].
  unfold new_with. rewrite <- P1, call_params. destruct (class_of (k_method k1)) as [c|] eqn:HC1.
  - exists (set_fitted k1 None). split; [reflexivity|]. replace (set_fitted k1 None) with k1; [exact HF|].
    rewrite clone_spec in HC. destruct (class_of (k_method k)); [|discriminate]. injection HC as <-. cbn in P2. destruct k1. cbn in P2. rewrite P2. reflexivity.
  - destruct (fit_unknown E k1 x y HC1) as [e He]. rewrite He in HF. discriminate.
Qed.
Theorem search_history E k k' cands cv x y : get_params_of k' = get_params_of k -> grid_search E k' cands cv x y = grid_search E k cands cv x y.
Proof. intros H. unfold grid_search, clone. rewrite H. reflexivity. Qed.
Lemma mapM_exists {A B} (f : A -> res B) l : (forall a, In a l -> exists b, f a = Ok b) -> exists r, mapM f l = Ok r.
Proof.
  induction l as [|a l IH]; intros H; [exists []; reflexivity|]. destruct (H a (or_introl eq_refl)) as [b Hb]. destruct IH as [r Hr]; [intros; apply H; right; assumption|].
  exists (b :: r). cbn [mapM]. rewrite Hb. cbn [bind]. rewrite Hr. reflexivity.
Qed.
Lemma task_of_new E k k0 kw x y s t : fit_and_score E k kw x y s = Ok t -> new_with k kw = Ok k0 -> 
  match krige_fit E k0 (rows x (fst s)) (entries y (fst s)) with
  | (k1, None) => t_failed t = false /\ t_test t = or_nan (krige_score E k1 (rows x (snd s)) (entries y (snd s)) None)
  | (_, Some _) => t = failed_task
  end.
Proof.
  intros H HN. pose proof (task_new E k kw x y s t H) as HT. rewrite HN in HT. destruct HT as [HT Hf].
  unfold fit_and_score in HT. rewrite clone_spec in HT. destruct (class_of (k_method k0)) eqn:C0; [|discriminate]. cbn [bind set_params] in HT.
  replace (set_fitted k0 None) with k0 in HT by (destruct k0; cbn in Hf |- *; rewrite Hf; reflexivity).
  destruct (krige_fit E k0 (rows x (fst s)) (entries y (fst s))) as [kf [e|]]; injection HT as <-; [reflexivity|split; reflexivity].
Qed.
Lemma sum_opt_some l : (forall a, In a l -> a <> None) <-> exists s, sum_opt l = Some s.
Proof.
  induction l as [|a l IH]; cbn [sum_opt]; [split; [exists 0; reflexivity|intros _ a []]|]. split.
  - intros H. destruct a as [r|]; [|destruct (H None); [left|]; reflexivity]. destruct (proj1 IH) as [s ->]; [intros b Hb; apply H; right; exact Hb|]. eexists; reflexivity.
  - intros [s H] b [<-|Hb]; [destruct a; [discriminate|discriminate H]|]. destruct a; [|discriminate H]. destruct (sum_opt l) eqn:E; [|discriminate].
    exact (proj2 IH (ex_intro _ _ eq_refl) b Hb).
Qed.
Lemma mean_some ts : (forall t, In t ts -> t_test t <> None) <-> exists m, mean_score ts = Some m.
Proof.
  unfold mean_score. split.
  - intros H. destruct (proj1 (sum_opt_some (map t_test ts))) as [s ->]; [|eexists; reflexivity].
    intros a Ha. apply in_map_iff in Ha as (t & <- & Ht). apply H. exact Ht.
  - intros [m H] t Ht. destruct (sum_opt (map t_test ts)) as [s|] eqn:E; [|discriminate].
    apply (proj2 (sum_opt_some _) (ex_intro _ s E)). apply in_map. exact Ht.
Qed.
(** the search returns if one candidate has a score on every test set, and if every
    candidate that can be fitted to all training sets can be fitted to all data *)
Theorem search_returns E k cands cv x y c : class_of (k_method k) = Some c -> cv <> [] ->
  (forall kw, In kw cands -> forall name v, In (name, v) kw -> right_kind name v) ->
  (exists kw k0, In kw cands /\ new_with k kw = Ok k0 /\
    forall s, In s cv -> exists k1 v, krige_fit E k0 (rows x (fst s)) (entries y (fst s)) = (k1, None) /\
      krige_score E k1 (rows x (snd s)) (entries y (snd s)) None = Ok (Some v)) ->
  (forall kw k0, In kw cands -> new_with k kw = Ok k0 ->
    (forall s, In s cv -> exists k1, krige_fit E k0 (rows x (fst s)) (entries y (fst s)) = (k1, None)) ->
    exists k1, krige_fit E k0 x y = (k1, None)) ->
  exists f, grid_search E k cands cv x y = Ok f.
Proof.
  intros HC HV HK (kw & k0 & I1 & HN & HF) HA. unfold grid_search. rewrite clone_spec, HC. cbn [bind]. set (kc := set_fitted k None).
  assert (HCc : class_of (k_method kc) <> None) by (change (k_method kc) with (k_method k); congruence).
  assert (HW : forall kw, new_with kc kw = new_with k kw) by (intros kw'; apply new_clone; rewrite clone_spec, HC; reflexivity).
  destruct (mapM_exists (fun kw => mapM (fit_and_score E kc kw x y) cv) cands) as [ts Hts].
  { intros kw' Hkw'. apply mapM_exists. intros s' _. apply task_exists; [exact HCc|exact (HK kw' Hkw')]. }
  rewrite Hts. cbn [bind].
  assert (HL : List.length ts = List.length cands) by exact (mapM_len _ _ _ Hts).
  apply In_nth with (d := []) in I1 as (i & Hi & Hkw).
  pose proof (mapM_nth _ _ _ i [] [] Hts Hi) as HR. cbv beta in HR. rewrite Hkw in HR.
  assert (HT : forall t, In t (nth i ts []) -> t_failed t = false /\ t_test t <> None).
  { intros t Ht. apply In_nth with (d := failed_task) in Ht as (j & Hj & <-). rewrite (mapM_len _ _ _ HR) in Hj.
    pose proof (mapM_nth _ _ _ j ([], []) failed_task HR Hj) as HT. rewrite <- HW in HN. pose proof (task_of_new _ _ _ _ _ _ _ _ HT HN) as X.
    destruct (HF _ (nth_In cv ([], []) Hj)) as (k1 & v & F1 & F2). rewrite F1 in X. destruct X as [X1 X2]. rewrite X2, F2. split; [exact X1|discriminate]. }
  destruct (forallb (forallb t_failed) ts) eqn:EF.
  - exfalso. rewrite forallb_forall in EF. specialize (EF (nth i ts []) (nth_In ts [] ltac:(rewrite HL; exact Hi))).
    destruct cv as [|s cv]; [congruence|]. pose proof (mapM_len _ _ _ HR) as L2.
    rewrite forallb_forall in EF. destruct (nth i ts []) as [|t row]; [discriminate L2|]. specialize (EF t (or_introl eq_refl)). destruct (HT t (or_introl eq_refl)). congruence.
  - change (clone kc) with (clone (set_fitted k None)). rewrite clone_spec. cbn [set_fitted k_method]. rewrite HC. cbn [bind].
    set (b := best_of _). 
    assert (B : (b < List.length (map mean_score ts))%nat /\ forall j, (j < List.length (map mean_score ts))%nat ->
       no_better (nth j (map mean_score ts) None) (nth b (map mean_score ts) None)).
    { destruct (best_spec (map mean_score ts)) as (B1 & B2 & _); [|split; assumption]. intros K. apply map_eq_nil in K. subst ts. discriminate EF. }
    destruct B as [Hb HB]. rewrite map_length in Hb, HB.
    assert (Hb' : (b < List.length cands)%nat) by (rewrite HL in Hb; exact Hb).
    pose proof (nth_In cands [] Hb') as HI. 
    assert (M : forall j, (j < List.length ts)%nat -> nth j (map mean_score ts) None = mean_score (nth j ts [])).
    { intros j Hj. rewrite nth_indep with (d' := mean_score []) by (rewrite map_length; exact Hj). apply (map_nth mean_score). }
    assert (Mb : exists m, mean_score (nth b ts []) = Some m).
    { destruct (proj1 (mean_some (nth i ts []))) as [m Hm]; [intros t Ht; apply HT; exact Ht|].
      specialize (HB i ltac:(rewrite HL; exact Hi)). rewrite M in HB by (rewrite HL; exact Hi). rewrite M, Hm in HB by exact Hb.
      destruct (mean_score (nth b ts [])) as [m'|]; [exists m'; reflexivity|destruct HB]. }
    pose proof (proj2 (mean_some _) Mb) as HTb. pose proof (mapM_nth _ _ _ b [] [] Hts Hb') as HRb. cbv beta in HRb.
    destruct (set_params_ok kc _ (HK _ HI)) as [k2 Hk2].
    match goal with |- context [set_params ?u ?w] => change (set_params u w) with (set_params kc (nth b cands [])) end. rewrite Hk2.
    destruct (new_with k (nth b cands [])) as [kb|e] eqn:ENb.
    + destruct (HA _ kb HI ENb) as [k3 F3].
      { intros s Hs. apply In_nth with (d := ([], [])) in Hs as (j & Hj & <-).
        pose proof (mapM_nth _ _ _ j ([], []) failed_task HRb Hj) as HTT. rewrite <- HW in ENb. pose proof (task_of_new _ _ _ _ _ _ _ _ HTT ENb) as X.
        destruct (krige_fit E kb _ _) as [k4 [e|]] eqn:EK; [|exists k4; reflexivity]. exfalso.
        apply (HTb (nth j (nth b ts []) failed_task)); [apply nth_In; rewrite (mapM_len _ _ _ HRb); exact Hj|]. rewrite X. reflexivity. }
      rewrite <- HW in ENb. pose proof (set_params_new _ _ _ _ Hk2 ENb) as Y. destruct (set_params_effect _ _ _ Hk2) as [_ P2]. cbn in P2.
      assert (Q : kb = k2) by (rewrite Y; destruct k2; cbn in P2 |- *; rewrite P2; reflexivity). rewrite Q in F3. rewrite F3. eexists. reflexivity.
    + exfalso. destruct cv as [|s cv]; [congruence|]. rewrite <- HW in ENb.
      pose proof (failed_row E kc _ x y (s :: cv) _ HRb (ex_intro _ e ENb)) as X. cbn [map] in X.
      apply (HTb failed_task); [rewrite X; left; reflexivity|reflexivity].
Qed.

(** an example: a method of the wrong dimension, too large a neighbourhood, and a good candidate *)
Definition three_cands : list kwargs := [[("method"%string, V_str "ordinary3d")]; []; [("n_closest_points"%string, V_window None)]].
Definition one_split : list split := [([0; 1], [0; 1])]%nat.
Lemma three_kinds kw : In kw three_cands -> forall name v, In (name, v) kw -> right_kind name v.
Proof.
  intros [<-|[<-|[<-|[]]]] name v H; cbn in H; try (destruct H; fail); destruct H as [H|[]]; injection H as <- <-.
  - exists (V_str "ordinary"). split; [left; reflexivity|exact I].
  - exists (V_window (Some 10%nat)). split; [do 4 right; left; reflexivity|exact I].
Qed.
Lemma kten_new : new_with kten [("n_closest_points"%string, V_window None)] = Ok kopt. Proof. reflexivity. Qed.
Lemma kten_3d : new_with kten [("method"%string, V_str "ordinary3d")] = Ok (wrap "ordinary3d" [1; 1] [0; 0; 0] (Some 10%nat)). Proof. reflexivity. Qed.
Lemma kopt_scores : exists k', krige_fit WE kopt pts2 [1; 5] = (k', None) /\ krige_score WE k' pts2 [1; 5] None = Ok (Some 1).
Proof.
  destruct (kopt_fit 1 5) as (k' & HF & HA & sh & v & HP). exists k'. split; [exact HF|].
  apply (training_score WE kopt pts2 [1; 5] k' (sh, v) OK2); try exact I; try reflexivity; try assumption; apply wit_env_ok || (cbn; lia).
Qed.
Lemma search_task E k cands cv x y f i j : grid_search E k cands cv x y = Ok f -> (i < List.length cands)%nat -> (j < List.length cv)%nat ->
  exists k0, clone k = Ok k0 /\ fit_and_score E k0 (nth i cands []) x y (nth j cv ([], [])) = Ok (nth j (nth i (f_tasks f) []) failed_task).
Proof.
  intros H Hi Hj. destruct (search_inv E k cands cv x y f H) as (k0 & HC & HM & _). exists k0. split; [exact HC|].
  pose proof (mapM_nth _ _ _ i [] [] HM Hi) as HR. cbv beta in HR. exact (mapM_nth _ _ _ j ([], []) failed_task HR Hj).
Qed.
Lemma search_new E k cands cv x y f i j k1 : grid_search E k cands cv x y = Ok f -> (i < List.length cands)%nat -> (j < List.length cv)%nat ->
  new_with k (nth i cands []) = Ok k1 -> fit_and_score E k1 [] x y (nth j cv ([], [])) = Ok (nth j (nth i (f_tasks f) []) failed_task).
Proof.
  intros H Hi Hj HN. destruct (search_task E k cands cv x y f i j H Hi Hj) as (k0 & HC & HT). apply task_new in HT.
  rewrite (new_clone k k0 _ HC), HN in HT. apply HT.
Qed.
Lemma ex_search : exists f, grid_search WE kten three_cands one_split pts2 [1; 5] = Ok f /\ f_best f = 2%nat /\
  nth 0 (f_means f) None = None /\ nth 1 (f_means f) None = None /\ nth 2 (f_means f) None = Some 1.
Proof.
  destruct kopt_scores as (k' & HF & HS).
  destruct (search_returns WE kten three_cands one_split pts2 [1; 5] OK2) as [f Hf]; [reflexivity|discriminate|exact three_kinds| | |].
  - eexists _, kopt. split; [right; right; left; reflexivity|]. split; [exact kten_new|]. intros s [<-|[]]. exists k', 1. cbn [fst snd].
    change (rows pts2 [0; 1]%nat) with pts2. change (entries [1; 5] [0; 1]%nat) with [1; 5]. split; assumption.
  - intros kw k0 _ _ H. destruct (H ([0; 1], [0; 1])%nat (or_introl eq_refl)) as [k1 H1]. exists k1. exact H1.
  - exists f. split; [exact Hf|].
    assert (L : forall i, (i < 3)%nat -> exists t, nth i (f_tasks f) [] = [t] /\ mean_of [t] (nth i (f_means f) None)).
    { intros i Hi. destruct (search_rows _ _ _ _ _ _ _ i Hf Hi) as (_ & L & M & _). cbv zeta in *.
      destruct (nth i (f_tasks f) []) as [|t [|? ?]]; try discriminate L. exists t. split; [reflexivity|exact M]. }
    assert (M0 : nth 0 (f_means f) None = None).
    { destruct (L 0%nat ltac:(lia)) as (t & Ht & M). pose proof (search_new _ _ _ _ _ _ _ 0 0 _ Hf ltac:(cbn; lia) ltac:(cbn; lia) kten_3d) as T.
      rewrite Ht in T. cbn [nth] in T. apply M. left.
      rewrite (task_wrong_dimension _ _ OK3 _ _ _ _ T); [reflexivity|reflexivity|cbn; lia]. }
    assert (M1 : nth 1 (f_means f) None = None).
    { destruct (L 1%nat ltac:(lia)) as (t & Ht & M). pose proof (search_new _ _ _ _ _ _ _ 1 0 kten Hf ltac:(cbn; lia) ltac:(cbn; lia) eq_refl) as T.
      rewrite Ht in T. cbn [nth] in T. apply M. left.
      apply (task_few WE kten OK2 10 pts2 [1; 5] (nth 0 one_split ([], []))); [apply wit_env_ok|exact T|reflexivity|left; reflexivity|reflexivity|cbn; lia|discriminate]. }
    assert (M2 : nth 2 (f_means f) None = Some 1).
    { destruct (L 2%nat ltac:(lia)) as (t & Ht & M). pose proof (search_new _ _ _ _ _ _ _ 2 0 kopt Hf ltac:(cbn; lia) ltac:(cbn; lia) kten_new) as T.
      rewrite Ht in T. cbn [nth] in T. pose proof (task_of_new _ _ kopt _ _ _ _ _ T eq_refl) as X. cbn [fst snd one_split nth] in X.
      change (rows pts2 [0; 1]%nat) with pts2 in X. change (entries [1; 5] [0; 1]%nat) with [1; 5] in X. rewrite HF in X. destruct X as [_ X]. rewrite HS in X. cbn [or_nan] in X.
      destruct M as [_ M]. rewrite (M [1]); [cbn; f_equal; field|]. cbn [map]. rewrite X. reflexivity. }
    destruct (search_best _ _ _ _ _ _ _ Hf) as (H1 & H2 & _ & _). cbv zeta in H2. cbn in H1.
    split; [|split; [exact M0|split; [exact M1|exact M2]]].
    specialize (H2 2%nat ltac:(cbn; lia)). rewrite M2 in H2.
    destruct (f_best f) as [|[|[|b]]]; [rewrite M0 in H2; destruct H2|rewrite M1 in H2; destruct H2|reflexivity|lia].
Qed.

(** cross-validation *)
Lemma cross_inv E k x y cv ts : cross_validate E k x y cv = Ok ts -> mapM (fit_and_score E k [] x y) cv = Ok ts.
Proof. unfold cross_validate. intros H. destruct (mapM _ cv) as [ts'|]; [|discriminate]. cbn [bind] in H. destruct (forallb _ _); [discriminate|]. injection H as <-. reflexivity. Qed.
Lemma cross_in E k x y cv ts t : cross_validate E k x y cv = Ok ts -> In t ts -> exists s, In s cv /\ fit_and_score E k [] x y s = Ok t.
Proof.
  intros H Ht. apply cross_inv in H. apply In_nth with (d := failed_task) in Ht as (j & Hj & <-). rewrite (mapM_len _ _ _ H) in Hj.
  exists (nth j cv ([], [])). split; [apply nth_In; exact Hj|]. exact (mapM_nth _ _ _ j ([], []) failed_task H Hj).
Qed.
Theorem cross_validation_direct E k c x y cv ts j train test : cross_validate E k x y cv = Ok ts -> nth_error cv j = Some (train, test) ->
  class_of (k_method k) = Some c -> full_tuples k -> List.length (p_cols x) = cdim c ->
  exists t, nth_error ts j = Some t /\
    (t_failed t = true <-> exists e, direct_call E k c (rows x train) (entries y train) = Err e) /\
    direct_score E k c x y train test (t_test t) /\ direct_score E k c x y train train (t_train t).
Proof.
  intros H Hn HC HT HX. apply cross_inv in H. assert (Hj : (j < List.length cv)%nat) by (apply nth_error_Some; rewrite Hn; discriminate).
  pose proof (mapM_nth _ _ _ j ([], []) failed_task H Hj) as K. apply nth_error_nth with (d := ([], [])) in Hn. rewrite Hn in K.
  pose proof (task_direct E k c x y _ _ K HC HT HX) as D. cbn [fst snd] in D.
  exists (nth j ts failed_task). split; [apply nth_error_nth'; rewrite (mapM_len _ _ _ H); exact Hj|exact D].
Qed.
Theorem cross_validation_dimension E k c x y cv : class_of (k_method k) = Some c -> List.length (p_cols x) <> cdim c -> cross_validate E k x y cv = Err ValueError.
Proof.
  intros HC HX. unfold cross_validate.
  destruct (mapM_exists (fit_and_score E k [] x y) cv) as [ts Hts].
  { intros s _. apply task_exists; [congruence|intros ? ? []]. }
  rewrite Hts. cbn [bind]. replace (forallb t_failed ts) with true; [reflexivity|]. symmetry. apply forallb_forall. intros t Ht.
  apply In_nth with (d := failed_task) in Ht as (j & Hj & <-). rewrite (mapM_len _ _ _ Hts) in Hj.
  rewrite (task_wrong_dimension E k c x y (nth j cv ([], []))  _ (mapM_nth _ _ _ j ([], []) failed_task Hts Hj) HC HX). reflexivity.
Qed.
Theorem cross_validation_single E k x y cv ts t : cross_validate E k x y cv = Ok ts -> (forall s, In s cv -> List.length (snd s) = 1%nat) -> In t ts -> t_test t = None.
Proof.
  intros H HS Ht. destruct (cross_in _ _ _ _ _ _ _ H Ht) as (s & Hs & K). specialize (HS s Hs).
  destruct (snd s) as [|a [|? ?]] eqn:ES; try discriminate HS. exact (task_single _ _ _ _ _ _ _ K ES).
Qed.
Theorem cross_validation_few E k c w x y cv ts t : env_ok E -> cross_validate E k x y cv = Ok ts -> class_of (k_method k) = Some c -> c = OK2 \/ c = OK3 ->
  k_window k = Some w -> (forall s, In s cv -> (List.length (fst s) < w)%nat /\ snd s <> []) -> In t ts -> t_test t = None.
Proof.
  intros HE H HC Ho HW HS Ht. destruct (cross_in _ _ _ _ _ _ _ H Ht) as (s & Hs & K). destruct (HS s Hs) as [H1 H2].
  exact (task_few E k c w x y s t HE K HC Ho HW H1 H2).
Qed.
Theorem cross_history E k k' x y cv : get_params_of k' = get_params_of k -> cross_validate E k' x y cv = cross_validate E k x y cv.
Proof.
  intros H. unfold cross_validate. replace (mapM (fit_and_score E k' [] x y) cv) with (mapM (fit_and_score E k [] x y) cv); [reflexivity|].
  induction cv as [|s cv IH]; [reflexivity|]. cbn [mapM]. rewrite IH. unfold fit_and_score, clone. rewrite H. reflexivity.
Qed.
Lemma fit_keeps E k x y k' : krige_fit E k x y = (k', None) -> get_params_of k' = get_params_of k /\ k_fitted k' <> None.
Proof.
  unfold krige_fit. destruct (bind _ _) as [m|e]; [|discriminate]. intros H. injection H as <-. split; [destruct k; reflexivity|discriminate].
Qed.
Lemma cross_returns E k c x y s k' : class_of (k_method k) = Some c -> k_fitted k = None ->
  krige_fit E k (rows x (fst s)) (entries y (fst s)) = (k', None) -> exists ts, cross_validate E k x y [s] = Ok ts.
Proof.
  intros HC Hf HF. unfold cross_validate. cbn [mapM]. unfold fit_and_score. rewrite clone_spec, HC. cbn [bind set_params].
  replace (set_fitted k None) with k by (destruct k; cbn in Hf |- *; rewrite Hf; reflexivity). rewrite HF. eexists. reflexivity.
Qed.
Lemma ex_few : exists ts, cross_validate WE kten pts2 [1; 2] one_split = Ok ts /\ class_of (k_method kten) = Some OK2 /\
  k_window kten = Some 10%nat /\ (forall s, In s one_split -> (List.length (fst s) < 10)%nat /\ snd s <> []).
Proof.
  destruct kten_fit as [k' HF]. destruct (cross_returns WE kten OK2 pts2 [1; 2] ([0; 1], [0; 1])%nat k' eq_refl eq_refl HF) as [ts Hts].
  exists ts. split; [exact Hts|]. split; [reflexivity|]. split; [reflexivity|]. intros s [<-|[]]. cbn. split; [lia|discriminate].
Qed.
Lemma ex_single : exists ts, cross_validate WE kopt pts2 [1; 5] [([0; 1], [1])]%nat = Ok ts.
Proof.
  destruct kopt_scores as (k' & HF & _). exact (cross_returns WE kopt OK2 pts2 [1; 5] ([0; 1], [1])%nat k' eq_refl eq_refl HF).
Qed.
