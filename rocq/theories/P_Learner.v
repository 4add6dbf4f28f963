(** Proofs for C72: constructors of RegressionKriging and ClassificationKriging, shared estimators. *)
From Coq Require Import String Permutation.
From Verif Require Import Base Sums Matrix M_Variogram M_Geometry M_Kriging M_Init M_Object M_Execute M_UK M_Compat M_Call S_Call M_Ilr M_Learn M_Learner S_Learner
  P_Call P_Call3.

(** ---- constructors ---- *)
Lemma learn_convention {A} model (f : kwargs -> res A) : (model = "regression_model" \/ model = "classification_model")%string ->
  convention (fun pos kw => do kw' <- positional (learn_sig model) pos kw ;; do d <- bind_args (learn_sig model) kw' ;; f d) (Err TypeError) [] (learn_defaults model).
Proof.
  intros HM. apply (convention_map (bound_call (sig_of [] (learn_defaults model)) f) _ (fun r => r)).
  - reflexivity.
  - apply bound_convention. destruct HM as [-> | ->]; distinct_names.
Qed.
Lemma bind_all dfl kw : (forall k, In k (map fst kw) -> In k (map fst dfl)) ->
  bind_args (map (fun '(k, v) => (k, Some v)) dfl) kw = Ok (map (fun '(k, v) => (k, match dict_get kw k with Some w => w | None => v end)) dfl).
Proof.
  intros HK. unfold bind_args.
  assert (HF : forallb (fun '(k, _) => in_names k (map fst (map (fun '(k, v) => (k, Some v)) dfl))) kw = true).
  { apply forallb_forall. intros [k v] Hk. apply in_names_iff. rewrite map_map.
    assert (HI : In k (map fst dfl)) by (apply HK; apply in_map_iff; exists (k, v); auto).
    apply in_map_iff in HI. destruct HI as ([k' v'] & E & HI). cbn in E. subst k'. apply in_map_iff. exists (k, v'). auto. }
  rewrite HF. clear HF HK. induction dfl as [|[k v] dfl IH]; [reflexivity|]. cbn [map mapM].
  destruct (dict_get kw k); cbn [bind]; rewrite IH; reflexivity.
Qed.
Lemma forward_bound model l kw : (model = "regression_model" \/ model = "classification_model")%string ->
  (forall k, In k (map fst kw) -> In k krige_names) ->
  exists d fw, positional (learn_sig model) [] ((model, V_learner l) :: kw) = Ok ((model, V_learner l) :: kw) /\
    bind_args (learn_sig model) ((model, V_learner l) :: kw) = Ok d /\ get d model = Ok (V_learner l) /\ forward d = Ok fw /\
    bind_args krige_sig fw = bind_args krige_sig kw /\ positional krige_sig [] fw = Ok fw /\ positional krige_sig [] kw = Ok kw.
Proof.
  intros HM HK.
  exists (map (fun '(k, v) => (k, match dict_get ((model, V_learner l) :: kw) k with Some w => w | None => v end)) (learn_defaults model)).
  exists (map (fun '(k, v) => (k, match dict_get kw k with Some w => w | None => v end)) krige_defaults).
  assert (HP : forall sig d, positional sig [] d = Ok d).
  { intros sig d. unfold positional. cbn [List.length Nat.ltb Nat.leb]. replace (combine (map fst sig) []) with (@nil (string * pyval)) by (destruct sig; reflexivity).
    cbn [map]. replace (existsb _ d) with false; [reflexivity|]. symmetry. induction d as [|[k v] d IH]; [reflexivity|]. cbn. exact IH. }
  split; [apply HP|]. split.
  { change (learn_sig model) with (map (fun '(k, v) => (k, Some v)) (learn_defaults model)). apply bind_all. intros k Hk. cbn [map fst] in Hk.
    destruct Hk as [<-|Hk]; [left; reflexivity|]. apply HK in Hk. cbn in Hk |- *. right. clear -Hk. firstorder. }
  split; [destruct HM as [-> | ->]; reflexivity|]. split.
  { destruct HM as [-> | ->]; reflexivity. }
  split; [|split; apply HP].
  change krige_sig with (map (fun '(k, v) => (k, Some v)) krige_defaults). rewrite (bind_all krige_defaults kw HK). rewrite bind_all.
  - reflexivity.
  - intros k Hk. exact Hk.
Qed.

Lemma rk_call_options {P} (learners : nat -> rk_learner P) l kw : (forall k, In k (map fst kw) -> In k krige_names) ->
  rk_call [] (("regression_model"%string, V_learner l) :: kw) learners =
  if ln_ok (learners l) then (do k <- krige_call [] kw ;; Ok {| ob_learner := l; ob_own := {| ro_ncp := k_window k; ro_krige := k |} |}) else Err RuntimeErr.
Proof.
  intros HK. destruct (forward_bound "regression_model" l kw (or_introl eq_refl) HK) as (d & fw & H1 & H2 & H3 & H4 & H5 & H6 & H7).
  unfold rk_call. rewrite H1. cbn [bind]. rewrite H2. cbn [bind]. rewrite H3. cbn [bind]. unfold check_sklearn_model. destruct (ln_ok (learners l)); [|reflexivity].
  cbn [bind]. rewrite H4. cbn [bind]. unfold krige_call. rewrite H6, H7. cbn [bind]. rewrite H5. reflexivity.
Qed.
Lemma ck_call_options {P L} (learners : nat -> ck_learner P L) l kw : (forall k, In k (map fst kw) -> In k krige_names) ->
  ck_call [] (("classification_model"%string, V_learner l) :: kw) learners =
  if ln_ok (learners l) then (do d <- bind_args krige_sig kw ;; do k <- krige_of d ;;
    Ok {| ob_learner := l; ob_own := {| co_ncp := k_window k; co_options := k; co_classes := []; co_krige := [] |} |}) else Err RuntimeErr.
Proof.
  intros HK. destruct (forward_bound "classification_model" l kw (or_intror eq_refl) HK) as (d & fw & H1 & H2 & H3 & H4 & H5 & H6 & H7).
  unfold ck_call. rewrite H1. cbn [bind]. rewrite H2. cbn [bind]. rewrite H3. cbn [bind]. unfold check_sklearn_model. destruct (ln_ok (learners l)); [|reflexivity].
  cbn [bind]. rewrite H4. cbn [bind]. rewrite H5. reflexivity.
Qed.
Lemma krige_of_kinds d : map fst d = krige_names -> (forall name v, In (name, v) d -> right_kind name v) -> exists k, krige_of d = Ok k.
Proof.
  intros HN HK. unfold krige_names in HN. cbn in HN.
  repeat (destruct d as [|[? ?] d]; [discriminate HN|]; cbn [map fst] in HN; injection HN as -> HN). destruct d; [|discriminate HN].
  repeat match type of HK with (forall name v, In (name, v) ((?n, ?p) :: ?d) -> _) =>
    let H := fresh "K" in assert (H : right_kind n p) by (apply HK; left; reflexivity);
    let HK' := fresh "HK" in assert (HK' : forall name v, In (name, v) d -> right_kind name v) by (intros name v HI; apply HK; right; exact HI);
    clear HK; rename HK' into HK end.
  repeat match goal with H : right_kind ?n ?p |- _ => is_var p;
    assert (exists w, In (n, w) krige_defaults /\ same_kind p w) by exact H; clear H end.
  repeat match goal with H : exists w, In _ krige_defaults /\ same_kind ?p w |- _ =>
    let w := fresh in let HI := fresh in let HS := fresh in destruct H as (w & HI & HS); cbn in HI;
    repeat (destruct HI as [HI|HI]; [first [discriminate HI | injection HI as <-; destruct p; try contradiction HS; clear HS] |]); try contradiction HI end.
  eexists. reflexivity.
Qed.
Lemma ck_options_spec {P L} (learners : nat -> ck_learner P L) l kw : (forall name v, In (name, v) kw -> right_kind name v) -> ln_ok (learners l) = true ->
  exists k, ck_call [] (("classification_model"%string, V_learner l) :: kw) learners =
    Ok {| ob_learner := l; ob_own := {| co_ncp := k_window k; co_options := k; co_classes := []; co_krige := [] |} |} /\
    k_fitted k = None /\
    forall name, dict_get (get_params_of k) name = match dict_get kw name with Some v => Some v | None => dict_get krige_defaults name end.
Proof.
  intros HK HL. assert (HN : forall k, In k (map fst kw) -> In k krige_names).
  { intros k Hk. apply in_map_iff in Hk. destruct Hk as ([k' v] & E & Hk). cbn in E. subst k'. exact (right_kind_name k v (HK k v Hk)). }
  rewrite ck_call_options, HL by exact HN.
  change krige_sig with (map (fun '(k, v) => (k, Some v)) krige_defaults). rewrite (bind_all krige_defaults kw HN). cbn [bind].
  set (d := map _ krige_defaults).
  assert (HD : map fst d = krige_names) by reflexivity.
  destruct (krige_of_kinds d HD) as [k Hk].
  { intros name v HI. apply in_map_iff in HI. destruct HI as ([n w] & E & HI). injection E as <- <-. destruct (dict_get kw n) as [v|] eqn:Eg.
    - apply dict_get_in in Eg. exact (HK n v Eg).
    - exists w. split; [exact HI|]. cbn in HI. repeat (destruct HI as [HI|HI]; [injection HI as <- <-; exact I|]). destruct HI. }
  rewrite Hk. cbn [bind]. exists k. destruct (params_of_krige d k HD Hk) as [H1 H2]. split; [reflexivity|]. split; [exact H2|]. rewrite H1.
  intros name. assert (HG : forall dfl : kwargs, dict_get (map (fun '(k0, v) => (k0, match dict_get kw k0 with Some w => w | None => v end)) dfl) name =
    match dict_get dfl name with Some v => Some (match dict_get kw name with Some w => w | None => v end) | None => None end).
  { induction dfl as [|[a b] dfl IH]; cbn [map dict_get]; [reflexivity|]. destruct (String.eqb_spec name a) as [->|]; [reflexivity|exact IH]. }
  unfold d. rewrite HG. destruct (dict_get krige_defaults name) as [v|] eqn:Ed.
  - destruct (dict_get kw name); reflexivity.
  - destruct (dict_get kw name) as [v|] eqn:Eg; [|reflexivity]. exfalso. apply dict_get_in in Eg. apply dict_get_none in Ed. apply Ed. apply HN.
    apply in_map_iff. exists (name, v). auto.
Qed.
Lemma wrong_learner_rk {P} (learners : nat -> rk_learner P) v kw : (forall l, v <> V_learner l) -> (forall k, In k (map fst kw) -> In k krige_names) ->
  rk_call [] (("regression_model"%string, v) :: kw) learners = Err RuntimeErr.
Proof.
  intros HV HK. unfold rk_call. rewrite positional_nil. cbn [bind].
  change (learn_sig "regression_model") with (map (fun '(k, v) => (k, Some v)) (learn_defaults "regression_model")). rewrite bind_all.
  - cbn [bind map learn_defaults]. cbn [dict_get String.eqb get bind]. destruct v; try reflexivity. destruct (HV l eq_refl).
  - intros k [<-|Hk]; [left; reflexivity|]. apply HK in Hk. cbn in Hk |- *. right. clear -Hk. firstorder.
Qed.
Lemma wrong_learner_ck {P L} (learners : nat -> ck_learner P L) v kw : (forall l, v <> V_learner l) -> (forall k, In k (map fst kw) -> In k krige_names) ->
  ck_call [] (("classification_model"%string, v) :: kw) learners = Err RuntimeErr.
Proof.
  intros HV HK. unfold ck_call. rewrite positional_nil. cbn [bind].
  change (learn_sig "classification_model") with (map (fun '(k, v) => (k, Some v)) (learn_defaults "classification_model")). rewrite bind_all.
  - cbn [bind map learn_defaults]. cbn [dict_get String.eqb get bind]. destruct v; try reflexivity. destruct (HV l eq_refl).
  - intros k [<-|Hk]; [left; reflexivity|]. apply HK in Hk. cbn in Hk |- *. right. clear -Hk. firstorder.
Qed.
