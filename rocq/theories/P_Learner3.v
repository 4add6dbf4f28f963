(** Proofs for C72: regression and classification kriging, examples. *)
From Coq Require Import String.
From Verif Require Import Base Sums Matrix M_Variogram M_Geometry M_Kriging M_Init M_Object M_Execute M_UK M_Compat S_Compat M_Call S_Call M_Ilr M_Learn S_Learn M_Learner S_Learner
  P_Compat P_Ilr P_Learn P_Learn2 P_Learn3 Witness P_UK8 P_Call P_Call3 P_Learner P_Learner2.

Section RK.
Context {P : Type} (E : env).
Implicit Type w : world (rk_learner P) rk_own.
Lemma rk_about_act (op : rk_op P) : match rk_action E op with Create _ => rk_about op = None | Act j _ => rk_about op = Some j end.
Proof. destruct op; reflexivity. Qed.
Lemma rk_isolated w ops i : own_learner (fst (run_rk E w ops)) i -> learner_of w i <> None ->
  rk_outcomes_on i (snd (run_rk E w ops)) = snd (run_rk E w (rk_ops_on i ops)).
Proof.
  intros (a & Ha & HS) HN. unfold learner_of in HN. destruct (nth_error (w_objs w) i) as [o|] eqn:Eo; [|exfalso; apply HN; reflexivity].
  assert (a = ob_learner o).
  { assert (H : learner_of (fst (run_rk E w ops)) i = Some (ob_learner o)) by (apply (run_learner_of (rk_action E)); unfold learner_of; rewrite Eo; reflexivity).
    rewrite H in Ha. injection Ha as ->. reflexivity. }
  subst a. exact (run_isolated (rk_action E) rk_about rk_about_act ops i w w o Eo Eo eq_refl HS).
Qed.

Definition rk_Q (l : rk_learner P) (a : rk_own) (l' : rk_learner P) (a' : rk_own) : Prop := l' = l /\ ro_krige a' = ro_krige a.
Lemma rk_unaffected w ops i op : rk_about op = Some i -> learner_of w i <> None ->
  (forall op' j, In op' ops -> rk_fits op' j -> learner_of (fst (run_rk E w ops)) j <> learner_of w i) ->
  shows_rk E (fst (run_rk E w ops)) op = shows_rk E w op.
Proof.
  intros HA HN HF. unfold learner_of in HN. destruct (nth_error (w_objs w) i) as [o|] eqn:Eo; [|exfalso; apply HN; reflexivity].
  destruct (run_unaffected (rk_action E) rk_Q rk_fits) with (ops := ops) (i := i) (w := w) (o := o) as (o' & H1 & H2 & H3 & H4).
  - intros l a. split; reflexivity.
  - intros l a l' a' l'' a'' [-> K1] [-> K2]. split; [reflexivity|congruence].
  - intros l a l' a' [H _]. exact H.
  - intros op' j f Hop. destruct op'; cbn in Hop; try discriminate; injection Hop as <- <-; try (right; intros l a; split; reflexivity).
    left. eexists _, _, _. reflexivity.
  - exact Eo.
  - intros op' j HI HF' E1. apply (HF op' j HI HF'). transitivity (Some (ob_learner o)); [exact E1|]. unfold learner_of. rewrite Eo. reflexivity.
  - unfold shows_rk, run_rk in *. destruct op; cbn in HA; try discriminate; injection HA as ->; cbn [rk_action step]; rewrite H1, Eo, H2, H3; unfold rk_view; rewrite H4; try reflexivity.
    destruct (rk_fit _ _ _ _ _ _). reflexivity.
Qed.
Lemma rk_attribute w ops j n : snd (run_rk E w (RSetN j n :: ops)) = (RSetN j n, Nothing) :: snd (run_rk E w ops).
Proof.
  unfold run_rk. cbn [run_ops rk_action]. set (w1 := fst (step w (Act j (fun l o => (l, {| ro_ncp := n; ro_krige := ro_krige o |}, Nothing))))).
  assert (HW : step w (Act j (fun l o => (l, {| ro_ncp := n; ro_krige := ro_krige o |}, Nothing))) = (w1, Nothing)).
  { unfold w1. cbn [step]. destruct (nth_error (w_objs w) j); reflexivity. }
  rewrite HW. pose proof (run_alike (@rk_action P E) (fun a b => ro_krige a = ro_krige b)) as HR.
  assert (snd (run_ops (rk_action E) w1 ops) = snd (run_ops (rk_action E) w ops)).
  { apply HR.
    - intros op k f Hop l a b Hab. destruct op; cbn in Hop; try discriminate; injection Hop as <- <-; unfold rk_view; cbn [fst snd]; rewrite ?Hab; try (repeat split; assumption).
      destruct (rk_fit _ _ _ _ _ _). repeat split.
    - reflexivity.
    - intros op make Hop s1 s2 Hs. destruct op; cbn in Hop; try discriminate. injection Hop as <-. unfold rk_call, check_sklearn_model.
      destruct (positional _ _ _) as [kw'|]; [|reflexivity]. cbn [bind]. destruct (bind_args _ kw') as [d|]; [|reflexivity]. cbn [bind].
      destruct (get d _) as [v|]; [|reflexivity]. cbn [bind]. destruct v; try reflexivity. rewrite Hs. reflexivity.
    - unfold w1. cbn [step]. destruct (nth_error (w_objs w) j) as [o|] eqn:Eo; cbn [fst].
      + split; cbn [w_learners w_objs].
        * intros b. destruct (Nat.eqb_spec b (ob_learner o)) as [->|]; reflexivity.
        * clear HW. clear w1. revert j Eo. clear. induction (w_objs w) as [|o' l IH]; intros [|j] Eo; cbn in Eo |- *; try discriminate.
          -- injection Eo as ->. constructor; [split; reflexivity|]. clear. induction l; constructor; auto.
          -- constructor; [split; reflexivity|]. apply (IH j Eo).
      + split; [reflexivity|]. clear. induction (w_objs w); constructor; auto. }
  destruct (run_ops (rk_action E) w1 ops). destruct (run_ops (rk_action E) w ops). cbn [snd] in *. congruence.
Qed.
(** a fit through another object that holds the same estimator *)
Lemma rk_shared w i j a p x y q xq extra predict v m r : i <> j -> learner_of w i = Some a -> learner_of w j = Some a ->
  ln_fit (w_learners w a) p y = Ok predict -> predict q = Ok m ->
  shows_rk E w (RResidual i xq extra) = Values v ->
  shows_rk E (fst (run_rk E w [RFit j p x y])) (RPredict i q xq extra) = Values r ->
  List.length v = List.length m /\ List.length r = List.length m /\ forall t, (t < List.length m)%nat -> rnth r t = rnth v t + rnth m t.
Proof.
  unfold learner_of. intros Hij Hi Hj HF HQ. destruct (nth_error (w_objs w) i) as [oi|] eqn:Ei; [|discriminate]. destruct (nth_error (w_objs w) j) as [oj|] eqn:Ej; [|discriminate].
  cbn in Hi, Hj. injection Hi as <-. injection Hj as Hl.
  unfold shows_rk, run_rk. cbn [run_ops rk_action step]. rewrite Ei, Ej, Hl. cbn [snd].
  unfold rk_fit. rewrite HF. cbn [rk_krige rk_reg].
  assert (HE : exists lf own out, (let '(s, e) := match (do ml_pred <- predict p ;; np_map2 Rminus y ml_pred) with
      | Ok residual => let '(k, e) := krige_fit E (ro_krige (ob_own oj)) x residual in ({| rk_reg := Some predict; rk_krige := k |}, e)
      | Err e => ({| rk_reg := Some predict; rk_krige := ro_krige (ob_own oj) |}, Some e) end in
      ({| ln_ok := ln_ok (w_learners w (ob_learner oi)); ln_fit := ln_fit (w_learners w (ob_learner oi)); ln_fitted := rk_reg s |},
       {| ro_ncp := ro_ncp (ob_own oj); ro_krige := rk_krige s |}, raised e)) = (lf, own, out) /\ ln_fitted lf = Some predict).
  { destruct (do ml_pred <- predict p ;; np_map2 Rminus y ml_pred); [destruct (krige_fit _ _ _ _)|]; eexists _, _, _; split; try reflexivity; reflexivity. }
  cbn [rk_view rk_krige rk_reg]. destruct HE as (lf & own & out & HE & Hlf). unfold rk_view in *. cbn [rk_krige] in *. rewrite HE. cbn [fst w_objs w_learners step].
  rewrite nth_replace. replace (Nat.eqb i j) with false by (symmetry; apply Nat.eqb_neq; exact Hij). rewrite Ei, Nat.eqb_refl. cbn [snd].
  unfold rk_predict, rk_krige_residual. cbn [rk_krige rk_reg]. rewrite Hlf.
  destruct (do a <- krige_predict E (ro_krige (ob_own oi)) xq extra ;; as_list a) as [v'|e]; [|discriminate]. cbn [returned bind]. intros H; injection H as ->.
  rewrite HQ. cbn [bind]. unfold np_map2. destruct (Nat.eqb_spec (List.length v) (List.length m)) as [Elen|]; [|discriminate]. cbn [returned]. intros H; injection H as <-.
  split; [exact Elen|]. clear -Elen. revert m Elen. induction v as [|a v IH]; intros [|b m] Elen; cbn in Elen; try discriminate; cbn [zip_with List.length].
  - split; [reflexivity|]. intros t Ht. lia.
  - injection Elen as Elen. destruct (IH m Elen) as [H1 H2]. split; [congruence|]. intros [|t] Ht; [reflexivity|]. apply (H2 t). lia.
Qed.
End RK.

Section CK.
Context {P : Type} (E : env).
Implicit Type w : world (ck_learner P nat) (ck_own nat).
Lemma ck_about_act (op : ck_op P) : match ck_action E op with Create _ => ck_about op = None | Act j _ => ck_about op = Some j end.
Proof. destruct op; reflexivity. Qed.
Lemma ck_isolated w ops i : own_learner (fst (run_ck E w ops)) i -> learner_of w i <> None ->
  ck_outcomes_on i (snd (run_ck E w ops)) = snd (run_ck E w (ck_ops_on i ops)).
Proof.
  intros (a & Ha & HS) HN. unfold learner_of in HN. destruct (nth_error (w_objs w) i) as [o|] eqn:Eo; [|exfalso; apply HN; reflexivity].
  assert (a = ob_learner o).
  { assert (H : learner_of (fst (run_ck E w ops)) i = Some (ob_learner o)) by (apply (run_learner_of (ck_action E)); unfold learner_of; rewrite Eo; reflexivity).
    rewrite H in Ha. injection Ha as ->. reflexivity. }
  subst a. exact (run_isolated (ck_action E) ck_about ck_about_act ops i w w o Eo Eo eq_refl HS).
Qed.
Definition ck_like (a b : ck_own nat) : Prop := co_options a = co_options b /\ co_classes a = co_classes b /\ co_krige a = co_krige b.
Definition ck_Q (l : ck_learner P nat) (a : ck_own nat) (l' : ck_learner P nat) (a' : ck_own nat) : Prop := l' = l /\ ck_like a' a.
Lemma ck_unaffected w ops i op : ck_about op = Some i -> learner_of w i <> None ->
  (forall op' j, In op' ops -> ck_fits op' j -> learner_of (fst (run_ck E w ops)) j <> learner_of w i) ->
  shows_ck E (fst (run_ck E w ops)) op = shows_ck E w op.
Proof.
  intros HA HN HF. unfold learner_of in HN. destruct (nth_error (w_objs w) i) as [o|] eqn:Eo; [|exfalso; apply HN; reflexivity].
  destruct (run_unaffected (ck_action E) ck_Q ck_fits) with (ops := ops) (i := i) (w := w) (o := o) as (o' & H1 & H2 & H3 & H4 & H5 & H6).
  - intros l a. split; [reflexivity|split; [|split]; reflexivity].
  - intros l a l' a' l'' a'' [-> (K1 & K2 & K3)] [-> (K4 & K5 & K6)]. split; [reflexivity|split; [|split]; congruence].
  - intros l a l' a' [H _]. exact H.
  - intros op' j f Hop. destruct op'; cbn in Hop; try discriminate; injection Hop as <- <-; try (right; intros l a; split; [reflexivity|split; [|split]; reflexivity]).
    left. eexists _, _, _. reflexivity.
  - exact Eo.
  - intros op' j HI HF' E1. apply (HF op' j HI HF'). transitivity (Some (ob_learner o)); [exact E1|]. unfold learner_of. rewrite Eo. reflexivity.
  - unfold shows_ck, run_ck in *. destruct op; cbn in HA; try discriminate; injection HA as ->; cbn [ck_action step]; rewrite H1, Eo, H2, H3; unfold ck_view; rewrite H4, H5, H6; try reflexivity.
    destruct (ck_fit _ _ _ _ _ _ _). reflexivity.
Qed.
Lemma ck_attribute w ops j n : snd (run_ck E w (CSetN j n :: ops)) = (CSetN j n, Nothing) :: snd (run_ck E w ops).
Proof.
  unfold run_ck. cbn [run_ops ck_action].
  set (f := fun (l : ck_learner P nat) (o : ck_own nat) => (l, {| co_ncp := n; co_options := co_options o; co_classes := co_classes o; co_krige := co_krige o |}, Nothing)).
  set (w1 := fst (step w (Act j f))).
  assert (HW : step w (Act j f) = (w1, Nothing)).
  { unfold w1. cbn [step]. destruct (nth_error (w_objs w) j); reflexivity. }
  rewrite HW. pose proof (run_alike (@ck_action P E) ck_like) as HR.
  assert (snd (run_ops (ck_action E) w1 ops) = snd (run_ops (ck_action E) w ops)).
  { apply HR.
    - intros op k g Hop l a b (K1 & K2 & K3). destruct op; cbn in Hop; try discriminate; injection Hop as <- <-; unfold ck_view; cbn [fst snd]; rewrite ?K1, ?K2, ?K3;
        try (split; [reflexivity|split; [repeat split; assumption|reflexivity]]).
      destruct (ck_fit _ _ _ _ _ _ _). cbn [fst snd]. split; [reflexivity|]. split; [|reflexivity]. repeat split.
    - intros a. repeat split.
    - intros op make Hop s1 s2 Hs. destruct op; cbn in Hop; try discriminate. injection Hop as <-. unfold ck_call, check_sklearn_model.
      destruct (positional _ _ _) as [kw'|]; [|reflexivity]. cbn [bind]. destruct (bind_args _ kw') as [d|]; [|reflexivity]. cbn [bind].
      destruct (get d _) as [v|]; [|reflexivity]. cbn [bind]. destruct v; try reflexivity. rewrite Hs. reflexivity.
    - unfold w1. cbn [step]. destruct (nth_error (w_objs w) j) as [o|] eqn:Eo; unfold f; cbn [fst].
      + split; cbn [w_learners w_objs].
        * intros b. destruct (Nat.eqb_spec b (ob_learner o)) as [->|]; reflexivity.
        * clear HW. clear w1. clear f HR. revert j Eo. clear. induction (w_objs w) as [|o' l IH]; intros [|j] Eo; cbn in Eo |- *; try discriminate.
          -- injection Eo as ->. constructor; [split; [reflexivity|repeat split]|]. clear. induction l; constructor; auto. split; [reflexivity|repeat split].
          -- constructor; [split; [reflexivity|repeat split]|]. apply (IH j Eo).
      + split; [reflexivity|]. clear. induction (w_objs w); constructor; auto. split; [reflexivity|repeat split]. }
  destruct (run_ops (ck_action E) w1 ops). destruct (run_ops (ck_action E) w ops). cbn [snd] in *. congruence.
Qed.
End CK.

(** shared classifier *)
Lemma ck_shared {P} E (w : world (ck_learner P nat) (ck_own nat)) i j a p x y classes proba q xq extra : i <> j -> learner_of w i = Some a -> learner_of w j = Some a ->
  ln_fit (w_learners w a) p (l_list y) = Ok (classes, proba) ->
  let w' := fst (run_ck E w [CFit j p x y]) in
  shows_ck E w' (CPredict i q xq extra) = shows_ck E (with_learned w a proba) (CPredict i q xq extra) /\
  shows_ck E w' (CResidual i xq extra) = shows_ck E w (CResidual i xq extra).
Proof.
  unfold learner_of. intros Hij Hi Hj HF. destruct (nth_error (w_objs w) i) as [oi|] eqn:Ei; [|discriminate]. destruct (nth_error (w_objs w) j) as [oj|] eqn:Ej; [|discriminate].
  cbn in Hi, Hj. injection Hi as <-. injection Hj as Hl.
  assert (HS : exists e, snd (ck_fit E Nat.eqb (ln_fit (w_learners w (ob_learner oi))) (ck_view (w_learners w (ob_learner oi)) (ob_own oj)) p x y) = e /\
    ck_proba (fst (ck_fit E Nat.eqb (ln_fit (w_learners w (ob_learner oi))) (ck_view (w_learners w (ob_learner oi)) (ob_own oj)) p x y)) = Some proba).
  { eexists. split; [reflexivity|]. unfold ck_fit. rewrite HF. destruct (mapM _ (seq 0 _)) as [ks|]; [|reflexivity].
    destruct (do ml_pred <- proba p ;; _) as [r|]; [|reflexivity]. destruct (fit_all _ _ _ _ _). reflexivity. }
  destruct HS as (e & _ & HP).
  cbn zeta. unfold shows_ck, run_ck. cbn [run_ops ck_action step with_learned w_objs]. rewrite Ei, Ej, Hl.
  destruct (ck_fit E Nat.eqb (ln_fit (w_learners w (ob_learner oi))) (ck_view (w_learners w (ob_learner oi)) (ob_own oj)) p x y) as [s e']. cbn [fst snd] in *.
  cbn [w_objs w_learners with_learned]. rewrite nth_replace. replace (Nat.eqb i j) with false by (symmetry; apply Nat.eqb_neq; exact Hij). rewrite Ei, Nat.eqb_refl, HP. cbn [snd].
  split; [|reflexivity]. match goal with |- context [nth_error ?l i] => replace (nth_error l i) with (Some oi) by (symmetry; exact Ei) end.
  cbn [snd]. rewrite Nat.eqb_refl. reflexivity.
Qed.

(** ---- example: two objects with the default estimator ---- *)
(** learns the first target *)
Definition first_reg : regressor nat := fun _ y => Ok (fun n => Ok (repeat (rnth y 0) n)).
Definition two_defaults : list (rk_op nat) :=
  [RNew [] (get_params_of kopt); RNew [] (get_params_of kopt); RFit 0 2%nat pts2 [0; 1]; RPredict 0 2%nat pts2 []; RFit 1 2%nat pts2 [5; 5]; RPredict 0 2%nat pts2 []].
Definition regressors (l : nat) : rk_learner nat := {| ln_ok := true; ln_fit := first_reg; ln_fitted := None |}.

Lemma kopt_predicts z0 z1 : exists k', krige_fit WE kopt pts2 [z0; z1] = (k', None) /\
  (do a <- krige_predict WE k' pts2 [] ;; as_list a) = Ok [z0; z1].
Proof.
  destruct (kopt_fit z0 z1) as (k' & HF & HA & sh & v & HP). exists k'. split; [exact HF|].
  assert (HC : class_of (k_method kopt) = Some OK2) by reflexivity.
  destruct (fit_inv WE kopt pts2 _ k' OK2 HC HF) as (m & HD & Hk & _).
  assert (Hsh : sh = [2%nat]).
  { pose proof HP as HP'. rewrite Hk in HP'. exact (proj1 (predict_shape WE _ m OK2 pts2 [] sh v (fit_fitted WE kopt pts2 _ OK2 m HC HD) (or_introl eq_refl) HP')). }
  subst sh. rewrite HP. cbn [bind as_list fst snd map seq].
  assert (HV : forall i, (i < 2)%nat -> v i = Some (rnth [z0; z1] i)).
  { intros i Hi. apply (krige_interpolates WE kopt pts2 [z0; z1] k' pts2 [] [2%nat] v i i OK2 (wit_env_ok _ _) HC HF eq_refl eq_refl HA HP (or_introl eq_refl) Hi Hi). intros c. reflexivity. }
  rewrite (HV 0%nat), (HV 1%nat) by lia. reflexivity.
Qed.
Lemma kopt_known k : In k (map fst (get_params_of kopt)) -> In k krige_names.
Proof. rewrite (params_keys kopt). auto. Qed.
Lemma rk_call_default P (learners : nat -> rk_learner P) kw : (forall k, In k (map fst kw) -> In k krige_names) ->
  rk_call [] kw learners = rk_call [] (("regression_model"%string, V_learner 0) :: kw) learners.
Proof.
  intros HK. pose proof (learn_convention "regression_model" (fun d =>
    do v <- get d "regression_model" ;; do l <- check_sklearn_model learners v ;; do fw <- forward d ;; do k <- krige_call [] fw ;;
    Ok {| ob_learner := l; ob_own := {| ro_ncp := k_window k; ro_krige := k |} |}) (or_introl eq_refl)) as HV.
  apply (cv_default _ _ _ _ HV kw "regression_model"%string (V_learner 0)); [left; reflexivity|].
  intros HI. apply HK in HI. cbn in HI. repeat (destruct HI as [HI|HI]; [discriminate HI|]). exact HI.
Qed.
Lemma run_cons {L A Op} (act : Op -> action L A) w op w1 out ops w2 tr : step w (act op) = (w1, out) -> run_ops act w1 ops = (w2, tr) ->
  run_ops act w (op :: ops) = (w2, (op, out) :: tr).
Proof. intros H1 H2. cbn [run_ops]. rewrite H1, H2. reflexivity. Qed.
Lemma step_rfit (w : world (rk_learner nat) rk_own) j o a k k' y0 y1 : nth_error (w_objs w) j = Some o -> ob_learner o = a -> ln_fit (w_learners w a) = first_reg ->
  ro_krige (ob_own o) = k -> krige_fit WE k pts2 [y0 - y0; y1 - y0] = (k', None) ->
  step w (rk_action WE (RFit j 2%nat pts2 [y0; y1])) =
  ({| w_learners := fun b => if Nat.eqb b a then {| ln_ok := ln_ok (w_learners w a); ln_fit := first_reg; ln_fitted := Some (fun n => Ok (repeat y0 n)) |} else w_learners w b;
      w_objs := replace_nth j {| ob_learner := a; ob_own := {| ro_ncp := ro_ncp (ob_own o); ro_krige := k' |} |} (w_objs w) |}, Nothing).
Proof.
  intros Ho <- Hf Hk HF. cbn [step rk_action]. rewrite Ho, Hf. unfold rk_fit. cbn [first_reg rk_view rk_krige rk_reg bind repeat np_map2 List.length Nat.eqb zip_with].
  unfold rnth. cbn [nth]. rewrite Hk, HF. reflexivity.
Qed.
Lemma step_rpredict (w : world (rk_learner nat) rk_own) j o c r0 r1 : nth_error (w_objs w) j = Some o ->
  ln_fitted (w_learners w (ob_learner o)) = Some (fun n => Ok (repeat c n)) -> (do a <- krige_predict WE (ro_krige (ob_own o)) pts2 [] ;; as_list a) = Ok [r0; r1] ->
  snd (step w (rk_action WE (RPredict j 2%nat pts2 []))) = Values [r0 + c; r1 + c].
Proof.
  intros Ho Hf HP. cbn [step rk_action]. rewrite Ho. cbn [snd]. unfold rk_predict, rk_krige_residual. cbn [rk_view rk_krige rk_reg]. rewrite HP, Hf.
  reflexivity.
Qed.
Lemma step_pair {L A} (w : world L A) a out : snd (step w a) = out -> step w a = (fst (step w a), out).
Proof. intros <-. apply surjective_pairing. Qed.
Lemma step_rpredict_same (w : world (rk_learner nat) rk_own) j p x extra : (forall b, w_learners (fst (step w (rk_action WE (RPredict j p x extra)))) b = w_learners w b) /\
  w_objs (fst (step w (rk_action WE (RPredict j p x extra)))) = w_objs w.
Proof.
  cbn [step rk_action]. destruct (nth_error (w_objs w) j) as [o|] eqn:Eo; [|auto]. cbn [fst w_learners w_objs]. split.
  - intros b. destruct (Nat.eqb_spec b (ob_learner o)) as [->|]; reflexivity.
  - revert j Eo. induction (w_objs w) as [|o' l IH]; intros [|j] Eo; cbn in Eo |- *; try discriminate; [injection Eo as ->; destruct o; reflexivity|]. f_equal. apply IH. exact Eo.
Qed.
Lemma step_rpredict_full (w : world (rk_learner nat) rk_own) j o c r0 r1 : nth_error (w_objs w) j = Some o ->
  ln_fitted (w_learners w (ob_learner o)) = Some (fun n => Ok (repeat c n)) -> (do a <- krige_predict WE (ro_krige (ob_own o)) pts2 [] ;; as_list a) = Ok [r0; r1] ->
  exists w', step w (rk_action WE (RPredict j 2%nat pts2 [])) = (w', Values [r0 + c; r1 + c]) /\ (forall b, w_learners w' b = w_learners w b) /\ w_objs w' = w_objs w.
Proof.
  intros Ho Hf HP. eexists. split; [apply step_pair, (step_rpredict w j o c r0 r1 Ho Hf HP)|apply step_rpredict_same].
Qed.
Lemma rk_two_defaults : exists w, run_rk WE (fresh_world regressors) two_defaults =
  (w, combine two_defaults [Nothing; Nothing; Nothing; Values [0; 1]; Nothing; Values [5; 6]]) /\ learner_of w 0 = Some 0%nat /\ learner_of w 1 = Some 0%nat.
Proof.
  set (o0 := {| ob_learner := 0%nat; ob_own := {| ro_ncp := None; ro_krige := kopt |} |}).
  assert (HN : forall s : nat -> rk_learner nat, ln_ok (s 0%nat) = true -> rk_call [] (get_params_of kopt) s = Ok o0).
  { intros s Hs. rewrite rk_call_default by exact kopt_known. rewrite rk_call_options, Hs by exact kopt_known. rewrite call_params. reflexivity. }
  destruct (kopt_predicts (0 - 0) (1 - 0)) as (k1 & HF1 & HP1). destruct (kopt_predicts (5 - 5) (5 - 5)) as (k2 & HF2 & HP2).
  assert (S1 : forall l : list (obj rk_own), step {| w_learners := regressors; w_objs := l |} (rk_action WE (RNew [] (get_params_of kopt))) =
    ({| w_learners := regressors; w_objs := l ++ [o0] |}, Nothing)).
  { intros l. cbn [step rk_action w_learners]. rewrite (HN regressors eq_refl). reflexivity. }
  pose proof (step_rfit {| w_learners := regressors; w_objs := [o0; o0] |} 0 o0 0%nat kopt k1 0 1 eq_refl eq_refl eq_refl eq_refl HF1) as S3.
  cbn [w_learners w_objs replace_nth] in S3. set (w3 := {| w_learners := _; w_objs := _ |}) in S3 at 2.
  destruct (step_rpredict_full w3 0 _ 0 _ _ eq_refl eq_refl HP1) as (w4 & S4 & L4 & O4).
  pose proof (step_rfit w4 1 o0 0%nat kopt k2 5 5 (f_equal (fun l => nth_error l 1) O4) eq_refl (f_equal ln_fit (L4 0%nat)) eq_refl HF2) as S5.
  set (w5 := {| w_learners := _; w_objs := _ |}) in S5 at 1.
  assert (O5 : nth_error (w_objs w5) 0 = Some {| ob_learner := 0%nat; ob_own := {| ro_ncp := None; ro_krige := k1 |} |}).
  { unfold w5. cbn [w_objs]. rewrite O4. reflexivity. }
  destruct (step_rpredict_full w5 0 _ 5 _ _ O5 eq_refl HP1) as (w6 & S6 & L6 & O6).
  exists w6. split.
  - unfold run_rk, two_defaults, fresh_world. cbn [combine].
    eapply run_cons; [apply S1|]. eapply run_cons; [apply S1|]. eapply run_cons; [exact S3|].
    eapply run_cons; [rewrite S4; do 3 f_equal; [ring|f_equal; ring]|]. eapply run_cons; [exact S5|].
    eapply run_cons; [rewrite S6; do 3 f_equal; [ring|f_equal; ring]|]. reflexivity.
  - unfold learner_of. rewrite O6. unfold w5. cbn [w_objs]. rewrite O4. split; reflexivity.
Qed.
(** with estimators of their own *)
Definition own_two : world (rk_learner nat) rk_own :=
  {| w_learners := regressors; w_objs := [{| ob_learner := 1; ob_own := {| ro_ncp := None; ro_krige := kopt |} |}; {| ob_learner := 2; ob_own := {| ro_ncp := None; ro_krige := kopt |} |}] |}.
Definition fit_both : list (rk_op nat) := [RFit 0 2%nat pts2 [0; 1]; RFit 1 2%nat pts2 [5; 5]; RPredict 0 2%nat pts2 []].
Lemma rk_own_two : exists w, run_rk WE own_two fit_both = (w, combine fit_both [Nothing; Nothing; Values [0; 1]]) /\ own_learner w 0.
Proof.
  destruct (kopt_predicts (0 - 0) (1 - 0)) as (k1 & HF1 & HP1). destruct (kopt_predicts (5 - 5) (5 - 5)) as (k2 & HF2 & HP2).
  pose proof (step_rfit own_two 0 _ 1%nat kopt k1 0 1 eq_refl eq_refl eq_refl eq_refl HF1) as S1. cbn [own_two w_learners w_objs replace_nth] in S1.
  set (w1 := {| w_learners := _; w_objs := _ |}) in S1 at 1.
  pose proof (step_rfit w1 1 _ 2%nat kopt k2 5 5 eq_refl eq_refl eq_refl eq_refl HF2) as S2. cbn [w1 w_learners w_objs replace_nth] in S2.
  set (w2 := {| w_learners := _; w_objs := _ |}) in S2 at 1.
  destruct (step_rpredict_full w2 0 _ 0 _ _ eq_refl eq_refl HP1) as (w3 & S3 & L3 & O3).
  exists w3. split.
  - unfold run_rk, fit_both. cbn [combine]. eapply run_cons; [exact S1|]. eapply run_cons; [exact S2|].
    eapply run_cons; [rewrite S3; do 3 f_equal; [ring|f_equal; ring]|]. reflexivity.
  - exists 1%nat. unfold learner_of. rewrite O3. split; [reflexivity|]. intros [|[|j]] Hj; [congruence|discriminate|]. destruct j; discriminate.
Qed.
(** construction with keywords *)
Lemma rk_new_example : exists o, rk_call [] [("regression_model"%string, V_learner 1); ("n_closest_points"%string, V_window (Some 3%nat))] regressors = Ok o /\
  ob_learner o = 1%nat /\ k_window (ro_krige (ob_own o)) = Some 3%nat /\ k_nlags (ro_krige (ob_own o)) = 6%nat.
Proof. eexists. split; [reflexivity|]. repeat split. Qed.
Lemma needs_estimator P L (learners : nat -> rk_learner P) (classifiers : nat -> ck_learner P L) v kw :
  (forall k, In k (map fst kw) -> In k krige_names) ->
  ((forall l, v = V_learner l -> ln_ok (learners l) = false) -> rk_call [] (("regression_model"%string, v) :: kw) learners = Err RuntimeErr) /\
  ((forall l, v = V_learner l -> ln_ok (classifiers l) = false) -> ck_call [] (("classification_model"%string, v) :: kw) classifiers = Err RuntimeErr).
Proof.
  intros HK. assert (HD : (exists l, v = V_learner l) \/ forall l, v <> V_learner l) by (destruct v; try (right; intros; discriminate); left; eexists; reflexivity).
  destruct HD as [[l ->]|HV].
  - split; intros HL; specialize (HL l eq_refl); [rewrite rk_call_options, HL by exact HK|rewrite ck_call_options, HL by exact HK]; reflexivity.
  - split; intros _; [apply wrong_learner_rk|apply wrong_learner_ck]; assumption.
Qed.
