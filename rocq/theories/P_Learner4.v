(** Proofs for C72: objects that were never fitted. *)
From Coq Require Import String.
From Verif Require Import Base Sums Matrix M_Variogram M_Geometry M_Kriging M_Init M_Object M_Execute M_UK M_Compat S_Compat M_Call S_Call M_Ilr M_Learn S_Learn M_Learner S_Learner
  P_Compat P_Ilr P_Learn P_Learn2 P_Learn3 P_Call P_Call3 P_Learner P_Learner2 P_Learner3 P_Object.

Section Invariant.
Context {L A Op : Type} (act : Op -> action L A) (good : A -> Prop) (fits : Op -> nat -> Prop).
Hypothesis made : forall op make ls o, act op = Create make -> make ls = Ok o -> good (ob_own o).
Hypothesis kept_good : forall op j f l a, act op = Act j f -> fits op j \/ (good a -> good (snd (fst (f l a)))).
Definition all_good (w : world L A) (i : nat) : Prop := forall o, nth_error (w_objs w) i = Some o -> good (ob_own o).
Lemma step_good w op i : ~ fits op i -> all_good w i -> all_good (fst (step w (act op))) i.
Proof.
  intros NF G. destruct (act op) as [make|j f] eqn:Ea; cbn [step].
  - destruct (make (w_learners w)) as [o|e] eqn:Em; [|exact G]. cbn [fst]. intros o' Ho. cbn [w_objs] in Ho.
    destruct (Nat.lt_ge_cases i (List.length (w_objs w))) as [Hi|Hi].
    + rewrite nth_error_app1 in Ho by exact Hi. exact (G o' Ho).
    + rewrite nth_error_app2 in Ho by exact Hi. destruct (i - List.length (w_objs w))%nat as [|k]; cbn in Ho; [|destruct k; discriminate].
      injection Ho as <-. exact (made op make _ o Ea Em).
  - destruct (nth_error (w_objs w) j) as [o|] eqn:Eo; [|exact G].
    destruct (f (w_learners w (ob_learner o)) (ob_own o)) as [[l' own] out] eqn:Ef. cbn [fst]. intros o' Ho. cbn [w_objs] in Ho.
    rewrite nth_replace in Ho. destruct (Nat.eqb_spec i j) as [->|]; [|exact (G o' Ho)].
    rewrite Eo in Ho. cbn in Ho. injection Ho as <-. cbn [ob_own].
    destruct (kept_good op j f (w_learners w (ob_learner o)) (ob_own o) Ea) as [F|K]; [contradiction|]. rewrite Ef in K. exact (K (G o Eo)).
Qed.
Lemma run_good ops i : forall w, (forall op, In op ops -> ~ fits op i) -> all_good w i -> all_good (fst (run_ops act w ops)) i.
Proof.
  induction ops as [|op ops IH]; intros w NF G; [exact G|]. cbn [run_ops].
  pose proof (step_good w op i (NF op (or_introl eq_refl)) G) as G1. destruct (step w (act op)) as [w1 out]. cbn [fst] in G1.
  specialize (IH w1 (fun op' H => NF op' (or_intror H)) G1). destruct (run_ops act w1 ops). exact IH.
Qed.
End Invariant.

Lemma krige_init_unfitted k k' : krige_init k = Ok k' -> k_fitted k' = None.
Proof. unfold krige_init. destruct (dict_get krige_methods (k_method k)); [|discriminate]. intros H. injection H as <-. reflexivity. Qed.

Theorem rk_never_fitted P E (learners : nat -> rk_learner P) ops i : let w := fst (run_rk E (fresh_world learners) ops) in
  learner_of w i <> None -> (forall op, In op ops -> ~ rk_fits op i) ->
  forall p x y sw extra, shows_rk E w (RPredict i p x extra) = Raised PlainException /\
    shows_rk E w (RResidual i x extra) = Raised PlainException /\ shows_rk E w (RScore i p x y sw extra) = Raised PlainException.
Proof.
  intros w HL NF p x y sw extra.
  assert (G : all_good (fun a => k_fitted (ro_krige a) = None) w i).
  { apply (run_good (rk_action E) (fun a => k_fitted (ro_krige a) = None) rk_fits) with (i := i); [| |exact NF|].
    - intros op make ls o Hop Hm. destruct op; cbn in Hop; try discriminate. injection Hop as <-. unfold rk_call in Hm.
      bindok Hm. bindok Hm. bindok Hm. bindok Hm. bindok Hm. bindok Hm. injection Hm as <-. cbn [ob_own ro_krige].
      match goal with H : krige_call _ _ = Ok _ |- _ => unfold krige_call in H; bindok H; bindok H; bindok H; exact (krige_init_unfitted _ _ H) end.
    - intros op j f l a Hop. destruct op; cbn in Hop; try discriminate; injection Hop as <- <-; try (right; intros H; exact H).
      left. eexists _, _, _. reflexivity.
    - intros o Ho. destruct i; discriminate Ho. }
  unfold learner_of in HL. destruct (nth_error (w_objs w) i) as [o|] eqn:Eo; [|exfalso; apply HL; reflexivity]. specialize (G o Eo).
  unfold shows_rk, rk_action, step. rewrite Eo. cbn [snd].
  unfold rk_score, rk_predict, rk_krige_residual, krige_predict. cbn [rk_view rk_krige]. cbv beta in G. rewrite G. cbn. auto.
Qed.

Theorem ck_never_fitted P E (learners : nat -> ck_learner P nat) ops i : let w := fst (run_ck E (fresh_world learners) ops) in
  learner_of w i <> None -> (forall op, In op ops -> ~ ck_fits op i) ->
  forall p x y extra, shows_ck E w (CResidual i x extra) = Raised AttributeErr /\
    (exists e, shows_ck E w (CPredict i p x extra) = Raised e) /\ (exists e, shows_ck E w (CScore i p x y extra) = Raised e).
Proof.
  intros w HL NF p x y extra.
  assert (G : all_good (fun a : ck_own nat => co_krige a = [] /\ co_classes a = []) w i).
  { apply (run_good (ck_action E) (fun a : ck_own nat => co_krige a = [] /\ co_classes a = []) ck_fits) with (i := i); [| |exact NF|].
    - intros op make ls o Hop Hm. destruct op; cbn in Hop; try discriminate. injection Hop as <-. unfold ck_call in Hm.
      bindok Hm. bindok Hm. bindok Hm. bindok Hm. bindok Hm. bindok Hm. bindok Hm. injection Hm as <-. split; reflexivity.
    - intros op j f l a Hop. destruct op; cbn in Hop; try discriminate; injection Hop as <- <-; try (right; intros H; exact H).
      left. eexists _, _, _. reflexivity.
    - intros o Ho. destruct i; discriminate Ho. }
  unfold learner_of in HL. destruct (nth_error (w_objs w) i) as [o|] eqn:Eo; [|exfalso; apply HL; reflexivity]. destruct (G o Eo) as [G1 G2].
  unfold shows_ck, ck_action, step. rewrite Eo. cbn [snd].
  unfold ck_score, ck_predict, ck_krige_residual. cbn [ck_view ck_krige ck_classes ck_proba]. rewrite G1, G2. cbn [bind returned].
  split; [reflexivity|].
  destruct (ln_fitted _) as [proba|]; cbn [bind]; [destruct (proba p)|]; cbn [bind returned]; eauto.
Qed.

(** two objects with the default estimator, the first fitted *)
Definition one_fitted : list (rk_op nat) := [RNew [] (get_params_of kopt); RNew [] (get_params_of kopt); RFit 0 2%nat pts2 [0; 1]].
Lemma one_fitted_case E : let w := fst (run_rk E (fresh_world regressors) one_fitted) in
  learner_of w 1 = Some 0%nat /\ (forall op, In op one_fitted -> ~ rk_fits op 1).
Proof.
  set (o0 := {| ob_learner := 0%nat; ob_own := {| ro_ncp := None; ro_krige := kopt |} |}).
  assert (HN : rk_call [] (get_params_of kopt) regressors = Ok o0).
  { rewrite rk_call_default by exact kopt_known. rewrite rk_call_options by exact kopt_known. cbn [ln_ok regressors]. rewrite call_params. reflexivity. }
  split.
  - unfold run_rk, one_fitted. change [RNew [] (get_params_of kopt); RNew [] (get_params_of kopt); RFit 0 2%nat pts2 [0; 1]]
      with ([RNew [] (get_params_of kopt); RNew [] (get_params_of kopt)] ++ [RFit 0 2%nat pts2 [0; 1]])%list.
    assert (RA : forall (o1 o2 : list (rk_op nat)) w, fst (run_ops (rk_action E) w (o1 ++ o2)) = fst (run_ops (rk_action E) (fst (run_ops (rk_action E) w o1)) o2)).
    { clear. induction o1 as [|op o1 IH]; intros o2 w; [reflexivity|]. cbn [app run_ops]. destruct (step w (rk_action E op)) as [w1 out].
      specialize (IH o2 w1). destruct (run_ops (rk_action E) w1 (o1 ++ o2)). destruct (run_ops (rk_action E) w1 o1). exact IH. }
    rewrite RA. apply (run_learner_of (rk_action E)). cbn [run_ops rk_action step fresh_world w_learners]. rewrite HN. cbn [run_ops rk_action step w_learners w_objs app]. rewrite HN. reflexivity.
  - intros op HI (p & x & y & ->). cbn in HI. destruct HI as [H|[H|[H|[]]]]; discriminate H.
Qed.
