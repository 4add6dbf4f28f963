(** Proofs for C72: programs with several objects. *)
From Coq Require Import String.
From Verif Require Import Base Sums Matrix M_Variogram M_Geometry M_Kriging M_Init M_Object M_Execute M_UK M_Compat M_Call S_Call M_Ilr M_Learn M_Learner S_Learner.

Lemma nth_replace {A} (l : list A) j a i : nth_error (replace_nth j a l) i = if Nat.eqb i j then option_map (fun _ => a) (nth_error l i) else nth_error l i.
Proof.
  revert j i. induction l as [|b l IH]; intros j i.
  - replace (replace_nth j a []) with (@nil A) by (destruct j; reflexivity). destruct i; cbn [nth_error]; destruct (Nat.eqb _ j); reflexivity.
  - destruct j as [|j]; destruct i as [|i]; cbn [nth_error Nat.eqb]; try reflexivity. apply IH.
Qed.

Section World.
Context {L A Op : Type} (act : Op -> action L A) (about : Op -> option nat).
Hypothesis about_act : forall op, match act op with Create _ => about op = None | Act j _ => about op = Some j end.

Lemma step_learner_of (w : world L A) a i b : learner_of w i = Some b -> learner_of (fst (step w a)) i = Some b.
Proof.
  unfold learner_of. intros H. destruct (nth_error (w_objs w) i) as [o|] eqn:E; [|discriminate]. cbn in H. injection H as <-.
  destruct a as [make|j f]; cbn [step].
  - destruct (make _) as [o'|e]; cbn [fst w_objs]; [|rewrite E; reflexivity].
    rewrite nth_error_app1 by (apply nth_error_Some; congruence). rewrite E. reflexivity.
  - destruct (nth_error (w_objs w) j) as [o'|] eqn:Ej; [|cbn [fst]; rewrite E; reflexivity].
    destruct (f _ _) as [[l own] out]. cbn [fst w_objs]. rewrite nth_replace. destruct (Nat.eqb_spec i j) as [->|_]; [|rewrite E; reflexivity].
    rewrite E. cbn. rewrite Ej in E. injection E as ->. reflexivity.
Qed.
Lemma run_learner_of ops : forall (w : world L A) i b, learner_of w i = Some b -> learner_of (fst (run_ops act w ops)) i = Some b.
Proof.
  induction ops as [|op ops IH]; intros w i b H; [exact H|]. cbn [run_ops].
  pose proof (step_learner_of w (act op) i b H) as HS. destruct (step w (act op)) as [w1 out]. cbn [fst] in HS.
  specialize (IH w1 i b HS). destruct (run_ops act w1 ops) as [w2 tr]. exact IH.
Qed.

(** what is done to object i alone *)
Lemma step_same (w1 w2 : world L A) i o a : nth_error (w_objs w1) i = Some o -> nth_error (w_objs w2) i = Some o ->
  w_learners w1 (ob_learner o) = w_learners w2 (ob_learner o) -> forall f, a = Act i f ->
  exists o', snd (step w1 a) = snd (step w2 a) /\ ob_learner o' = ob_learner o /\
    nth_error (w_objs (fst (step w1 a))) i = Some o' /\ nth_error (w_objs (fst (step w2 a))) i = Some o' /\
    w_learners (fst (step w1 a)) (ob_learner o) = w_learners (fst (step w2 a)) (ob_learner o).
Proof.
  intros H1 H2 HL f ->. cbn [step]. rewrite H1, H2, HL. destruct (f _ _) as [[l own] out]. cbn [fst snd w_objs w_learners].
  exists {| ob_learner := ob_learner o; ob_own := own |}. rewrite !nth_replace, Nat.eqb_refl, H1, H2, Nat.eqb_refl. auto.
Qed.
Lemma step_other (w : world L A) i o a : nth_error (w_objs w) i = Some o -> (forall f, a <> Act i f) ->
  (forall j, j <> i -> learner_of w j <> Some (ob_learner o)) ->
  nth_error (w_objs (fst (step w a))) i = Some o /\ w_learners (fst (step w a)) (ob_learner o) = w_learners w (ob_learner o).
Proof.
  intros H HA HS. destruct a as [make|j f]; cbn [step].
  - destruct (make _) as [o'|e]; cbn [fst w_objs w_learners]; [|auto]. split; [|reflexivity].
    rewrite nth_error_app1 by (apply nth_error_Some; congruence). exact H.
  - assert (Hj : j <> i) by (intros ->; exact (HA f eq_refl)).
    destruct (nth_error (w_objs w) j) as [o'|] eqn:Ej; [|auto]. destruct (f _ _) as [[l own] out]. cbn [fst w_objs w_learners].
    rewrite nth_replace. replace (Nat.eqb i j) with false by (symmetry; apply Nat.eqb_neq; lia). split; [exact H|].
    destruct (Nat.eqb_spec (ob_learner o) (ob_learner o')) as [E|_]; [|reflexivity].
    exfalso. apply (HS j Hj). unfold learner_of. rewrite Ej. cbn. congruence.
Qed.

Lemma run_isolated ops i : forall (w1 w2 : world L A) o, nth_error (w_objs w1) i = Some o -> nth_error (w_objs w2) i = Some o ->
  w_learners w1 (ob_learner o) = w_learners w2 (ob_learner o) ->
  (forall j, j <> i -> learner_of (fst (run_ops act w1 ops)) j <> Some (ob_learner o)) ->
  filter (fun e => is_about (about (fst e)) i) (snd (run_ops act w1 ops)) = snd (run_ops act w2 (filter (fun op => is_about (about op) i) ops)).
Proof.
  induction ops as [|op ops IH]; intros w1 w2 o H1 H2 HL HS; [reflexivity|].
  pose proof (about_act op) as HA. cbn [run_ops filter] in *.
  destruct (is_about (about op) i) eqn:EA.
  - destruct (act op) as [make|j f] eqn:Eop; [rewrite HA in EA; discriminate|]. assert (j = i) by (rewrite HA in EA; apply Nat.eqb_eq; exact EA). subst j.
    destruct (step_same w1 w2 i o (Act i f) H1 H2 HL f eq_refl) as (o' & HO & Hl & H1' & H2' & HL').
    cbn [run_ops]. rewrite Eop. destruct (step w1 (Act i f)) as [w1' out]. destruct (step w2 (Act i f)) as [w2' out']. cbn [fst snd] in *. subst out'.
    rewrite <- Hl in *. specialize (IH w1' w2' o' H1' H2' HL'). destruct (run_ops act w1' ops) as [w3 tr]. destruct (run_ops act w2' _) as [w4 tr']. cbn [fst snd filter] in *.
    rewrite EA. f_equal. apply IH. exact HS.
  - assert (HA' : forall f, act op <> Act i f).
    { intros f E. rewrite E in HA. rewrite HA in EA. cbn in EA. rewrite Nat.eqb_refl in EA. discriminate. }
    destruct (step_other w1 i o (act op) H1 HA') as [H1' HL'].
    { intros j Hj E. apply (HS j Hj). pose proof (step_learner_of w1 (act op) j _ E) as E'. destruct (step w1 (act op)) as [w1' out]. cbn [fst] in E'.
      pose proof (run_learner_of ops w1' j _ E') as E2. destruct (run_ops act w1' ops). exact E2. }
    destruct (step w1 (act op)) as [w1' out]. cbn [fst snd] in *. specialize (IH w1' w2 o H1' H2). destruct (run_ops act w1' ops) as [w3 tr]. cbn [fst snd filter] in *.
    rewrite EA. apply IH; [congruence|exact HS].
Qed.

(** a relation preserved by all operations that do not touch object i or its learner *)
Context (Q : L -> A -> L -> A -> Prop) (fits : Op -> nat -> Prop).
Hypothesis Q_refl : forall l a, Q l a l a.
Hypothesis Q_trans : forall l a l' a' l'' a'', Q l a l' a' -> Q l' a' l'' a'' -> Q l a l'' a''.
Hypothesis Q_learner : forall l a l' a', Q l a l' a' -> l' = l.
Hypothesis Q_step : forall op j f, act op = Act j f -> fits op j \/ forall l a, Q l a (fst (fst (f l a))) (snd (fst (f l a))).
Lemma run_unaffected ops i : forall (w : world L A) o, nth_error (w_objs w) i = Some o ->
  (forall op j, In op ops -> fits op j -> learner_of (fst (run_ops act w ops)) j <> Some (ob_learner o)) ->
  exists o', nth_error (w_objs (fst (run_ops act w ops))) i = Some o' /\ ob_learner o' = ob_learner o /\
    Q (w_learners w (ob_learner o)) (ob_own o) (w_learners (fst (run_ops act w ops)) (ob_learner o)) (ob_own o').
Proof.
  induction ops as [|op ops IH]; intros w o H HF; [exists o; auto|]. cbn [run_ops] in *.
  assert (HS : exists o1, nth_error (w_objs (fst (step w (act op)))) i = Some o1 /\ ob_learner o1 = ob_learner o /\
    Q (w_learners w (ob_learner o)) (ob_own o) (w_learners (fst (step w (act op))) (ob_learner o)) (ob_own o1)).
  { destruct (act op) as [make|j f] eqn:Eop; cbn [step].
    - destruct (make _) as [o'|e]; cbn [fst w_objs w_learners]; [|exists o; auto]. exists o. split; [|auto].
      rewrite nth_error_app1 by (apply nth_error_Some; congruence). exact H.
    - destruct (nth_error (w_objs w) j) as [oj|] eqn:Ej; [|exists o; auto].
      destruct (Q_step op j f Eop) as [HF'|HQ].
      + (* a fit of another learner *)
        assert (Hne : ob_learner oj <> ob_learner o).
        { intros E. apply (HF op j (or_introl eq_refl) HF'). rewrite <- E.
          assert (E1 : learner_of w j = Some (ob_learner oj)) by (unfold learner_of; rewrite Ej; reflexivity).
          pose proof (step_learner_of w (Act j f) j _ E1) as E2. destruct (step w (Act j f)) as [w1 out]. cbn [fst] in E2.
          pose proof (run_learner_of ops w1 j _ E2) as E3. destruct (run_ops act w1 ops). exact E3. }
        destruct (f _ _) as [[l own] out]. cbn [fst w_objs w_learners]. exists o.
        rewrite nth_replace. destruct (Nat.eqb_spec i j) as [->|_]; [exfalso; apply Hne; congruence|].
        split; [exact H|]. split; [reflexivity|]. replace (Nat.eqb (ob_learner o) (ob_learner oj)) with false by (symmetry; apply Nat.eqb_neq; congruence). apply Q_refl.
      + specialize (HQ (w_learners w (ob_learner oj)) (ob_own oj)). destruct (f _ _) as [[l own] out]. cbn [fst snd w_objs w_learners] in *.
        rewrite nth_replace. destruct (Nat.eqb_spec i j) as [->|Hij].
        * rewrite H in Ej. injection Ej as <-. rewrite H. cbn. eexists. split; [reflexivity|]. cbn [ob_learner ob_own]. rewrite Nat.eqb_refl. auto.
        * exists o. split; [exact H|]. split; [reflexivity|]. destruct (Nat.eqb_spec (ob_learner o) (ob_learner oj)) as [E|_]; [|apply Q_refl].
          rewrite E, (Q_learner _ _ _ _ HQ). apply Q_refl. }
  destruct HS as (o1 & H1 & Hl & HQ1). destruct (step w (act op)) as [w1 out]. cbn [fst] in *.
  destruct (IH w1 o1 H1) as (o2 & H2 & Hl2 & HQ2).
  { intros op' j HI HF' E. apply (HF op' j (or_intror HI) HF'). destruct (run_ops act w1 ops). rewrite <- Hl. exact E. }
  exists o2. destruct (run_ops act w1 ops) as [w2 tr]. cbn [fst] in *. rewrite Hl in *. split; [exact H2|]. split; [congruence|]. exact (Q_trans _ _ _ _ _ _ HQ1 HQ2).
Qed.

(** objects that differ only in attributes nobody reads *)
Context (like : A -> A -> Prop).
Hypothesis like_act : forall op j f, act op = Act j f -> forall l a b, like a b ->
  fst (fst (f l a)) = fst (fst (f l b)) /\ like (snd (fst (f l a))) (snd (fst (f l b))) /\ snd (f l a) = snd (f l b).
Definition alike (w1 w2 : world L A) : Prop := (forall b, w_learners w1 b = w_learners w2 b) /\
  Forall2 (fun o1 o2 => ob_learner o1 = ob_learner o2 /\ like (ob_own o1) (ob_own o2)) (w_objs w1) (w_objs w2).
Hypothesis like_refl : forall a, like a a.
Hypothesis act_ext : forall op make, act op = Create make -> forall s1 s2, (forall b, s1 b = s2 b) -> make s1 = make s2.
Lemma Forall2_nth {X Y} (Z : X -> Y -> Prop) l1 l2 : Forall2 Z l1 l2 -> forall j,
  match nth_error l1 j, nth_error l2 j with Some a, Some b => Z a b | None, None => True | _, _ => False end.
Proof. induction 1; intros [|j]; cbn; auto. apply IHForall2. Qed.
Lemma Forall2_replace {X Y} (Z : X -> Y -> Prop) l1 l2 : Forall2 Z l1 l2 -> forall j a b, Z a b -> Forall2 Z (replace_nth j a l1) (replace_nth j b l2).
Proof. induction 1; intros [|j] a b Hab; cbn; constructor; auto. Qed.
Lemma step_alike w1 w2 op : alike w1 w2 -> alike (fst (step w1 (act op))) (fst (step w2 (act op))) /\ snd (step w1 (act op)) = snd (step w2 (act op)).
Proof.
  intros [HL HO]. destruct (act op) as [make|j f] eqn:Eop; cbn [step].
  - rewrite (act_ext op make Eop _ _ HL). destruct (make (w_learners w2)) as [o|e]; cbn [fst snd]; (split; [|reflexivity]); [|split; assumption].
    split; [exact HL|]. cbn [w_objs]. apply Forall2_app; [exact HO|]. constructor; [auto|constructor].
  - pose proof (Forall2_nth _ _ _ HO j) as HJ. destruct (nth_error (w_objs w1) j) as [o1|]; destruct (nth_error (w_objs w2) j) as [o2|]; try contradiction.
    + destruct HJ as [HJ1 HJ2]. rewrite <- HJ1, <- HL. destruct (like_act op j f Eop (w_learners w1 (ob_learner o1)) _ _ HJ2) as (K1 & K2 & K3).
      destruct (f _ (ob_own o1)) as [[l own] out]. destruct (f _ (ob_own o2)) as [[l' own'] out']. cbn [fst snd w_learners w_objs] in *. subst l' out'.
      split; [|reflexivity]. split; [intros b; cbn; rewrite HL; reflexivity|]. apply Forall2_replace; [exact HO|]. auto.
    + split; [split; assumption|reflexivity].
Qed.
Lemma run_alike ops : forall w1 w2, alike w1 w2 -> snd (run_ops act w1 ops) = snd (run_ops act w2 ops).
Proof.
  induction ops as [|op ops IH]; intros w1 w2 HA; [reflexivity|]. cbn [run_ops]. destruct (step_alike w1 w2 op HA) as [H1 H2].
  destruct (step w1 (act op)) as [w1' o1]. destruct (step w2 (act op)) as [w2' o2]. cbn [fst snd] in *. subst o2. specialize (IH w1' w2' H1).
  destruct (run_ops act w1' ops). destruct (run_ops act w2' ops). cbn [snd] in *. congruence.
Qed.
End World.
