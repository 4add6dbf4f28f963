(** Proofs: which data values an estimate is made of (M_Values.v). *)
From Coq Require Import String FunctionalExtensionality.
From Verif Require Import Base Sums Matrix M_Variogram P_Variogram M_Geometry S_Geometry M_Kriging S_Kriging
  P_Kriging M_Init M_Object M_Execute S_Execute P_Object P_Execute P_Cells P_Window P_WindowExec P_Master P_Det P_OK M_Values P_Values.

(** expressions over the data values *)
Inductive term := T0 | TAdd (a b : term) | TMul (w : R) (a : term) | TVar (i : nat).
Definition Fval : valg := {| V := term; v0 := T0; vadd := TAdd; vmul := TMul |}.
Fixpoint eval (A : valg) (Z : nat -> V A) (t : term) : V A :=
  match t with T0 => v0 A | TAdd a b => vadd A (eval A Z a) (eval A Z b) | TMul w a => vmul A w (eval A Z a) | TVar i => Z i end.
Lemma eval_hom A Z : hom Fval A (eval A Z).
Proof. split; reflexivity. Qed.
Fixpoint occurs (i : nat) (t : term) : Prop :=
  match t with T0 => False | TAdd a b => occurs i a \/ occurs i b | TMul _ a => occurs i a | TVar j => i = j end.

Lemma execute_eval A E o Z q : execute_v A E o Z q = map_res (hr Fval A (eval A Z)) (execute_v Fval E o TVar q).
Proof. exact (execute_h Fval A (eval A Z) (eval_hom A Z) E o TVar q). Qed.

Lemma eval_nan Z t : eval Nval Z t = None <-> exists i, occurs i t /\ Z i = None.
Proof.
  induction t as [|a IHa b IHb|w a IH|i]; cbn [eval occurs].
  - split; [discriminate|intros (i & [] & _)].
  - cbn [vadd Nval]. unfold nadd. split.
    + intros H. destruct (eval Nval Z a) eqn:Ea.
      * destruct (eval Nval Z b) eqn:Eb; [discriminate|]. destruct (proj1 IHb eq_refl) as (i & H1 & H2). exists i. auto.
      * destruct (proj1 IHa eq_refl) as (i & H1 & H2). exists i. auto.
    + intros (i & [H|H] & Hi).
      * rewrite (proj2 IHa (ex_intro _ i (conj H Hi))). reflexivity.
      * rewrite (proj2 IHb (ex_intro _ i (conj H Hi))). destruct (eval Nval Z a); reflexivity.
  - cbn [vmul Nval]. unfold nmul. split.
    + intros H. apply IH. destruct (eval Nval Z a); [discriminate|reflexivity].
    + intros H. rewrite (proj2 IH H). reflexivity.
  - split; [intros H; exists i; auto|intros (j & -> & H); exact H].
Qed.
Lemma eval_number Z z t : (forall i, occurs i t -> Z i = Some (z i)) -> eval Nval Z t = Some (eval Rval z t).
Proof.
  induction t as [|a IHa b IHb|w a IH|i]; cbn [eval occurs]; intros H.
  - reflexivity.
  - rewrite IHa, IHb by (intros; apply H; auto). reflexivity.
  - rewrite IH by exact H. reflexivity.
  - apply H. reflexivity.
Qed.
Lemma occurs_vsum n x (sel : nat -> nat) i : occurs i (vsum Fval n (fun k => vmul Fval (x k) (TVar (sel k)))) <-> exists k, (k < n)%nat /\ i = sel k.
Proof.
  induction n as [|n IH]; cbn [vsum occurs Fval vadd vmul v0].
  - split; [intros []|intros (k & Hk & _); lia].
  - rewrite IH. split.
    + intros [(k & Hk & ->)|H]; [exists k; split; [lia|reflexivity]|exists n; split; [lia|exact H]].
    + intros (k & Hk & ->). destruct (Nat.eq_dec k n) as [->|]; [right; reflexivity|left; exists k; split; [lia|reflexivity]].
Qed.
Lemma c_vsum_vsum n (f : nat -> term) : c_vsum Fval n f = vsum Fval n f.
Proof.
  induction n as [|n IH]; [reflexivity|]. unfold c_vsum. rewrite seq_S, fold_left_app. cbn [fold_left Nat.add vsum].
  fold (c_vsum Fval n f). rewrite IH. reflexivity.
Qed.
Lemma foldM_vsum N n x (sel : nat -> nat) v :
  foldM (fun acc k => do z <- rd_v Fval N TVar (sel k) ;; Ok (vadd Fval acc (vmul Fval (x k) z))) (seq 0 n) (v0 Fval) = Ok v ->
  v = vsum Fval n (fun k => vmul Fval (x k) (TVar (sel k))).
Proof.
  intros H. rewrite <- c_vsum_vsum. unfold c_vsum. revert H. generalize (v0 Fval). generalize (seq 0 n).
  induction l as [|k l IH]; intros a; cbn [foldM fold_left]; [congruence|].
  unfold rd_v at 1. destruct (Nat.ltb _ _); cbn [bind]; [|discriminate]. apply IH.
Qed.

(** an entry is written with a value that has the property; the others are not touched *)
Lemma fold_prop {S T} (get : S -> nat -> T) (P : nat -> T -> Prop) (f : S -> nat -> S) l :
  (forall s i, In i l -> P i (get (f s i) i) /\ forall j, j <> i -> get (f s i) j = get s j) ->
  forall s, (forall i, In i l -> P i (get (fold_left f l s) i)) /\ (forall j, ~ In j l -> get (fold_left f l s) j = get s j).
Proof.
  induction l as [|i l IH]; intros H s; cbn [fold_left].
  - split; [intros i []|reflexivity].
  - destruct (IH (fun s i0 Hi => H s i0 (or_intror Hi)) (f s i)) as [H1 H2]. destruct (H s i (or_introl eq_refl)) as [H3 H4]. split.
    + intros j [<-|Hj]; [|apply H1, Hj]. destruct (in_dec Nat.eq_dec i l) as [Hi|Hi]; [apply H1, Hi|]. rewrite (H2 _ Hi). exact H3.
    + intros j Hj. rewrite H2 by (intros Hc; apply Hj; right; exact Hc). apply H4. intros ->. apply Hj. left; reflexivity.
Qed.
Lemma foldM_prop {S T} (get : S -> nat -> T) (P : nat -> T -> Prop) (f : S -> nat -> res S) l :
  (forall s i s', In i l -> f s i = Ok s' -> P i (get s' i) /\ forall j, j <> i -> get s' j = get s j) ->
  forall s s', foldM f l s = Ok s' -> (forall i, In i l -> P i (get s' i)) /\ (forall j, ~ In j l -> get s' j = get s j).
Proof.
  induction l as [|i l IH]; intros H s s'; cbn [foldM].
  - intros E. injection E as <-. split; [intros i []|reflexivity].
  - destruct (f s i) as [s1|] eqn:E1; cbn [bind]; [|discriminate]. intros E.
    destruct (IH (fun s i0 s' Hi => H s i0 s' (or_intror Hi)) s1 s' E) as [H1 H2]. destruct (H s i s1 (or_introl eq_refl) E1) as [H3 H4]. split.
    + intros j [<-|Hj]; [|apply H1, Hj]. destruct (in_dec Nat.eq_dec i l) as [Hi|Hi]; [apply H1, Hi|]. rewrite (H2 _ Hi). exact H3.
    + intros j Hj. rewrite H2 by (intros Hc; apply Hj; right; exact Hc). apply H4. intros ->. apply Hj. left; reflexivity.
Qed.

Definition made_of (m : nat) (sel : nat -> nat) (t : term) : Prop := forall i, occurs i t <-> exists k, (k < m)%nat /\ i = sel k.

Lemma vector_made L pi pit n npt vg e ex a bd z s p :
  exec_vector_v Fval L pi pit n npt vg e ex TVar a bd = Ok (z, s) -> made_of n (fun k => k) (z p).
Proof.
  unfold exec_vector_v. destruct (invert _ _ _ _ _); cbn [bind]; [|discriminate]. intros H. injection H as <- _.
  intros i. exact (occurs_vsum n (fun k => mulv (n + 1) a0 (rhs_vector n npt vg e ex bd p) k) (fun k => k) i).
Qed.
Lemma loop_made L pi pit n npt vg e ex a bd mask z s p : (p < npt)%nat -> mask p = false ->
  exec_loop_v Fval L pi pit n npt vg e ex TVar a bd mask = Ok (z, s) -> made_of n (fun k => k) (z p).
Proof.
  intros Hp Hm. unfold exec_loop_v. destruct (invert _ _ _ _ _); cbn [bind]; [|discriminate]. intros H. injection H as H.
  match type of H with fold_left ?f ?l ?s0 = _ =>
    destruct (fold_prop (fun st : (nat -> term) * vec => fst st) (fun i t => made_of n (fun k => k) t) f l) with (s := s0) as [H1 _] end.
  - intros [z1 s1] i _. cbv zeta. cbn [fst]. split.
    + rewrite upd_same. intros i'. exact (occurs_vsum n _ (fun k => k) i').
    + intros j Hj. apply upd_other. exact Hj.
  - specialize (H1 p (proj2 (unmasked_spec npt mask p) (conj Hp Hm))).
    pose proof (f_equal fst H) as H2. cbn [fst] in H2. rewrite <- H2. exact H1.
Qed.
Lemma mw_made L N k npt vg vi e ex a bd mask idx z s p : (p < npt)%nat -> mask p = false ->
  exec_loop_moving_window_v Fval L N k npt vg vi e ex TVar a bd mask idx = Ok (z, s) -> made_of k (idx p) (z p).
Proof.
  intros Hp Hm. unfold exec_loop_moving_window_v. intros H.
  apply (foldM_prop (fun st : (nat -> term) * vec => fst st) (fun i t => made_of k (idx i) t)) in H.
  - destruct H as [H _]. exact (H p (proj2 (unmasked_spec npt mask p) (conj Hp Hm))).
  - intros [z1 s1] i [z2 s2] _. cbv zeta. cbn [fst]. destruct (scipy_solve _ _ _ _) as [x|]; cbn [bind]; [|discriminate].
    destruct (forallb _ _); [|discriminate]. intros E. injection E as <- _. split.
    + rewrite upd_same. intros i'. exact (occurs_vsum k x (idx i) i').
    + intros j Hj. apply upd_other. exact Hj.
Qed.
Lemma c_loop_made L pi pit n npt f params e ex a bd mask z s p : (p < npt)%nat -> mask p = false ->
  c_exec_loop_v Fval L pi pit n npt f params e ex TVar a bd mask = Ok (z, s) -> made_of n (fun k => k) (z p).
Proof.
  intros Hp Hm. unfold c_exec_loop_v. destruct (get_variogram_model _) as [cf|]; cbn [bind]; [|discriminate].
  destruct (invert _ _ _ _ _) as [ai|]; cbn [bind]; [|discriminate]. cbv zeta. intros H. injection H as H _.
  match type of H with czv (fold_left ?f ?l ?s0) = _ =>
    destruct (fold_prop (fun st : cstate_v Fval => czv st) (fun i t => mask i = false -> made_of n (fun k => k) t) f l) with (s := s0) as [H1 _] end.
  - intros s1 i _. unfold c_point_v. destruct (mask i); [split; [discriminate|reflexivity]|]. cbv zeta. cbn [czv]. split.
    + intros _. rewrite upd_same, c_vsum_vsum. intros i'. exact (occurs_vsum n _ (fun k => k) i').
    + intros j Hj. apply upd_other. exact Hj.
  - specialize (H1 p ltac:(apply in_seq; lia) Hm). rewrite <- H. exact H1.
Qed.
Lemma c_mw_made L lu N k npt f params e ex a bd mask idx z s p : (p < npt)%nat -> mask p = false ->
  c_exec_loop_moving_window_v Fval L lu N k npt f params e ex TVar a bd mask idx = Ok (z, s) -> made_of k (idx p) (z p).
Proof.
  intros Hp Hm. unfold c_exec_loop_moving_window_v. destruct (get_variogram_model _) as [cf|]; cbn [bind]; [|discriminate].
  destruct (foldM _ _ _) as [st|] eqn:H; cbn [bind]; [|discriminate]. intros E. injection E as E _. rewrite <- E. clear E.
  apply (foldM_prop (fun st : wstate_v Fval => wzv st) (fun i t => mask i = false -> made_of k (idx i) t)) in H.
  - destruct H as [H _]. apply (H p ltac:(apply in_seq; lia) Hm).
  - intros s1 i s2 _. unfold cw_point_v. destruct (mask i); [intros E; injection E as <-; split; [discriminate|reflexivity]|]. cbv zeta.
    repeat (match goal with |- bind ?x _ = Ok _ -> _ => lazymatch type of x with res vec => destruct x; cbn [bind]; [|discriminate] end end).
    destruct (negb _); [discriminate|]. destruct (dgesv _ _ _ _ _) as [[M' x]|]; [|discriminate].
    match goal with |- bind ?y _ = Ok _ -> _ => destruct y as [v|] eqn:Ev; cbn [bind]; [|discriminate] end.
    intros E. injection E as <-. cbn [wzv]. split.
    + intros _. rewrite upd_same. rewrite (foldM_vsum N k x (idx i) v Ev). intros i'. exact (occurs_vsum k x (idx i) i').
    + intros j Hj. apply upd_other. exact Hj.
Qed.

Definition used (E : env) (o : obj) (q : query) (pts : mat) (p : nat) (t : term) : Prop :=
  match q_window q with None => made_of (o_n o) (fun k => k) t | Some k => made_of k (snd (neighbours E o pts k p)) t end.
Lemma finish_shown (A : valg) style l (z : nat -> V A) (s : vec) p : l_mask l p = false -> rv_value (finish_v A style l (z, s)) p = Some (z p).
Proof. intros H. unfold finish_v. cbn [rv_value fst]. destruct (String.eqb _ _); [rewrite H|]; reflexivity. Qed.

Lemma execute_terms E o q r : execute_v Fval E o TVar q = Ok r ->
  exists l pts, locate (o_dim o) (q_style q) (q_pts q) (q_mask q) = Ok l /\ adjust_query o (q_int q) (l_at l) = Ok pts /\
    forall p, (p < l_npt l)%nat -> l_mask l p = false -> exists t, rv_value r p = Some t /\ used E o q pts p t.
Proof.
  unfold execute_v, o_dim, used. destruct (o_class o); try discriminate; cbn [cdim locate].
  - unfold execute2_v. destruct (negb _); [discriminate|]. destruct (match q_window q with Some _ => _ | None => _ end); [discriminate|].
    destruct (locate2 _ _ _) as [l|]; cbn [bind]; [|discriminate]. destruct (adjust_query _ _ _) as [pts|] eqn:HA; cbn [bind]; [|discriminate].
    intros H. exists l, pts. split; [reflexivity|]. split; [exact HA|]. intros p Hp Hm. revert H.
    destruct (q_window q) as [k|]; cbv zeta.
    + destruct (neighbours_error _ _ _ _ _); [discriminate|]. destruct (String.eqb _ _).
      * destruct (exec_loop_moving_window_v _ _ _ _ _ _ _ _ _ _ _ _ _ _) as [[z s]|] eqn:Ez; cbn [bind]; [|discriminate].
        intros H. injection H as <-. exists (z p). split; [apply finish_shown, Hm|]. exact (mw_made _ _ _ _ _ _ _ _ _ _ _ _ _ _ p Hp Hm Ez).
      * destruct (String.eqb _ _); [|discriminate].
        destruct (c_exec_loop_moving_window_v _ _ _ _ _ _ _ _ _ _ _ _ _ _ _) as [[z s]|] eqn:Ez; cbn [bind]; [|discriminate].
        intros H. injection H as <-. exists (z p). split; [apply finish_shown, Hm|]. exact (c_mw_made _ _ _ _ _ _ _ _ _ _ _ _ _ _ _ p Hp Hm Ez).
    + destruct (String.eqb _ _); [|destruct (String.eqb _ _); [|destruct (String.eqb _ _); [|discriminate]]].
      * destruct (exec_vector_v _ _ _ _ _ _ _ _ _ _ _ _) as [[z s]|] eqn:Ez; cbn [bind]; [|discriminate].
        intros H. injection H as <-. exists (z p). split; [apply finish_shown, Hm|]. exact (vector_made _ _ _ _ _ _ _ _ _ _ _ _ p Ez).
      * destruct (exec_loop_v _ _ _ _ _ _ _ _ _ _ _ _ _) as [[z s]|] eqn:Ez; cbn [bind]; [|discriminate].
        intros H. injection H as <-. exists (z p). split; [apply finish_shown, Hm|]. exact (loop_made _ _ _ _ _ _ _ _ _ _ _ _ _ p Hp Hm Ez).
      * destruct (c_exec_loop_v _ _ _ _ _ _ _ _ _ _ _ _ _ _) as [[z s]|] eqn:Ez; cbn [bind]; [|discriminate].
        intros H. injection H as <-. exists (z p). split; [apply finish_shown, Hm|]. exact (c_loop_made _ _ _ _ _ _ _ _ _ _ _ _ _ _ p Hp Hm Ez).
  - unfold execute3_v. destruct (negb _); [discriminate|].
    destruct (locate3 _ _ _) as [l|]; cbn [bind]; [|discriminate]. destruct (adjust_query _ _ _) as [pts|] eqn:HA; cbn [bind]; [|discriminate].
    intros H. exists l, pts. split; [reflexivity|]. split; [exact HA|]. intros p Hp Hm. revert H.
    destruct (q_window q) as [k|]; cbv zeta.
    + destruct (Nat.eqb k 0); [discriminate|]. destruct (String.eqb _ _); [|discriminate]. destruct (Nat.eqb k 1); [discriminate|].
      destruct (exec_loop_moving_window_v _ _ _ _ _ _ _ _ _ _ _ _ _ _) as [[z s]|] eqn:Ez; cbn [bind]; [|discriminate].
      intros H. injection H as <-. exists (z p). split; [apply finish_shown, Hm|]. exact (mw_made _ _ _ _ _ _ _ _ _ _ _ _ _ _ p Hp Hm Ez).
    + destruct (String.eqb _ _); [|destruct (String.eqb _ _); [|discriminate]].
      * destruct (exec_vector_v _ _ _ _ _ _ _ _ _ _ _ _) as [[z s]|] eqn:Ez; cbn [bind]; [|discriminate].
        intros H. injection H as <-. exists (z p). split; [apply finish_shown, Hm|]. exact (vector_made _ _ _ _ _ _ _ _ _ _ _ _ p Ez).
      * destruct (exec_loop_v _ _ _ _ _ _ _ _ _ _ _ _ _) as [[z s]|] eqn:Ez; cbn [bind]; [|discriminate].
        intros H. injection H as <-. exists (z p). split; [apply finish_shown, Hm|]. exact (loop_made _ _ _ _ _ _ _ _ _ _ _ _ _ p Hp Hm Ez).
Qed.
