(** Proofs: universal kriging on data values of any type (M_ValuesUK.v). *)
From Coq Require Import String FunctionalExtensionality.
From Verif Require Import Base Sums Matrix M_Variogram P_Variogram M_Geometry S_Geometry M_Kriging S_Kriging
  P_Kriging M_Init M_Object M_Execute S_Execute S_Fit P_Object P_Execute P_Cells P_Window P_WindowExec P_Master P_Det P_OK
  M_Values S_Values P_Values P_Values2 P_Values3 M_UK S_UK P_UK P_UK2 P_UK3 P_UK4 M_ValuesUK S_ValuesUK.

Definition trip {A B C D} (f : A -> B) (x : A * C * D) : B * C * D := let '(z, s, w) := x in (f z, s, w).
Definition pairr {A B D} (f : A -> B) (x : A * D) : B * D := (f (fst x), snd x).

Lemma trip_id {A C D} (x : A * C * D) : trip (fun z => z) x = x. Proof. destruct x as [[? ?] ?]; reflexivity. Qed.

(** both right-hand sides depend on the values in no way; only the last sums do *)
Section Hom.
Variables (A B : valg) (h : V A -> V B).
Hypothesis H : hom A B h.
Notation hz z := (fun i : nat => h (z i)).

Lemma uk_vector_h L u Z npt a bd xyz orig specs :
  uk_exec_vector_v B L u (hz Z) npt a bd xyz orig specs = map_res (trip (fun z => hz z)) (uk_exec_vector_v A L u Z npt a bd xyz orig specs).
Proof.
  unfold uk_exec_vector_v.
  repeat (match goal with |- bind ?x _ = map_res _ (bind ?x _) => destruct x; cbn [bind]; [|reflexivity] end).
  match goal with |- context [let '(b, i) := ?s in _] => destruct s as [b i] end. cbn [map_res trip].
  f_equal. f_equal. f_equal. apply functional_extensionality. intros p. apply (vsum_mul A B h H).
Qed.
Lemma uk_loop_h L u Z npt a bd xyz orig mask specs :
  uk_exec_loop_v B L u (hz Z) npt a bd xyz orig mask specs = map_res (trip (fun z => hz z)) (uk_exec_loop_v A L u Z npt a bd xyz orig mask specs).
Proof.
  unfold uk_exec_loop_v. destruct (invert _ _ _ _ _); cbn [bind map_res]; [|reflexivity].
  replace ((fun _ : nat => v0 B), (fun _ : nat => 0), false) with (trip (fun z : nat -> V A => hz z) ((fun _ : nat => v0 A), (fun _ : nat => 0), false)).
  2:{ cbn [trip]. rewrite (h_0 _ _ _ H). reflexivity. }
  apply foldM_sim. intros [[z s] w] j _. cbn [trip]. destruct (uk_rhs_loop _ _ _ _ _ _ _) as [[b w']|]; cbn [bind map_res]; [|reflexivity].
  cbv zeta. cbn [trip]. rewrite (hom_upd A B h), (vsum_mul A B h H). reflexivity.
Qed.
Theorem execute_uk_h E u Z q specs : execute_uk_v B E u (hz Z) q specs = map_res (pairr (hr A B h)) (execute_uk_v A E u Z q specs).
Proof.
  unfold execute_uk_v. destruct (negb _); [reflexivity|].
  destruct (uk_matrix u) as [[a wa]|]; cbn [bind]; [|reflexivity]. cbv zeta.
  match goal with |- bind ?x _ = map_res _ (bind ?x _) => destruct x as [l|]; cbn [bind]; [|reflexivity] end.
  match goal with |- bind ?x _ = map_res _ (bind ?x _) => destruct x as [gs|]; cbn [bind]; [|reflexivity] end.
  match goal with |- bind ?x _ = map_res _ (bind ?x _) => destruct x as [pts|]; cbn [bind]; [|reflexivity] end.
  assert (FIN : forall x : res ((nat -> V A) * vec * bool),
    bind (map_res (trip (fun z => hz z)) x) (fun '(z, s, wb) => Ok (finish_v B (q_style q) l (z, s), wa || wb)) =
    map_res (pairr (hr A B h)) (bind x (fun '(z, s, wb) => Ok (finish_v A (q_style q) l (z, s), wa || wb)))).
  { intros [[[z s] wb]|]; cbn [map_res bind trip]; [|reflexivity]. unfold pairr. cbn [fst snd]. rewrite <- finish_h. reflexivity. }
  destruct (String.eqb _ _); [rewrite uk_vector_h; apply FIN|]. destruct (String.eqb _ _); [rewrite uk_loop_h; apply FIN|reflexivity].
Qed.
End Hom.

(** ---- the R instance ---- *)
Lemma uk_vector_R L u npt a bd xyz orig specs :
  uk_exec_vector_v Rval L u (o_values (u_obj u)) npt a bd xyz orig specs = uk_exec_vector L u npt a bd xyz orig specs.
Proof.
  unfold uk_exec_vector_v, uk_exec_vector.
  repeat (match goal with |- bind ?x _ = bind ?x _ => destruct x; cbn [bind]; [|reflexivity] end).
  match goal with |- context [let '(b, i) := ?s in _] => destruct s as [b i] end.
  f_equal. f_equal. f_equal. apply functional_extensionality. intros p. apply vsum_R.
Qed.
Lemma foldM_ext_f {X Y} (f g : X -> Y -> res X) l : (forall a b, f a b = g a b) -> forall a, foldM f l a = foldM g l a.
Proof. intros He. induction l as [|b l IH]; intros a; cbn [foldM]; [reflexivity|]. rewrite He. destruct (g a b); cbn [bind]; [apply IH|reflexivity]. Qed.
Lemma uk_loop_R L u npt a bd xyz orig mask specs :
  uk_exec_loop_v Rval L u (o_values (u_obj u)) npt a bd xyz orig mask specs = uk_exec_loop L u npt a bd xyz orig mask specs.
Proof.
  unfold uk_exec_loop_v, uk_exec_loop. destruct (invert _ _ _ _ _); cbn [bind]; [|reflexivity].
  apply foldM_ext_f. intros [[z s] w] j. destruct (uk_rhs_loop _ _ _ _ _ _ _) as [[b w']|]; cbn [bind]; [|reflexivity].
  cbv zeta. rewrite vsum_R. reflexivity.
Qed.
Theorem execute_uk_R E u q specs : execute_uk E u q specs = map_res (pairr to_result) (execute_uk_v Rval E u (o_values (u_obj u)) q specs).
Proof.
  unfold execute_uk, execute_uk_v. destruct (negb _); [reflexivity|].
  destruct (uk_matrix u) as [[a wa]|]; cbn [bind]; [|reflexivity]. cbv zeta.
  match goal with |- bind ?x _ = map_res _ (bind ?x _) => destruct x as [l|]; cbn [bind]; [|reflexivity] end.
  match goal with |- bind ?x _ = map_res _ (bind ?x _) => destruct x as [gs|]; cbn [bind]; [|reflexivity] end.
  match goal with |- bind ?x _ = map_res _ (bind ?x _) => destruct x as [pts|]; cbn [bind]; [|reflexivity] end.
  assert (FIN : forall x : res (vec * vec * bool),
    bind x (fun '(z, s, wb) => Ok (finish (q_style q) l (z, s), wa || wb)) =
    map_res (pairr to_result) (bind x (fun '(z, s, wb) => Ok (finish_v Rval (q_style q) l (z, s), wa || wb)))).
  { intros [[[z s] wb]|]; cbn [map_res bind]; reflexivity. }
  rewrite uk_vector_R, uk_loop_R. destruct (String.eqb _ _); [apply FIN|]. destruct (String.eqb _ _); [apply FIN|reflexivity].
Qed.

(** ---- what the estimates are made of ---- *)
Lemma execute_uk_eval A E u Z q specs : execute_uk_v A E u Z q specs = map_res (pairr (hr Fval A (eval A Z))) (execute_uk_v Fval E u TVar q specs).
Proof. exact (execute_uk_h Fval A (eval A Z) (eval_hom A Z) E u TVar q specs). Qed.

Lemma uk_vector_made L u npt a bd xyz orig specs z s w p :
  uk_exec_vector_v Fval L u TVar npt a bd xyz orig specs = Ok (z, s, w) -> made_of (o_n (u_obj u)) (fun k => k) (z p).
Proof.
  unfold uk_exec_vector_v.
  repeat (match goal with |- bind ?x _ = Ok _ -> _ => destruct x; cbn [bind]; [|discriminate] end).
  match goal with |- context [let '(b, i) := ?s in _] => destruct s as [b i] end.
  intros H. injection H as <- _ _. intros i0. apply occurs_vsum.
Qed.
Lemma uk_loop_made L u npt a bd xyz orig mask specs z s w p : (p < npt)%nat -> mask p = false ->
  uk_exec_loop_v Fval L u TVar npt a bd xyz orig mask specs = Ok (z, s, w) -> made_of (o_n (u_obj u)) (fun k => k) (z p).
Proof.
  intros Hp Hm. unfold uk_exec_loop_v. destruct (invert _ _ _ _ _); cbn [bind]; [|discriminate]. intros H.
  apply (foldM_prop (fun st : (nat -> P_Values2.term) * vec * bool => fst (fst st)) (fun i (t : P_Values2.term) => made_of (o_n (u_obj u)) (fun k => k) t)) in H.
  - destruct H as [H _]. exact (H p (proj2 (unmasked_spec npt mask p) (conj Hp Hm))).
  - intros [[z1 s1] w1] i [[z2 s2] w2] _. cbn [fst]. destruct (uk_rhs_loop _ _ _ _ _ _ _) as [[b w']|]; cbn [bind]; [|discriminate].
    cbv zeta. intros E. injection E as <- _ _. split.
    + rewrite upd_same. intros i'. apply occurs_vsum.
    + intros j Hj. apply upd_other. exact Hj.
Qed.
Lemma execute_uk_terms E u q specs r w : execute_uk_v Fval E u TVar q specs = Ok (r, w) ->
  exists l, locate (o_dim (u_obj u)) (q_style q) (q_pts q) (q_mask q) = Ok l /\
    forall p, (p < l_npt l)%nat -> l_mask l p = false -> exists t, rv_value r p = Some t /\ made_of (o_n (u_obj u)) (fun k => k) t.
Proof.
  unfold execute_uk_v. destruct (negb _); [discriminate|]. destruct (uk_matrix u) as [[a wa]|]; cbn [bind]; [|discriminate].
  unfold locate. destruct (match o_dim (u_obj u) with 2%nat => locate2 | _ => locate3 end _ _ _) as [l|]; cbn [bind]; [|discriminate].
  destruct (spec_grids _ _ _ _) as [gs|]; cbn [bind]; [|discriminate]. destruct (adjust_query _ _ _) as [pts|]; cbn [bind]; [|discriminate].
  cbv zeta. intros H. exists l. split; [reflexivity|]. intros p Hp Hm. revert H. destruct (String.eqb _ _).
  - destruct (uk_exec_vector_v _ _ _ _ _ _ _ _ _ _) as [[[z s] wb]|] eqn:Ez; cbn [bind]; [|discriminate].
    intros H. injection H as <- _. exists (z p). split; [apply P_Values2.finish_shown, Hm|]. exact (uk_vector_made _ _ _ _ _ _ _ _ _ _ _ p Ez).
  - destruct (String.eqb _ _); [|discriminate].
    destruct (uk_exec_loop_v _ _ _ _ _ _ _ _ _ _ _) as [[[z s] wb]|] eqn:Ez; cbn [bind]; [|discriminate].
    intros H. injection H as <- _. exists (z p). split; [apply P_Values2.finish_shown, Hm|]. exact (uk_loop_made _ _ _ _ _ _ _ _ _ _ _ _ p Hp Hm Ez).
Qed.

Theorem uk_nan_raises E u q specs z e : execute_uk_v Nval E u z q specs = Err e <-> execute_uk E u q specs = Err e.
Proof.
  rewrite execute_uk_R, (execute_uk_eval Nval), (execute_uk_eval Rval). destruct (execute_uk_v Fval E u TVar q specs) as [r|e'] eqn:EF; cbn [map_res].
  - split; discriminate.
  - split; intros K; injection K as ->; reflexivity.
Qed.

Theorem uk_nan_values E u q specs z r w : ureachable E u -> execute_uk E u q specs = Ok (r, w) ->
  (forall i v, (i < o_n (u_obj u))%nat -> z i = Some v -> o_values (u_obj u) i = v) ->
  exists rn, execute_uk_v Nval E u z q specs = Ok (rn, w) /\ uk_nan_result u q z r rn.
Proof.
  intros HR HX HZ. rewrite execute_uk_R, (execute_uk_eval Rval) in HX. rewrite (execute_uk_eval Nval).
  destruct (execute_uk_v Fval E u TVar q specs) as [[rf wf]|] eqn:EF; cbn [map_res] in *; [|discriminate].
  destruct (execute_uk_terms E u q specs rf wf EF) as (l & HL & HT).
  unfold pairr in HX. cbn [fst snd] in HX. injection HX as HX Hw. subst wf. unfold pairr. cbn [fst snd].
  eexists. split; [reflexivity|]. rewrite <- HX. unfold uk_nan_result. cbn [to_result hr rv_shape rv_value rv_variance r_shape r_value r_variance].
  split; [reflexivity|]. split; [reflexivity|]. split.
  { intros p. destruct (rv_value rf p); cbn [option_map]; split; first [discriminate|reflexivity]. }
  intros p pos [C NH]. pose proof (cell_hidden_mask (o_dim (u_obj u)) q l p pos (o_dim_cases _) HL C) as HH.
  destruct (locate_cell _ q l p pos (o_dim_cases _) HL C) as [Hp _].
  assert (Hm : l_mask l p = false).
  { destruct (locate_facts _ _ _ _ _ (o_dim_cases _) HL) as [_ [Hs|Hs]]; [|apply Hs].
    destruct (l_mask l p) eqn:EM; [|reflexivity]. exfalso. apply NH, HH. rewrite Hs. reflexivity. }
  destruct (HT p Hp Hm) as (t & Ht & HM). rewrite Ht. cbn [option_map]. split.
  - intros (i & Hi & Hz). f_equal. apply eval_nan. exists i. split; [apply HM; exists i; auto|exact Hz].
  - intros Hall. eexists. split; [reflexivity|]. f_equal. apply (eval_number z). intros i Ho. apply HM in Ho. destruct Ho as (k & Hk & ->).
    destruct (z k) as [v|] eqn:Ez; [|exfalso; exact (Hall k Hk Ez)]. rewrite (HZ k v Hk Ez). reflexivity.
Qed.

(** ---- the constructor ---- *)
Lemma drift_with_exp c D o z lags sv : init_drift c D (with_exp o z lags sv) = init_drift c D o.
Proof. reflexivity. Qed.
Lemma execute_uk_with_exp A E o z lags sv d Z q specs :
  execute_uk_v A E {| u_obj := with_exp o z lags sv; u_drift := d |} Z q specs = execute_uk_v A E {| u_obj := o; u_drift := d |} Z q specs.
Proof. reflexivity. Qed.

Theorem uk_nan_construct E c A D z zs : c = UK2 \/ c = UK3 -> List.length (c_coords A) = cdim c -> explicit_params (c_v A) -> filled z zs ->
  (forall e, construct_uk_nan E c A z D = Err e <-> construct_uk E c (with_values A zs) D = Err e) /\
  forall u', construct_uk E c (with_values A zs) D = Ok u' -> exists u zv sn, construct_uk_nan E c A z D = Ok (u, zv, sn) /\
    ((1 <= a_nlags (c_v A))%nat -> experimental_known_of (u_obj u) zv (a_nlags (c_v A))) /\ o_params (u_obj u) = o_params (u_obj u') /\
    u_drift u = u_drift u' /\ nan_statistics E (u_obj u') zv sn /\
    forall q specs, (forall e, execute_uk_v Nval E u zv q specs = Err e <-> execute_uk E u' q specs = Err e) /\
      forall r w, execute_uk E u' q specs = Ok (r, w) ->
        exists rn, execute_uk_v Nval E u zv q specs = Ok (rn, w) /\ uk_nan_result u' q (fun i => nth i z (Some 0)) r rn.
Proof.
  intros Hc HC HX HF. destruct (nan_construct E c A z zs HC HX HF) as [HE HO]. unfold construct_uk_nan.
  destruct (construct E c (with_values A zs)) as [o'|e0] eqn:ECo.
  2:{ assert (K : construct_nan E c A z = Err e0) by (apply HE; reflexivity). rewrite K. unfold construct_uk. rewrite ECo. cbn [bind]. split.
      - intros e. split; intros H; injection H as H; rewrite H; reflexivity.
      - intros u' H. discriminate H. }
  destruct (HO o' eq_refl) as (o & zv & sn & HN & Hexp & Hpar & Hst & (lags & sv & Hw) & Hz & _). rewrite HN. cbn [bind].
  assert (HDR : init_drift c D o = init_drift c D o') by (rewrite Hw; apply drift_with_exp). rewrite HDR. split.
  - intros e. unfold construct_uk. rewrite ECo. cbn [bind]. destruct (init_drift c D o'); cbn [bind]; [split; discriminate|split; congruence].
  - intros u' Hu. assert (HR : ureachable E u') by (exact (ur_new E c (with_values A zs) D u' Hc HC Hu)).
    unfold construct_uk in Hu. rewrite ECo in Hu. cbn [bind] in Hu. destruct (init_drift c D o') as [d|] eqn:ED; [|discriminate Hu]. cbn [bind] in Hu |- *.
    injection Hu as Hu. exists {| u_obj := o; u_drift := d |}, zv, sn. rewrite <- Hu in *. cbn [u_obj u_drift].
    split; [reflexivity|]. split; [exact Hexp|]. split; [exact Hpar|]. split; [reflexivity|]. split; [exact Hst|].
    assert (HV : forall i v, (i < o_n o')%nat -> zv i = Some v -> o_values o' i = v).
    { intros i v _ Hv. pose proof (construct_inv _ _ _ _ ECo) as (ex & name & prm & fn & sc & an & f & vp & lags' & sv' & params & Hall).
      destruct Hall as (_&_&_&_&_&_&_&_&_&_&_&_&_&_&_&_&_&Hval&_). rewrite Hval. cbn [with_values c_values].
      rewrite Hz in Hv. exact (filled_any z zs HF i v Hv). }
    intros q specs. rewrite Hw, execute_uk_with_exp. split; [intros e; apply uk_nan_raises|]. intros r w Hr.
    destruct (uk_nan_values E {| u_obj := o'; u_drift := d |} q specs zv r w HR Hr HV) as (rn & H1 & H2). exists rn. split; [exact H1|].
    rewrite Hz in H2. exact H2.
Qed.
