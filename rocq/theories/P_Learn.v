(** Proofs for C41, C43, C56. *)
From Coq Require Import String.
From Verif Require Import Base Sums Matrix M_Variogram M_Geometry S_Geometry M_Kriging M_Init M_Object M_Execute S_Execute M_UK S_UK M_Compat S_Compat
  M_Ilr M_Learn P_Object P_Execute P_Master P_Exec2 P_UK P_UK3 P_UK4 P_UK5 P_UK10 P_Compat P_Ilr.

Lemma col_of (cols : list (list R)) i j : columns cols i j = rnth (nth j cols []) i.
Proof. reflexivity. Qed.

Lemma fit_inv E k x y k' c : class_of (k_method k) = Some c -> krige_fit E k x y = (k', None) ->
  exists m, direct_call E k c x y = Ok m /\ k' = set_fitted k (Some m) /\ List.length (p_cols x) = cdim c.
Proof.
  intros HC HF.
  destruct (Nat.lt_ge_cases (List.length (k_scaling k)) 2) as [L|L1]; [rewrite fit_short_tuple in HF by auto; discriminate HF|].
  destruct (Nat.lt_ge_cases (List.length (k_angle k)) 3) as [L|L2]; [rewrite fit_short_tuple in HF by auto; discriminate HF|].
  destruct (Nat.eq_dec (List.length (p_cols x)) (cdim c)) as [HX|HX]; [|rewrite (fit_wrong_dimension E k x y c) in HF by assumption; discriminate HF].
  rewrite (fit_is_direct E k x y c) in HF by assumption. destruct (direct_call E k c x y) as [m|e]; [|discriminate HF].
  exists m. split; [reflexivity|]. split; [|exact HX]. apply (f_equal fst) in HF. symmetry. exact HF.
Qed.

Lemma construct_data E c A o : construct E c A = Ok o ->
  o_class o = c /\ o_pinv o = c_pinv A /\ (c_exact A = Some true -> o_exact o = true) /\
  o_n o = List.length (nth 0 (c_coords A) []) /\ o_orig o = columns (c_coords A) /\ o_values o = rnth (c_values A).
Proof.
  intros HC. pose proof (construct_inv E c A o HC) as (ex & nm & prm & fn & sc & an & f & vp & lags & sv & params & Hall).
  destruct Hall as (_ & He & _ & _ & _ & _ & _ & _ & H1 & H2 & _ & H3 & _ & _ & _ & H4 & H5 & H6 & _).
  repeat split; try assumption. intros H. rewrite H in He. injection He as <-. exact H3.
Qed.

Lemma direct_obj E k c x y m : direct_call E k c x y = Ok m -> construct E c (direct_args k c x y) = Ok (kobj m) /\
  match m with KOrd o => c = OK2 \/ c = OK3 | KUni u => (c = UK2 \/ c = UK3) /\ construct_uk E c (direct_args k c x y) (direct_drift k c) = Ok u /\ dr_spec (u_drift u) = None end.
Proof.
  assert (KU : forall c u, construct_uk E c (direct_args k c x y) (direct_drift k c) = Ok u ->
     construct E c (direct_args k c x y) = Ok (u_obj u) /\ dr_spec (u_drift u) = None).
  { intros c' u HU. unfold construct_uk in HU. bindok HU. bindok HU. injection HU as <-. cbn [u_obj u_drift]. split; [reflexivity|].
    assert (HD : d_spec (direct_drift k c') = None) by (destruct c'; reflexivity).
    match goal with H : init_drift _ _ _ = Ok _ |- _ => unfold init_drift, init_specified in H; rewrite HD in H;
      unfold opt_drift at 3 in H; bindok H; bindok H; destruct (in_names "specified" _); [discriminate H|]; cbn [bind] in H; bindok H; injection H as <-; reflexivity end. }
  unfold direct_call. intros H. destruct c.
  - destruct (construct E OK2 _) eqn:HC; [|discriminate H]. injection H as <-. auto.
  - destruct (construct_uk E UK2 _ _) eqn:HC; [|discriminate H]. injection H as <-. destruct (KU _ _ HC). auto.
  - destruct (construct E OK3 _) eqn:HC; [|discriminate H]. injection H as <-. auto.
  - destruct (construct_uk E UK3 _ _) eqn:HC; [|discriminate H]. injection H as <-. destruct (KU _ _ HC). auto.
Qed.

Lemma exact_backend_cases extra : exact_backend extra -> exists b, (b = "loop" \/ b = "vectorized")%string /\
  (extra = [] /\ b = "loop"%string \/ extra = [("backend"%string, V_str b)]).
Proof. intros [->|[->| ->]]; [exists "loop"%string|exists "loop"%string|exists "vectorized"%string]; auto. Qed.

Theorem krige_interpolates E k x y k' x' extra sh v i j c : env_ok E -> class_of (k_method k) = Some c -> krige_fit E k x y = (k', None) ->
  k_exact k = Some true -> k_pinv k = false -> apart k' ->
  krige_predict E k' x' extra = Ok (sh, v) -> exact_backend extra ->
  (i < n_rows x')%nat -> (j < n_rows x)%nat -> same_row x' i x j ->
  v i = Some (rnth y j).
Proof.
  intros HE HC HF Hex Hpi (m' & Hm & HA) HP HB Hi Hj HS.
  destruct (fit_inv E k x y k' c HC HF) as (m & HD & -> & HX). cbn [set_fitted k_fitted] in Hm. injection Hm as <-.
  pose proof (fit_fitted E k x y c m HC HD) as HFA.
  assert (HX' : List.length (p_cols x') = cdim c).
  { destruct (Nat.eq_dec (List.length (p_cols x')) (cdim c)) as [K|K]; [exact K|]. exfalso.
    rewrite (predict_wrong_dimension E _ x' extra c m) in HP; [discriminate HP|reflexivity|exact HC|exact K]. }
  destruct (exact_backend_cases _ HB) as (b & Hb & Hextra).
  rewrite (predict_with_backend E _ x' c m b extra HFA HX' Hextra) in HP.
  destruct (direct_obj E k c x y m HD) as (HCo & HM). pose proof (construct_data E c _ _ HCo) as (Hcl & Hpinv & Hexact & Hn & Horig & Hval).
  cbn [direct_args c_coords c_values c_pinv c_exact] in *. specialize (Hexact Hex). rewrite Hpi in Hpinv.
  assert (Hdim : o_dim (kobj m) = cdim c) by (unfold o_dim; rewrite Hcl; reflexivity).
  assert (Hj' : (j < o_n (kobj m))%nat) by (rewrite Hn; exact Hj).
  assert (HSH : forall w, shown (kobj m) (points_query x' b w) i (datum (kobj m) j)).
  { intros w. split.
    - unfold datum. rewrite Horig, !col_of, <- (HS 0%nat), <- (HS 1%nat), <- (HS 2%nat).
      exact (cell_point (o_dim (kobj m)) (points_query x' b w) i eq_refl Hi).
    - intros HH. inversion HH as [? ? ? Hs|? ? ? ? Hs]; discriminate Hs. }
  rewrite <- Hval. destruct m as [o|u]; cbn [kobj direct_predict] in *.
  - destruct (execute E o _) as [r|e] eqn:ER; [|discriminate HP]. injection HP as <- <-.
    refine (proj1 (interpolates E o (points_query x' b (k_window k)) r i j _ (or_introl Hpinv) Hexact Hj' (HSH _) _)).
    + split; [exact HE|]. split; [exact (reach_new E c (direct_args k c x y) o HX HCo)|]. split; [unfold ordinary; rewrite Hcl; exact HM|]. split; [|exact ER].
      intros K. cbn in K. destruct Hb; subst b; discriminate K.
    + intros a Ha Na. apply HA; auto.
  - destruct HM as (HM & HU & HSpec). destruct (execute_uk E u _ _) as [[r w]|e] eqn:ER; [|discriminate HP]. injection HP as <- <-.
    refine (proj1 (uk_interpolates E u (points_query x' b None) [] r i j _ (or_introl Hpinv) (or_intror HSpec) Hexact Hj' (HSH _) _ _)).
    + split; [exact HE|]. split; [exact (ur_new E c (direct_args k c x y) (direct_drift k c) u HM HX HU)|]. exists w. exact ER.
    + unfold spec_terms. rewrite HSpec. intros t [].
    + intros a Ha Na. apply HA; auto.
Qed.


(** shapes *)
Lemma locate_points dim pts mask l : locate dim "points" pts mask = Ok l -> l_shape l = [List.length (nth 0 pts [])].
Proof.
  unfold locate. destruct dim as [|[|[|]]]; unfold locate3, locate2; cbn; intros H;
    repeat (match type of H with (if ?b then _ else _) = _ => destruct b end); try discriminate H; injection H as <-; reflexivity.
Qed.
Lemma execute_finish E o q r : ordinary o -> execute E o q = Ok r ->
  exists l vs, locate (o_dim o) (q_style q) (q_pts q) (q_mask q) = Ok l /\ r = finish (q_style q) l vs.
Proof.
  intros Hord H. unfold execute in H. destruct Hord as [Hc|Hc]; rewrite Hc in H.
  - unfold execute2 in H. ifd H. ifd H. bindok H. bindok H. bindok H. injection H as <-.
    eexists _, _. split; [unfold o_dim; rewrite Hc; eassumption|reflexivity].
  - unfold execute3 in H. ifd H. bindok H. bindok H. bindok H. injection H as <-.
    eexists _, _. split; [unfold o_dim; rewrite Hc; eassumption|reflexivity].
Qed.
Lemma execute_uk_finish E u q specs r w : execute_uk E u q specs = Ok (r, w) ->
  exists l vs, locate (o_dim (u_obj u)) (q_style q) (q_pts q) (q_mask q) = Ok l /\ r = finish (q_style q) l vs.
Proof.
  intros H. unfold execute_uk in H. cbv zeta in H. ifd H.
  destruct (uk_matrix u) as [[a wa]|]; [|discriminate H]. cbn [bind] in H.
  change (match o_dim (u_obj u) with 2%nat => locate2 | _ => locate3 end) with (locate (o_dim (u_obj u))) in H.
  destruct (locate _ _ _ _) as [l|] eqn:EL; [|discriminate H]. cbn [bind] in H. bindok H. bindok H.
  match type of H with bind ?b _ = _ => destruct b as [[[z s] wb]|] end; [|discriminate H]. cbn [bind] in H. injection H as <- _.
  exists l, (z, s). split; [reflexivity|reflexivity].
Qed.
Lemma direct_shape E k m x b sh v : kind_ok m -> direct_predict E k m x b = Ok (sh, v) -> sh = [n_rows x] /\ forall i, exists r, v i = Some r.
Proof.
  intros HO HP. destruct m as [o|u]; cbn [direct_predict] in HP.
  - destruct (execute E o _) as [r|e] eqn:ER; [|discriminate HP]. injection HP as <- <-.
    destruct (execute_finish E o _ r HO ER) as (l & vs & HL & ->). split; [exact (locate_points _ _ _ _ HL)|]. intros i. eexists. reflexivity.
  - destruct (execute_uk E u _ _) as [[r w]|e] eqn:ER; [|discriminate HP]. injection HP as <- <-.
    destruct (execute_uk_finish E u _ _ r w ER) as (l & vs & HL & ->). split; [exact (locate_points _ _ _ _ HL)|]. intros i. eexists. reflexivity.
Qed.
Lemma predict_shape E k m c x extra sh v : fitted_as k m c -> exact_backend extra -> krige_predict E k x extra = Ok (sh, v) ->
  sh = [n_rows x] /\ forall i, exists r, v i = Some r.
Proof.
  intros HF HB HP. pose proof HF as (H1 & H2 & H3 & H4).
  destruct (Nat.eq_dec (List.length (p_cols x)) (cdim c)) as [K|K]; [|rewrite (predict_wrong_dimension E k x extra c m H1 H2 K) in HP; discriminate HP].
  destruct (exact_backend_cases _ HB) as (b & _ & Hextra). rewrite (predict_with_backend E k x c m b extra HF K Hextra) in HP.
  exact (direct_shape E k m x b sh v H4 HP).
Qed.

(** kriged values as a list *)
Lemma as_list_spec a r : as_list a = Ok r -> exists n, fst a = [n] /\ List.length r = n /\
  forall i, (i < n)%nat -> rnth r i = match snd a i with Some v => v | None => 0 end.
Proof.
  unfold as_list. destruct (fst a) as [|n [|]]; intros H; try discriminate H. injection H as <-. exists n. split; [reflexivity|].
  split; [rewrite map_length, seq_length; reflexivity|]. intros i Hi. unfold rnth.
  erewrite nth_indep by (rewrite map_length, seq_length; exact Hi). rewrite (map_nth (fun i => match snd a i with Some v => v | None => 0 end) (seq 0 n) 0%nat i), seq_nth by exact Hi. reflexivity.
Qed.

Lemma zip_nth {A B C} (f : A -> B -> C) l l' i a b c : List.length l = List.length l' -> (i < List.length l)%nat ->
  nth i (zip_with f l l') c = f (nth i l a) (nth i l' b).
Proof.
  revert l' i. induction l as [|u l IH]; intros [|u' l'] i HL Hi; cbn in *; try lia. destruct i; [reflexivity|]. apply IH; lia.
Qed.
Lemma zip_length {A B C} (f : A -> B -> C) l l' : List.length l = List.length l' -> List.length (zip_with f l l') = List.length l.
Proof. revert l'. induction l as [|u l IH]; intros [|u' l'] H; cbn in *; try lia. f_equal. apply IH. lia. Qed.
Lemma np_map2_spec f x y r : np_map2 f x y = Ok r -> List.length x = List.length y /\ List.length r = List.length x /\
  forall i, (i < List.length x)%nat -> rnth r i = f (rnth x i) (rnth y i).
Proof.
  unfold np_map2. destruct (Nat.eqb_spec (List.length x) (List.length y)) as [E|]; intros H; [|discriminate H]. injection H as <-.
  split; [exact E|]. split; [apply zip_length, E|]. intros i Hi. apply zip_nth; assumption.
Qed.

(** the kriged residual at a training point *)
Lemma kriged_exact E k x y k' x' extra r i j c : env_ok E -> class_of (k_method k) = Some c -> krige_fit E k x y = (k', None) ->
  k_exact k = Some true -> k_pinv k = false -> apart k' -> exact_backend extra ->
  (do a <- krige_predict E k' x' extra ;; as_list a) = Ok r ->
  List.length r = n_rows x' /\
  ((i < n_rows x')%nat -> (j < n_rows x)%nat -> same_row x' i x j -> rnth r i = rnth y j).
Proof.
  intros HE HC HF Hex Hpi HA HB HP. destruct (krige_predict E k' x' extra) as [[sh v]|e] eqn:EP; [|discriminate HP]. cbn [bind] in HP.
  destruct (as_list_spec _ _ HP) as (n & Hs & Hl & Hv). cbn [fst snd] in *.
  destruct (fit_inv E k x y k' c HC HF) as (m & HD & -> & HX).
  destruct (predict_shape E _ m c x' extra sh v (fit_fitted E k x y c m HC HD) HB EP) as [-> _]. injection Hs as <-.
  split; [exact Hl|]. intros Hi Hj HS. rewrite Hv by exact Hi.
  rewrite (krige_interpolates E k x y _ x' extra _ v i j c HE HC HF Hex Hpi HA EP HB Hi Hj HS). reflexivity.
Qed.

(** C41 *)
Theorem rk_sum {P} E (s : rk_state P) p x extra r : rk_predict E s p x extra = Ok r ->
  exists predict m v sh, rk_reg s = Some predict /\ predict p = Ok m /\ krige_predict E (rk_krige s) x extra = Ok (sh, v) /\
    List.length r = List.length m /\ sh = [List.length m] /\
    forall i, (i < List.length r)%nat -> exists w, (v i = Some w \/ v i = None /\ w = 0) /\ rnth r i = w + rnth m i.
Proof.
  unfold rk_predict, rk_krige_residual. intros H.
  destruct (krige_predict E (rk_krige s) x extra) as [[sh v]|e] eqn:EP; [|discriminate H]. cbn [bind] in H.
  destruct (as_list (sh, v)) as [l|e] eqn:EL; [|discriminate H]. cbn [bind] in H.
  destruct (rk_reg s) as [predict|]; [|discriminate H]. destruct (predict p) as [m|e] eqn:Em; [|discriminate H]. cbn [bind] in H.
  exists predict, m, v, sh. split; [reflexivity|]. split; [exact Em|]. split; [reflexivity|].
  destruct (np_map2_spec _ _ _ _ H) as (H1 & H2 & H3). destruct (as_list_spec _ _ EL) as (n & Hs & Hl & Hv). cbn [fst snd] in *.
  split; [congruence|]. split; [congruence|]. intros i Hi. rewrite H3 by lia. rewrite Hv by lia.
  destruct (v i) as [w|]; eexists; split; auto; reflexivity.
Qed.
Theorem rk_exact {P} E (reg : regressor P) k s s' p x y p' x' extra r i j c predict m m' : env_ok E ->
  rk_init P k = Ok s -> class_of (k_method k) = Some c -> k_exact k = Some true -> k_pinv k = false ->
  rk_fit E reg s p x y = (s', None) -> apart (rk_krige s') ->
  rk_predict E s' p' x' extra = Ok r -> exact_backend extra ->
  reg p y = Ok predict -> predict p = Ok m -> predict p' = Ok m' ->
  List.length y = n_rows x -> (i < n_rows x')%nat -> (j < n_rows x)%nat -> same_row x' i x j -> rnth m' i = rnth m j ->
  rnth r i = rnth y j.
Proof.
  intros HE HI HC Hex Hpi HF HA HP HB HR Hm Hm' Hy Hi Hj HS Hmm.
  unfold rk_init in HI. rewrite (proj2 (init_validates k) c HC) in HI. cbn [bind] in HI. injection HI as <-.
  unfold rk_fit in HF. rewrite HR in HF. cbn [rk_krige] in HF. rewrite Hm in HF. cbn [bind] in HF.
  destruct (np_map2 Rminus y m) as [res|e] eqn:ER; [|discriminate HF].
  destruct (krige_fit E (set_fitted k None) x res) as [k' [e|]] eqn:EK; [discriminate HF|]. injection HF as <-. cbn [rk_reg rk_krige] in *.
  unfold rk_predict, rk_krige_residual in HP. cbn [rk_reg rk_krige] in HP.
  destruct (do a <- krige_predict E k' x' extra ;; as_list a) as [l|e] eqn:EL; [|discriminate HP]. cbn [bind] in HP. rewrite Hm' in HP. cbn [bind] in HP.
  destruct (kriged_exact E (set_fitted k None) x res k' x' extra l i j c HE HC EK Hex Hpi HA HB EL) as [HL HV].
  destruct (np_map2_spec _ _ _ _ HP) as (H1 & H2 & H3). destruct (np_map2_spec _ _ _ _ ER) as (R1 & R2 & R3).
  rewrite H3 by lia. rewrite (HV Hi Hj HS), R3, Hmm by lia. ring.
Qed.

(** n_closest_points larger than the number of data: predict fails at every query with at least one point *)
Theorem too_few_data E k x y k' x' extra c w : env_ok E -> class_of (k_method k) = Some c -> c = OK2 \/ c = OK3 ->
  krige_fit E k x y = (k', None) -> k_window k = Some w -> (n_rows x < w)%nat -> (0 < n_rows x')%nat -> exact_backend extra ->
  exists e, krige_predict E k' x' extra = Err e.
Proof.
  intros HE HC Ho HF HW Hw Hx' HB. destruct (krige_predict E k' x' extra) as [[sh v]|e] eqn:HP; [exfalso|exists e; reflexivity].
  destruct (fit_inv E k x y k' c HC HF) as (m & HD & -> & HX).
  pose proof (fit_fitted E k x y c m HC HD) as HFA.
  assert (HX' : List.length (p_cols x') = cdim c).
  { destruct (Nat.eq_dec (List.length (p_cols x')) (cdim c)) as [K|K]; [exact K|]. exfalso.
    rewrite (predict_wrong_dimension E _ x' extra c m) in HP; [discriminate HP|reflexivity|exact HC|exact K]. }
  destruct (exact_backend_cases _ HB) as (b & Hb & Hextra).
  rewrite (predict_with_backend E _ x' c m b extra HFA HX' Hextra) in HP.
  destruct (direct_obj E k c x y m HD) as (HCo & HM). pose proof (construct_data E c _ _ HCo) as (Hcl & _ & _ & Hn & _).
  destruct m as [o|u]; cbn [kobj direct_predict] in *; [|destruct HM as ([->| ->] & _); destruct Ho; discriminate].
  destruct (execute E o _) as [r|e] eqn:ER; [|discriminate HP].
  refine (oversized_window E o (points_query x' b (Some w)) w r 0 _ HE (reach_new E c (direct_args k c x y) o HX HCo) _ eq_refl _ (cell_point (o_dim o) (points_query x' b (Some w)) 0 eq_refl Hx') _ _).
  - unfold ordinary. rewrite Hcl. exact Ho.
  - rewrite Hn. exact Hw.
  - intros HH. inversion HH as [? ? ? Hs|? ? ? ? Hs]; discriminate Hs.
  - rewrite <- ER. cbn. rewrite HW. reflexivity.
Qed.
