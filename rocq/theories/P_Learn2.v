(** Proofs for C43, C56: classification kriging. *)
From Coq Require Import String FunctionalExtensionality.
From Verif Require Import Base Sums Matrix M_Variogram M_Geometry S_Geometry M_Kriging M_Init M_Object M_Execute S_Execute M_UK S_UK M_Compat S_Compat
  M_Ilr M_Learn S_Learn P_Object P_Compat P_Ilr P_Learn P_Fit4.

(** argmax *)
Lemma argmax_fold (f : nat -> R) (l : list nat) : forall b0, let a := fold_left (fun best j => if Rltb (f best) (f j) then j else best) l b0 in
  (a = b0 \/ In a l) /\ f b0 <= f a /\ forall j, In j l -> f j <= f a.
Proof.
  induction l as [|u l IH]; intros b0; cbn [fold_left]; [split; [left; reflexivity|]; split; [lra|intros j []]|].
  cbv zeta in *. destruct (Rltb_spec (f b0) (f u)) as [H|H].
  - destruct (IH u) as (H1 & H2 & H3). split; [right; cbn; intuition congruence|]. split; [lra|]. intros j [<-|Hj]; auto.
  - destruct (IH b0) as (H1 & H2 & H3). split; [cbn; intuition congruence|]. split; [exact H2|]. intros j [<-|Hj]; [lra|auto].
Qed.
Lemma argmax_max n f : (0 < n)%nat -> (argmax n f < n)%nat /\ forall j, (j < n)%nat -> f j <= f (argmax n f).
Proof.
  intros Hn. unfold argmax. destruct (argmax_fold f (seq 1 (n - 1)) 0%nat) as (H1 & H2 & H3).
  set (a := fold_left _ _ _) in *. split.
  - destruct H1 as [->|H1]; [exact Hn|]. apply in_seq in H1. lia.
  - intros j Hj. destruct j as [|j]; [exact H2|]. apply H3, in_seq. lia.
Qed.
Lemma argmax_unique n f k : (k < n)%nat -> (forall j, (j < n)%nat -> j <> k -> f j < f k) -> argmax n f = k.
Proof.
  intros Hk H. assert (Hn : (0 < n)%nat) by lia. destruct (argmax_max n f Hn) as [H1 H2].
  destruct (Nat.eq_dec (argmax n f) k) as [|NE]; [assumption|]. specialize (H _ H1 NE). specialize (H2 k Hk). lra.
Qed.

Lemma mapM_nth {A B} (f : A -> res B) l r i a b : mapM f l = Ok r -> (i < List.length l)%nat -> f (nth i l a) = Ok (nth i r b) .
Proof.
  revert r i. induction l as [|u l IH]; intros r i H Hi; cbn in H, Hi; [lia|].
  destruct (f u) as [v|] eqn:EU; [|discriminate H]. cbn [bind] in H. destruct (mapM f l) as [vs|] eqn:EV; [|discriminate H]. cbn [bind] in H.
  injection H as <-. destruct i; cbn; [exact EU|]. apply IH; [reflexivity|lia].
Qed.
Lemma mapM_len {A B} (f : A -> res B) l r : mapM f l = Ok r -> List.length r = List.length l.
Proof.
  revert r. induction l as [|u l IH]; intros r H; cbn in H; [injection H as <-; reflexivity|].
  destruct (f u) as [v|] eqn:EU; [|discriminate H]. cbn [bind] in H. destruct (mapM f l) as [vs|] eqn:EV; [|discriminate H]. cbn [bind] in H.
  injection H as <-. cbn. f_equal. apply IH. reflexivity.
Qed.

Lemma log_ratio_helmert K c k : (S k < K)%nat -> log_ratio c k = bsum K (fun j => ln (c j) * - helmert k j).
Proof.
  intros H. unfold log_ratio. rewrite (bsum_ext K _ (fun j => - (helmert k j * ln (c j)))) by (intros; ring).
  rewrite (bsum_opp K (fun j => helmert k j * ln (c j))), (row_split k (fun j => ln (c j)) K H).
  replace (k + 1)%nat with (S k) by lia. replace (k + 2)%nat with (S (S k)) by lia. fold (hd k). pose proof (hd_pos k). field. lra.
Qed.
Lemma ln_inverse m v j : ln (inverse_ilr m v j) = bsum m (fun k => v k * - helmert k j) - ln (bsum (m + 1) (fun j => exp (bsum m (fun k => v k * - helmert k j)))).
Proof.
  unfold inverse_ilr, closure. set (S := bsum (m + 1) _).
  assert (HS : 0 < S) by (apply bsum_exp_pos; lia).
  rewrite Rmult_1_l. unfold Rdiv. rewrite ln_mult, ln_exp, ln_Rinv; [lra|exact HS|apply exp_pos|apply Rinv_0_lt_compat, HS].
Qed.
Lemma log_ratio_inverse m v k : (k < m)%nat -> log_ratio (inverse_ilr m v) k = v k.
Proof.
  intros Hk. rewrite (log_ratio_helmert (m + 1)) by lia. set (L := ln (bsum (m + 1) (fun j => exp (bsum m (fun k => v k * - helmert k j))))).
  rewrite (bsum_ext _ _ (fun j => bsum m (fun l => v l * (helmert l j * helmert k j)) + L * helmert k j)).
  2:{ intros j _. rewrite ln_inverse. fold L.
      rewrite (bsum_ext m (fun l => v l * (helmert l j * helmert k j)) (fun l => - helmert k j * (v l * - helmert l j))) by (intros; ring).
      rewrite bsum_scal. ring. }
  rewrite bsum_plus, (bsum_scal _ L (helmert k)). rewrite (row_sum k (m + 1)) by lia.
  rewrite bsum_swap.
  rewrite (bsum_ext m _ (fun l => (if Nat.eqb l k then 1 else 0) * v l)).
  2:{ intros l Hl. rewrite (bsum_scal (m + 1) (v l)). rewrite rows_orthonormal by lia. ring. }
  rewrite (bsum_delta m k v Hk). ring.
Qed.

Lemma ilr_log_ratio K p k : (S k < K)%nat -> ilr K p k = log_ratio (clip p) k.
Proof. intros H. rewrite (log_ratio_helmert K) by exact H. reflexivity. Qed.

(** inside ck_fit *)
Lemma fit_all_inv E x res ks : forall i ks', fit_all E x res i ks = (ks', None) ->
  List.length ks' = List.length ks /\ forall a d d', (a < List.length ks)%nat -> krige_fit E (nth a ks d) x (res (i + a)%nat) = (nth a ks' d', None).
Proof.
  induction ks as [|k ks IH]; intros i ks' H; cbn [fit_all] in H.
  - apply (f_equal fst) in H. cbn in H. subst ks'. split; [reflexivity|]. intros a d d' Ha. cbn in Ha. lia.
  - destruct (krige_fit E k x (res i)) as [k' [e|]] eqn:EK; [discriminate H|].
    destruct (fit_all E x res (S i) ks) as [ks1 e] eqn:EF. injection H as <- ->. destruct (IH _ _ EF) as [H1 H2].
    split; [cbn; lia|]. intros a d d' Ha. destruct a as [|a]; cbn [nth]; [rewrite Nat.add_0_r; exact EK|].
    replace (i + S a)%nat with (S i + a)%nat by lia. apply H2. cbn in Ha. lia.
Qed.
Lemma init_all k n ks : mapM (fun _ : nat => krige_init k) (seq 0 n) = Ok ks -> List.length ks = n /\ forall a d, (a < n)%nat -> nth a ks d = set_fitted k None /\ class_of (k_method k) <> None.
Proof.
  intros H. pose proof (mapM_len _ _ _ H) as HL. rewrite seq_length in HL. split; [exact HL|]. intros a d Ha.
  pose proof (mapM_nth _ _ _ a 0%nat d H ltac:(rewrite seq_length; exact Ha)) as HN. cbv beta in HN.
  destruct (init_validates k) as [I1 I2]. destruct (class_of (k_method k)) as [c|] eqn:EC.
  - rewrite (I2 c eq_refl) in HN. injection HN as <-. split; [reflexivity|discriminate].
  - rewrite (proj1 I1 eq_refl) in HN. discriminate HN.
Qed.

Theorem ck_fit_inv {P L} E eqb (cl : classifier P L) s p x y s' : ck_fit E eqb cl s p x y = (s', None) ->
  exists classes proba ml ohe,
    cl p (l_list y) = Ok (classes, proba) /\ proba p = Ok ml /\ l_column y = true /\ mapM (one_hot eqb classes) (l_list y) = Ok ohe /\ List.length ml = List.length ohe /\
    ck_classes s' = classes /\ ck_proba s' = Some proba /\ List.length (ck_krige s') = (List.length classes - 1)%nat /\
    forall a d, (a < List.length classes - 1)%nat ->
      class_of (k_method (ck_options s)) <> None /\
      krige_fit E (set_fitted (ck_options s) None) x
        (zip_with (fun yo m => ilr (List.length classes) yo a - ilr (List.length classes) (rnth m) a) ohe ml) = (nth a (ck_krige s') d, None).
Proof.
  intros H. unfold ck_fit in H. destruct (cl p (l_list y)) as [[classes proba]|e]; [|discriminate H].
  destruct (mapM (fun _ => krige_init (ck_options s)) _) as [ks|e] eqn:EI; [|discriminate H].
  destruct (proba p) as [ml|e] eqn:EM; [|discriminate H]. cbn [bind] in H.
  destruct (l_column y) eqn:EC; [|discriminate H].
  destruct (mapM (one_hot eqb classes) (l_list y)) as [ohe|e] eqn:EO; [|discriminate H]. cbn [bind] in H.
  destruct (Nat.eqb_spec (List.length ml) (List.length ohe)) as [EL|]; [|discriminate H].
  destruct (fit_all E x _ 0 ks) as [ks' e] eqn:EF. injection H as <- ->.
  destruct (init_all _ _ _ EI) as [HL HI]. destruct (fit_all_inv E x _ ks 0%nat ks' EF) as [HL' HF].
  exists classes, proba, ml, ohe. cbn [ck_classes ck_proba ck_krige].
  repeat (split; [first [reflexivity|assumption|lia]|]). intros a d Ha.
  destruct (HI a (set_fitted (ck_options s) None) Ha) as [Hn Hc]. split; [exact Hc|].
  rewrite <- Hn at 1. rewrite HL in HF. exact (HF a _ d Ha).
Qed.

Theorem ck_index {P L} E eqb (cl : classifier P L) s0 p0 x0 y0 s p x extra r :
  ck_fit E eqb cl s0 p0 x0 y0 = (s, None) -> ck_predict E s p x extra = Ok r ->
  let K := List.length (ck_classes s) in
  exists proba ml, ck_proba s = Some proba /\ proba p = Ok ml /\ List.length r = List.length ml /\ (2 <= K)%nat /\
    forall i, (i < List.length ml)%nat -> exists comp kriged, composition K comp /\ most_probable K comp (nth i r 0%nat) /\
      forall k d, (k < K - 1)%nat -> log_ratio comp k = kriged k + log_ratio (clip (rnth (nth i ml []))) k /\
        exists v, krige_predict E (nth k (ck_krige s) d) x extra = Ok ([List.length ml], v) /\ (v i = Some (kriged k) \/ v i = None /\ kriged k = 0).
Proof.
  intros HF HP. destruct (ck_fit_inv E eqb cl s0 p0 x0 y0 s HF) as (classes & proba & ml0 & ohe & _ & _ & _ & _ & _ & Hcl & Hpr & HKl & _).
  cbv zeta. unfold ck_predict in HP. rewrite Hpr in *. destruct (proba p) as [ml|e] eqn:EM; [|discriminate HP]. cbn [bind] in HP.
  rewrite <- Hcl in HKl. set (K := List.length (ck_classes s)) in *.
  exists proba, ml. split; [reflexivity|]. split; [exact EM|].
  unfold ck_krige_residual in HP. destruct (ck_krige s) as [|k0 ks0] eqn:EK; [discriminate HP|]. rewrite <- EK in *.
  destruct (mapM _ (ck_krige s)) as [rs|e] eqn:ER; [|discriminate HP]. cbn [bind] in HP.
  destruct (forallb _ rs) eqn:EF; [|discriminate HP]. injection HP as <-.
  assert (HK : (2 <= K)%nat) by (rewrite EK in HKl; cbn in HKl; lia).
  split; [rewrite map_length, seq_length; reflexivity|]. split; [exact HK|]. intros i Hi.
  set (v := fun k => rnth (nth k rs []) i + ilr K (rnth (nth i ml [])) k).
  exists (inverse_ilr (K - 1) v), (fun k => rnth (nth k rs []) i).
  assert (HK1 : (K - 1 + 1)%nat = K) by lia.
  split. { destruct (inverse_ilr_simplex (K - 1) v) as [H1 H2]. rewrite HK1 in H2. split; [intros j _; apply H1|exact H2]. }
  split.
  { erewrite nth_indep by (rewrite map_length, seq_length; exact Hi).
    rewrite (map_nth (fun i => argmax K (ck_composition s rs ml i)) (seq 0 (List.length ml)) 0%nat i), seq_nth by exact Hi. cbn [Nat.add].
    apply argmax_max. lia. }
  intros k d Hk. split.
  { rewrite log_ratio_inverse by exact Hk. unfold v. rewrite ilr_log_ratio by lia. reflexivity. }
  pose proof (mapM_nth _ _ _ k d [] ER ltac:(lia)) as HN. cbv beta in HN.
  destruct (krige_predict E (nth k (ck_krige s) d) x extra) as [[sh w]|e]; [|discriminate HN]. cbn [bind] in HN.
  destruct (as_list_spec _ _ HN) as (n & Hsh & Hln & Hw). cbn [fst snd] in *.
  rewrite forallb_forall in EF. assert (Hin : In (nth k rs []) rs) by (apply nth_In; rewrite (mapM_len _ _ _ ER); lia).
  specialize (EF _ Hin). apply Nat.eqb_eq in EF. assert (n = List.length ml) by congruence. subst n sh.
  exists w. split; [congruence|]. rewrite Hw by lia. destruct (w i); auto.
Qed.

(** one-hot rows *)
Lemma position_index {L} (eqb : L -> L -> bool) (Heqb : forall a b, eqb a b = true <-> a = b) classes a k : position eqb classes a = Some k <-> index_of classes a k.
Proof.
  revert k. induction classes as [|b l IH]; intros k; cbn [position].
  - split; [discriminate|]. intros [H _]. destruct k; discriminate H.
  - destruct (eqb a b) eqn:E.
    + apply Heqb in E. subst b. split.
      * intros H. injection H as <-. split; [reflexivity|intros j Hj; lia].
      * intros [H1 H2]. destruct k as [|k]; [reflexivity|]. exfalso. apply (H2 0%nat); [lia|reflexivity].
    + assert (NE : a <> b) by (intros ->; rewrite (proj2 (Heqb b b) eq_refl) in E; discriminate E).
      destruct k as [|k].
      * split; [destruct (position eqb l a); discriminate|]. intros [H _]. injection H as ->. contradiction.
      * split.
        -- destruct (position eqb l a) as [k'|] eqn:EP; [|discriminate]. intros H. injection H as <-. destruct (proj1 (IH k') eq_refl) as [H1 H2].
           split; [exact H1|]. intros [|j] Hj; cbn; [intros H; injection H as ->; contradiction|]. apply H2. lia.
        -- intros [H1 H2]. rewrite (proj2 (IH k)); [reflexivity|]. split; [exact H1|]. intros j Hj. apply (H2 (S j)). lia.
Qed.

Lemma inverse_ilr_ext m v v' : (forall k, (k < m)%nat -> v k = v' k) -> inverse_ilr m v = inverse_ilr m v'.
Proof.
  intros H. unfold inverse_ilr. f_equal. apply functional_extensionality. intros j. f_equal. apply bsum_ext. intros k Hk. rewrite H by exact Hk. reflexivity.
Qed.
Lemma feps_lt_1 : feps < 1. Proof. unfold feps. lra. Qed.

Theorem ck_exact {P L} E eqb (cl : classifier P L) s p x y s' p' x' extra r i j proba ml ml' :
  (forall a b, eqb a b = true <-> a = b) -> env_ok E -> k_exact (ck_options s) = Some true -> k_pinv (ck_options s) = false ->
  ck_fit E eqb cl s p x y = (s', None) -> (forall k, In k (ck_krige s') -> apart k) ->
  ck_predict E s' p' x' extra = Ok r -> exact_backend extra ->
  ck_proba s' = Some proba -> proba p = Ok ml -> proba p' = Ok ml' ->
  List.length (l_list y) = n_rows x -> (i < n_rows x')%nat -> (j < n_rows x)%nat -> same_row x' i x j -> nth i ml' [] = nth j ml [] ->
  (i < List.length r)%nat /\ forall a, nth_error (l_list y) j = Some a -> index_of (ck_classes s') a (nth i r 0%nat).
Proof.
  intros Heqb HE Hex Hpi HF HA HP HB Hpr Hml Hml' Hy Hi Hj HS Hrow.
  destruct (ck_fit_inv E eqb cl s p x y s' HF) as (classes & proba0 & ml0 & ohe & _ & Hm0 & _ & HO & HLO & Hcl & Hpr0 & HKl & Hfits).
  rewrite Hpr in Hpr0. injection Hpr0 as <-. rewrite Hml in Hm0. injection Hm0 as <-. subst classes.
  set (K := List.length (ck_classes s')) in *.
  unfold ck_predict in HP. rewrite Hpr, Hml' in HP. cbn [bind] in HP. unfold ck_krige_residual in HP.
  destruct (ck_krige s') as [|k0 ks0] eqn:EK; [discriminate HP|]. rewrite <- EK in *.
  destruct (mapM _ (ck_krige s')) as [rs|e] eqn:ER; [|discriminate HP]. cbn [bind] in HP.
  destruct (forallb _ rs) eqn:EF; [|discriminate HP]. injection HP as <-.
  assert (HK : (2 <= K)%nat) by (rewrite EK in HKl; cbn in HKl; lia).
  pose proof (mapM_len _ _ _ ER) as HRL. pose proof (mapM_len _ _ _ HO) as HOL.
  assert (HRS : forall k, (k < K - 1)%nat -> List.length (nth k rs []) = n_rows x' /\
     rnth (nth k rs []) i = ilr K (nth j ohe (fun _ => 0)) k - ilr K (rnth (nth j ml [])) k).
  { intros k Hk. set (d := set_fitted (ck_options s) None). destruct (Hfits k d Hk) as [Hc Hf].
    destruct (class_of (k_method (ck_options s))) as [c|] eqn:EC; [|contradiction].
    pose proof (mapM_nth _ _ _ k d [] ER ltac:(lia)) as HN. cbv beta in HN.
    assert (HI : In (nth k (ck_krige s') d) (ck_krige s')) by (apply nth_In; lia).
    destruct (kriged_exact E (set_fitted (ck_options s) None) x _ _ x' extra _ i j c HE EC Hf Hex Hpi (HA _ HI) HB HN) as [H1 H2].
    split; [exact H1|]. rewrite (H2 Hi Hj HS). 
    assert (Hj' : (j < List.length ohe)%nat) by (rewrite HOL, Hy; exact Hj).
    exact (zip_nth (fun yo m => ilr K yo k - ilr K (rnth m) k) ohe ml j (fun _ => 0) [] 0 (eq_sym HLO) Hj'). }
  assert (Hlen : List.length ml' = n_rows x').
  { destruct (HRS 0%nat ltac:(lia)) as [H0 _]. rewrite forallb_forall in EF.
    assert (Hin : In (nth 0 rs []) rs) by (apply nth_In; lia). specialize (EF _ Hin). apply Nat.eqb_eq in EF. lia. }
  split; [rewrite map_length, seq_length; lia|]. intros a Ha.
  fold K. rewrite (nth_indep _ 0%nat (argmax K (ck_composition s' rs ml' 0%nat))) by (rewrite map_length, seq_length; lia).
  rewrite (map_nth (fun i => argmax K (ck_composition s' rs ml' i)) (seq 0 (List.length ml')) 0%nat i), seq_nth by lia. cbn [Nat.add].
  pose proof (mapM_nth _ _ _ j a (fun _ => 0) HO ltac:(lia)) as HOJ.
  assert (Hya : nth j (l_list y) a = a) by (apply nth_error_nth; exact Ha). rewrite Hya in HOJ.
  unfold one_hot in HOJ. destruct (position eqb (ck_classes s') a) as [t|] eqn:EP; [|discriminate HOJ]. injection HOJ as HOJ.
  pose proof (proj1 (position_index eqb Heqb _ _ _) EP) as HX.
  assert (Ht : (t < K)%nat) by (apply nth_error_Some; rewrite (proj1 HX); discriminate).
  assert (HC : ck_composition s' rs ml' i = inverse_ilr (K - 1) (ilr (K - 1 + 1) (@nth vec j ohe (fun _ => 0)))).
  { unfold ck_composition. fold K. apply inverse_ilr_ext. intros k Hk. rewrite (proj2 (HRS k Hk)), Hrow. replace (K - 1 + 1)%nat with K by lia. ring. }
  change (@nth (nat -> R) j ohe (fun _ => 0)) with (@nth vec j ohe (fun _ => 0)) in HOJ. rewrite HC. rewrite (argmax_unique K _ t); [exact HX|exact Ht|].
  intros l Hl NE. rewrite !ilr_inverse_clipped by lia. replace (K - 1 + 1)%nat with K by lia. rewrite <- HOJ. rewrite Nat.eqb_refl.
  rewrite (proj2 (Nat.eqb_neq l t) NE).
  match goal with |- _ / ?S < _ / ?S => assert (HS0 : 0 < S) end.
  { destruct K as [|K']; [lia|]. clear. induction K' as [|K' IH]; rewrite bsumS; [cbn [bsum]; pose proof (Rmax_r (if Nat.eqb 0 t then 1 else 0) feps); pose proof feps_pos; lra|].
    pose proof (Rmax_r (if Nat.eqb (S K') t then 1 else 0) feps). pose proof feps_pos. lra. }
  apply Rmult_lt_compat_r; [apply Rinv_0_lt_compat, HS0|].
  rewrite (Rmax_left 1 feps) by (pose proof feps_lt_1; lra). rewrite (Rmax_right 0 feps) by (pose proof feps_pos; lra). apply feps_lt_1.
Qed.

Theorem ck_one_class {P L} E (s : ck_state P L) p x extra : ck_krige s = [] -> forall r, ck_predict E s p x extra <> Ok r.
Proof.
  intros H r. unfold ck_predict, ck_krige_residual. rewrite H. destruct (ck_proba s) as [proba|]; [|discriminate].
  destruct (proba p); discriminate.
Qed.
Theorem ck_flat_labels {P L} E eqb (cl : classifier P L) s p x y : l_column y = false -> snd (ck_fit E eqb cl s p x y) <> None.
Proof.
  intros H. unfold ck_fit. destruct (cl p (l_list y)) as [[classes proba]|e]; [|discriminate].
  destruct (mapM _ _); [|discriminate]. destruct (proba p); cbn [bind]; [|discriminate]. rewrite H. discriminate.
Qed.
