(** Proofs for C64 (failed fits) and C65 (scores). *)
From Coq Require Import String FunctionalExtensionality.
From Verif Require Import Base Sums Matrix M_Variogram M_Geometry S_Geometry M_Kriging S_Kriging M_Init M_Object M_Execute S_Execute M_UK S_UK M_Compat S_Compat
  M_Ilr M_Learn S_Learn P_Object P_Execute P_OK P_Compat P_Ilr P_Learn P_Learn2 P_Learn3 P_Cells P_Kriging Witness P_UK8.

(** ** failed fits *)
Lemma krige_fit_failed E k x y k' e : krige_fit E k x y = (k', Some e) -> k' = k.
Proof.
  unfold krige_fit. destruct (bind _ _) as [m|e']; intros H; [discriminate|]. now apply (f_equal fst) in H.
Qed.

Lemma rk_fit_failed_reg {P} E (reg : regressor P) s p x y e : reg p y = Err e -> rk_fit E reg s p x y = (s, Some e).
Proof. intros H. unfold rk_fit. now rewrite H. Qed.

Lemma rk_fit_failed {P} E (reg : regressor P) s p x y s' e predict : reg p y = Ok predict -> rk_fit E reg s p x y = (s', Some e) ->
  forall p' x' extra, rk_krige_residual E s' x' extra = rk_krige_residual E s x' extra /\
    rk_predict E s' p' x' extra = (do r <- rk_krige_residual E s x' extra ;; do m <- predict p' ;; np_map2 Rplus r m).
Proof.
  intros HR HF p' x' extra. unfold rk_fit in HF. rewrite HR in HF. cbn [rk_krige rk_reg] in HF.
  assert (X : s' = {| rk_reg := Some predict; rk_krige := rk_krige s |}).
  { destruct (bind _ _) as [res|e'] in HF; [|now apply (f_equal fst) in HF].
    destruct (krige_fit E (rk_krige s) x res) as [k' e'] eqn:EK. injection HF as <- ->.
    apply krige_fit_failed in EK. now subst k'. }
  subst s'. split; reflexivity.
Qed.

Lemma mapM_err {A B} (f : A -> res B) l a : In a l -> (forall b, f a <> Ok b) -> forall r, mapM f l <> Ok r.
Proof.
  induction l as [|u l IH]; intros HI HA r; [destruct HI|]. cbn [mapM].
  destruct HI as [->|HI].
  - destruct (f a) as [b|e]; [exfalso; exact (HA b eq_refl)|discriminate].
  - destruct (f u); cbn [bind]; [|discriminate]. destruct (mapM f l) as [r'|e] eqn:EM; cbn [bind]; [|discriminate]. exfalso. exact (IH HI HA r' eq_refl).
Qed.
Lemma unfitted_residual {P L} E (s : ck_state P L) k x extra r : In k (ck_krige s) -> k_fitted k = None -> ck_krige_residual E s x extra <> Ok r.
Proof.
  intros HI HK. unfold ck_krige_residual. destruct (ck_krige s) as [|k0 ks]; [destruct HI|].
  apply mapM_err with (a := k); [exact HI|]. intros b. unfold krige_predict. rewrite HK. discriminate.
Qed.
Lemma fit_all_failed E x res ks : forall i ks' e, (forall k, In k ks -> k_fitted k = None) -> fit_all E x res i ks = (ks', Some e) ->
  exists k, In k ks' /\ k_fitted k = None.
Proof.
  induction ks as [|k ks IH]; intros i ks' e HK H; cbn [fit_all] in H; [discriminate H|].
  destruct (krige_fit E k x (res i)) as [k' [e'|]] eqn:EK.
  - apply krige_fit_failed in EK. subst k'. injection H as <- <-. exists k. split; [now left|]. apply HK. now left.
  - destruct (fit_all E x res (S i) ks) as [ks1 e1] eqn:EF. injection H as <- ->.
    destruct (IH _ _ _ (fun k Hk => HK k (or_intror Hk)) EF) as (k1 & I1 & F1). exists k1. split; [now right|exact F1].
Qed.
Lemma predict_needs_residual {P L} E (s : ck_state P L) p x extra r : (forall rs, ck_krige_residual E s x extra <> Ok rs) -> ck_predict E s p x extra <> Ok r.
Proof.
  intros H. unfold ck_predict. destruct (match ck_proba s with Some _ => _ | None => _ end); cbn [bind]; [|discriminate].
  destruct (ck_krige_residual E s x extra) as [rs|]; [exfalso; exact (H rs eq_refl)|discriminate].
Qed.
Lemma init_none k n ks : mapM (fun _ : nat => krige_init k) (seq 0 n) = Ok ks -> forall q, In q ks -> k_fitted q = None.
Proof.
  intros H q Hq. destruct (init_all k n ks H) as [HL HN]. destruct (In_nth ks q k Hq) as (a & Ha & <-).
  destruct (HN a k ltac:(lia)) as [-> _]. reflexivity.
Qed.
Theorem ck_fit_failed {P L} E eqb (cl : classifier P L) s p x y s' e : ck_fit E eqb cl s p x y = (s', Some e) ->
  (cl p (l_list y) = Err e /\ s' = s) \/ (forall p' x' extra r, ck_predict E s' p' x' extra <> Ok r).
Proof.
  intros H. unfold ck_fit in H. destruct (cl p (l_list y)) as [[classes proba]|e1].
  2:{ left. injection H as <- ->. auto. }
  right. intros p' x' extra r. apply predict_needs_residual. intros rs.
  destruct (mapM (fun _ => krige_init (ck_options s)) _) as [ks|e1] eqn:EI.
  2:{ injection H as <- _. unfold ck_krige_residual. cbn [ck_krige]. discriminate. }
  pose proof (init_none _ _ _ EI) as HN.
  destruct (bind _ _) as [residual|e1] in H.
  - destruct (fit_all E x residual 0 ks) as [ks' e1] eqn:EF. injection H as <- ->.
    destruct (fit_all_failed _ _ _ _ _ _ _ HN EF) as (k & K1 & K2). apply unfitted_residual with (k := k); assumption.
  - injection H as <- _. destruct ks as [|k ks]; [unfold ck_krige_residual; cbn [ck_krige]; discriminate|].
    apply unfitted_residual with (k := k); [now left|]. apply HN. now left.
Qed.

(** ** scores *)
Lemma bsum_sq_zero n (w d : vec) : (forall i, (i < n)%nat -> 0 < w i) -> bsum n (fun i => w i * (d i)²) = 0 <-> forall i, (i < n)%nat -> d i = 0.
Proof.
  intros HW. split.
  - induction n as [|n IH]; intros H i Hi; [lia|]. rewrite bsumS in H.
    assert (P1 : 0 <= bsum n (fun i => w i * (d i)²)).
    { apply bsum_nonneg. intros j Hj. apply Rmult_le_pos; [left; apply HW; lia|apply Rle_0_sqr]. }
    assert (P2 : 0 <= w n * (d n)²) by (apply Rmult_le_pos; [left; apply HW; lia|apply Rle_0_sqr]).
    destruct (Nat.eq_dec i n) as [->|NE].
    + assert (Z : w n * (d n)² = 0) by lra. apply Rmult_integral in Z as [Z|Z]; [pose proof (HW n ltac:(lia)); lra|]. now apply Rsqr_0_uniq.
    + apply IH; [intros j Hj; apply HW; lia|lra|lia].
  - intros H. apply bsum_0. intros i Hi. rewrite H by exact Hi. unfold Rsqr. ring.
Qed.

Theorem r2_spec y p w v : r2_score y p w = Ok (Some v) -> (forall i, (i < List.length y)%nat -> 0 < weights_of w i) ->
  List.length p = List.length y /\ (2 <= List.length y)%nat /\ v <= 1 /\
  (v = 1 <-> forall i, (i < List.length y)%nat -> rnth p i = rnth y i) /\
  let n := List.length y in
  let tot := wsquares n (weights_of w) (rnth y) (fun _ => wmean n (weights_of w) (rnth y)) in
  (tot <> 0 -> v = 1 - wsquares n (weights_of w) (rnth y) (rnth p) / tot).
Proof.
  unfold r2_score. intros H HW. destruct (_ || _ || _)%bool eqn:EB in H; [discriminate|].
  apply orb_false_elim in EB as [EB E0]. apply orb_false_elim in EB as [EB E1]. apply negb_false_iff, Nat.eqb_eq in EB. apply Nat.eqb_neq in E0.
  destruct (Nat.ltb _ 2) eqn:E2 in H; [discriminate|]. apply Nat.ltb_ge in E2.
  injection H as H. unfold r2 in H. cbv zeta in H. set (n := List.length y) in *.
  fold (weights_of w) in H. change (match w with Some w => rnth w | None => fun _ => 1 end) with (weights_of w) in H.
  fold (wmean n (weights_of w) (rnth y)) in H.
  fold (wsquares n (weights_of w) (rnth y) (rnth p)) in H.
  fold (wsquares n (weights_of w) (rnth y) (fun _ => wmean n (weights_of w) (rnth y))) in H.
  set (a := wsquares n (weights_of w) (rnth y) (rnth p)) in *. set (b := wsquares _ _ _ _) in H.
  assert (A0 : 0 <= a). { apply bsum_nonneg. intros j Hj. apply Rmult_le_pos; [left; apply HW; exact Hj|apply Rle_0_sqr]. }
  assert (B0 : 0 <= b). { apply bsum_nonneg. intros j Hj. apply Rmult_le_pos; [left; apply HW; exact Hj|apply Rle_0_sqr]. }
  assert (AZ : a = 0 <-> forall i, (i < n)%nat -> rnth p i = rnth y i).
  { unfold a, wsquares. rewrite (bsum_sq_zero n (weights_of w) (fun i => rnth y i - rnth p i) HW). split; intros K i Hi; specialize (K i Hi); cbv beta in *; lra. }
  split; [now symmetry|]. split; [exact E2|].
  destruct (Reqb_spec a 0) as [Za|Na].
  - subst v. split; [lra|]. split; [split; [intros _; now apply AZ|reflexivity]|]. cbv zeta. intros T. rewrite Za. unfold Rdiv. ring.
  - destruct (Reqb_spec b 0) as [Zb|Nb].
    + subst v. split; [lra|]. split; [split; [lra|intros K; exfalso; apply Na, AZ, K]|]. cbv zeta. fold b. intros T. contradiction.
    + assert (Q : 0 < a / b) by (apply Rdiv_lt_0_compat; lra). subst v. split; [lra|]. split; [split; [lra|intros K; exfalso; apply Na, AZ, K]|]. reflexivity.
Qed.

Lemma r2_perfect y p w : List.length p = List.length y -> (2 <= List.length y)%nat -> match w with Some l => List.length l = List.length y | None => True end ->
  (forall i, (i < List.length y)%nat -> rnth p i = rnth y i) -> r2_score y p w = Ok (Some 1).
Proof.
  intros HL H2 HW HP. unfold r2_score. rewrite HL, Nat.eqb_refl. cbn [negb orb].
  replace (match w with Some w => negb (List.length y =? List.length w)%nat | None => false end) with false
    by (destruct w; [rewrite HW, Nat.eqb_refl|]; reflexivity).
  replace (List.length y =? 0)%nat with false by (symmetry; apply Nat.eqb_neq; lia). cbn [orb].
  replace (Nat.ltb (List.length y) 2) with false by (symmetry; apply Nat.ltb_ge; lia). unfold r2. cbv zeta.
  replace (bsum (List.length y) (fun i => _ * (rnth y i - rnth p i)²)) with 0.
  - destruct (Reqb_spec 0 0); [reflexivity|contradiction].
  - symmetry. apply bsum_0. intros i Hi. rewrite HP by exact Hi. unfold Rsqr. ring.
Qed.

Theorem rk_training_score {P} E (reg : regressor P) k s s' p x y extra r c w : env_ok E ->
  rk_init P k = Ok s -> class_of (k_method k) = Some c -> k_exact k = Some true -> k_pinv k = false ->
  rk_fit E reg s p x y = (s', None) -> apart (rk_krige s') -> rk_predict E s' p x extra = Ok r -> exact_backend extra ->
  List.length y = n_rows x -> (2 <= List.length y)%nat -> match w with Some l => List.length l = List.length y | None => True end ->
  rk_score E s' p x y w extra = Ok (Some 1).
Proof.
  intros HE HI HC Hex Hpi HF HA HP HB HL H2 HW.
  unfold rk_score. rewrite HP. cbn [bind].
  assert (X : exists predict m, reg p y = Ok predict /\ predict p = Ok m /\ List.length y = List.length m /\ rk_reg s' = Some predict).
  { unfold rk_fit in HF. destruct (reg p y) as [predict|e]; [|discriminate HF]. cbn [rk_krige rk_reg] in HF. exists predict.
    destruct (predict p) as [m|e]; [|discriminate HF]. exists m. cbn [bind] in HF.
    unfold np_map2 in HF. destruct (Nat.eqb_spec (List.length y) (List.length m)) as [L|L]; [|discriminate HF].
    destruct (krige_fit E (rk_krige s) x _) as [k' e]. injection HF as <- _. auto. }
  destruct X as (predict & m & R1 & R2 & R3 & R4).
  destruct (rk_sum E s' p x extra r HP) as (predict' & m' & v & sh & S1 & S2 & S3 & S4 & _).
  assert (predict' = predict) by congruence. subst predict'. assert (m' = m) by congruence. subst m'.
  apply r2_perfect; [congruence|exact H2|exact HW|].
  intros i Hi. apply (rk_exact E reg k s s' p x y p x extra r i i c predict m m); try assumption; try lia; try reflexivity.
  intros a. reflexivity.
Qed.

Lemma ck_index_bound {P L} E eqb (cl : classifier P L) s0 p0 x0 y0 s p x extra r i : ck_fit E eqb cl s0 p0 x0 y0 = (s, None) -> ck_predict E s p x extra = Ok r ->
  (i < List.length r)%nat -> (nth i r 0 < List.length (ck_classes s))%nat.
Proof.
  intros HF HP Hi. destruct (ck_index E eqb cl s0 p0 x0 y0 s p x extra r HF HP) as (proba & ml & _ & _ & HL & _ & H).
  destruct (H i ltac:(lia)) as (comp & kr & _ & (M & _) & _). exact M.
Qed.
Theorem ck_score_zero {P} E eqb (cl : classifier P nat) s0 p0 x0 y0 s p x y extra v : ck_fit E eqb cl s0 p0 x0 y0 = (s, None) ->
  ck_score E s p x y extra = Ok v -> (forall a, In a y -> (List.length (ck_classes s) <= a)%nat) -> v = 0.
Proof.
  intros HF HS HY. unfold ck_score in HS. destruct (ck_predict E s p x extra) as [r|] eqn:HP; [|discriminate]. cbn [bind] in HS.
  unfold accuracy_score in HS. destruct (_ || _)%bool eqn:EB in HS; [discriminate|]. apply orb_false_elim in EB as [EB E0].
  apply negb_false_iff, Nat.eqb_eq in EB. injection HS as <-.
  rewrite bsum_0; [unfold Rdiv; ring|]. intros i Hi.
  pose proof (ck_index_bound E eqb cl s0 p0 x0 y0 s p x extra r i HF HP ltac:(lia)).
  pose proof (HY (nth i y 0%nat) (nth_In _ _ Hi)).
  destruct (Nat.eqb_spec (nth i y 0%nat) (nth i r 0%nat)); [lia|reflexivity].
Qed.
Lemma bsum_ones n : bsum n (fun _ => 1) = INR n.
Proof. induction n as [|n IH]; [reflexivity|]. rewrite bsumS, IH, S_INR. reflexivity. Qed.
Theorem ck_training_score {P} E eqb (cl : classifier P nat) s p x y s' extra r : (forall a b, eqb a b = true <-> a = b) -> env_ok E ->
  k_exact (ck_options s) = Some true -> k_pinv (ck_options s) = false ->
  ck_fit E eqb cl s p x y = (s', None) -> (forall k, In k (ck_krige s') -> apart k) ->
  ck_predict E s' p x extra = Ok r -> exact_backend extra ->
  List.length (l_list y) = n_rows x -> (0 < n_rows x)%nat ->
  ck_classes s' = seq 0 (List.length (ck_classes s')) ->
  ck_score E s' p x (l_list y) extra = Ok 1.
Proof.
  intros HQ HE Hex Hpi HF HA HP HB HL H0 HC. unfold ck_score. rewrite HP. cbn [bind].
  destruct (ck_fit_inv E eqb cl s p x y s' HF) as (classes & proba & ml & ohe & F1 & F2 & F3 & F4 & F5 & F6 & F7 & F8 & _).
  pose proof (mapM_len _ _ _ F4) as F9.
  destruct (ck_index E eqb cl s p x y s' p x extra r HF HP) as (proba' & ml' & I1 & I2 & I3 & _).
  assert (proba' = proba) by congruence. subst proba'. assert (ml' = ml) by congruence. subst ml'.
  assert (LR : List.length r = List.length (l_list y)) by congruence.
  unfold accuracy_score. rewrite LR, Nat.eqb_refl. replace (List.length (l_list y) =? 0)%nat with false by (symmetry; apply Nat.eqb_neq; lia). cbn [negb orb].
  f_equal. rewrite (bsum_ext _ _ (fun _ => 1)).
  - rewrite bsum_ones. apply Rinv_r. apply not_0_INR. lia.
  - intros i Hi.
    destruct (ck_exact E eqb cl s p x y s' p x extra r i i proba ml ml HQ HE Hex Hpi HF HA HP HB F7 F2 F2 HL ltac:(lia) ltac:(lia) (fun c => eq_refl) eq_refl) as [_ H].
    destruct (H _ (nth_error_nth' (l_list y) 0%nat Hi)) as [H1 _]. rewrite HC in H1.
    assert (B : (nth i r 0 < List.length (ck_classes s'))%nat) by (apply (ck_index_bound E eqb cl s p x y s' p x extra r i HF HP); lia).
    rewrite (nth_error_nth' _ 0%nat) in H1 by (rewrite seq_length; exact B). rewrite seq_nth in H1 by exact B. injection H1 as H1.
    rewrite H1. cbn [plus]. now rewrite Nat.eqb_refl.
Qed.

(** ** examples *)
Definition first_reg : regressor nat := fun _ y => Ok (fun n => Ok (repeat (rnth y 0) n)).
Definition pts3 : points := {| p_int := false; p_cols := [[0; 3]; [0; 4]; [0; 0]] |}.
Lemma rk_mixed : exists s s1 s2, rk_init nat kopt = Ok s /\
  rk_fit WE first_reg s 2%nat pts2 [1; 2] = (s1, None) /\ rk_predict WE s1 2%nat pts2 [] = Ok [1; 2] /\
  rk_fit WE first_reg s1 2%nat pts3 [101; 105] = (s2, Some ValueError) /\ rk_predict WE s2 2%nat pts2 [] = Ok [101; 102].
Proof.
  destruct (kopt_fit (1 - 1) (2 - 1)) as (k' & HF & HA & sh & v & HP).
  assert (HC : class_of (k_method kopt) = Some OK2) by reflexivity.
  destruct (fit_inv WE kopt pts2 _ k' OK2 HC HF) as (m & HD & Hk & _).
  assert (Hsh : sh = [2%nat]).
  { rewrite Hk in HP. exact (proj1 (predict_shape WE _ m OK2 pts2 [] sh v (fit_fitted WE kopt pts2 _ OK2 m HC HD) (or_introl eq_refl) HP)). }
  subst sh.
  set (s := {| rk_reg := @None (nat -> res (list R)); rk_krige := kopt |}).
  set (s1 := {| rk_reg := Some (fun n => Ok (repeat 1 n)); rk_krige := k' |}).
  set (s2 := {| rk_reg := Some (fun n => Ok (repeat 101 n)); rk_krige := k' |}).
  assert (HI : rk_init nat kopt = Ok s) by reflexivity.
  assert (F1 : rk_fit WE first_reg s 2%nat pts2 [1; 2] = (s1, None)).
  { unfold rk_fit, first_reg, s. cbn [rk_krige bind repeat np_map2 List.length Nat.eqb zip_with rnth nth]. rewrite HF. reflexivity. }
  set (r i := match v i with Some w => w | None => 0 end).
  assert (P1 : rk_predict WE s1 2%nat pts2 [] = Ok [r 0%nat + 1; r 1%nat + 1]).
  { unfold rk_predict, rk_krige_residual, s1. cbn [rk_krige rk_reg]. rewrite HP. reflexivity. }
  assert (EX : forall i, (i < 2)%nat -> rnth [r 0%nat + 1; r 1%nat + 1] i = rnth [1; 2] i).
  { intros i Hi. apply (rk_exact WE first_reg kopt s s1 2%nat pts2 [1; 2] 2%nat pts2 [] _ i i OK2 (fun n => Ok (repeat 1 n)) (repeat 1 2) (repeat 1 2)
      (wit_env_ok _ _) HI HC eq_refl eq_refl F1 HA P1 (or_introl eq_refl) eq_refl eq_refl eq_refl eq_refl Hi Hi (fun c => eq_refl) eq_refl). }
  pose proof (EX 0%nat ltac:(lia)) as E0. pose proof (EX 1%nat ltac:(lia)) as E1. cbn in E0, E1.
  exists s, s1, s2. split; [exact HI|]. split; [exact F1|]. split; [rewrite P1; repeat f_equal; lra|]. split.
  - unfold rk_fit, first_reg, s1. cbn [rk_krige rk_reg bind repeat np_map2 List.length Nat.eqb zip_with rnth nth].
    rewrite (fit_wrong_dimension WE k' pts3 _ OK2); [reflexivity|rewrite Hk; cbn; reflexivity|cbn; lia|rewrite Hk; cbn; lia|rewrite Hk; cbn; lia].
  - unfold rk_predict, rk_krige_residual, s2. cbn [rk_krige rk_reg]. rewrite HP.
    cbn [bind as_list fst snd map seq repeat np_map2 List.length Nat.eqb zip_with]. fold (r 0%nat) (r 1%nat). repeat f_equal; lra.
Qed.

(** labels 0 and 1 *)
Definition flat01 : classifier nat nat := fun _ _ => Ok ([0; 1]%nat, fun n => Ok (repeat [/ 2; / 2] n)).
Definition ones : labels nat := {| l_column := true; l_list := [0; 1]%nat |}.
Lemma ck_example01 : exists s' r, ck_fit WE Nat.eqb flat01 (ck_init nat nat kopt) 2%nat pts2 ones = (s', None) /\
    (forall k, In k (ck_krige s') -> apart k) /\ ck_predict WE s' 2%nat pts2 [] = Ok r /\ ck_classes s' = [0; 1]%nat.
Proof.
  set (o1 := fun j : nat => if Nat.eqb j 0 then 1 else 0). set (o2 := fun j : nat => if Nat.eqb j 1 then 1 else 0).
  destruct (kopt_fit (ilr 2 o1 0%nat - ilr 2 (rnth [/ 2; / 2]) 0%nat) (ilr 2 o2 0%nat - ilr 2 (rnth [/ 2; / 2]) 0%nat)) as (k' & HF & HA & sh & v & HP).
  assert (HC : class_of (k_method kopt) = Some OK2) by reflexivity.
  destruct (fit_inv WE kopt pts2 _ k' OK2 HC HF) as (m & HD & Hk & _).
  assert (Hsh : sh = [2%nat]).
  { rewrite Hk in HP. exact (proj1 (predict_shape WE _ m OK2 pts2 [] sh v (fit_fitted WE kopt pts2 _ OK2 m HC HD) (or_introl eq_refl) HP)). }
  subst sh.
  exists {| ck_options := kopt; ck_classes := [0; 1]%nat; ck_proba := Some (fun n => Ok (repeat [/ 2; / 2] n)); ck_krige := [k'] |}.
  eexists. split.
  - unfold ck_fit, flat01, ones, ck_init. cbn [ck_options l_list l_column List.length seq Nat.sub mapM bind repeat Nat.eqb].
    replace (krige_init kopt) with (@Ok krige kopt) by reflexivity. cbn [bind one_hot position Nat.eqb option_map mapM fit_all zip_with List.length].
    fold o1 o2. rewrite HF. reflexivity.
  - split; [intros k [<-|[]]; exact HA|]. split; [|reflexivity].
    unfold ck_predict, ck_krige_residual. cbn [ck_proba ck_krige ck_classes bind repeat mapM]. rewrite HP.
    cbn [bind as_list fst snd map seq forallb List.length Nat.eqb andb]. reflexivity.
Qed.
Lemma ck_score01 : exists s', ck_fit WE Nat.eqb flat01 (ck_init nat nat kopt) 2%nat pts2 ones = (s', None) /\ ck_score WE s' 2%nat pts2 [0; 1]%nat [] = Ok 1.
Proof.
  destruct ck_example01 as (s & r & F & A & P & C). exists s. split; [exact F|].
  assert (Heq : forall a b, Nat.eqb a b = true <-> a = b) by (intros a b; apply Nat.eqb_eq).
  refine (ck_training_score WE Nat.eqb flat01 (ck_init nat nat kopt) 2%nat pts2 ones s [] r Heq (wit_env_ok _ _) eq_refl eq_refl F A P (or_introl eq_refl) eq_refl _ _).
  - cbn. lia.
  - rewrite C. reflexivity.
Qed.
Lemma ck_score_tens : exists s', ck_fit WE Nat.eqb flat (ck_init nat nat kopt) 2%nat pts2 tens = (s', None) /\
  ck_predict WE s' 2%nat pts2 [] = Ok [0; 1]%nat /\ ck_score WE s' 2%nat pts2 [10; 20]%nat [] = Ok 0.
Proof.
  destruct ck_example as (s & r & F & A & P & C & ->). exists s. split; [exact F|]. split; [exact P|].
  unfold ck_score. rewrite P. cbn [bind]. unfold accuracy_score. cbn [List.length Nat.eqb negb orb nth]. f_equal. rewrite bsum_0; [unfold Rdiv; ring|].
  intros [|[|i]] Hi; [reflexivity|reflexivity|lia].
Qed.
