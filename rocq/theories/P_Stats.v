(** C75: how the cross-validation statistics change with values, units and model. *)
From Coq Require Import String FunctionalExtensionality.
From Verif Require Import Base Sums Matrix M_Variogram M_Geometry S_Geometry P_Geometry M_Kriging S_Kriging P_Kriging P_OKSpec M_Init M_Object M_Execute S_Execute
  S_Fit P_Object P_Cells P_Fit4 S_Stats.

(** the right-hand side of core._krige *)
Definition kb (n : nat) (vg : R -> R) (bd : vec) : vec :=
  upd (match first_zero n bd with Some k0 => upd (fun k => if Nat.ltb k n then - vg (bd k) else 0) k0 0 | None => fun k => if Nat.ltb k n then - vg (bd k) else 0 end) n 1.

Lemma krige1_kb L n vg d bd y pi : krige1 L n vg d bd y pi =
  match (if pi then la_lstsq L (n + 1) (kriging_matrix n vg d) (kb n vg bd) else la_solve L (n + 1) (kriging_matrix n vg d) (kb n vg bd)) with
  | None => Err LinAlgError
  | Some x => Ok (bsum n (fun k => x k * y k), bsum (n + 1) (fun k => x k * - kb n vg bd k))
  end.
Proof. reflexivity. Qed.

Lemma first_zero_ext n bd bd' : (forall i, (i < n)%nat -> bd' i <= eps <-> bd i <= eps) -> first_zero n bd' = first_zero n bd.
Proof.
  intros H. unfold first_zero. fold eps. assert (HI : forall i, In i (seq 0 n) -> Rleb (bd' i) eps = Rleb (bd i) eps).
  { intros i Hi. apply in_seq in Hi. specialize (H i ltac:(lia)). destruct (Rleb_spec (bd' i) eps), (Rleb_spec (bd i) eps); try reflexivity; exfalso; tauto. }
  induction (seq 0 n) as [|a l IH]; [reflexivity|]. cbn. rewrite (HI a (or_introl eq_refl)). destruct (Rleb (bd a) eps); [reflexivity|].
  apply IH. intros i Hi. apply HI. right. exact Hi.
Qed.

Lemma first_zero_lt n bd k : first_zero n bd = Some k -> (k < n)%nat.
Proof. unfold first_zero. intros H. apply find_some in H. destruct H as [H _]. apply in_seq in H. lia. Qed.

Lemma kb_last n vg bd : kb n vg bd n = 1.
Proof. apply upd_same. Qed.
Lemma kb_entry n vg bd i : (i < n)%nat -> kb n vg bd i = match first_zero n bd with Some k0 => if Nat.eqb i k0 then 0 else - vg (bd i) | None => - vg (bd i) end.
Proof.
  intros Hi. unfold kb. rewrite upd_other by lia. destruct (first_zero n bd) as [k0|].
  - destruct (Nat.eqb_spec i k0) as [->|NE]; [apply upd_same|]. rewrite upd_other by exact NE. destruct (Nat.ltb_spec i n); [reflexivity|lia].
  - destruct (Nat.ltb_spec i n); [reflexivity|lia].
Qed.

Section Two.
Context (L : linalg) (HL : linalg_ok L) (n : nat) (vg vg' : R -> R) (d d' : mat) (bd bd' y y' : vec) (k a b : R).
Hypothesis Hk : 0 < k.
Hypothesis Hd : forall i j, (i < n)%nat -> (j < n)%nat -> i <> j -> vg' (d' i j) = k * vg (d i j).
Hypothesis Hbd : forall i, (i < n)%nat -> vg' (bd' i) = k * vg (bd i).
Hypothesis Hz : forall i, (i < n)%nat -> bd' i <= eps <-> bd i <= eps.
Hypothesis Hy : forall i, (i < n)%nat -> y' i = a * y i + b.

Lemma kb_scaled i : (i < n)%nat -> kb n vg' bd' i = k * kb n vg bd i.
Proof.
  intros Hi. rewrite !kb_entry by exact Hi. rewrite (first_zero_ext n bd bd' Hz).
  destruct (first_zero n bd) as [k0|]; [destruct (Nat.eqb i k0); [ring|]|]; rewrite Hbd by exact Hi; ring.
Qed.
Lemma km_scaled i j : (i < n)%nat -> (j < n)%nat -> kriging_matrix n vg' d' i j = k * kriging_matrix n vg d i j.
Proof.
  intros Hi Hj. rewrite !km_entry by assumption. unfold data_semivariance. destruct (Nat.eqb_spec i j); [ring|]. rewrite Hd by assumption. ring.
Qed.

Lemma krige1_scaled v s v' s' :
  krige1 L n vg d bd y false = Ok (v, s) -> krige1 L n vg' d' bd' y' false = Ok (v', s') -> v' = a * v + b /\ s' = k * s.
Proof.
  rewrite !krige1_kb. destruct (la_solve L (n + 1) (kriging_matrix n vg d) _) as [x|] eqn:EX; [|discriminate].
  destruct (la_solve L (n + 1) (kriging_matrix n vg' d') _) as [x'|] eqn:EX'; [|discriminate]. intros H H'. injection H as <- <-. injection H' as <- <-.
  destruct (solve_some L HL _ _ _ _ EX) as [_ HX]. destruct (solve_some L HL _ _ _ _ EX') as [(B & HB) HX'].
  set (t := fun i => if Nat.ltb i n then x i else k * x i).
  assert (Tlt : forall i, (i < n)%nat -> t i = x i) by (intros i Hi; unfold t; destruct (Nat.ltb_spec i n); [reflexivity|lia]).
  assert (Tn : t n = k * x n) by (unfold t; destruct (Nat.ltb_spec n n); [lia|reflexivity]).
  assert (S1 : bsum n x = 1).
  { specialize (HX n ltac:(lia)). rewrite kb_last in HX. unfold mulv in HX. rewrite bsum_add1, km_corner in HX. rewrite <- HX.
    rewrite Rmult_0_l, Rplus_0_r. apply bsum_ext. intros j Hj. rewrite km_row by exact Hj. ring. }
  assert (HT : veq (n + 1) (mulv (n + 1) (kriging_matrix n vg' d') t) (kb n vg' bd')).
  { intros i Hi. unfold mulv. rewrite bsum_add1, Tn. destruct (Nat.eq_dec i n) as [->|NE].
    - rewrite km_corner, kb_last. rewrite Rmult_0_l, Rplus_0_r, <- S1. apply bsum_ext. intros j Hj. rewrite km_row, Tlt by exact Hj. ring.
    - rewrite km_col by lia. rewrite kb_scaled by lia. rewrite <- (HX i Hi). unfold mulv. rewrite bsum_add1, km_col by lia.
      rewrite Rmult_plus_distr_l. f_equal; [|ring]. rewrite <- bsum_scal. apply bsum_ext. intros j Hj. rewrite km_scaled, Tlt by lia. ring. }
  assert (XT : veq (n + 1) x' t).
  { intros i Hi. rewrite (inverse_unique_solution _ _ _ _ _ HB HX' i Hi). symmetry. apply (inverse_unique_solution _ _ _ _ _ HB HT i Hi). }
  split.
  - replace (a * bsum n (fun i => x i * y i) + b) with (bsum n (fun i => a * (x i * y i)) + b * bsum n x) by (rewrite bsum_scal, S1; ring).
    rewrite <- bsum_scal, <- bsum_plus. apply bsum_ext. intros i Hi. rewrite (XT i) by lia. rewrite Tlt, Hy by exact Hi. ring.
  - rewrite !bsum_add1, !kb_last, (XT n), Tn by lia. rewrite Rmult_plus_distr_l, <- bsum_scal. f_equal; [|ring].
    apply bsum_ext. intros i Hi. rewrite (XT i) by lia. rewrite Tlt, kb_scaled by exact Hi. ring.
Qed.
End Two.

Lemma krige1_pseudo L n vg vg' d d' bd bd' y y' a v s v' s' : linalg_ok L ->
  (forall i j, (i < n)%nat -> (j < n)%nat -> i <> j -> vg' (d' i j) = vg (d i j)) ->
  (forall i, (i < n)%nat -> vg' (bd' i) = vg (bd i)) -> (forall i, (i < n)%nat -> bd' i <= eps <-> bd i <= eps) ->
  (forall i, (i < n)%nat -> y' i = a * y i) ->
  krige1 L n vg d bd y true = Ok (v, s) -> krige1 L n vg' d' bd' y' true = Ok (v', s') -> v' = a * v /\ s' = s.
Proof.
  intros HL Hd Hbd Hz Hy. rewrite !krige1_kb.
  destruct (la_lstsq L (n + 1) (kriging_matrix n vg d) _) as [x|] eqn:EX; [|discriminate].
  destruct (la_lstsq L (n + 1) (kriging_matrix n vg' d') _) as [x'|] eqn:EX'; [|discriminate]. intros H H'. injection H as <- <-. injection H' as <- <-.
  destruct (lstsq_some L HL _ _ _ _ EX) as (P & HP & HX). destruct (lstsq_some L HL _ _ _ _ EX') as (P' & HP' & HX').
  assert (KB : forall i, (i < n + 1)%nat -> kb n vg' bd' i = kb n vg bd i).
  { intros i Hi. destruct (Nat.eq_dec i n) as [->|NE]; [rewrite !kb_last; reflexivity|].
    rewrite (kb_scaled n vg vg' bd bd' 1) by (try lia; try assumption; intros; rewrite Hbd by assumption; ring). ring. }
  assert (KM : meq (n + 1) (kriging_matrix n vg d) (kriging_matrix n vg' d')).
  { intros i j Hi Hj. destruct (Nat.eq_dec i n) as [->|NI].
    - destruct (Nat.eq_dec j n) as [->|NJ]; [rewrite !km_corner; reflexivity|rewrite !km_row by lia; reflexivity].
    - destruct (Nat.eq_dec j n) as [->|NJ]; [rewrite !km_col by lia; reflexivity|].
      rewrite (km_scaled n vg vg' d d' 1) by (try lia; intros; rewrite Hd by assumption; ring). ring. }
  assert (PP : meq (n + 1) P' P).
  { apply (pinv_unique (n + 1) (kriging_matrix n vg' d') P' P HP'). apply (is_pinv_ext _ (kriging_matrix n vg d)); [exact KM|exact HP]. }
  assert (XX : forall i, (i < n + 1)%nat -> x' i = x i).
  { intros i Hi. rewrite (HX i Hi), (HX' i Hi). unfold mulv. apply bsum_ext. intros j Hj. rewrite PP, KB by assumption. reflexivity. }
  split.
  - rewrite <- bsum_scal. apply bsum_ext. intros i Hi. rewrite XX, Hy by lia. ring.
  - apply bsum_ext. intros i Hi. rewrite XX, KB by exact Hi. reflexivity.
Qed.

(** the statistics from the sequential predictions *)
Lemma statistics_entries L ct ndim n X y vg pi st : all_statistics L ct ndim n X y vg pi = Ok st ->
  exists v s, (forall i, (1 <= i < n)%nat -> krige_first L ct ndim X y vg pi i = Ok (v i, s i)) /\
    let kept := filter (fun i => Rleb eps (s i)) (seq 1 (n - 1)) in
    st_delta st = map (fun i => y i - v i) kept /\ st_sigma st = map (fun i => sqrt (s i)) kept /\
    st_epsilon st = map (fun i => (y i - v i) / sqrt (s i)) kept /\
    st_Q1 st = calcQ1 (st_epsilon st) /\ st_Q2 st = calcQ2 (st_epsilon st) /\ st_cR st = calc_cR (st_Q2 st) (st_sigma st).
Proof.
  intros H. unfold all_statistics, find_statistics in H. bindok H.
  destruct a as [[delta sigma] epsilon]. cbn in H. injection H as <-.
  match goal with H : bind _ _ = Ok _ |- _ => bindok H; injection H as <- <- <- end.
  match goal with H : mapM _ _ = Ok ?l |- _ => apply (mapM_inv _ _ _ (0, None)) in H; destruct H as [HM HA]; rename l into a' end.
  set (kr := fun i => krige_first L ct ndim X y vg pi i).
  set (v := fun i => match kr i with Ok (k, _) => k | Err _ => 0 end).
  set (s := fun i => match kr i with Ok (_, ss) => ss | Err _ => 0 end).
  assert (KR : forall i, (1 <= i < n)%nat -> kr i = Ok (v i, s i)).
  { intros i Hi. destruct (HA i) as (z & Hy); [apply in_seq; lia|]. unfold stat_entry in Hy.
    destruct (Nat.eqb_spec i 0); [lia|]. unfold v, s. unfold kr. destruct (krige_first _ _ _ _ _ _ _ i) as [[k ss]|e]; [reflexivity|discriminate Hy]. }
  exists v, s. split; [exact KR|].
  assert (KE : keep_entries a' = map (fun i => (y i - v i, sqrt (s i))) (filter (fun i => Rleb eps (s i)) (seq 1 (n - 1)))).
  { rewrite HM. destruct n as [|m]; [reflexivity|]. cbn [seq map]. unfold stat_entry at 1. cbn [Nat.eqb].
    assert (Z : forall r, keep_entries ((0, Some 0) :: r) = keep_entries r).
    { intros r. unfold keep_entries. cbn [flat_map]. destruct (Rltb_spec eps 0); [pose proof eps_val; lra|reflexivity]. }
    rewrite Z. replace (S m - 1)%nat with m by lia. apply keep_map. intros i Hi. apply in_seq in Hi.
    unfold stat_entry. destruct (Nat.eqb_spec i 0); [lia|]. fold (kr i). rewrite (KR i) by lia. cbn [bind].
    destruct (Rltb (Rabs (s i)) eps); reflexivity. }
  cbn [st_delta st_sigma st_epsilon st_Q1 st_Q2 st_cR]. rewrite KE, !map_map. cbn [fst snd]. repeat split; reflexivity.
Qed.

Lemma lsum_scale c l : lsum (map (fun x => c * x) l) = c * lsum l.
Proof. induction l as [|x l IH]; cbn; [ring|]. unfold lsum in *. rewrite IH. ring. Qed.

Lemma calc_scaled a k e sg : 0 < k -> (forall x, In x sg -> 0 < x) ->
  calcQ1 (map (fun x => a / k * x) e) = option_map (fun x => Rabs a / k * x) (calcQ1 e) /\
  calcQ2 (map (fun x => a / k * x) e) = option_map (fun x => (a / k)² * x) (calcQ2 e) /\
  calc_cR (calcQ2 (map (fun x => a / k * x) e)) (map (fun x => k * x) sg) = option_map (fun x => a² * x) (calc_cR (calcQ2 e) sg).
Proof.
  intros Hk HS.
  assert (Q2 : calcQ2 (map (fun x => a / k * x) e) = option_map (fun x => (a / k)² * x) (calcQ2 e)).
  { unfold calcQ2. rewrite map_length, map_map. destruct (Nat.eqb (List.length e) 1); [reflexivity|]. cbn [option_map]. f_equal.
    replace (map (fun x => a / k * x * (a / k * x)) e) with (map (fun x => (a / k)² * x) (map (fun x => x * x) e)).
    - rewrite lsum_scale. unfold Rdiv. ring.
    - rewrite map_map. apply map_ext. intros x. unfold Rsqr. ring. }
  split; [|split; [exact Q2|]].
  - unfold calcQ1. rewrite map_length, lsum_scale. destruct (Nat.eqb (List.length e) 1); [reflexivity|]. cbn [option_map]. f_equal.
    unfold Rdiv. rewrite !Rabs_mult, (Rabs_right (/ k)); [ring|]. apply Rle_ge, Rlt_le, Rinv_0_lt_compat, Hk.
  - rewrite Q2. unfold calc_cR. destruct (calcQ2 e) as [q|]; [|reflexivity]. cbn [option_map]. destruct sg as [|x0 sg]; [reflexivity|].
    set (l := x0 :: sg) in *. change (map (fun x => k * x) l) with (k * x0 :: map (fun x => k * x) sg). cbn [option_map].
    change (k * x0 :: map (fun x => k * x) sg) with (map (fun x => k * x) l). f_equal. rewrite map_length, map_map.
    assert (HL : lsum (map (fun x => ln (k * x * (k * x))) l) = INR (List.length l) * (2 * ln k) + lsum (map (fun s => ln (s * s)) l)).
    { clearbody l. induction l as [|x l IH]; [cbn; ring|]. cbn [map]. unfold lsum in *. cbn [fold_right]. rewrite IH by (intros z Hz; apply HS; right; exact Hz).
      assert (HX : 0 < x) by (apply HS; left; reflexivity). change (List.length (x :: l)) with (S (List.length l)). rewrite S_INR.
      replace (k * x * (k * x)) with (k * k * (x * x)) by ring. rewrite ln_mult by nra. rewrite (ln_mult k k) by lra. ring. }
    rewrite HL. assert (HN : INR (List.length l) <> 0) by (apply not_0_INR; unfold l; discriminate).
    replace ((INR (List.length l) * (2 * ln k) + lsum (map (fun s => ln (s * s)) l)) / INR (List.length l))
      with (ln k + ln k + lsum (map (fun s => ln (s * s)) l) / INR (List.length l)) by (field; exact HN).
    rewrite !exp_plus, exp_ln by exact Hk. unfold Rsqr. field. lra.
Qed.

Lemma filter_full {A} (p : A -> bool) l : List.length (filter p l) = List.length l -> filter p l = l.
Proof.
  induction l as [|x l IH]; [reflexivity|]. cbn. destruct (p x); cbn; intros H; [f_equal; apply IH; lia|].
  exfalso. assert (List.length (filter p l) <= List.length l)%nat; [|lia]. clear. induction l as [|y l IH]; [cbn; lia|]. cbn. destruct (p y); cbn; lia.
Qed.
Lemma filter_true_in {A} (p : A -> bool) l x : filter p l = l -> In x l -> p x = true.
Proof. intros H Hx. rewrite <- H in Hx. apply filter_In in Hx. apply Hx. Qed.

(** two objects *)
Definition dists (o : obj) : mat := fun i j => distance (o_ct o) (o_dim o) (o_adj o i) (o_adj o j).
Lemma statistics_related L o o' a b k st st' : linalg_ok L -> 0 < k ->
  all_statistics L (o_ct o) (o_dim o) (o_n o) (o_adj o) (o_values o) (o_vg o) (o_pinv o) = Ok st ->
  all_statistics L (o_ct o') (o_dim o') (o_n o') (o_adj o') (o_values o') (o_vg o') (o_pinv o') = Ok st' ->
  o_n o' = o_n o -> o_pinv o' = o_pinv o -> (o_pinv o = true -> k = 1 /\ b = 0) ->
  (forall i j, (i < o_n o)%nat -> (j < o_n o)%nat -> i <> j -> o_vg o' (dists o' i j) = k * o_vg o (dists o i j)) ->
  (forall i j, (i < o_n o)%nat -> (j < o_n o)%nat -> dists o' i j <= eps <-> dists o i j <= eps) ->
  (forall i, (i < o_n o)%nat -> o_values o' i = a * o_values o i + b) ->
  k = 1 \/ (List.length (st_delta st) = (o_n o - 1)%nat /\ List.length (st_delta st') = (o_n o - 1)%nat) ->
  stats_scaled a (sqrt k) st st'.
Proof.
  intros HL Hk H H' Hn Hp Hps Hd Hz Hv Hkept. rewrite Hn, Hp in H'.
  destruct (statistics_entries _ _ _ _ _ _ _ _ _ H) as (v & s & HK & D1 & D2 & D3 & D4 & D5 & D6).
  destruct (statistics_entries _ _ _ _ _ _ _ _ _ H') as (v' & s' & HK' & D1' & D2' & D3' & D4' & D5' & D6').
  set (n := o_n o) in *.
  assert (HR : forall i, (1 <= i < n)%nat -> v' i = a * v i + b /\ s' i = k * s i).
  { intros i Hi. pose proof (HK i Hi) as K. pose proof (HK' i Hi) as K'. unfold krige_first in K, K'.
    destruct (o_pinv o) eqn:EP.
    - destruct (Hps eq_refl) as [-> ->].
      assert (E12 : v' i = a * v i /\ s' i = s i); [|destruct E12 as [E1 E2]; split; [rewrite E1; ring|rewrite E2; ring]].
      apply (krige1_pseudo L i (o_vg o) (o_vg o') (fun p q => distance (o_ct o) (o_dim o) (o_adj o q) (o_adj o p))
        (fun p q => distance (o_ct o') (o_dim o') (o_adj o' q) (o_adj o' p)) (fun p => distance (o_ct o) (o_dim o) (o_adj o p) (o_adj o i))
        (fun p => distance (o_ct o') (o_dim o') (o_adj o' p) (o_adj o' i)) (o_values o) (o_values o') a); try assumption.
      + intros p q Hp' Hq Hne. cbv beta. pose proof (Hd q p ltac:(lia) ltac:(lia) ltac:(lia)) as X. rewrite Rmult_1_l in X. exact X.
      + intros p Hp'. cbv beta. pose proof (Hd p i ltac:(lia) ltac:(lia) ltac:(lia)) as X. rewrite Rmult_1_l in X. exact X.
      + intros p Hp'. cbv beta. apply (Hz p i); lia.
      + intros p Hp'. rewrite Hv by lia. ring.
    - apply (krige1_scaled L HL i (o_vg o) (o_vg o') (fun p q => distance (o_ct o) (o_dim o) (o_adj o q) (o_adj o p))
        (fun p q => distance (o_ct o') (o_dim o') (o_adj o' q) (o_adj o' p)) (fun p => distance (o_ct o) (o_dim o) (o_adj o p) (o_adj o i))
        (fun p => distance (o_ct o') (o_dim o') (o_adj o' p) (o_adj o' i)) (o_values o) (o_values o') k a b); try assumption.
      + intros p q Hp' Hq Hne. apply (Hd q p); lia.
      + intros p Hp'. apply (Hd p i); lia.
      + intros p Hp'. apply (Hz p i); lia.
      + intros p Hp'. apply Hv. lia. }
  set (kept := filter (fun i => Rleb eps (s i)) (seq 1 (n - 1))) in *.
  set (kept' := filter (fun i => Rleb eps (s' i)) (seq 1 (n - 1))) in *.
  assert (KK : kept' = kept).
  { destruct Hkept as [->|[L1 L2]].
    - apply filter_ext_in. intros i Hi. apply in_seq in Hi. destruct (HR i ltac:(lia)) as [_ ->]. rewrite Rmult_1_l. reflexivity.
    - rewrite D1, map_length in L1. rewrite D1', map_length in L2. unfold kept, kept' in *. rewrite !filter_full by (rewrite seq_length; assumption). reflexivity. }
  assert (KI : forall i, In i kept -> (1 <= i < n)%nat /\ eps <= s i).
  { intros i Hi. apply filter_In in Hi. destruct Hi as [Hi HE]. apply in_seq in Hi. split; [lia|]. destruct (Rleb_spec eps (s i)); [assumption|discriminate]. }
  pose proof eps_val as EV.
  assert (X1 : st_delta st' = map (fun x => a * x) (st_delta st)).
  { rewrite D1, D1', KK, map_map. apply map_ext_in. intros i Hi. apply KI in Hi. destruct (HR i ltac:(lia)) as [-> _]. rewrite Hv by lia. ring. }
  assert (X2 : st_sigma st' = map (fun x => sqrt k * x) (st_sigma st)).
  { rewrite D2, D2', KK, map_map. apply map_ext_in. intros i Hi. apply KI in Hi. destruct (HR i ltac:(lia)) as [_ ->]. apply sqrt_mult; lra. }
  assert (X3 : st_epsilon st' = map (fun x => a / sqrt k * x) (st_epsilon st)).
  { rewrite D3, D3', KK, map_map. apply map_ext_in. intros i Hi. apply KI in Hi. destruct (HR i ltac:(lia)) as [-> ->]. rewrite Hv by lia.
    rewrite sqrt_mult by lra. pose proof (sqrt_lt_R0 k Hk). pose proof (sqrt_lt_R0 (s i) ltac:(lra)). field. lra. }
  pose proof (sqrt_lt_R0 k Hk) as HS.
  assert (SP : forall x, In x (st_sigma st) -> 0 < x).
  { intros x Hx. rewrite D2 in Hx. apply in_map_iff in Hx. destruct Hx as (i & <- & Hi). apply KI in Hi. apply sqrt_lt_R0. lra. }
  destruct (calc_scaled a (sqrt k) (st_epsilon st) (st_sigma st) HS SP) as (Q1 & Q2 & Q3).
  constructor; try assumption.
  - rewrite D4', D4, X3. exact Q1.
  - rewrite D5', D5, X3. exact Q2.
  - rewrite D6', D6, D5', D5, X3, X2. exact Q3.
Qed.
