(** PROOFS about M_Variogram. *)
From Coq Require Import String.
From Verif Require Import Base Sums Matrix M_Variogram.

(** *** A lower bound for exp by partial sums *)
Lemma exp_ge_partial (x : R) (N : nat) :
  0 <= x -> sum_f_R0 (fun i => / INR (fact i) * x ^ i) N <= exp x.
Proof.
  intros Hx. unfold exp. destruct (exist_exp x) as [l Hl]. simpl.
  apply (growing_ineq (fun n => sum_f_R0 (fun i => / INR (fact i) * x ^ i) n)).
  - intros n. simpl.
    assert (0 <= / INR (fact (S n)) * x ^ (S n)).
    { apply Rmult_le_pos; [left; apply Rinv_0_lt_compat, INR_fact_lt_0|apply pow_le, Hx]. }
    simpl in H. lra.
  - exact Hl.
Qed.

Lemma exp3_ge_20 : 20 <= exp 3.
Proof.
  eapply Rle_trans; [|apply (exp_ge_partial 3 8); lra].
  cbn [sum_f_R0 fact pow]. rewrite ?mult_INR, ?plus_INR.
  simpl. lra.
Qed.

Lemma exp_le_inc x y : x <= y -> exp x <= exp y.
Proof. intros [H|H]; [left; apply exp_increasing; exact H|right; rewrite H; reflexivity]. Qed.

Lemma exp_neg3_le : exp (-3) <= / 20.
Proof.
  replace (-3) with (- (3)) by lra.
  rewrite exp_Ropp. apply Rinv_le_contravar; [lra|apply exp3_ge_20].
Qed.

Lemma exp_le_1 x : x <= 0 -> exp x <= 1.
Proof. intros H. rewrite <- exp_0. apply exp_le_inc, H. Qed.

Lemma exp_ineq x : 1 + x <= exp x.
Proof.
  destruct (Req_dec x 0) as [->|Hx]; [rewrite exp_0; lra|left; apply exp_ineq1; exact Hx].
Qed.

(** *** npow *)
Lemma npow_0 e : 0 < e -> npow 0 e = 0.
Proof.
  intros H. unfold npow. rewrite Reqb_refl.
  destruct (Reqb_spec e 0); [lra|reflexivity].
Qed.
Lemma npow_nonneg d e : 0 <= npow d e.
Proof.
  unfold npow. destruct (Reqb d 0); [destruct (Reqb e 0); lra|].
  unfold Rpower. left; apply exp_pos.
Qed.
Lemma npow_mono d1 d2 e : 0 < e -> 0 <= d1 <= d2 -> npow d1 e <= npow d2 e.
Proof.
  intros He [H1 H2].
  destruct (Req_dec d1 0) as [->|Hd1].
  { rewrite npow_0 by assumption. apply npow_nonneg. }
  unfold npow. destruct (Reqb_spec d1 0); [contradiction|].
  destruct (Reqb_spec d2 0); [lra|].
  apply Rle_Rpower_l; lra.
Qed.

(** *** C01 *)
Lemma nugget_linear slope nug : linear_variogram_model [slope; nug] 0 = nug.
Proof. unfold linear_variogram_model, rnth; simpl; ring. Qed.
Lemma nugget_power scale e nug : 0 < e -> power_variogram_model [scale; e; nug] 0 = nug.
Proof. intros H. unfold power_variogram_model, rnth; simpl. rewrite npow_0 by assumption. ring. Qed.
Lemma nugget_gaussian psill r nug : gaussian_variogram_model [psill; r; nug] 0 = nug.
Proof.
  unfold gaussian_variogram_model, rnth; simpl.
  replace (- (0 * 0) / (r * 4 / 7 * (r * 4 / 7))) with 0 by (unfold Rdiv; ring).
  rewrite exp_0; ring.
Qed.
Lemma nugget_exponential psill r nug : exponential_variogram_model [psill; r; nug] 0 = nug.
Proof.
  unfold exponential_variogram_model, rnth; simpl.
  replace (- 0 / (r / 3)) with 0 by (unfold Rdiv; ring).
  rewrite exp_0; ring.
Qed.
Lemma nugget_spherical psill r nug : 0 <= r -> spherical_variogram_model [psill; r; nug] 0 = nug.
Proof.
  intros Hr. unfold spherical_variogram_model, rnth; simpl.
  destruct (Rleb_spec 0 r); [unfold Rdiv; ring|contradiction].
Qed.
Lemma nugget_hole psill r nug : hole_effect_variogram_model [psill; r; nug] 0 = nug.
Proof.
  unfold hole_effect_variogram_model, rnth; simpl.
  replace (- 0 / (r / 3)) with 0 by (unfold Rdiv; ring).
  replace (0 / (r / 3)) with 0 by (unfold Rdiv; ring).
  rewrite exp_0; ring.
Qed.

(** *** Monotonicity (C02) *)
Lemma mono_linear slope nug d1 d2 : 0 <= slope -> 0 <= d1 <= d2 ->
  nug <= linear_variogram_model [slope; nug] d1 <= linear_variogram_model [slope; nug] d2.
Proof. intros; unfold linear_variogram_model, rnth; simpl; nra. Qed.

Lemma mono_power scale e nug d1 d2 : 0 <= scale -> 0 < e -> 0 <= d1 <= d2 ->
  nug <= power_variogram_model [scale; e; nug] d1 <= power_variogram_model [scale; e; nug] d2.
Proof.
  intros Hs He Hd; unfold power_variogram_model, rnth; simpl.
  pose proof (npow_nonneg d1 e). pose proof (npow_mono d1 d2 e He Hd). nra.
Qed.

Lemma neg_div_le a b s : 0 < s -> a <= b -> - b / s <= - a / s.
Proof.
  intros Hs Hab. unfold Rdiv. apply Rmult_le_compat_r; [left; apply Rinv_0_lt_compat, Hs|lra].
Qed.
Lemma neg_div_nonpos a s : 0 < s -> 0 <= a -> - a / s <= 0.
Proof.
  intros Hs Ha. pose proof (neg_div_le 0 a s Hs Ha). unfold Rdiv in *. lra.
Qed.

Lemma mono_gaussian psill r nug d1 d2 : 0 <= psill -> 0 < r -> 0 <= d1 <= d2 ->
  nug <= gaussian_variogram_model [psill; r; nug] d1 <= gaussian_variogram_model [psill; r; nug] d2.
Proof.
  intros Hp Hr Hd; unfold gaussian_variogram_model, rnth; simpl.
  set (s := r * 4 / 7 * (r * 4 / 7)).
  assert (Hs : 0 < s) by (unfold s; nra).
  pose proof (exp_le_1 _ (neg_div_nonpos (d1 * d1) s Hs ltac:(nra))).
  pose proof (exp_le_inc _ _ (neg_div_le (d1 * d1) (d2 * d2) s Hs ltac:(nra))).
  nra.
Qed.

Lemma mono_exponential psill r nug d1 d2 : 0 <= psill -> 0 < r -> 0 <= d1 <= d2 ->
  nug <= exponential_variogram_model [psill; r; nug] d1 <= exponential_variogram_model [psill; r; nug] d2.
Proof.
  intros Hp Hr Hd; unfold exponential_variogram_model, rnth; simpl.
  assert (Hs : 0 < r / 3) by lra.
  pose proof (exp_le_1 _ (neg_div_nonpos d1 (r / 3) Hs ltac:(lra))).
  pose proof (exp_le_inc _ _ (neg_div_le d1 d2 (r / 3) Hs ltac:(lra))).
  nra.
Qed.

Lemma sph_poly r d : r <> 0 ->
  (3 * d) / (2 * r) - (d * d * d) / (2 * (r * r * r)) = 3 / 2 * (d / r) - / 2 * ((d / r) * (d / r) * (d / r)).
Proof. intros; field; assumption. Qed.

Lemma div_unit r d : 0 < r -> 0 <= d <= r -> 0 <= d / r <= 1.
Proof.
  intros Hr [H1 H2]. split.
  - apply Rmult_le_pos; [exact H1|left; apply Rinv_0_lt_compat, Hr].
  - apply Rmult_le_reg_r with r; [exact Hr|]. unfold Rdiv. rewrite Rmult_assoc, Rinv_l; lra.
Qed.
Lemma div_mono r a b : 0 < r -> a <= b -> a / r <= b / r.
Proof. intros Hr H. apply Rmult_le_compat_r; [left; apply Rinv_0_lt_compat, Hr|exact H]. Qed.

Lemma cubic_bounds t : 0 <= t <= 1 -> 0 <= 3 / 2 * t - / 2 * (t * t * t) <= 1.
Proof.
  intros [H0 H1]. split.
  - assert (t * t * t <= t) by (assert (t * t <= 1) by nra; nra). lra.
  - assert (0 <= (1 - t) * (1 - t) * (2 + t)).
    { apply Rmult_le_pos; [apply Rle_0_sqr|lra]. }
    nra.
Qed.
Lemma cubic_mono s t : 0 <= s <= t -> t <= 1 ->
  3 / 2 * s - / 2 * (s * s * s) <= 3 / 2 * t - / 2 * (t * t * t).
Proof.
  intros [H0 H1] H2.
  assert (0 <= (t - s) * (3 - (t * t + t * s + s * s))).
  { apply Rmult_le_pos; [lra|]. assert (t * t <= 1) by nra. assert (t * s <= 1) by nra.
    assert (s * s <= 1) by nra. lra. }
  nra.
Qed.

Lemma sph_bounds psill r nug d : 0 <= psill -> 0 < r -> 0 <= d ->
  nug <= spherical_variogram_model [psill; r; nug] d <= psill + nug.
Proof.
  intros Hp Hr Hd; unfold spherical_variogram_model, rnth; simpl.
  destruct (Rleb_spec d r) as [H|H]; [|lra].
  rewrite sph_poly by lra. pose proof (cubic_bounds _ (div_unit r d Hr (conj Hd H))). nra.
Qed.

Lemma sph_beyond psill r nug d : 0 < r -> r <= d ->
  spherical_variogram_model [psill; r; nug] d = psill + nug.
Proof.
  intros Hr Hd; unfold spherical_variogram_model, rnth; simpl.
  destruct (Rleb_spec d r) as [H|H]; [|reflexivity].
  assert (d = r) by lra; subst d. field. lra.
Qed.

Lemma mono_spherical psill r nug d1 d2 : 0 <= psill -> 0 < r -> 0 <= d1 <= d2 ->
  nug <= spherical_variogram_model [psill; r; nug] d1 <= spherical_variogram_model [psill; r; nug] d2.
Proof.
  intros Hp Hr Hd. split; [apply sph_bounds; lra|].
  destruct (Rle_dec d2 r) as [H2|H2].
  - unfold spherical_variogram_model, rnth; simpl.
    destruct (Rleb_spec d1 r) as [H|H]; [|lra].
    destruct (Rleb_spec d2 r) as [H'|H']; [|lra].
    rewrite !sph_poly by lra.
    pose proof (cubic_mono (d1 / r) (d2 / r)) as C.
    pose proof (div_unit r d1 Hr ltac:(lra)). pose proof (div_unit r d2 Hr ltac:(lra)).
    pose proof (div_mono r d1 d2 Hr ltac:(lra)).
    assert (3 / 2 * (d1 / r) - / 2 * (d1 / r * (d1 / r) * (d1 / r)) <=
            3 / 2 * (d2 / r) - / 2 * (d2 / r * (d2 / r) * (d2 / r))) by (apply C; lra).
    nra.
  - rewrite (sph_beyond psill r nug d2) by lra. apply sph_bounds; lra.
Qed.

Lemma hole_lower psill r nug d : 0 <= psill -> 0 < r -> 0 <= d ->
  nug <= hole_effect_variogram_model [psill; r; nug] d.
Proof.
  intros Hp Hr Hd; unfold hole_effect_variogram_model, rnth; simpl.
  set (t := d / (r / 3)).
  replace (- d / (r / 3)) with (- t) by (unfold t; field; lra).
  assert (Ht : 0 <= t).
  { unfold t. apply Rmult_le_pos; [exact Hd|left; apply Rinv_0_lt_compat; lra]. }
  pose proof (exp_pos (- t)). pose proof (exp_le_1 (- t) ltac:(lra)).
  assert ((1 - t) * exp (- t) <= 1) by nra. nra.
Qed.

(** *** Upper bounds (C03) *)
Lemma gaussian_upper psill r nug d : 0 <= psill ->
  gaussian_variogram_model [psill; r; nug] d <= psill + nug.
Proof.
  intros Hp; unfold gaussian_variogram_model, rnth; simpl.
  match goal with |- context [exp ?x] => pose proof (exp_pos x) end. nra.
Qed.
Lemma exponential_upper psill r nug d : 0 <= psill ->
  exponential_variogram_model [psill; r; nug] d <= psill + nug.
Proof.
  intros Hp; unfold exponential_variogram_model, rnth; simpl.
  match goal with |- context [exp ?x] => pose proof (exp_pos x) end. nra.
Qed.
Lemma gaussian_95 psill r nug : 0 <= psill -> 0 < r ->
  95 / 100 * psill + nug <= gaussian_variogram_model [psill; r; nug] r.
Proof.
  intros Hp Hr; unfold gaussian_variogram_model, rnth; simpl.
  replace (- (r * r) / (r * 4 / 7 * (r * 4 / 7))) with (- (49 / 16)) by (field; lra).
  pose proof (exp_le_inc (- (49 / 16)) (-3) ltac:(lra)). pose proof exp_neg3_le. nra.
Qed.
Lemma exponential_95 psill r nug : 0 <= psill -> 0 < r ->
  95 / 100 * psill + nug <= exponential_variogram_model [psill; r; nug] r.
Proof.
  intros Hp Hr; unfold exponential_variogram_model, rnth; simpl.
  replace (- r / (r / 3)) with (-3) by (field; lra).
  pose proof exp_neg3_le. nra.
Qed.
Lemma hole_upper psill r nug d : 0 <= psill -> 0 < r ->
  hole_effect_variogram_model [psill; r; nug] d <= psill * (1 + exp (-2)) + nug.
Proof.
  intros Hp Hr; unfold hole_effect_variogram_model, rnth; simpl.
  set (t := d / (r / 3)).
  replace (- d / (r / 3)) with (- t) by (unfold t; field; lra).
  pose proof (exp_pos (- t)) as Hpos.
  assert (H1 : t - 1 <= exp (t - 2)).
  { pose proof (exp_ineq (t - 2)). lra. }
  assert (H2 : exp (t - 2) * exp (- t) = exp (-2)).
  { rewrite <- exp_plus. f_equal. ring. }
  assert ((t - 1) * exp (- t) <= exp (-2)) by nra. nra.
Qed.
(** The bound is attained at d = 2/3 range, and the model decreases afterwards. *)
Lemma hole_peak psill r nug : 0 < r ->
  hole_effect_variogram_model [psill; r; nug] (2 * (r / 3)) = psill * (1 + exp (-2)) + nug.
Proof.
  intros Hr; unfold hole_effect_variogram_model, rnth; simpl.
  replace (2 * (r / 3) / (r / 3)) with 2 by (field; lra).
  replace (- (2 * (r / 3)) / (r / 3)) with (-2) by (field; lra). ring.
Qed.
Lemma hole_after_peak psill r nug : 0 < psill -> 0 < r ->
  hole_effect_variogram_model [psill; r; nug] r < hole_effect_variogram_model [psill; r; nug] (2 * (r / 3)).
Proof.
  intros Hp Hr. rewrite hole_peak by assumption.
  unfold hole_effect_variogram_model, rnth; simpl.
  replace (r / (r / 3)) with 3 by (field; lra).
  replace (- r / (r / 3)) with (-3) by (field; lra).
  assert (H : exp (-2) = exp 1 * exp (-3)) by (rewrite <- exp_plus; f_equal; ring).
  pose proof (exp_ineq1 1 ltac:(lra)). pose proof (exp_pos (-3)).
  assert (2 * exp (-3) < exp (-2)) by (rewrite H; apply Rmult_lt_compat_r; lra).
  nra.
Qed.

(** *** Limits (C06) *)
Lemma exp_neg_small eps : 0 < eps -> exists T, 0 < T /\ forall t, T <= t -> exp (- t) < eps.
Proof.
  intros He. exists (/ eps). assert (0 < / eps) by (apply Rinv_0_lt_compat, He).
  split; [assumption|]. intros t Ht.
  rewrite exp_Ropp. rewrite <- (Rinv_inv eps).
  apply Rinv_lt_contravar.
  - apply Rmult_lt_0_compat; [assumption|apply exp_pos].
  - pose proof (exp_ineq t). lra.
Qed.

Lemma exponential_limit psill r nug eps : 0 <= psill -> 0 < r -> 0 < eps ->
  exists D, forall d, D <= d ->
    psill + nug - eps < exponential_variogram_model [psill; r; nug] d <= psill + nug.
Proof.
  intros Hp Hr He.
  destruct (exp_neg_small (eps / (psill + 1))) as [T [HT HT']].
  { apply Rdiv_lt_0_compat; lra. }
  exists (T * (r / 3)). intros d Hd. split; [|apply exponential_upper, Hp].
  unfold exponential_variogram_model, rnth; simpl.
  replace (- d / (r / 3)) with (- (d / (r / 3))) by (field; lra).
  assert (T <= d / (r / 3)).
  { apply Rmult_le_reg_r with (r / 3); [lra|]. unfold Rdiv at 2. rewrite Rmult_assoc, Rinv_l; lra. }
  specialize (HT' _ H). pose proof (exp_pos (- (d / (r / 3)))) as Hpos.
  assert ((psill + 1) * exp (- (d / (r / 3))) < eps).
  { apply Rmult_lt_compat_l with (r := psill + 1) in HT'; [|lra].
    replace ((psill + 1) * (eps / (psill + 1))) with eps in HT' by (field; lra). exact HT'. }
  nra.
Qed.

Lemma gaussian_limit psill r nug eps : 0 <= psill -> 0 < r -> 0 < eps ->
  exists D, forall d, D <= d ->
    psill + nug - eps < gaussian_variogram_model [psill; r; nug] d <= psill + nug.
Proof.
  intros Hp Hr He.
  destruct (exp_neg_small (eps / (psill + 1))) as [T [HT HT']].
  { apply Rdiv_lt_0_compat; lra. }
  set (s := r * 4 / 7). assert (Hs : 0 < s) by (unfold s; lra).
  exists ((T + 1) * s). intros d Hd. split; [|apply gaussian_upper, Hp].
  unfold gaussian_variogram_model, rnth; simpl. fold s.
  replace (- (d * d) / (s * s)) with (- ((d / s) * (d / s))) by (field; lra).
  assert (T + 1 <= d / s).
  { apply Rmult_le_reg_r with s; [lra|]. unfold Rdiv. rewrite Rmult_assoc, Rinv_l; lra. }
  assert (H' : T <= d / s * (d / s)) by nra.
  specialize (HT' _ H'). pose proof (exp_pos (- (d / s * (d / s)))) as Hpos.
  assert ((psill + 1) * exp (- (d / s * (d / s))) < eps).
  { apply Rmult_lt_compat_l with (r := psill + 1) in HT'; [|lra].
    replace ((psill + 1) * (eps / (psill + 1))) with eps in HT' by (field; lra). exact HT'. }
  nra.
Qed.

(** *** C04: Cython functions *)
Lemma c_fill_spec f n dist out i :
  c_fill f n dist out i = if Nat.ltb i n then f (dist i) else out i.
Proof.
  unfold c_fill. revert out. induction n as [|n IH]; intros out; [reflexivity|].
  rewrite seq_S, fold_left_app. simpl. unfold upd at 1. rewrite IH.
  destruct (Nat.eqb_spec i n), (Nat.ltb_spec i n), (Nat.ltb_spec i (S n)); subst; try lia; reflexivity.
Qed.

Definition c_agrees (cf : list R -> nat -> vec -> vec -> vec) (f : list R -> R -> R) (ok : list R -> Prop) :=
  forall m n dist out, ok m -> (forall i, (i < n)%nat -> 0 <= dist i) ->
    forall i, cf m n dist out i = if Nat.ltb i n then f m (dist i) else out i.

Definition pos_range (m : list R) : Prop := 0 < rnth m 1.
Definition any_params (m : list R) : Prop := True.

Lemma c_linear_agrees : c_agrees c_linear linear_variogram_model any_params.
Proof. intros m n dist out _ _ i. unfold c_linear. rewrite c_fill_spec. reflexivity. Qed.
Lemma c_power_agrees : c_agrees c_power power_variogram_model any_params.
Proof. intros m n dist out _ _ i. unfold c_power. rewrite c_fill_spec. reflexivity. Qed.
Lemma c_gaussian_agrees : c_agrees c_gaussian gaussian_variogram_model pos_range.
Proof.
  intros m n dist out Hr _ i. unfold c_gaussian. rewrite c_fill_spec.
  destruct (Nat.ltb i n); [|reflexivity]. unfold gaussian_variogram_model, pos_range in *.
  do 3 f_equal. f_equal. field. lra.
Qed.
Lemma c_exponential_agrees : c_agrees c_exponential exponential_variogram_model any_params.
Proof. intros m n dist out _ _ i. unfold c_exponential. rewrite c_fill_spec. reflexivity. Qed.
Lemma c_spherical_agrees : c_agrees c_spherical spherical_variogram_model pos_range.
Proof.
  intros m n dist out Hr Hd i. unfold c_spherical. rewrite c_fill_spec.
  destruct (Nat.ltb_spec i n) as [Hi|Hi]; [|reflexivity].
  unfold spherical_variogram_model, pos_range in *.
  destruct (Rltb_spec (dist i) (rnth m 1)), (Rleb_spec (dist i) (rnth m 1)); try reflexivity; try lra.
  assert (E : dist i = rnth m 1) by lra. rewrite E. field. lra.
Qed.

Lemma cython_dispatch_agrees :
  forall key f, dict_get variogram_dict key = Some f ->
    match get_variogram_model (fname f) with
    | Ok cf => key <> "hole-effect"%string /\
        forall m n dist out,
          (key = "gaussian"%string \/ key = "spherical"%string -> 0 < rnth m 1) ->
          (forall i, (i < n)%nat -> 0 <= dist i) ->
          forall i, cf m n dist out i = if Nat.ltb i n then fcall f m (dist i) else out i
    | Err e => key = "hole-effect"%string /\ e = NotImplementedErr
    end.
Proof.
  intros key f H. unfold variogram_dict in H. cbn [dict_get] in H.
  destruct (String.eqb_spec key "linear"); [injection H as <-; subst; cbn|].
  { split; [discriminate|]. intros; apply c_linear_agrees; [exact I|assumption]. }
  destruct (String.eqb_spec key "power"); [injection H as <-; subst; cbn|].
  { split; [discriminate|]. intros; apply c_power_agrees; [exact I|assumption]. }
  destruct (String.eqb_spec key "gaussian"); [injection H as <-; subst; cbn|].
  { split; [discriminate|]. intros; apply c_gaussian_agrees; [unfold pos_range; auto|assumption]. }
  destruct (String.eqb_spec key "spherical"); [injection H as <-; subst; cbn|].
  { split; [discriminate|]. intros; apply c_spherical_agrees; [unfold pos_range; auto|assumption]. }
  destruct (String.eqb_spec key "exponential"); [injection H as <-; subst; cbn|].
  { split; [discriminate|]. intros; apply c_exponential_agrees; [exact I|assumption]. }
  destruct (String.eqb_spec key "hole-effect"); [injection H as <-; subst; cbn|discriminate].
  split; reflexivity.
Qed.

Lemma cython_unknown_rejected :
  forall name, ~ In name ["linear_variogram_model"; "power_variogram_model"; "gaussian_variogram_model";
                          "exponential_variogram_model"; "spherical_variogram_model"]%string ->
    get_variogram_model name = Err NotImplementedErr.
Proof.
  intros name H. unfold get_variogram_model.
  repeat match goal with
  | |- context [String.eqb name ?s] =>
      destruct (String.eqb_spec name s); [exfalso; apply H; subst; simpl; tauto|]
  end. reflexivity.
Qed.

Lemma cython_name_clash :
  exists (f : pyfun) cf m dist,
    get_variogram_model (fname f) = Ok cf /\ 0 <= dist O /\
    cf m 1%nat dist (fun _ => 0) O <> fcall f m (dist O).
Proof.
  exists (mkfun "linear_variogram_model" (fun m d => 7)), c_linear, [1; 0], (fun _ => 2).
  split; [reflexivity|]. split; [lra|].
  unfold c_linear. rewrite c_fill_spec. cbn. lra.
Qed.

Lemma three_param_in model : In model ["gaussian"; "spherical"; "exponential"; "hole-effect"]%string ->
  String.eqb model "linear" = false /\ String.eqb model "power" = false /\
  in_names model three_param_models = true.
Proof.
  intros H. simpl in H. repeat destruct H as [H|H]; try contradiction; subst; repeat split; reflexivity.
Qed.

Lemma list_dict_agree :
  forall (d : list (string * R)) (a b c : R),
    (forall model, In model ["gaussian"; "spherical"; "exponential"; "hole-effect"]%string ->
       dict_get d "sill" = Some a -> dict_get d "range" = Some b -> dict_get d "nugget" = Some c ->
       make_parameter_list model (PDict d) = make_parameter_list model (PList [a; b; c]) /\
       make_parameter_list model (PList [a; b; c]) = Ok (Some [a - c; b; c])) /\
    (forall model, In model ["gaussian"; "spherical"; "exponential"; "hole-effect"]%string ->
       dict_get d "sill" = None -> dict_get d "psill" = Some (a - c) ->
       dict_get d "range" = Some b -> dict_get d "nugget" = Some c ->
       make_parameter_list model (PDict d) = make_parameter_list model (PList [a; b; c])) /\
    (dict_get d "slope" = Some a -> dict_get d "nugget" = Some b ->
       make_parameter_list "linear" (PDict d) = make_parameter_list "linear" (PList [a; b]) /\
       make_parameter_list "linear" (PList [a; b]) = Ok (Some [a; b])) /\
    (dict_get d "scale" = Some a -> dict_get d "exponent" = Some b -> dict_get d "nugget" = Some c ->
       make_parameter_list "power" (PDict d) = make_parameter_list "power" (PList [a; b; c]) /\
       make_parameter_list "power" (PList [a; b; c]) = Ok (Some [a; b; c])).
Proof.
  intros d a b c.
  split; [|split; [|split]].
  - intros model Hm H1 H2 H3. destruct (three_param_in model Hm) as (E1 & E2 & E3).
    unfold make_parameter_list, has_key, item. rewrite E1, E2, E3, H1, H2, H3.
    split; reflexivity.
  - intros model Hm H1 H2 H3 H4. destruct (three_param_in model Hm) as (E1 & E2 & E3).
    unfold make_parameter_list, has_key, item. rewrite E1, E2, E3, H1, H2, H3, H4. reflexivity.
  - intros H1 H2. unfold make_parameter_list, has_key, item. rewrite H1, H2. split; reflexivity.
  - intros H1 H2 H3. unfold make_parameter_list, has_key, item. rewrite H1, H2, H3. split; reflexivity.
Qed.

Lemma bad_parameters_rejected :
  forall (model : string) (d : list (string * R)) (l : list R),
    (model = "linear"%string -> dict_get d "slope" = None \/ dict_get d "nugget" = None ->
       make_parameter_list model (PDict d) = Err KeyError) /\
    (model = "power"%string ->
       dict_get d "scale" = None \/ dict_get d "exponent" = None \/ dict_get d "nugget" = None ->
       make_parameter_list model (PDict d) = Err KeyError) /\
    (In model ["gaussian"; "spherical"; "exponential"; "hole-effect"]%string ->
       dict_get d "range" = None \/ dict_get d "nugget" = None \/
       (dict_get d "sill" = None /\ dict_get d "psill" = None) ->
       make_parameter_list model (PDict d) = Err KeyError) /\
    (model = "linear"%string -> length l <> 2%nat -> make_parameter_list model (PList l) = Err ValueError) /\
    (In model ["power"; "gaussian"; "spherical"; "exponential"; "hole-effect"]%string ->
       length l <> 3%nat -> make_parameter_list model (PList l) = Err ValueError) /\
    make_parameter_list "custom" (PDict d) = Err TypeError /\
    make_parameter_list model POther = Err TypeError /\
    make_parameter_list "custom" (PList l) = Ok (Some l) /\
    make_parameter_list model PNone = Ok None /\
    (~ In model ["linear"; "power"; "gaussian"; "spherical"; "exponential"; "hole-effect"; "custom"]%string ->
       make_parameter_list model (PDict d) = Err ValueError /\
       make_parameter_list model (PList l) = Err ValueError).
Proof.
  intros model d l.
  split; [|split; [|split; [|split; [|split; [|split; [|split; [|split; [|split]]]]]]]].
  - intros -> H. unfold make_parameter_list, has_key. cbn [String.eqb Ascii.eqb Bool.eqb].
    destruct H as [H|H]; rewrite H; destruct (dict_get d "slope"); reflexivity.
  - intros -> H. unfold make_parameter_list, has_key. cbn [String.eqb Ascii.eqb Bool.eqb].
    destruct H as [H|[H|H]]; rewrite H; destruct (dict_get d "scale"), (dict_get d "exponent"); reflexivity.
  - intros Hm H. destruct (three_param_in model Hm) as (E1 & E2 & E3).
    unfold make_parameter_list, has_key. rewrite E1, E2, E3.
    destruct H as [H|[H|[H H']]]; rewrite H, ?H'; destruct (dict_get d "range"), (dict_get d "nugget"); reflexivity.
  - intros -> H. unfold make_parameter_list. cbn [String.eqb Ascii.eqb Bool.eqb].
    destruct (Nat.eqb_spec (length l) 2); [contradiction|reflexivity].
  - intros Hm H. unfold make_parameter_list.
    destruct (Nat.eqb_spec (length l) 3); [contradiction|].
    simpl in Hm. repeat destruct Hm as [Hm|Hm]; try contradiction; subst; reflexivity.
  - reflexivity.
  - reflexivity.
  - reflexivity.
  - reflexivity.
  - intros H. unfold make_parameter_list, in_names, three_param_models, existsb.
    repeat match goal with
    | |- context [String.eqb model ?s] =>
        destruct (String.eqb_spec model s); [exfalso; apply H; subst; simpl; tauto|]
    end. split; reflexivity.
Qed.

Lemma accepted_length :
  forall model p l, make_parameter_list model p = Ok (Some l) ->
    (model = "linear"%string -> length l = 2%nat) /\
    (In model ["power"; "gaussian"; "spherical"; "exponential"; "hole-effect"]%string -> length l = 3%nat).
Proof.
  intros model p l H. split.
  - intros ->. destruct p as [|d|q|]; cbn in H; try discriminate.
    + destruct (negb (has_key d "slope") || negb (has_key d "nugget")); inversion H; reflexivity.
    + destruct (Nat.eqb_spec (length q) 2); inversion H; subst; assumption.
  - intros Hm. destruct p as [|d|q|].
    + discriminate.
    + simpl in Hm. repeat destruct Hm as [Hm|Hm]; try contradiction; subst; cbn in H;
      repeat match type of H with (if ?b then _ else _) = _ => destruct b end; inversion H; reflexivity.
    + assert (G : make_parameter_list model (PList q) = Ok (Some l) -> length q = 3%nat -> length l = 3%nat).
      { simpl in Hm. intros H0 Hq.
        repeat destruct Hm as [Hm|Hm]; try contradiction; subst; cbn in H; rewrite Hq in H; cbn in H;
        inversion H; subst; reflexivity || assumption. }
      destruct (Nat.eq_dec (length q) 3) as [E|E]; [auto|].
      simpl in Hm.
      repeat destruct Hm as [Hm|Hm]; try contradiction; subst; cbn in H;
      destruct (Nat.eqb_spec (length q) 3); try contradiction; discriminate.
    + discriminate.
Qed.

Lemma requested_sill :
  forall (sill range nugget : R), 0 < range -> nugget <= sill ->
    (exists p, make_parameter_list "spherical" (PList [sill; range; nugget]) = Ok (Some p) /\
       forall d, (0 <= d -> spherical_variogram_model p d <= sill) /\
                 (range <= d -> spherical_variogram_model p d = sill)) /\
    (exists p, make_parameter_list "gaussian" (PList [sill; range; nugget]) = Ok (Some p) /\
       (forall d, gaussian_variogram_model p d <= sill) /\
       forall eps, 0 < eps -> exists D, forall d, D <= d -> sill - eps < gaussian_variogram_model p d) /\
    (exists p, make_parameter_list "exponential" (PList [sill; range; nugget]) = Ok (Some p) /\
       (forall d, exponential_variogram_model p d <= sill) /\
       forall eps, 0 < eps -> exists D, forall d, D <= d -> sill - eps < exponential_variogram_model p d).
Proof.
  intros s r g Hr Hs. assert (E : s - g + g = s) by ring.
  split; [|split]; exists [s - g; r; g]; (split; [reflexivity|]).
  - intros d; split; intros Hd.
    + pose proof (sph_bounds (s - g) r g d ltac:(lra) Hr Hd). lra.
    + rewrite sph_beyond by assumption. ring.
  - split.
    + intros d. pose proof (gaussian_upper (s - g) r g d ltac:(lra)). lra.
    + intros eps He. destruct (gaussian_limit (s - g) r g eps ltac:(lra) Hr He) as [D HD].
      exists D. intros d Hd. specialize (HD d Hd). lra.
  - split.
    + intros d. pose proof (exponential_upper (s - g) r g d ltac:(lra)). lra.
    + intros eps He. destruct (exponential_limit (s - g) r g eps ltac:(lra) Hr He) as [D HD].
      exists D. intros d Hd. specialize (HD d Hd). lra.
Qed.
