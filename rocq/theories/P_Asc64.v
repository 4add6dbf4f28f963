(** PROOFS: reading grid coordinates in binary64. *)
From Coq Require Import String Ascii ZArith QArith Qabs Qround Qpower Lia List.
From Verif Require Import Base M_Text S_Text P_Text M_AscGrid S_AscGrid P_AscGrid P_AscGrid2.
From Coq Require Import Lqa.
Import ListNotations.
Open Scope Q_scope.

(** ** round64 is accurate *)
Lemma Qpow2_pos e : 0 < 2 ^ e.
Proof. apply Qpower_0_lt. reflexivity. Qed.

Lemma exp_spec a : 0 < a ->
  let e0 := (Z.log2 (Qnum a) - Z.log2 (Zpos (Qden a)))%Z in
  2 ^ (if Qle_bool (pow2 e0) a then e0 else e0 - 1) <= a.
Proof.
  intros H. destruct a as [n d]. unfold Qlt in H. cbn in H. cbn zeta. cbn [Qnum Qden].
  set (b := Z.log2 (Zpos d)). set (c := Z.log2 n).
  destruct (Qle_bool (pow2 (c - b)) (n # d)) eqn:E.
  { apply Qle_bool_iff in E. exact E. }
  pose proof (Z.log2_spec n ltac:(lia)) as [N1 N2]. pose proof (Z.log2_spec (Zpos d) ltac:(lia)) as [D1 D2].
  fold b in D1, D2. fold c in N1, N2.
  assert (Qz : forall k, (0 <= k)%Z -> 2 ^ k == inject_Z (2 ^ k)). { intros k Hk. change 2 with (inject_Z 2). symmetry. now apply Zpower_Qpower. }
  pose proof (Z.log2_nonneg n) as Bc. fold c in Bc. pose proof (Z.log2_nonneg (Zpos d)) as Bb. fold b in Bb.
  assert (Eq : (n # d) == inject_Z n / inject_Z (Zpos d)). { rewrite (Qmake_Qdiv n d). reflexivity. }
  rewrite Eq. apply Qle_shift_div_l; [reflexivity|].
  apply Qle_trans with (2 ^ (c - b - 1) * 2 ^ (b + 1)).
  - apply Qmult_le_l; [apply Qpow2_pos|]. rewrite (Qz (b + 1)%Z) by lia. rewrite <- Zle_Qle. lia.
  - rewrite <- Qpower_plus by lra. replace (c - b - 1 + (b + 1))%Z with c by lia. rewrite Qz by lia. rewrite <- Zle_Qle. lia.
Qed.

Lemma round64_accurate : accurate round64.
Proof.
  intros q. unfold round64. destruct (Qnum q =? 0)%Z eqn:E.
  - apply Z.eqb_eq in E. assert (Z0 : q == 0) by (unfold Qeq; rewrite E; reflexivity). rewrite Z0. vm_compute. discriminate.
  - apply Z.eqb_neq in E.
    assert (P : 0 < Qabs q). { destruct q as [n d]. unfold Qlt. cbn in *. lia. }
    pose proof (exp_spec _ P) as X. cbn zeta in X. set (e := if Qle_bool _ _ then _ else _) in *.
    rewrite Qred_correct. unfold pow2.
    assert (K : 2 ^ (52 - e) * 2 ^ (e - 52) == 1). { rewrite <- Qpower_plus by lra. replace (52 - e + (e - 52))%Z with 0%Z by lia. reflexivity. }
    assert (Pe : 0 < 2 ^ (e - 52)) by apply Qpow2_pos.
    set (y := q * 2 ^ (52 - e)). destruct (rhe_nearest y) as (n & N1 & N2 & _).
    assert (E1 : inject_Z (rhe y) * 2 ^ (e - 52) - q == (inject_Z (rhe y) - y) * 2 ^ (e - 52)).
    { unfold y. transitivity (inject_Z (rhe (q * 2 ^ (52 - e))) * 2 ^ (e - 52) - q * (2 ^ (52 - e) * 2 ^ (e - 52))); [rewrite K; ring|ring]. }
    rewrite E1, Qabs_Qmult, (Qabs_pos (2 ^ (e - 52))) by lra.
    rewrite Qabs_Qminus. change (1 / 2) with (1 # 2) in N2.
    assert (E2 : 2 ^ (e - 52) == (1 # 4503599627370496) * 2 ^ e).
    { replace (e - 52)%Z with (-52 + e)%Z by lia. rewrite Qpower_plus by lra. reflexivity. }
    rewrite E2. pose proof (Qpow2_pos e). change (2 ^ e <= Qabs q) in X.
    apply Qle_trans with ((1 # 2) * ((1 # 4503599627370496) * 2 ^ e)).
    + apply Qmult_le_compat_r; [exact N2|lra].
    + lra.
Qed.

(** ** counting *)
Section Accurate.
Variable fl : Q -> Q.
Hypothesis A : accurate fl.
Notation u := (1 # 9007199254740992).

Lemma acc q : exists e, fl q == q + e /\ - (u * Qabs q) <= e /\ e <= u * Qabs q.
Proof.
  exists (fl q - q). split; [ring|]. specialize (A q). apply Qabs_Qle_condition in A. exact A.
Qed.
Lemma abs_bounds q : exists a, Qabs q == a /\ - a <= q /\ q <= a /\ 0 <= a.
Proof. exists (Qabs q). split; [reflexivity|]. split; [|split; [apply Qle_Qabs|apply Qabs_nonneg]]. pose proof (Qle_Qabs (- q)). rewrite Qabs_opp in H. lra. Qed.
Lemma abs_le q b : - b <= q -> q <= b -> Qabs q <= b.
Proof. intros. apply Qabs_Qle_condition. split; assumption. Qed.

Lemma fl_err q b : Qabs q <= b -> Qabs (fl q - q) <= u * b.
Proof. intros H. eapply Qle_trans; [apply A|]. apply Qmult_le_l; [reflexivity|exact H]. Qed.

Lemma span n ll d : 0 < d -> (1 <= n)%Z -> Qabs ll + inject_Z n * d <= 1125899906842624 * d ->
  let v := fl (fl (fl (ll + fl (inject_Z n * d)) - ll) / d) in inject_Z n - (7 # 8) <= v /\ v <= inject_Z n + (7 # 8).
Proof.
  intros Hd Hn HM v. set (N := inject_Z n) in *.
  assert (N1 : 1 <= N) by (unfold N; change 1 with (inject_Z 1); rewrite <- Zle_Qle; lia).
  set (L := Qabs ll) in *. assert (L0 : 0 <= L) by apply Qabs_nonneg.
  assert (Lb : - L <= ll <= L). { apply Qabs_Qle_condition. apply Qle_refl. }
  set (P := N * d) in *. assert (P0 : 0 < P) by (unfold P; apply Qmult_lt_0_compat; lra).
  set (t := fl P) in *. assert (T : Qabs (t - P) <= u * P) by (apply fl_err; rewrite Qabs_pos; lra).
  apply Qabs_Qle_condition in T.
  set (s := fl (ll + t)) in *. assert (S1 : Qabs (s - (ll + t)) <= u * (L + 2 * P)) by (apply fl_err; apply abs_le; lra).
  apply Qabs_Qle_condition in S1.
  set (w := fl (s - ll)) in *. assert (W : Qabs (w - (s - ll)) <= u * (L + 2 * P)) by (apply fl_err; apply abs_le; lra).
  apply Qabs_Qle_condition in W.
  assert (WP : P - (5 # 8) * d <= w <= P + (5 # 8) * d) by lra.
  assert (V0 : N - (5 # 8) <= w / d <= N + (5 # 8)).
  { split.
    - apply Qle_shift_div_l; [assumption|]. unfold P in WP. lra.
    - apply Qle_shift_div_r; [assumption|]. unfold P in WP. lra. }
  assert (NB : N <= 1125899906842624).
  { apply (Qmult_le_r _ _ d Hd). fold P. lra. }
  assert (V : Qabs (v - w / d) <= u * (N + 1)) by (apply fl_err; apply abs_le; lra).
  apply Qabs_Qle_condition in V. lra.
Qed.

Lemma ceil_cases n v : inject_Z n - (7 # 8) <= v -> v <= inject_Z n + (7 # 8) -> Qceiling v = n \/ Qceiling v = (n + 1)%Z.
Proof.
  intros H1 H2.
  pose proof (Qle_ceiling v) as C1. pose proof (Qceiling_lt v) as C2.
  assert (X1 : inject_Z (n - 1) < inject_Z (Qceiling v)).
  { unfold Z.sub. rewrite inject_Z_plus. change (inject_Z (- (1))) with (-1). lra. }
  assert (X2 : inject_Z (Qceiling v - 1) < inject_Z (n + 1)).
  { rewrite inject_Z_plus. change (inject_Z 1) with 1. lra. }
  rewrite <- Zlt_Qlt in X1, X2. lia.
Qed.

Lemma coordinate ll d i : 0 < d -> (1 <= i)%nat ->
  Qabs (fl (ll + fl (inject_Z (Z.of_nat i) * fl (fl (ll + d) - ll))) - (ll + inject_Z (Z.of_nat i) * d)) <=
  (6 # 9007199254740992) * (inject_Z (Z.of_nat i) * (Qabs ll + d)).
Proof.
  intros Hd Hi. set (I := inject_Z (Z.of_nat i)).
  assert (I1 : 1 <= I) by (unfold I; change 1 with (inject_Z 1); rewrite <- Zle_Qle; lia).
  set (L := Qabs ll) in *. assert (L0 : 0 <= L) by apply Qabs_nonneg.
  assert (Lb : - L <= ll <= L). { apply Qabs_Qle_condition. apply Qle_refl. }
  set (nx := fl (ll + d)). assert (NX : Qabs (nx - (ll + d)) <= u * (L + d)) by (apply fl_err; apply abs_le; lra).
  apply Qabs_Qle_condition in NX.
  set (de := fl (nx - ll)). assert (DE : Qabs (de - (nx - ll)) <= u * (L + 2 * d)) by (apply fl_err; apply abs_le; lra).
  apply Qabs_Qle_condition in DE.
  assert (DD : Qabs (de - d) <= (3 # 9007199254740992) * (L + d)) by (apply abs_le; lra).
  set (Q0 := I * (L + d)).
  assert (I0 : 0 <= I) by lra.
  assert (LQ : L + d <= Q0). { unfold Q0. rewrite <- (Qmult_1_l (L + d)) at 1. apply Qmult_le_compat_r; lra. }
  assert (ID : Qabs (I * de - I * d) <= (3 # 9007199254740992) * Q0).
  { assert (X : I * de - I * d == I * (de - d)) by ring. rewrite X, Qabs_Qmult, (Qabs_pos I I0). unfold Q0.
    assert (Y : (3 # 9007199254740992) * (I * (L + d)) == I * ((3 # 9007199254740992) * (L + d))) by ring. rewrite Y.
    rewrite (Qmult_comm I), (Qmult_comm I). apply Qmult_le_compat_r; assumption. }
  apply Qabs_Qle_condition in ID.
  assert (IP : 0 <= I * d) by (apply Qmult_le_0_compat; lra).
  assert (IL : 0 <= I * L) by (apply Qmult_le_0_compat; lra).
  assert (QE : Q0 == I * L + I * d) by (unfold Q0; ring).
  set (Id := I * d) in *. set (IL' := I * L) in *. set (p := I * de) in *.
  assert (LI : L <= IL'). { unfold IL'. rewrite <- (Qmult_1_l L) at 1. apply Qmult_le_compat_r; lra. }
  set (m := fl p). assert (M : Qabs (m - p) <= u * (Id + (1 # 1000) * Q0)) by (apply fl_err; apply abs_le; lra).
  apply Qabs_Qle_condition in M.
  set (r := fl (ll + m)). assert (R : Qabs (r - (ll + m)) <= u * (L + Id + (1 # 100) * Q0)) by (apply fl_err; apply abs_le; lra).
  apply Qabs_Qle_condition in R.
  apply abs_le; lra.
Qed.

Lemma arange_nth len start step i : (i < len)%nat ->
  qnth (map (fun i => match i with
                      | O => start
                      | S O => fl (start + step)
                      | _ => fl (start + fl (inject_Z (Z.of_nat i) * fl (fl (start + step) - start)))
                      end) (seq 0 len)) i =
  match i with O => start | S O => fl (start + step) | _ => fl (start + fl (inject_Z (Z.of_nat i) * fl (fl (start + step) - start))) end.
Proof.
  intros H. unfold qnth.
  set (F := fun i : nat => match i with O => _ | S O => _ | _ => _ end).
  rewrite (nth_indep _ 0 (F 0%nat)) by (rewrite map_length, seq_length; lia).
  rewrite (map_nth F), seq_nth by lia. reflexivity.
Qed.

Lemma nth_removelast {X} (l : list X) i dflt : (S i < List.length l)%nat -> nth i (removelast l) dflt = nth i l dflt.
Proof.
  revert i. induction l as [|a [|b l] IH]; intros i H; cbn in H; try lia.
  destruct i as [|i]; [reflexivity|]. change (removelast (a :: b :: l)) with (a :: removelast (b :: l)). cbn [nth]. apply IH. cbn. lia.
Qed.

Lemma axis_accurate ll n d : 0 < d -> (1 <= n)%nat -> Qabs ll + inject_Z (Z.of_nat n) * d <= 1125899906842624 * d ->
  exists x, axis fl ll (Z.of_nat n) d = Ok x /\ List.length x = n /\
    forall i, (i < n)%nat -> Qabs (qnth x i - (ll + inject_Z (Z.of_nat i) * d)) <= (6 # 9007199254740992) * (inject_Z (Z.of_nat i) * (Qabs ll + d)).
Proof.
  intros Hd Hn HM. unfold axis, arange.
  destruct (Qnum d =? 0)%Z eqn:Z0. { apply Z.eqb_eq in Z0. exfalso. unfold Qlt in Hd. rewrite Z0 in Hd. cbn in Hd. lia. }
  destruct (span (Z.of_nat n) ll d Hd ltac:(lia) HM) as [V1 V2]. cbn zeta in V1, V2.
  set (v := fl (fl (fl (ll + fl (inject_Z (Z.of_nat n) * d)) - ll) / d)) in *. cbn [bind].
  assert (C : forall i, (i < n)%nat -> Qabs (match i with O => ll | S O => fl (ll + d) | _ => fl (ll + fl (inject_Z (Z.of_nat i) * fl (fl (ll + d) - ll))) end
     - (ll + inject_Z (Z.of_nat i) * d)) <= (6 # 9007199254740992) * (inject_Z (Z.of_nat i) * (Qabs ll + d))).
  { intros i Hi. pose proof (Qabs_nonneg ll) as L0. destruct i as [|[|i]].
    - change (inject_Z (Z.of_nat 0)) with 0. assert (X : ll - (ll + 0 * d) == 0) by ring. rewrite X. rewrite Qmult_0_l, Qmult_0_r. apply Qle_refl.
    - change (inject_Z (Z.of_nat 1)) with 1. assert (X : fl (ll + d) - (ll + 1 * d) == fl (ll + d) - (ll + d)) by ring. rewrite X.
      apply Qle_trans with (u * (Qabs ll + d)); [|lra]. apply fl_err. eapply Qle_trans; [apply Qabs_triangle|]. rewrite (Qabs_pos d); lra.
    - apply coordinate; [assumption|lia]. }
  rewrite map_length, seq_length.
  destruct (ceil_cases _ _ V1 V2) as [-> | ->].
  - rewrite Nat2Z.id. replace (Z.of_nat n =? Z.of_nat n + 1)%Z with false by (symmetry; apply Z.eqb_neq; lia).
    eexists. split; [reflexivity|]. split; [now rewrite map_length, seq_length|]. intros i Hi. rewrite arange_nth by assumption. apply C, Hi.
  - replace (Z.to_nat (Z.of_nat n + 1)) with (S n) by lia. replace (Z.of_nat (S n) =? Z.of_nat n + 1)%Z with true by (symmetry; apply Z.eqb_eq; lia).
    eexists. split; [reflexivity|]. split.
    { rewrite removelast_firstn_len, firstn_length, map_length, seq_length. lia. }
    intros i Hi. unfold qnth. rewrite nth_removelast by (rewrite map_length, seq_length; lia).
    fold (qnth (map (fun i => match i with O => ll | S O => fl (ll + d) | _ => fl (ll + fl (inject_Z (Z.of_nat i) * fl (fl (ll + d) - ll))) end) (seq 0 (S n))) i).
    rewrite arange_nth by lia. apply C, Hi.
Qed.

(** start and step given by the texts x0 and dx *)
Lemma axis_near x0 dx ll n : (1 # 100) <= dx -> (1 <= n)%nat -> Qabs x0 + inject_Z (Z.of_nat n) * dx <= 1099511627776 ->
  Qabs (ll - x0) <= (3 # 9007199254740992) * (Qabs x0 + dx) ->
  exists x, axis fl ll (Z.of_nat n) (fl dx) = Ok x /\ near_progression x n x0 dx.
Proof.
  intros Hd Hn HM HL.
  assert (D : Qabs (fl dx - dx) <= u * dx) by (apply fl_err; rewrite Qabs_pos; lra). set (d := fl dx) in *.
  apply Qabs_Qle_condition in D.
  set (N := inject_Z (Z.of_nat n)) in *. assert (N1 : 1 <= N) by (unfold N; change 1 with (inject_Z 1); rewrite <- Zle_Qle; lia).
  set (X := Qabs x0) in *. assert (X0 : 0 <= X) by apply Qabs_nonneg.
  assert (XB : - X <= x0 <= X). { apply Qabs_Qle_condition. apply Qle_refl. }
  apply Qabs_Qle_condition in HL.
  assert (LB : Qabs ll <= X + (3 # 9007199254740992) * (X + dx)) by (apply abs_le; lra).
  assert (ND : N * d <= 2 * (N * dx)).
  { assert (Y : 2 * (N * dx) == N * (2 * dx)) by ring. rewrite Y. rewrite (Qmult_comm N), (Qmult_comm N). apply Qmult_le_compat_r; lra. }
  assert (NDX : dx <= N * dx). { rewrite <- (Qmult_1_l dx) at 1. apply Qmult_le_compat_r; lra. }
  destruct (axis_accurate ll n d ltac:(lra) Hn) as (x & E & L & C).
  { fold N. lra. }
  exists x. split; [exact E|]. split; [exact L|]. intros i Hi. specialize (C i Hi).
  rewrite Nat2Z.inj_succ. unfold Z.succ. rewrite inject_Z_plus. change (inject_Z 1) with 1.
  set (I := inject_Z (Z.of_nat i)) in *. assert (I0 : 0 <= I) by (unfold I; change 0 with (inject_Z 0); rewrite <- Zle_Qle; lia).
  set (Ll := Qabs ll) in *.
  assert (B1 : I * (Ll + d) <= 2 * (I * (X + dx))).
  { assert (Y : 2 * (I * (X + dx)) == I * (2 * (X + dx))) by ring. rewrite Y. rewrite (Qmult_comm I), (Qmult_comm I). apply Qmult_le_compat_r; lra. }
  assert (B1' : I * (Ll + d) <= (11 # 10) * (I * (X + dx))).
  { assert (Y : (11 # 10) * (I * (X + dx)) == I * ((11 # 10) * (X + dx))) by ring. rewrite Y. rewrite (Qmult_comm I), (Qmult_comm I). apply Qmult_le_compat_r; lra. }
  assert (B2 : Qabs (I * d - I * dx) <= u * (I * (X + dx))).
  { assert (Y : I * d - I * dx == I * (d - dx)) by ring. rewrite Y, Qabs_Qmult, (Qabs_pos I I0).
    assert (Y2 : u * (I * (X + dx)) == I * (u * (X + dx))) by ring. rewrite Y2, (Qmult_comm I), (Qmult_comm I). apply Qmult_le_compat_r; [|assumption]. apply abs_le; lra. }
  apply Qabs_Qle_condition in B2, C.
  assert (Y3 : (I + 1) * (1 # 1125899906842624) * (X + dx) == (1 # 1125899906842624) * (I * (X + dx)) + (1 # 1125899906842624) * (X + dx)) by ring.
  fold X. rewrite Y3. set (IX := I * (X + dx)) in *. assert (0 <= IX) by (apply Qmult_le_0_compat; lra).
  apply abs_le; lra.
Qed.
End Accurate.

Lemma moderate_step fl l n dx : accurate fl -> (1 <= n)%nat -> moderate l n -> two_decimals (Qabs (fl (qnth l 1 - qnth l 0))) dx ->
  (1 # 100) <= dx /\ dx <= (17 # 10) * first_step l.
Proof.
  intros A Hn [M1 M2] (k & D1 & D2 & _). set (s := Qabs (fl (qnth l 1 - qnth l 0))) in *.
  assert (S : Qabs (s - first_step l) <= (1 # 1000000) * first_step l).
  { unfold s, first_step in *. set (q := qnth l 1 - qnth l 0) in *. pose proof (A q) as F.
    eapply Qle_trans with (Qabs (fl q - q)).
    - apply Qabs_Qle_condition. split.
      + pose proof (Qabs_triangle (q - fl q) (fl q)) as T. assert (E : q - fl q + fl q == q) by ring. rewrite E in T. rewrite (Qabs_Qminus (fl q)). lra.
      + pose proof (Qabs_triangle (fl q - q) q) as T. assert (E : fl q - q + q == fl q) by ring. rewrite E in T. lra.
    - lra. }
  apply Qabs_Qle_condition in S. change ((1 # 100) / 2) with (1 # 200) in D2. apply Qabs_Qle_condition in D2.
  split; [|lra].
  assert (K : inject_Z 0 < inject_Z k). { change (inject_Z 0) with 0. lra. }
  rewrite <- Zlt_Qlt in K. assert (K1 : inject_Z 1 <= inject_Z k) by (rewrite <- Zle_Qle; lia). change (inject_Z 1) with 1 in K1. lra.
Qed.

Lemma moderate_bound l n x0 dx : (1 <= n)%nat -> moderate l n -> 0 <= dx -> dx <= (17 # 10) * first_step l -> Qabs (x0 - qnth l 0) <= first_step l ->
  Qabs x0 + inject_Z (Z.of_nat n) * dx <= 1099511627776.
Proof.
  intros Hn [M1 M2] D0 D1 X.
  set (N := inject_Z (Z.of_nat n)) in *. assert (N1 : 1 <= N) by (unfold N; change 1 with (inject_Z 1); rewrite <- Zle_Qle; lia).
  set (f := first_step l) in *.
  assert (N2 : N * dx <= (17 # 10) * (N * f)).
  { assert (Y : (17 # 10) * (N * f) == N * ((17 # 10) * f)) by ring. rewrite Y, (Qmult_comm N), (Qmult_comm N). apply Qmult_le_compat_r; lra. }
  assert (N3 : f <= N * f). { rewrite <- (Qmult_1_l f) at 1. apply Qmult_le_compat_r; lra. }
  pose proof (Qabs_triangle (x0 - qnth l 0) (qnth l 0)) as T. assert (E : x0 - qnth l 0 + qnth l 0 == x0) by ring. rewrite E in T.
  pose proof (Qabs_nonneg (qnth l 0)). lra.
Qed.

Lemma two_dec_close q d : two_decimals q d -> Qabs (d - q) <= 1 # 200.
Proof. intros (k & _ & D & _). change ((1 # 100) / 2) with (1 # 200) in D. now rewrite Qabs_Qminus. Qed.

Theorem coordinates64_1 fl x y z nd t : accurate fl -> write_asc fl x y z nd 1 = (Some t, Ok tt) ->
  (2 <= g_rows z)%nat -> (2 <= g_cols z)%nat -> cells_in_field z nd -> moderate x (g_cols z) -> moderate y (g_rows z) ->
  exists a x0 y0 dx dy, read_asc fl t 0 = Ok a /\
    two_decimals (qnth x 0) x0 /\ two_decimals (qnth y 0) y0 /\
    two_decimals (Qabs (fl (qnth x 1 - qnth x 0))) dx /\ two_decimals (Qabs (fl (qnth y 1 - qnth y 0))) dy /\
    near_progression (a_x a) (g_cols z) x0 dx /\ near_progression (a_y a) (g_rows z) y0 dy.
Proof.
  intros A W HR HC HF Mx My. apply write_inv in W as (D & Lx & Ly & Ux & Uy & C). pose proof (filled_narrow z nd HF) as N.
  destruct C as [(_ & ->)|(C & _)]; [|discriminate].
  change (g_rows z) with (g_rows (filled z nd)) in *. change (g_cols z) with (g_cols (filled z nd)) in *. rewrite read_written1 by assumption.
  assert (G : forall l n, moderate l n -> (2 <= n)%nat -> exists x0 dx, rd fl (qnth l 0) = fl x0 /\ two_decimals (qnth l 0) x0 /\
     rd fl (spacing fl l) = fl dx /\ two_decimals (Qabs (fl (qnth l 1 - qnth l 0))) dx /\
     exists v, axis fl (fl x0) (Z.of_nat n) (fl dx) = Ok v /\ near_progression v n x0 dx).
  { intros l n M Hn. destruct (rd_two fl (qnth l 0)) as (x0 & X1 & X2). destruct (rd_two fl (spacing fl l)) as (dx & X3 & X4).
    exists x0, dx. split; [exact X2|]. split; [exact X1|]. split; [exact X4|]. split; [exact X3|].
    destruct (moderate_step fl l n dx A ltac:(lia) M X3) as [Y1 Y2].
    apply (axis_near fl A); [assumption|lia| |].
    - apply (moderate_bound l); try assumption; [lia|lra|]. destruct M as [M1 _]. pose proof (two_dec_close _ _ X1). lra.
    - pose proof (A x0) as Z. pose proof (Qabs_nonneg x0). lra. }
  destruct (G x _ Mx HC) as (x0 & dx & X1 & X2 & X3 & X4 & v & V1 & V2).
  destruct (G y _ My HR) as (y0 & dy & Y1 & Y2 & Y3 & Y4 & w & W1 & W2).
  rewrite X1, X3, Y1, Y3, V1, W1. cbn [bind]. eexists. exists x0, y0, dx, dy.
  split; [reflexivity|]. repeat (split; [assumption|]). assumption.
Qed.

(** the centre of the lower left cell, read from its corner *)
Lemma corner_near fl xc cs : accurate fl -> 0 <= cs ->
  Qabs (fl (fl xc + fl (fl cs / 2)) - (xc + cs / 2)) <= (3 # 9007199254740992) * (Qabs (xc + cs / 2) + cs).
Proof.
  intros A H. assert (H2 : forall q, q / 2 == (1 # 2) * q) by (intros q; unfold Qdiv; change (/ 2) with (1 # 2); ring).
  set (c := fl cs). assert (C : Qabs (c - cs) <= (1 # 9007199254740992) * cs) by (apply (fl_err fl A); rewrite Qabs_pos; lra).
  apply Qabs_Qle_condition in C.
  set (h := fl (c / 2)). assert (Hh : Qabs (h - c / 2) <= (1 # 9007199254740992) * cs). { apply (fl_err fl A). rewrite H2. apply abs_le; lra. }
  rewrite H2 in Hh. apply Qabs_Qle_condition in Hh. rewrite (H2 cs).
  set (B := Qabs (xc + (1 # 2) * cs)). assert (BB : - B <= xc + (1 # 2) * cs <= B) by (apply Qabs_Qle_condition; apply Qle_refl).
  assert (B0 : 0 <= B) by apply Qabs_nonneg.
  set (e := fl xc). assert (E : Qabs (e - xc) <= (1 # 9007199254740992) * (B + (1 # 2) * cs)) by (apply (fl_err fl A); apply abs_le; lra).
  apply Qabs_Qle_condition in E.
  set (r := fl (e + h)). assert (R : Qabs (r - (e + h)) <= (1 # 9007199254740992) * ((11 # 10) * B + (1 # 10) * cs)) by (apply (fl_err fl A); apply abs_le; lra).
  apply Qabs_Qle_condition in R. apply abs_le; lra.
Qed.

Theorem coordinates64_2 fl x y z nd t : accurate fl -> write_asc fl x y z nd 2 = (Some t, Ok tt) ->
  (2 <= g_rows z)%nat -> (2 <= g_cols z)%nat -> cells_in_field z nd -> moderate x (g_cols z) -> moderate y (g_rows z) ->
  exists a xc yc s, read_asc fl t 0 = Ok a /\
    two_decimals (fl (qnth x 0 - fl (Qabs (fl (qnth x 1 - qnth x 0)) / 2))) xc /\
    two_decimals (fl (qnth y 0 - fl (Qabs (fl (qnth y 1 - qnth y 0)) / 2))) yc /\
    two_decimals (Qabs (fl (qnth x 1 - qnth x 0))) s /\
    near_progression (a_x a) (g_cols z) (xc + s / 2) s /\ near_progression (a_y a) (g_rows z) (yc + s / 2) s.
Proof.
  intros A W HR HC HF Mx My. apply write_inv in W as (D & Lx & Ly & Ux & Uy & C). pose proof (filled_narrow z nd HF) as N.
  destruct C as [(C & _)|(_ & SE & ->)]; [discriminate|].
  change (g_rows z) with (g_rows (filled z nd)) in *. change (g_cols z) with (g_cols (filled z nd)) in *. rewrite read_written2 by assumption.
  destruct (rd_two fl (spacing fl x)) as (s & S1 & S2).
  assert (S1y : two_decimals (spacing fl y) s).
  { destruct S1 as (k & K1 & K2 & K3). exists k. rewrite SE in K2, K3. auto. }
  assert (G : forall l n, moderate l n -> (2 <= n)%nat -> two_decimals (spacing fl l) s ->
     exists xc, rd fl (fl (qnth l 0 - fl (spacing fl l / 2))) = fl xc /\ two_decimals (fl (qnth l 0 - fl (spacing fl l / 2))) xc /\
     exists v, axis fl (fl (fl xc + fl (fl s / 2))) (Z.of_nat n) (fl s) = Ok v /\ near_progression v n (xc + s / 2) s).
  { intros l n M Hn X3. destruct (rd_two fl (fl (qnth l 0 - fl (spacing fl l / 2)))) as (xc & X1 & X2).
    exists xc. split; [exact X2|]. split; [exact X1|].
    destruct (moderate_step fl l n s A ltac:(lia) M X3) as [Y1 Y2].
    apply (axis_near fl A); [assumption|lia| |].
    - apply (moderate_bound l); try assumption; [lia|lra|].
      assert (H2 : forall q, q / 2 == (1 # 2) * q) by (intros q; unfold Qdiv; change (/ 2) with (1 # 2); ring).
      destruct M as [M1 M2].
      assert (NF : first_step l <= inject_Z (Z.of_nat n) * first_step l).
      { rewrite <- (Qmult_1_l (first_step l)) at 1. apply Qmult_le_compat_r; [|lra]. change 1 with (inject_Z 1). rewrite <- Zle_Qle. lia. }
      pose proof (two_dec_close _ _ X1) as T1. pose proof (two_dec_close _ _ X3) as T3. apply Qabs_Qle_condition in T1, T3.
      set (sp := spacing fl l) in *. set (f := first_step l) in *. set (q0 := qnth l 0) in *.
      assert (Q0 : - Qabs q0 <= q0 <= Qabs q0) by (apply Qabs_Qle_condition; apply Qle_refl).
      pose proof (Qabs_nonneg q0).
      set (Nf := inject_Z (Z.of_nat n) * f) in *.
      assert (SP : sp <= (18 # 10) * f + (1 # 200)) by lra. assert (SP0 : 0 <= sp) by apply Qabs_nonneg.
      set (h := fl (sp / 2)) in *. assert (Hh : Qabs (h - sp / 2) <= (1 # 9007199254740992) * sp) by (apply (fl_err fl A); rewrite H2; apply abs_le; lra).
      rewrite H2 in Hh. apply Qabs_Qle_condition in Hh.
      set (c := fl (q0 - h)) in *. assert (Hc : Qabs (c - (q0 - h)) <= (1 # 9007199254740992) * (Qabs q0 + 3 * f)) by (apply (fl_err fl A); apply abs_le; lra).
      apply Qabs_Qle_condition in Hc. rewrite H2. apply abs_le; lra.
    - apply (corner_near fl xc s A). lra. }
  destruct (G x _ Mx HC S1) as (xc & X1 & X2 & v & V1 & V2).
  destruct (G y _ My HR S1y) as (yc & Y1 & Y2 & w & W1 & W2).
  rewrite X1, Y1, S2, V1, W1. cbn [bind]. eexists. exists xc, yc, s.
  split; [reflexivity|]. repeat (split; [assumption|]). assumption.
Qed.
