(** PROOFS: C44, C46. *)
From Coq Require Import String Ascii ZArith QArith Qround Qpower Qabs Qfield Lia List.
From Verif Require Import Base M_Text S_Text P_Text M_AscGrid S_AscGrid P_AscGrid.
From Coq Require Import Lqa.
Import ListNotations.
Open Scope string_scope.
Open Scope Q_scope.

(** ** widths *)
Lemma ndig_le n k : (0 <= n)%Z -> (1 <= k)%nat -> (n < 10 ^ Z.of_nat k)%Z -> (ndig n <= k)%nat.
Proof.
  intros H Hk L. destruct (Z.eq_dec n 0) as [->|N]; [cbn; lia|].
  pose proof (ndig_lower n ltac:(lia)) as G. destruct (Nat.le_gt_cases (ndig n) k) as [|K]; [assumption|exfalso].
  assert (10 ^ Z.of_nat k <= 10 ^ (Z.of_nat (ndig n) - 1))%Z by (apply Z.pow_le_mono_r; lia). lia.
Qed.
Lemma rhe_le x N : x <= inject_Z N -> (rhe x <= N)%Z.
Proof.
  intros H. destruct (rhe_nearest x) as (_ & _ & K & _). apply Qabs_le_iff in K as [K1 K2]. change (1 / 2) with (1 # 2) in K1, K2.
  assert (X : inject_Z (rhe x) < inject_Z (N + 1)). { rewrite inject_Z_plus. change (inject_Z 1) with 1. revert H K1 K2. generalize (inject_Z N) (inject_Z (rhe x)). intros; lra. }
  rewrite <- Zlt_Qlt in X. lia.
Qed.
Lemma fixed_width q : in_field q -> (String.length (fmt_fixed 2 q) < 16)%nat.
Proof.
  intros [L U]. unfold fmt_fixed. rewrite !length_app, length_pad. unfold fmt_nat. rewrite length_pad. set (n := rhe _).
  change (String.length ".") with 1%nat.
  assert (Hn : (0 <= n)%Z). { apply rhe_nonneg. apply Qmult_le_0_compat; [apply Qabs_nonneg|]. apply Qlt_le_weak, Qpow10_pos. }
  destruct (Qnum q <? 0)%Z eqn:E.
  - apply Z.ltb_lt in E. change (String.length "-") with 1%nat.
    assert (n <= 9999999999999)%Z.
    { apply rhe_le. rewrite Qabs_neg by (unfold Qle; cbn; lia). change (pow10 (Z.of_nat 2)) with 100. change (inject_Z 9999999999999) with 9999999999999. lra. }
    assert (ndig (n / 10 ^ Z.of_nat 2) <= 11)%nat; [|lia]. apply ndig_le; [apply Z.div_pos; lia|lia|].
    change (10 ^ Z.of_nat 2)%Z with 100%Z. change (10 ^ Z.of_nat 11)%Z with 100000000000%Z. apply Z.div_lt_upper_bound; lia.
  - apply Z.ltb_ge in E. change (String.length "") with 0%nat.
    assert (n <= 99999999999999)%Z.
    { apply rhe_le. rewrite Qabs_pos by (unfold Qle; cbn; lia). change (pow10 (Z.of_nat 2)) with 100. change (inject_Z 99999999999999) with 99999999999999. lra. }
    assert (ndig (n / 10 ^ Z.of_nat 2) <= 12)%nat; [|lia]. apply ndig_le; [apply Z.div_pos; lia|lia|].
    change (10 ^ Z.of_nat 2)%Z with 100%Z. change (10 ^ Z.of_nat 12)%Z with 1000000000000%Z. apply Z.div_lt_upper_bound; lia.
Qed.

Definition filled (z : grid cell) (nd : Q) : grid cell :=
  {| g_rows := g_rows z; g_cols := g_cols z; g_at := fun m n => fill nd (g_at z m n) |}.
Lemma filled_narrow z nd : cells_in_field z nd -> all_narrow (filled z nd).
Proof.
  intros H m n Hm Hn. specialize (H m n Hm Hn). cbn [filled g_at]. unfold narrow. destruct (g_at z m n); cbn [fill asc_text].
  - now apply fixed_width. - cbn. lia. - now apply fixed_width.
Qed.

Lemma rd_two fl q : exists d, two_decimals q d /\ rd fl q = fl d.
Proof. exists (fixed_value 2 q). split; [|reflexivity]. apply fixed_nearest. reflexivity. Qed.

Lemma filled_back fl z nd : grid_back fl z (rd fl nd) (out_grid fl (filled z nd)).
Proof.
  split; [reflexivity|]. split; [reflexivity|]. intros m n Hm Hn. rewrite out_at by assumption.
  cbn [filled g_at]. unfold cell_value. destruct (g_at z m n) as [q| |]; cbn [fill asc_text cell_back].
  - exists (fixed_value 2 q). split; [apply fixed_nearest; reflexivity|]. unfold parse_float. rewrite decimal_fixed by lia. reflexivity.
  - reflexivity.
  - unfold parse_float. rewrite decimal_fixed by lia. reflexivity.
Qed.

(** what a successful write tells *)
Lemma write_inv fl x y z nd style t : write_asc fl x y z nd style = (Some t, Ok tt) ->
  two_dim z = true /\ (2 <= List.length x)%nat /\ (2 <= List.length y)%nat /\ uniform_check fl x = true /\ uniform_check fl y = true /\
  ((style = 1%Z /\ t = asc_header1 (g_rows z) (g_cols z) (qnth x 0) (qnth y 0) (spacing fl x) (spacing fl y) nd ++ asc_body (filled z nd)) \/
   (style = 2%Z /\ spacing fl x == spacing fl y /\
    t = asc_header2 (g_rows z) (g_cols z) (fl (qnth x 0 - fl (spacing fl x / 2))) (fl (qnth y 0 - fl (spacing fl y / 2))) (spacing fl x) nd ++ asc_body (filled z nd))).
Proof.
  unfold write_asc. intros H. destruct (two_dim z); [|discriminate]. cbn [negb] in H.
  destruct (_ || _)%bool eqn:E1 in H; [discriminate|]. apply orb_false_elim in E1 as [A1 _]. apply Nat.eqb_neq in A1.
  destruct (_ || _)%bool eqn:E1 in H; [discriminate|]. apply orb_false_elim in E1 as [B1 B2]. apply Nat.eqb_neq in B1. apply Nat.leb_gt in B2.
  destruct (uniform_check fl x); [|discriminate]. destruct (uniform_check fl y); [|discriminate]. cbn [andb negb] in H.
  split; [reflexivity|]. split; [lia|]. split; [lia|]. split; [reflexivity|]. split; [reflexivity|].
  destruct (style =? 1)%Z eqn:S1.
  - apply Z.eqb_eq in S1. subst style. cbn [Z.eqb Pos.eqb andb] in H. left. injection H as <-. auto.
  - destruct (style =? 2)%Z eqn:S2.
    + apply Z.eqb_eq in S2. cbn [andb] in H. destruct (Qeq_bool (spacing fl x) (spacing fl y)) eqn:Q1; [|discriminate]. cbn [negb] in H.
      right. injection H as <-. split; [assumption|]. split; [now apply Qeq_bool_eq|reflexivity].
    + cbn [andb] in H. discriminate.
Qed.
Lemma two_dim_sizes (z : grid cell) : two_dim z = true -> g_rows z <> 1%nat /\ g_cols z <> 1%nat.
Proof. unfold two_dim. intros H. apply negb_true_iff, orb_false_elim in H as [A B]. apply Nat.eqb_neq in A, B. auto. Qed.

Lemma axis_some fl ll n d : ~ d == 0 -> exists x, axis fl ll n d = Ok x.
Proof.
  intros H. unfold axis, arange. destruct (Qnum d =? 0)%Z eqn:E; [|eexists; reflexivity].
  apply Z.eqb_eq in E. exfalso. apply H. unfold Qeq. rewrite E. reflexivity.
Qed.

(** values and no-data, any arithmetic, both styles *)
Lemma values_back fl x y z nd style t : write_asc fl x y z nd style = (Some t, Ok tt) ->
  (2 <= g_rows z)%nat -> (2 <= g_cols z)%nat -> cells_in_field z nd ->
  ~ rd fl (spacing fl x) == 0 -> ~ rd fl (spacing fl y) == 0 ->
  exists a, read_asc fl t 0 = Ok a /\ a_nodata a = rd fl nd /\ grid_back fl z (a_nodata a) (a_grid a).
Proof.
  intros W HR HC HF Hx Hy. apply write_inv in W as (D & Lx & Ly & Ux & Uy & C). pose proof (filled_narrow z nd HF) as N.
  destruct C as [(_ & ->)|(_ & E & ->)].
  - change (g_rows z) with (g_rows (filled z nd)). change (g_cols z) with (g_cols (filled z nd)). rewrite read_written1 by assumption.
    destruct (axis_some fl (rd fl (qnth x 0)) (Z.of_nat (g_cols (filled z nd))) _ Hx) as (x' & ->).
    destruct (axis_some fl (rd fl (qnth y 0)) (Z.of_nat (g_rows (filled z nd))) _ Hy) as (y' & ->). cbn [bind].
    eexists. split; [reflexivity|]. split; [reflexivity|]. apply filled_back.
  - change (g_rows z) with (g_rows (filled z nd)). change (g_cols z) with (g_cols (filled z nd)). rewrite read_written2 by assumption.
    match goal with |- context [axis fl ?l ?n (rd fl (spacing fl x))] => destruct (axis_some fl l n _ Hx) as (x' & ->) end.
    cbn [bind]. match goal with |- context [axis fl ?l ?n (rd fl (spacing fl x))] => destruct (axis_some fl l n _ Hx) as (y' & ->) end.
    cbn [bind]. eexists. split; [reflexivity|]. split; [reflexivity|]. apply filled_back.
Qed.

Lemma rd_exact q : two_decimals q (rd exact q).
Proof. apply fixed_nearest. reflexivity. Qed.

(** coordinates, exact arithmetic *)
Lemma round_trip1 x y z nd t : write_asc exact x y z nd 1 = (Some t, Ok tt) ->
  (2 <= g_rows z)%nat -> (2 <= g_cols z)%nat -> cells_in_field z nd ->
  ~ rd exact (first_step x) == 0 -> ~ rd exact (first_step y) == 0 ->
  exists a, read_asc exact t 0 = Ok a /\ grid_back exact z (a_nodata a) (a_grid a) /\ a_nodata a = rd exact nd /\
    progression (a_x a) (g_cols z) (rd exact (qnth x 0)) (rd exact (first_step x)) /\
    progression (a_y a) (g_rows z) (rd exact (qnth y 0)) (rd exact (first_step y)) /\
    a_cellsize a = inr (rd exact (first_step x), rd exact (first_step y)).
Proof.
  intros W HR HC HF Hx Hy. apply write_inv in W as (D & Lx & Ly & Ux & Uy & C). pose proof (filled_narrow z nd HF) as N.
  destruct C as [(_ & ->)|(C & _)]; [|discriminate].
  change (g_rows z) with (g_rows (filled z nd)). change (g_cols z) with (g_cols (filled z nd)). rewrite read_written1 by assumption.
  change (spacing exact x) with (first_step x). change (spacing exact y) with (first_step y).
  destruct (axis_exact (rd exact (qnth x 0)) (g_cols (filled z nd)) _ Hx) as (x' & -> & X1 & X2).
  destruct (axis_exact (rd exact (qnth y 0)) (g_rows (filled z nd)) _ Hy) as (y' & -> & Y1 & Y2). cbn [bind].
  eexists. split; [reflexivity|]. split; [apply filled_back|]. split; [reflexivity|]. split; [split; assumption|]. split; [split; assumption|]. reflexivity.
Qed.
Lemma round_trip2 x y z nd t : write_asc exact x y z nd 2 = (Some t, Ok tt) ->
  (2 <= g_rows z)%nat -> (2 <= g_cols z)%nat -> cells_in_field z nd ->
  ~ rd exact (first_step x) == 0 ->
  exists a, read_asc exact t 0 = Ok a /\ grid_back exact z (a_nodata a) (a_grid a) /\ a_nodata a = rd exact nd /\
    first_step x == first_step y /\
    progression (a_x a) (g_cols z) (rd exact (qnth x 0 - first_step x / 2) + rd exact (first_step x) / 2) (rd exact (first_step x)) /\
    progression (a_y a) (g_rows z) (rd exact (qnth y 0 - first_step y / 2) + rd exact (first_step x) / 2) (rd exact (first_step x)) /\
    a_cellsize a = inl (rd exact (first_step x)).
Proof.
  intros W HR HC HF Hx. apply write_inv in W as (D & Lx & Ly & Ux & Uy & C). pose proof (filled_narrow z nd HF) as N.
  destruct C as [(C & _)|(_ & E & ->)]; [discriminate|].
  change (g_rows z) with (g_rows (filled z nd)). change (g_cols z) with (g_cols (filled z nd)). rewrite read_written2 by assumption.
  change (spacing exact x) with (first_step x) in *. change (spacing exact y) with (first_step y) in *.
  match goal with |- context [axis exact ?l (Z.of_nat ?n) (rd exact (first_step x))] => destruct (axis_exact l n _ Hx) as (x' & -> & X1 & X2) end.
  cbn [bind]. match goal with |- context [axis exact ?l (Z.of_nat ?n) (rd exact (first_step x))] => destruct (axis_exact l n _ Hx) as (y' & -> & Y1 & Y2) end.
  cbn [bind]. eexists. split; [reflexivity|]. split; [apply filled_back|]. split; [reflexivity|]. split; [assumption|]. split; [split; assumption|]. split; [split; assumption|]. reflexivity.
Qed.

(** ** even axes are accepted and come back *)
Lemma even_first x n f s : even_axis x n f s -> qnth x 0 == f /\ first_step x == s.
Proof.
  intros (Hn & Hs & L & V). assert (A := V 0%nat ltac:(lia)). assert (B := V 1%nat ltac:(lia)).
  change (inject_Z (Z.of_nat 0)) with 0 in A. change (inject_Z (Z.of_nat 1)) with 1 in B. split; [lra|].
  unfold first_step. rewrite A, B. rewrite Qabs_pos by lra. lra.
Qed.
Lemma even_mean x n f s : even_axis x n f s -> mean_step x == s.
Proof.
  intros (Hn & Hs & L & V). unfold mean_step. rewrite L. rewrite (V (n - 1)%nat), (V 0%nat) by lia.
  change (inject_Z (Z.of_nat 0)) with 0. replace (Z.of_nat n - 1)%Z with (Z.of_nat (n - 1)) by lia.
  assert (P : 0 < inject_Z (Z.of_nat (n - 1))) by (unfold Qlt; cbn; lia).
  revert P. generalize (inject_Z (Z.of_nat (n - 1))). intros k P.
  setoid_replace ((f + k * s - (f + 0 * s)) / k) with s by (field; lra). apply Qabs_pos. lra.
Qed.
Lemma check_iff l : uniform_check exact l = true <-> steps_agree l.
Proof.
  unfold uniform_check, isclose, exact, steps_agree. change (mean_spacing _ l) with (mean_step l). change (spacing _ l) with (first_step l).
  rewrite Qle_bool_iff. rewrite (Qabs_pos (first_step l)) by apply Qabs_nonneg. reflexivity.
Qed.
Lemma even_check x n f s : even_axis x n f s -> uniform_check exact x = true.
Proof.
  intros H. apply check_iff. unfold steps_agree. rewrite (even_mean x n f s H). destruct (even_first x n f s H) as [_ E]. rewrite E.
  setoid_replace (s - s) with 0 by ring. change (Qabs 0) with 0. destruct H as (_ & H & _). lra.
Qed.

Lemma multiple_itself u q d : 0 < u -> (exists k, q == inject_Z k * u) -> nearest_multiple u q d -> d == q.
Proof.
  intros Hu (k & E) (n & F & H & _). rewrite E, F in H. rewrite E, F.
  assert (K : (k = n)%Z); [|now subst].
  setoid_replace (inject_Z k * u - inject_Z n * u) with (inject_Z (k - n) * u) in H.
  2:{ unfold Z.sub. rewrite inject_Z_plus, inject_Z_opp. ring. }
  rewrite Qabs_Qmult, (Qabs_pos u) in H by lra.
  assert (A : Qabs (inject_Z (k - n)) <= 1 # 2).
  { apply (Qmult_le_r _ _ u Hu). setoid_replace ((1 # 2) * u) with (u / 2) by field. assumption. }
  unfold Qle, Qabs in A. cbn in A. lia.
Qed.
Lemma rd_itself q : hundredths q -> rd exact q == q.
Proof. intros H. apply (multiple_itself (1 # 100)); [reflexivity|exact H|apply rd_exact]. Qed.
Lemma hundredths_eq q r : q == r -> hundredths q -> hundredths r.
Proof. intros E (k & H). exists k. now rewrite <- E. Qed.

Lemma write_ok1 x y z nd nx ny fx fy sx sy : even_axis x nx fx sx -> even_axis y ny fy sy -> two_dim z = true ->
  exists t, write_asc exact x y z nd 1 = (Some t, Ok tt).
Proof.
  intros X Y D. unfold write_asc. rewrite D, (even_check _ _ _ _ X), (even_check _ _ _ _ Y).
  destruct X as (Hx & _ & Lx & _). destruct Y as (Hy & _ & Ly & _). rewrite Lx, Ly. cbn [negb andb].
  replace (nx =? 0)%nat with false by (symmetry; apply Nat.eqb_neq; lia). replace (ny =? 0)%nat with false by (symmetry; apply Nat.eqb_neq; lia).
  replace (nx =? 1)%nat with false by (symmetry; apply Nat.eqb_neq; lia). replace (ny <=? 1)%nat with false by (symmetry; apply Nat.leb_gt; lia).
  cbn. eexists. reflexivity.
Qed.
Lemma write_ok2 x y z nd nx ny fx fy sx sy : even_axis x nx fx sx -> even_axis y ny fy sy -> sx == sy -> two_dim z = true ->
  exists t, write_asc exact x y z nd 2 = (Some t, Ok tt).
Proof.
  intros X Y E D. unfold write_asc. rewrite D, (even_check _ _ _ _ X), (even_check _ _ _ _ Y).
  destruct (even_first _ _ _ _ X) as [_ Fx]. destruct (even_first _ _ _ _ Y) as [_ Fy].
  destruct X as (Hx & _ & Lx & _). destruct Y as (Hy & _ & Ly & _). rewrite Lx, Ly. cbn [negb andb].
  replace (nx =? 0)%nat with false by (symmetry; apply Nat.eqb_neq; lia). replace (ny =? 0)%nat with false by (symmetry; apply Nat.eqb_neq; lia).
  replace (nx =? 1)%nat with false by (symmetry; apply Nat.eqb_neq; lia). replace (ny <=? 1)%nat with false by (symmetry; apply Nat.leb_gt; lia).
  replace (Qeq_bool (spacing exact x) (spacing exact y)) with true.
  2:{ symmetry. apply Qeq_bool_iff. change (first_step x == first_step y). now rewrite Fx, Fy. }
  cbn [orb negb andb Z.eqb Pos.eqb]. eexists. reflexivity.
Qed.

Lemma progression_eq l n f s f' s' : f == f' -> s == s' -> progression l n f s -> progression l n f' s'.
Proof. intros E F (L & V). split; [assumption|]. intros i Hi. rewrite <- E, <- F. now apply V. Qed.

Theorem full_round_trip1 x y z nd fx fy sx sy :
  even_axis x (g_cols z) fx sx -> even_axis y (g_rows z) fy sy ->
  hundredths fx -> hundredths fy -> hundredths sx -> hundredths sy -> hundredths nd -> cells_in_field z nd ->
  exists t a dx dy, write_asc exact x y z nd 1 = (Some t, Ok tt) /\ read_asc exact t 0 = Ok a /\
    grid_back exact z (a_nodata a) (a_grid a) /\ a_nodata a == nd /\
    progression (a_x a) (g_cols z) fx sx /\ progression (a_y a) (g_rows z) fy sy /\
    a_cellsize a = inr (dx, dy) /\ dx == sx /\ dy == sy.
Proof.
  intros X Y Hfx Hfy Hsx Hsy Hnd HF.
  assert (D : two_dim z = true). { destruct X as (? & _). destruct Y as (? & _). unfold two_dim.
    replace (g_rows z =? 1)%nat with false by (symmetry; apply Nat.eqb_neq; lia). replace (g_cols z =? 1)%nat with false by (symmetry; apply Nat.eqb_neq; lia). reflexivity. }
  destruct (write_ok1 x y z nd _ _ _ _ _ _ X Y D) as (t & W).
  destruct (even_first _ _ _ _ X) as [X0 X1]. destruct (even_first _ _ _ _ Y) as [Y0 Y1].
  assert (Ex : rd exact (first_step x) == sx). { rewrite <- X1. apply rd_itself. apply (hundredths_eq sx); [now rewrite X1|assumption]. }
  assert (Ey : rd exact (first_step y) == sy). { rewrite <- Y1. apply rd_itself. apply (hundredths_eq sy); [now rewrite Y1|assumption]. }
  assert (Ex0 : rd exact (qnth x 0) == fx). { rewrite <- X0. apply rd_itself. apply (hundredths_eq fx); [now rewrite X0|assumption]. }
  assert (Ey0 : rd exact (qnth y 0) == fy). { rewrite <- Y0. apply rd_itself. apply (hundredths_eq fy); [now rewrite Y0|assumption]. }
  destruct (round_trip1 x y z nd t W) as (a & A1 & A2 & A3 & A4 & A5 & A6).
  - apply Y. - apply X. - assumption. - destruct X as (_ & S & _). lra. - destruct Y as (_ & S & _). lra.
  - exists t, a, (rd exact (first_step x)), (rd exact (first_step y)). split; [assumption|]. split; [assumption|]. split; [assumption|].
    split. { rewrite A3. now apply rd_itself. }
    split. { eapply progression_eq; [exact Ex0|exact Ex|assumption]. }
    split. { eapply progression_eq; [exact Ey0|exact Ey|assumption]. }
    auto.
Qed.
Theorem full_round_trip2 x y z nd fx fy s :
  even_axis x (g_cols z) fx s -> even_axis y (g_rows z) fy s ->
  hundredths (fx - s / 2) -> hundredths (fy - s / 2) -> hundredths s -> hundredths nd -> cells_in_field z nd ->
  exists t a d, write_asc exact x y z nd 2 = (Some t, Ok tt) /\ read_asc exact t 0 = Ok a /\
    grid_back exact z (a_nodata a) (a_grid a) /\ a_nodata a == nd /\
    progression (a_x a) (g_cols z) fx s /\ progression (a_y a) (g_rows z) fy s /\
    a_cellsize a = inl d /\ d == s.
Proof.
  intros X Y Hfx Hfy Hs Hnd HF.
  assert (D : two_dim z = true). { destruct X as (? & _). destruct Y as (? & _). unfold two_dim.
    replace (g_rows z =? 1)%nat with false by (symmetry; apply Nat.eqb_neq; lia). replace (g_cols z =? 1)%nat with false by (symmetry; apply Nat.eqb_neq; lia). reflexivity. }
  destruct (write_ok2 x y z nd _ _ _ _ _ _ X Y (Qeq_refl s) D) as (t & W).
  destruct (even_first _ _ _ _ X) as [X0 X1]. destruct (even_first _ _ _ _ Y) as [Y0 Y1].
  assert (Ex : rd exact (first_step x) == s). { rewrite <- X1. apply rd_itself. apply (hundredths_eq s); [now rewrite X1|assumption]. }
  assert (Ex0 : rd exact (qnth x 0 - first_step x / 2) == fx - s / 2).
  { rewrite <- X0, <- X1. apply rd_itself. apply (hundredths_eq (fx - s / 2)); [now rewrite X0, X1|assumption]. }
  assert (Ey0 : rd exact (qnth y 0 - first_step y / 2) == fy - s / 2).
  { rewrite <- Y0, <- Y1. apply rd_itself. apply (hundredths_eq (fy - s / 2)); [now rewrite Y0, Y1|assumption]. }
  destruct (round_trip2 x y z nd t W) as (a & A1 & A2 & A3 & _ & A4 & A5 & A6).
  - apply Y. - apply X. - assumption. - destruct X as (_ & S & _). lra.
  - exists t, a, (rd exact (first_step x)). split; [assumption|]. split; [assumption|]. split; [assumption|].
    split. { rewrite A3. now apply rd_itself. }
    split. { eapply progression_eq; [|exact Ex|exact A4]. rewrite Ex0, Ex. field. }
    split. { eapply progression_eq; [|exact Ex|exact A5]. rewrite Ey0, Ex. field. }
    auto.
Qed.

(** ** rejected writes *)
Lemma rejects fl x y z nd style : (2 <= List.length x)%nat -> (2 <= List.length y)%nat -> two_dim z = true ->
  uniform_check fl x = false \/ uniform_check fl y = false -> write_asc fl x y z nd style = (None, Err ValueError).
Proof.
  intros Hx Hy D H. unfold write_asc. rewrite D. cbn [negb].
  replace (List.length x =? 0)%nat with false by (symmetry; apply Nat.eqb_neq; lia). replace (List.length y =? 0)%nat with false by (symmetry; apply Nat.eqb_neq; lia).
  replace (List.length x =? 1)%nat with false by (symmetry; apply Nat.eqb_neq; lia). replace (List.length y <=? 1)%nat with false by (symmetry; apply Nat.leb_gt; lia).
  cbn [orb andb]. replace (uniform_check fl x && uniform_check fl y)%bool with false; [reflexivity|].
  destruct H as [-> | ->]; [reflexivity|]. now rewrite andb_false_r.
Qed.

(** the file is opened, but not written, only when the style is wrong *)
Lemma rejected_untouched fl x y z nd style e t : write_asc fl x y z nd style = (Some t, Err e) ->
  (style <> 1 /\ style <> 2)%Z /\ t = "" /\ e = ValueError.
Proof.
  unfold write_asc. intros H. destruct (negb _); [discriminate|]. destruct (_ || _)%bool; [discriminate|]. destruct (_ || _)%bool; [discriminate|].
  destruct (negb _); [discriminate|]. destruct (_ && _)%bool; [discriminate|].
  destruct (style =? 1)%Z eqn:S1; [discriminate|]. destruct (style =? 2)%Z eqn:S2; [discriminate|].
  apply Z.eqb_neq in S1, S2. injection H as <- <-. auto.
Qed.
