(** C78, C79: predictions depend continuously on the semivariances. *)
From Coq Require Import String.
From Verif Require Import Base Sums Matrix M_Variogram P_Variogram M_Geometry S_Geometry P_Geometry M_Kriging S_Kriging
  P_Kriging P_OKSpec M_Init M_Object M_Execute S_Execute P_Object P_Execute P_Cells P_OK P_Exec2 P_Psd P_Psd2 P_Turn4 P_Valid S_Line P_Line.

Lemma abs_bsum n f : Rabs (bsum n f) <= bsum n (fun i => Rabs (f i)).
Proof. apply bsum_abs_le. Qed.

Lemma lipschitz n vg d : OK_regular n (data_semivariance vg d) ->
  exists K, 0 <= K /\ forall g g' w w' mu mu' delta, OK_system n (data_semivariance vg d) g w mu -> OK_system n (data_semivariance vg d) g' w' mu' ->
    0 <= delta -> (forall i, (i < n)%nat -> Rabs (g i - g' i) <= delta) ->
    (forall i, (i < n)%nat -> Rabs (w i - w' i) <= K * delta) /\ Rabs (mu - mu') <= K * delta.
Proof.
  intros HR. destruct (regular_nonsingular n vg d HR) as (B & HB).
  set (K := bsum (n + 1) (fun i => bsum (n + 1) (fun k => Rabs (B i k)))).
  assert (HK : 0 <= K) by (apply bsum_nonneg; intros; apply bsum_nonneg; intros; apply Rabs_pos).
  exists K. split; [exact HK|]. intros g g' w w' mu mu' delta S1 S2 Hd Hg.
  set (x := fun i => if Nat.eqb i n then - mu else w i). set (x' := fun i => if Nat.eqb i n then - mu' else w' i).
  assert (EX : forall g w mu, OK_system n (data_semivariance vg d) g w mu ->
     veq (n + 1) (fun i => if Nat.eqb i n then - mu else w i) (mulv (n + 1) B (rhs_spec n g))).
  { intros h u nu (A1 & A2). apply (inverse_unique_solution _ _ _ _ _ HB). apply system_iff. rewrite Nat.eqb_refl, Ropp_involutive.
    split.
    - intros i Hi. rewrite <- (A1 i Hi). f_equal. apply bsum_ext. intros j Hj. destruct (Nat.eqb_spec j n); [lia|reflexivity].
    - rewrite <- A2. apply bsum_ext. intros j Hj. destruct (Nat.eqb_spec j n); [lia|reflexivity]. }
  assert (D : forall i, (i < n + 1)%nat -> Rabs (x i - x' i) <= K * delta).
  { intros i Hi. rewrite (EX _ _ _ S1 i Hi : x i = _), (EX _ _ _ S2 i Hi : x' i = _). unfold mulv. rewrite <- bsum_minus.
    eapply Rle_trans; [apply abs_bsum|].
    apply Rle_trans with (bsum (n + 1) (fun k => Rabs (B i k) * delta)).
    - apply bsum_le. intros k Hk. replace (B i k * rhs_spec n g k - B i k * rhs_spec n g' k) with (B i k * (rhs_spec n g k - rhs_spec n g' k)) by ring.
      rewrite Rabs_mult. apply Rmult_le_compat_l; [apply Rabs_pos|]. unfold rhs_spec. destruct (Nat.eqb_spec k n) as [Hn'|Hn']; [replace (1 - 1) with 0 by ring; rewrite Rabs_R0; exact Hd|]. destruct (Nat.ltb_spec k n) as [Hk'|Hk'].
      + replace (- g k - - g' k) with (- (g k - g' k)) by ring. rewrite Rabs_Ropp. apply Hg, Hk'.
      + lia.
    - rewrite bsum_scal_r. apply Rmult_le_compat_r; [exact Hd|]. unfold K.
      pose proof (bsum_delta (n + 1) i (fun i => bsum (n + 1) (fun k => Rabs (B i k))) Hi) as E. cbv beta in E. rewrite <- E.
      apply bsum_le. intros k Hk. assert (0 <= bsum (n + 1) (fun k0 => Rabs (B k k0))) by (apply bsum_nonneg; intros; apply Rabs_pos). destruct (Nat.eqb k i); lra. }
  split.
  - intros i Hi. specialize (D i ltac:(lia)). unfold x, x' in D. destruct (Nat.eqb_spec i n); [lia|exact D].
  - specialize (D n ltac:(lia)). unfold x, x' in D. rewrite Nat.eqb_refl in D. replace (- mu - - mu') with (- (mu - mu')) in D by ring. rewrite Rabs_Ropp in D. exact D.
Qed.

(** estimates near a reference right-hand side *)
Lemma near_estimate n vg d z g0 w0 mu0 : OK_regular n (data_semivariance vg d) -> OK_system n (data_semivariance vg d) g0 w0 mu0 ->
  forall e, 0 < e -> exists delta, 0 < delta /\ forall g w mu, OK_system n (data_semivariance vg d) g w mu ->
    (forall i, (i < n)%nat -> Rabs (g i - g0 i) <= delta) ->
    Rabs (bsum n (fun i => w i * z i) - bsum n (fun i => w0 i * z i)) < e /\
    Rabs (bsum n (fun i => w i * g i) + mu - (bsum n (fun i => w0 i * g0 i) + mu0)) < e.
Proof.
  intros HR H0 e He. destruct (lipschitz n vg d HR) as (K & HK & HL).
  set (Z := bsum n (fun i => Rabs (z i))). set (W := bsum n (fun i => Rabs (w0 i))). set (G := bsum n (fun i => Rabs (g0 i))).
  assert (HZ : 0 <= Z) by (apply bsum_nonneg; intros; apply Rabs_pos). assert (HW : 0 <= W) by (apply bsum_nonneg; intros; apply Rabs_pos). assert (HG : 0 <= G) by (apply bsum_nonneg; intros; apply Rabs_pos).
  set (L := 1 + K * Z + W + K * INR n + K * G + K).
  assert (HN : 0 <= INR n) by apply pos_INR.
  assert (HL0 : 1 <= L) by (unfold L; pose proof (Rmult_le_pos _ _ HK HZ); pose proof (Rmult_le_pos _ _ HK HN); pose proof (Rmult_le_pos _ _ HK HG); lra).
  set (dl := Rmin 1 (e / (2 * L))).
  assert (Hdl : 0 < dl) by (unfold dl; apply Rmin_glb_lt; [lra|apply Rdiv_lt_0_compat; lra]).
  assert (Hdl1 : dl <= 1) by apply Rmin_l.
  assert (HdlL : dl * L < e).
  { apply Rle_lt_trans with (e / (2 * L) * L); [apply Rmult_le_compat_r; [lra|apply Rmin_r]|]. replace (e / (2 * L) * L) with (e / 2) by (field; lra). lra. }
  exists dl. split; [exact Hdl|]. intros g w mu H1 Hg.
  destruct (HL g g0 w w0 mu mu0 dl H1 H0 ltac:(lra) Hg) as [DW DM].
  assert (KZ := Rmult_le_pos _ _ HK HZ). assert (KN := Rmult_le_pos _ _ HK HN). assert (KG := Rmult_le_pos _ _ HK HG).
  split.
  - rewrite <- bsum_minus. eapply Rle_lt_trans; [apply abs_bsum|].
    apply Rle_lt_trans with (dl * (K * Z)); [|apply Rle_lt_trans with (dl * L); [apply Rmult_le_compat_l; unfold L; lra|exact HdlL]].
    unfold Z. rewrite <- Rmult_assoc, <- bsum_scal. apply bsum_le. intros i Hi.
    replace (w i * z i - w0 i * z i) with ((w i - w0 i) * z i) by ring. rewrite Rabs_mult. apply Rmult_le_compat_r; [apply Rabs_pos|]. rewrite Rmult_comm. apply DW, Hi.
  - replace (bsum n (fun i => w i * g i) + mu - (bsum n (fun i => w0 i * g0 i) + mu0)) with (bsum n (fun i => w i * g i - w0 i * g0 i) + (mu - mu0)) by (rewrite bsum_minus; ring).
    eapply Rle_lt_trans; [apply Rabs_triang|].
    assert (A : Rabs (bsum n (fun i => w i * g i - w0 i * g0 i)) <= dl * (W + K * INR n + K * G)).
    { eapply Rle_trans; [apply abs_bsum|].
      apply Rle_trans with (bsum n (fun i => dl * Rabs (w0 i) + (dl * K) * 1 + (dl * K) * Rabs (g0 i))).
      - apply bsum_le. intros i Hi. specialize (DW i Hi). specialize (Hg i Hi).
        replace (w i * g i - w0 i * g0 i) with ((w i - w0 i) * (g i - g0 i) + w0 i * (g i - g0 i) + (w i - w0 i) * g0 i) by ring.
        eapply Rle_trans; [apply Rabs_triang|]. eapply Rle_trans; [apply Rplus_le_compat_r, Rabs_triang|]. rewrite !Rabs_mult.
        assert (P1 := Rabs_pos (w i - w0 i)). assert (P2 := Rabs_pos (g i - g0 i)). assert (P3 := Rabs_pos (w0 i)). assert (P4 := Rabs_pos (g0 i)).
        assert (T1 : Rabs (w i - w0 i) * Rabs (g i - g0 i) <= K * dl * 1) by (apply Rmult_le_compat; lra).
        assert (T2 : Rabs (w0 i) * Rabs (g i - g0 i) <= Rabs (w0 i) * dl) by (apply Rmult_le_compat_l; lra).
        assert (T3 : Rabs (w i - w0 i) * Rabs (g0 i) <= K * dl * Rabs (g0 i)) by (apply Rmult_le_compat_r; lra). lra.
      - rewrite !bsum_plus, !bsum_scal. rewrite bsum_const. fold W G. right. ring. }
    apply Rle_lt_trans with (dl * L); [|exact HdlL].
    apply Rle_trans with (dl * (W + K * INR n + K * G) + K * dl); [lra|].
    replace (dl * (W + K * INR n + K * G) + K * dl) with (dl * (W + K * INR n + K * G + K)) by ring. apply Rmult_le_compat_l; unfold L; lra.
Qed.

(** what a cell without a window shows *)
Lemma global_cell E o q r p pos : run E o q r -> shown o q p pos -> regular o -> q_window q = None ->
  exists w mu, OK_system (o_n o) (G_of o) (g_of o pos) w mu /\
    r_value r p = Some (bsum (o_n o) (fun i => w i * o_values o i)) /\ r_variance r p = Some (bsum (o_n o) (fun i => w i * g_of o pos i) + mu).
Proof.
  intros HR HS Hreg HW. destruct (run_cell E o q r p pos HR HS) as (v & s & -> & -> & HK).
  assert (HP : well_posed o q pos) by (right; right; destruct (Hreg (g_of o pos)) as (w & mu & H & _); exists w, mu; exact H). specialize (HK HP).
  unfold kriged in HK. rewrite HW in HK. destruct HK as (w & mu & H & -> & ->). exists w, mu. auto.
Qed.
Lemma run_is_regular E o q r : run E o q r -> regular_for o q -> q_window q = None -> regular o.
Proof.
  intros HR Hreg HW. pose proof (run_local_regular E o q r (0,0,0) (o_n o) (fun a => a) HR Hreg) as H. apply H.
  - unfold uses. rewrite HW. auto.
  - congruence.
Qed.

(** triangle inequality *)
Lemma norm_triangle a b c x y z : sqrt ((a + x) * (a + x) + (b + y) * (b + y) + (c + z) * (c + z)) <= sqrt (a * a + b * b + c * c) + sqrt (x * x + y * y + z * z).
Proof.
  set (A := a * a + b * b + c * c). set (X := x * x + y * y + z * z).
  assert (HA : 0 <= A) by (unfold A; nra). assert (HX : 0 <= X) by (unfold X; nra).
  assert (SA := sqrt_pos A). assert (SX := sqrt_pos X). assert (EA := sqrt_sqrt A HA). assert (EX := sqrt_sqrt X HX).
  assert (CS : (a * x + b * y + c * z) * (a * x + b * y + c * z) <= A * X).
  { assert (0 <= (a * y - b * x) * (a * y - b * x) + (a * z - c * x) * (a * z - c * x) + (b * z - c * y) * (b * z - c * y)) by (apply Rplus_le_le_0_compat; [apply Rplus_le_le_0_compat|]; apply Rle_0_sqr).
    unfold A, X. lra. }
  assert (C : a * x + b * y + c * z <= sqrt A * sqrt X).
  { destruct (Rle_dec (a * x + b * y + c * z) 0) as [L|L]; [pose proof (Rmult_le_pos _ _ SA SX); lra|].
    apply Rsqr_incr_0_var; [|apply Rmult_le_pos; assumption]. unfold Rsqr. replace (sqrt A * sqrt X * (sqrt A * sqrt X)) with (sqrt A * sqrt A * (sqrt X * sqrt X)) by ring. rewrite EA, EX. exact CS. }
  apply Rsqr_incr_0_var; [|lra]. rewrite Rsqr_sqrt by (apply Rplus_le_le_0_compat; [apply Rplus_le_le_0_compat|]; apply Rle_0_sqr).
  unfold Rsqr. replace ((sqrt A + sqrt X) * (sqrt A + sqrt X)) with (sqrt A * sqrt A + sqrt X * sqrt X + 2 * (sqrt A * sqrt X)) by ring. rewrite EA, EX. unfold A, X in *. lra.
Qed.
Lemma separation_triangle o x y z : separation o x z <= separation o x y + separation o y z.
Proof.
  destruct (o_ct o) eqn:EC.
  - set (pts := fun i : nat => match i with 0%nat => x | 1%nat => y | _ => z end).
    pose proof (separation_sqd o pts 0 2 EC) as H02. pose proof (separation_sqd o pts 0 1 EC) as H01. pose proof (separation_sqd o pts 1 2 EC) as H12.
    unfold sqd in H02, H01, H12. cbn [bsum pts] in H02, H01, H12. rewrite H02, H01, H12.
    set (X := euclid_coords o x). set (Y := euclid_coords o y). set (Z := euclid_coords o z).
    pose proof (norm_triangle (X 0%nat - Y 0%nat) (X 1%nat - Y 1%nat) (X 2%nat - Y 2%nat) (Y 0%nat - Z 0%nat) (Y 1%nat - Z 1%nat) (Y 2%nat - Z 2%nat)) as T.
    replace (X 0%nat - Y 0%nat + (Y 0%nat - Z 0%nat)) with (X 0%nat - Z 0%nat) in T by ring. replace (X 1%nat - Y 1%nat + (Y 1%nat - Z 1%nat)) with (X 1%nat - Z 1%nat) in T by ring. replace (X 2%nat - Y 2%nat + (Y 2%nat - Z 2%nat)) with (X 2%nat - Z 2%nat) in T by ring.
    rewrite !Rplus_0_l. exact T.
  - unfold separation. rewrite EC. apply gc_triangle.
Qed.
Lemma separation_lipschitz o x y z : Rabs (separation o x z - separation o y z) <= separation o x y.
Proof.
  pose proof (separation_triangle o x y z). pose proof (separation_triangle o y x z) as H2. rewrite (P_Object.separation_sym o y x) in H2.
  apply Rabs_le. lra.
Qed.

Lemma g_plain o pos i : (o_exact o = true -> eps < separation o pos (datum o i)) -> g_of o pos i = o_vg o (separation o pos (datum o i)).
Proof.
  intros H. unfold g_of, query_semivariance. destruct (o_exact o); [|reflexivity]. cbn [andb].
  rewrite Rabs_pos_eq by apply P_Object.separation_nonneg. rewrite (proj2 (Rleb_false _ _) (H eq_refl)). reflexivity.
Qed.

Lemma all_data n (P : nat -> R -> Prop) : (forall i, (i < n)%nat -> exists d, 0 < d /\ P i d) -> (forall i d d', P i d -> 0 < d' <= d -> P i d') ->
  exists d, 0 < d /\ forall i, (i < n)%nat -> P i d.
Proof.
  intros H HM. induction n as [|n IH].
  - exists 1. split; [lra|]. intros; lia.
  - destruct IH as (d & Hd & HP); [intros; apply H; lia|]. destruct (H n ltac:(lia)) as (d' & Hd' & HP').
    exists (Rmin d d'). assert (M : 0 < Rmin d d') by (apply Rmin_glb_lt; assumption). split; [exact M|].
    intros i Hi. destruct (Nat.eq_dec i n) as [->|Hne].
    + apply (HM n d' _ HP'). split; [exact M|apply Rmin_r].
    + apply (HM i d _ (HP i ltac:(lia))). split; [exact M|apply Rmin_l].
Qed.

Theorem continuous_predictions E o q r p pos : run E o q r -> shown o q p pos -> regular_for o q -> q_window q = None ->
  (o_exact o = true -> away o pos) -> (forall i, (i < o_n o)%nat -> continuous_at (o_vg o) (separation o pos (datum o i))) ->
  forall e, 0 < e -> exists delta, 0 < delta /\ forall q' r' p' pos', run E o q' r' -> q_window q' = None -> shown o q' p' pos' ->
    separation o pos' pos < delta ->
    exists v v' s s', r_value r p = Some v /\ r_value r' p' = Some v' /\ r_variance r p = Some s /\ r_variance r' p' = Some s' /\
      Rabs (v' - v) < e /\ Rabs (s' - s) < e.
Proof.
  intros HR HS Hreg HW HA HC e He. pose proof (run_is_regular E o q r HR Hreg HW) as HReg.
  destruct (global_cell E o q r p pos HR HS HReg HW) as (w0 & mu0 & H0 & HV & HVar).
  destruct (near_estimate (o_n o) (o_vg o) (fun i j => separation o (datum o i) (datum o j)) (o_values o) (g_of o pos) w0 mu0 HReg H0 e He) as (dl & Hdl & HN).
  destruct (all_data (o_n o) (fun i d => forall pos', separation o pos' pos < d -> Rabs (g_of o pos' i - g_of o pos i) <= dl)) as (dd & Hdd & HD).
  - intros i Hi. destruct (HC i Hi dl Hdl) as (d1 & Hd1 & H1).
    destruct (o_exact o) eqn:EX.
    + assert (Hm : 0 < separation o pos (datum o i) - eps) by (pose proof (HA eq_refl i Hi); lra).
      exists (Rmin d1 (separation o pos (datum o i) - eps)). split; [apply Rmin_glb_lt; assumption|].
      intros pos' Hp. pose proof (separation_lipschitz o pos' pos (datum o i)) as SL.
      assert (M1 := Rmin_l d1 (separation o pos (datum o i) - eps)). assert (M2 := Rmin_r d1 (separation o pos (datum o i) - eps)).
      rewrite !g_plain.
      * left. apply H1. eapply Rle_lt_trans; [exact SL|]. lra.
      * intros _. apply HA; [reflexivity|exact Hi].
      * intros _. assert (Q := Rle_abs (- (separation o pos' (datum o i) - separation o pos (datum o i)))). rewrite Rabs_Ropp in Q. lra.
    + exists d1. split; [exact Hd1|]. intros pos' Hp. pose proof (separation_lipschitz o pos' pos (datum o i)) as SL.
      rewrite !g_plain by (rewrite EX; discriminate). left. apply H1. eapply Rle_lt_trans; [exact SL|]. exact Hp.
  - intros i d d' HP Hd pos' Hp. apply HP. lra.
  - exists dd. split; [exact Hdd|]. intros q' r' p' pos' HR' HW' HS' Hsep.
    destruct (global_cell E o q' r' p' pos' HR' HS' HReg HW') as (w & mu & H & HV' & HVar').
    destruct (HN (g_of o pos') w mu H) as [N1 N2]; [intros i Hi; apply HD; assumption|].
    do 4 eexists. split; [exact HV|]. split; [exact HV'|]. split; [exact HVar|]. split; [exact HVar'|]. split; assumption.
Qed.
