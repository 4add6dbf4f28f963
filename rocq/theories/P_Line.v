(** C77: kriging along a line; two data; C78: pure nugget. *)
From Coq Require Import String.
From Verif Require Import Base Sums Matrix M_Variogram P_Variogram M_Geometry S_Geometry P_Geometry M_Kriging S_Kriging
  P_Kriging P_OKSpec M_Init M_Object M_Execute S_Execute P_Object P_Execute P_Cells P_OK P_Exec2 S_Line.

Lemma uses_inj o q pos m sel : uses o q pos m sel -> forall a b, (a < m)%nat -> (b < m)%nat -> sel a = sel b -> a = b.
Proof.
  unfold uses. destruct (q_window q) as [k|]; [intros (-> & (_ & H & _))|intros (-> & H) a b _ _]; [intros a b Ha Hb HH; apply H; assumption|rewrite !H; auto].
Qed.

(** The cell shows what any solution of the system of the data used gives. *)
Lemma cell_solution E o q r p pos : run E o q r -> shown o q p pos -> regular_for o q ->
  exists m sel, uses o q pos m sel /\ (forall a, (a < m)%nat -> (sel a < o_n o)%nat) /\ local_regular o m sel /\
    forall w mu, OK_system m (fun a b => G_of o (sel a) (sel b)) (fun a => g_of o pos (sel a)) w mu ->
      r_value r p = Some (bsum m (fun a => w a * o_values o (sel a))) /\
      r_variance r p = Some (bsum m (fun a => w a * g_of o pos (sel a)) + mu).
Proof.
  intros HR HS Hreg. destruct (run_cell E o q r p pos HR HS) as (v & s & -> & -> & HK).
  specialize (HK (regular_for_well_posed _ _ _ Hreg)).
  destruct (kriged_uses o q pos v s HK) as (m & sel & HU & Hlt & HLR & HEs).
  pose proof (run_local_regular E o q r pos m sel HR Hreg HU HLR) as HLR'.
  exists m, sel. split; [exact HU|]. split; [exact Hlt|]. split; [exact HLR'|]. intros w mu HW.
  destruct (regular_unique' m _ _ (fun a => o_values o (sel a)) v s (bsum m (fun a => w a * o_values o (sel a))) (bsum m (fun a => w a * g_of o pos (sel a)) + mu) HLR' HEs) as [-> ->].
  - exists w, mu. auto.
  - auto.
Qed.

Lemma line_G o t pos x s i j : on_line o t pos x -> (forall d, 0 <= d -> o_vg o d = s * d) -> (i < o_n o)%nat -> (j < o_n o)%nat -> G_of o i j = s * Rabs (t i - t j).
Proof.
  intros (H & _) HV Hi Hj. unfold G_of, data_semivariance. destruct (Nat.eqb_spec i j) as [->|_].
  - replace (t j - t j) with 0 by ring. rewrite Rabs_R0. ring.
  - rewrite H by assumption. apply HV, Rabs_pos.
Qed.
Lemma line_g o t pos x s i : on_line o t pos x -> (forall d, 0 <= d -> o_vg o d = s * d) -> resolved o pos -> (i < o_n o)%nat -> g_of o pos i = s * Rabs (x - t i).
Proof.
  intros (_ & H) HV HR Hi. unfold g_of, query_semivariance. rewrite <- (H i Hi).
  destruct (o_exact o) eqn:EX; cbn [andb].
  - destruct (HR EX i Hi) as [Z|Z].
    + rewrite Z, Rabs_R0. destruct (Rleb 0 eps); [ring|]. rewrite HV by lra. ring.
    + rewrite Rabs_pos_eq by apply P_Object.separation_nonneg. rewrite (proj2 (Rleb_false _ _) Z). apply HV, P_Object.separation_nonneg.
  - apply HV, P_Object.separation_nonneg.
Qed.

Lemma two_weights n i j a b f : (i < n)%nat -> (j < n)%nat -> i <> j ->
  bsum n (fun k => (if Nat.eqb k i then a else if Nat.eqb k j then b else 0) * f k) = a * f i + b * f j.
Proof.
  intros Hi Hj Hne. rewrite (bsum_two n i j) by (try assumption; intros k _ H1 H2; rewrite (proj2 (Nat.eqb_neq _ _) H1), (proj2 (Nat.eqb_neq _ _) H2); ring).
  rewrite Nat.eqb_refl, Nat.eqb_refl. destruct (Nat.eqb_spec j i); [congruence|]. reflexivity.
Qed.

Theorem line_between E o q r p pos t x s : run E o q r -> shown o q p pos -> regular_for o q -> on_line o t pos x -> resolved o pos ->
  (forall d, 0 <= d -> o_vg o d = s * d) ->
  exists m sel, uses o q pos m sel /\
    forall a b, (a < m)%nat -> (b < m)%nat -> t (sel a) < t (sel b) -> t (sel a) <= x <= t (sel b) ->
      (forall c, (c < m)%nat -> ~ (t (sel a) < t (sel c) < t (sel b))) ->
      r_value r p = Some (((t (sel b) - x) * o_values o (sel a) + (x - t (sel a)) * o_values o (sel b)) / (t (sel b) - t (sel a))) /\
      r_variance r p = Some (2 * s * (x - t (sel a)) * (t (sel b) - x) / (t (sel b) - t (sel a))).
Proof.
  intros HR HS Hreg HL HRes HV. destruct (cell_solution E o q r p pos HR HS Hreg) as (m & sel & HU & Hlt & _ & H).
  exists m, sel. split; [exact HU|]. intros a b Ha Hb Hab Hx Hno.
  set (ta := t (sel a)) in *. set (tb := t (sel b)) in *.
  assert (Hne : a <> b) by (intros ->; unfold ta, tb in *; lra).
  destruct (H (fun k => if Nat.eqb k a then (tb - x) / (tb - ta) else if Nat.eqb k b then (x - ta) / (tb - ta) else 0) 0) as [H1 H2].
  - split.
    + intros i Hi. rewrite two_weights by assumption.
      rewrite !(line_G o t pos x s), (line_g o t pos x s) by (try assumption; apply Hlt; assumption).
      fold ta tb. specialize (Hno i Hi). set (ti := t (sel i)) in *.
      destruct (Rle_dec ti ta) as [L|L].
      * rewrite !(Rabs_left1 (ti - _)) by lra. rewrite Rabs_right by lra. field. lra.
      * assert (tb <= ti) by lra. rewrite !(Rabs_right (ti - _)) by lra. rewrite Rabs_left1 by lra. field. lra.
    + rewrite (bsum_ext m _ (fun k => (if Nat.eqb k a then (tb - x) / (tb - ta) else if Nat.eqb k b then (x - ta) / (tb - ta) else 0) * 1)) by (intros; ring).
      rewrite two_weights by assumption. field. lra.
  - rewrite H1, H2. rewrite !two_weights by assumption. rewrite !(line_g o t pos x s) by (try assumption; apply Hlt; assumption). fold ta tb.
    rewrite (Rabs_right (x - ta)) by lra. rewrite (Rabs_left1 (x - tb)) by lra. split; f_equal; field; lra.
Qed.

Theorem line_outside E o q r p pos t x s : run E o q r -> shown o q p pos -> regular_for o q -> on_line o t pos x -> resolved o pos ->
  (forall d, 0 <= d -> o_vg o d = s * d) ->
  exists m sel, uses o q pos m sel /\
    forall a, (a < m)%nat ->
      ((forall c, (c < m)%nat -> t (sel a) <= t (sel c)) /\ x <= t (sel a) \/ (forall c, (c < m)%nat -> t (sel c) <= t (sel a)) /\ t (sel a) <= x) ->
      r_value r p = Some (o_values o (sel a)) /\ r_variance r p = Some (2 * s * Rabs (x - t (sel a))).
Proof.
  intros HR HS Hreg HL HRes HV. destruct (cell_solution E o q r p pos HR HS Hreg) as (m & sel & HU & Hlt & _ & H).
  exists m, sel. split; [exact HU|]. intros a Ha Hx.
  destruct (H (fun k => if Nat.eqb k a then 1 else 0) (s * Rabs (x - t (sel a)))) as [H1 H2].
  - split.
    + intros i Hi. rewrite bsum_delta by assumption.
      rewrite !(line_G o t pos x s), (line_g o t pos x s) by (try assumption; apply Hlt; assumption).
      destruct Hx as [[Hc Hx]|[Hc Hx]]; specialize (Hc i Hi).
      * rewrite (Rabs_right (t (sel i) - t (sel a))), !Rabs_left1 by lra. ring.
      * rewrite (Rabs_left1 (t (sel i) - t (sel a))), !Rabs_right by lra. ring.
    + rewrite (bsum_ext m _ (fun k => (if Nat.eqb k a then 1 else 0) * 1)) by (intros; ring). rewrite bsum_delta by assumption. reflexivity.
  - rewrite H1, H2, !bsum_delta by assumption. rewrite (line_g o t pos x s) by (try assumption; apply Hlt; assumption). split; f_equal; ring.
Qed.

(** two data *)
Theorem two_data E o q r p pos : run E o q r -> shown o q p pos -> regular_for o q -> o_n o = 2%nat ->
  let g0 := g_of o pos 0%nat in let g1 := g_of o pos 1%nat in let c := o_vg o (separation o (datum o 0%nat) (datum o 1%nat)) in
  c <> 0 ->
  r_value r p = Some ((o_values o 0%nat + o_values o 1%nat) / 2 + (o_values o 1%nat - o_values o 0%nat) * (g0 - g1) / (2 * c)) /\
  r_variance r p = Some (g0 + g1 - c / 2 - (g0 - g1)² / (2 * c)).
Proof.
  intros HR HS Hreg Hn g0 g1 c Hc.
  destruct (run_cell E o q r p pos HR HS) as (v & s & -> & -> & HK).
  specialize (HK (regular_for_well_posed _ _ _ Hreg)).
  assert (HE : OK_estimate 2 (G_of o) (g_of o pos) (o_values o) v s \/ exists sel, perm_on 2 sel /\ local_estimate o 2 sel pos v s).
  { unfold kriged in HK. destruct (q_window q) as [k|].
    - destruct HK as (Hk & sel & (HN1 & HN2 & _) & _ & HE). replace k with 2%nat in * by lia. right. exists sel. split; [|exact HE]. rewrite Hn in HN1. split; [exact HN1|exact HN2].
    - left. rewrite <- Hn. exact HK. }
  assert (G01 : G_of o 0%nat 1%nat = c) by reflexivity.
  assert (G10 : G_of o 1%nat 0%nat = c) by (unfold G_of, data_semivariance; cbn [Nat.eqb]; rewrite P_Object.separation_sym; reflexivity).
  assert (G00 : forall i, G_of o i i = 0) by apply G_of_diag.
  assert (Hg0 : g_of o pos 0%nat = g0) by reflexivity. assert (Hg1 : g_of o pos 1%nat = g1) by reflexivity. clearbody g0 g1 c.
  destruct HE as [(w & mu & (E1 & E2) & -> & ->)|(sel & (P1 & P2) & (w & mu & (E1 & E2) & -> & ->))].
  - pose proof (E1 0%nat ltac:(lia)) as A. pose proof (E1 1%nat ltac:(lia)) as B. cbn [bsum] in A, B, E2 |- *. repeat rewrite ?G00, ?G01, ?G10, ?Hg0, ?Hg1 in A; repeat rewrite ?G00, ?G01, ?G10, ?Hg0, ?Hg1 in B; rewrite ?Hg0, ?Hg1. idtac.
    assert (W : w 1%nat - w 0%nat = (g0 - g1) / c) by (apply (Rmult_eq_reg_r c); [replace ((g0 - g1) / c * c) with (g0 - g1) by (field; exact Hc); lra|exact Hc]).
    assert (W1 : w 1%nat = (1 + (g0 - g1) / c) / 2) by lra. assert (W0 : w 0%nat = (1 - (g0 - g1) / c) / 2) by lra.
    assert (M : mu = g0 - w 1%nat * c) by lra. rewrite M, W1, W0. split; f_equal; unfold Rsqr; field; exact Hc.
  - pose proof (E1 0%nat ltac:(lia)) as A. pose proof (E1 1%nat ltac:(lia)) as B. cbn [bsum] in *.
    assert (Q0 := P1 0%nat ltac:(lia)). assert (Q1 := P1 1%nat ltac:(lia)). assert (Q2 : sel 0%nat <> sel 1%nat) by (intros Q; specialize (P2 0%nat 1%nat ltac:(lia) ltac:(lia) Q); lia).
    assert ((sel 0 = 0 /\ sel 1 = 1) \/ (sel 0 = 1 /\ sel 1 = 0))%nat as [[S0 S1]|[S0 S1]] by lia; rewrite S0, S1 in A, B |- *; repeat rewrite ?G00, ?G01, ?G10, ?Hg0, ?Hg1 in A; repeat rewrite ?G00, ?G01, ?G10, ?Hg0, ?Hg1 in B; rewrite ?Hg0, ?Hg1; idtac.
    + assert (W : w 1%nat - w 0%nat = (g0 - g1) / c) by (apply (Rmult_eq_reg_r c); [replace ((g0 - g1) / c * c) with (g0 - g1) by (field; exact Hc); lra|exact Hc]).
      assert (W1 : w 1%nat = (1 + (g0 - g1) / c) / 2) by lra. assert (W0 : w 0%nat = (1 - (g0 - g1) / c) / 2) by lra.
      assert (M : mu = g0 - w 1%nat * c) by lra. rewrite M, W1, W0. split; f_equal; unfold Rsqr; field; exact Hc.
    + assert (W : w 0%nat - w 1%nat = (g0 - g1) / c) by (apply (Rmult_eq_reg_r c); [replace ((g0 - g1) / c * c) with (g0 - g1) by (field; exact Hc); lra|exact Hc]).
      assert (W0 : w 0%nat = (1 + (g0 - g1) / c) / 2) by lra. assert (W1 : w 1%nat = (1 - (g0 - g1) / c) / 2) by lra.
      assert (M : mu = g1 - w 1%nat * c) by lra. rewrite M, W1, W0. split; f_equal; unfold Rsqr; field; exact Hc.
Qed.

(** pure nugget *)
Theorem pure_nugget E o q r p pos c : run E o q r -> shown o q p pos -> regular_for o q -> 0 < c -> (forall d, 0 <= d -> o_vg o d = c) ->
  (o_exact o = true -> away o pos) ->
  exists m sel, uses o q pos m sel /\
    r_value r p = Some (mean m (fun a => o_values o (sel a))) /\ r_variance r p = Some (c * (1 + / INR m)).
Proof.
  intros HR HS Hreg Hc HV HA. destruct (cell_solution E o q r p pos HR HS Hreg) as (m & sel & HU & Hlt & HLR & H).
  exists m, sel. split; [exact HU|].
  assert (Hm : 0 < INR m).
  { destruct m as [|m]; [|apply lt_0_INR; lia]. destruct (HLR (fun _ => 0)) as (w & mu & (_ & Z) & _). cbn in Z. lra. }
  assert (Hg : forall i, (i < m)%nat -> g_of o pos (sel i) = c).
  { intros i Hi. unfold g_of, query_semivariance. destruct (o_exact o) eqn:EX; cbn [andb].
    - rewrite Rabs_pos_eq by apply P_Object.separation_nonneg. rewrite (proj2 (Rleb_false _ _) (HA eq_refl _ (Hlt i Hi))). apply HV, P_Object.separation_nonneg.
    - apply HV, P_Object.separation_nonneg. }
  destruct (H (fun _ => / INR m) (c / INR m)) as [H1 H2].
  - split.
    + intros i Hi. rewrite Hg by assumption. rewrite bsum_scal.
      rewrite (bsum_ext m _ (fun j => c - (if Nat.eqb j i then 1 else 0) * c)).
      * rewrite bsum_minus, bsum_const, (bsum_delta m i (fun _ => c)) by assumption. field. lra.
      * intros j Hj. unfold G_of, data_semivariance. destruct (Nat.eqb_spec j i) as [->|Hne]; [rewrite Nat.eqb_refl; ring|].
        destruct (Nat.eqb_spec (sel i) (sel j)) as [e|_]; [apply (uses_inj o q pos m sel HU) in e; [congruence|assumption|assumption]|].
        rewrite HV by apply P_Object.separation_nonneg. ring.
    + rewrite bsum_const. field. lra.
  - rewrite H1, H2. split; f_equal.
    + unfold mean. rewrite bsum_scal. field. lra.
    + rewrite (bsum_ext m _ (fun _ => / INR m * c)) by (intros a Ha; rewrite Hg by assumption; reflexivity). rewrite bsum_const. field. lra.
Qed.
