(** C79: continuity with a moving window where no two data are equally far. *)
From Coq Require Import String.
From Verif Require Import Base Sums Matrix M_Variogram P_Variogram M_Geometry S_Geometry P_Geometry M_Kriging S_Kriging
  P_Kriging P_OKSpec M_Init M_Object M_Execute S_Execute P_Object P_Execute P_Cells P_OK P_Similar P_Valid5 P_Fit4 Witness Witness2 S_Line P_Far P_Far2 P_Far3 P_Line2.

Lemma abs_between u d : Rabs u <= d -> - d <= u <= d.
Proof. unfold Rabs. destruct (Rcase_abs u); lra. Qed.

(** near a location without ties the order of the data by distance does not change *)
Lemma order_stable o pos : no_ties o pos -> exists d, 0 < d /\ forall pos', separation o pos' pos < d ->
  forall i j, (i < o_n o)%nat -> (j < o_n o)%nat -> separation o pos' (datum o i) <= separation o pos' (datum o j) -> separation o pos (datum o i) <= separation o pos (datum o j).
Proof.
  intros HT.
  destruct (all_data (o_n o) (fun i d => forall j, (j < o_n o)%nat -> forall pos', separation o pos' pos < d ->
    separation o pos' (datum o i) <= separation o pos' (datum o j) -> separation o pos (datum o i) <= separation o pos (datum o j))) as (d & Hd & H).
  - intros i Hi. apply (all_data (o_n o) (fun j d => forall pos', separation o pos' pos < d ->
      separation o pos' (datum o i) <= separation o pos' (datum o j) -> separation o pos (datum o i) <= separation o pos (datum o j))).
    + intros j Hj. destruct (Rle_or_lt (separation o pos (datum o i)) (separation o pos (datum o j))) as [L|L].
      * exists 1. split; [lra|]. intros; assumption.
      * exists ((separation o pos (datum o i) - separation o pos (datum o j)) / 2). split; [lra|]. intros pos' Hp K. exfalso.
        pose proof (separation_lipschitz o pos' pos (datum o i)) as S1. pose proof (separation_lipschitz o pos' pos (datum o j)) as S2.
        apply abs_between in S1. apply abs_between in S2. lra.
    + intros j d d' HP Hd pos' Hp. apply HP. lra.
  - intros i d d' HP Hd j Hj pos' Hp. apply HP; [exact Hj|lra].
  - exists d. split; [exact Hd|]. intros pos' Hp i j Hi Hj. apply H; assumption.
Qed.

Lemma window_cell E o q r p pos k : run E o q r -> shown o q p pos -> q_window q = Some k ->
  exists sel w mu, nearest o k pos sel /\ OK_regular k (data_semivariance (o_vg o) (fun a b => separation o (datum o (sel a)) (datum o (sel b)))) /\
    OK_system k (data_semivariance (o_vg o) (fun a b => separation o (datum o (sel a)) (datum o (sel b)))) (fun a => g_of o pos (sel a)) w mu /\
    r_value r p = Some (bsum k (fun a => w a * o_values o (sel a))) /\ r_variance r p = Some (bsum k (fun a => w a * g_of o pos (sel a)) + mu).
Proof.
  intros HR HS HW. destruct (run_cell E o q r p pos HR HS) as (v & s & -> & -> & HK).
  specialize (HK (or_intror (or_introl (fun K => eq_ind (Some k) (fun x => match x with Some _ => True | None => False end) I None (eq_trans (eq_sym HW) K))))).
  unfold kriged in HK. rewrite HW in HK. destruct HK as (_ & sel & HN & HReg & HE). exists sel.
  assert (HG : forall a b, (a < k)%nat -> (b < k)%nat -> G_of o (sel a) (sel b) = data_semivariance (o_vg o) (fun a b => separation o (datum o (sel a)) (datum o (sel b))) a b).
  { intros a b Ha Hb. unfold G_of, data_semivariance. destruct HN as (_ & N2 & _). destruct (Nat.eqb_spec a b) as [->|D]; [rewrite Nat.eqb_refl; reflexivity|].
    destruct (Nat.eqb_spec (sel a) (sel b)) as [K|_]; [contradiction D; apply N2; assumption|reflexivity]. }
  destruct HE as (w & mu & H & -> & ->). exists w, mu. split; [exact HN|]. split; [apply (OK_regular_ext k (fun a b => G_of o (sel a) (sel b))); assumption|].
  split; [|split; reflexivity]. apply (OK_system_ext k (fun a b => G_of o (sel a) (sel b)) _ (fun a => g_of o pos (sel a)) _); [exact HG|intros a _; reflexivity|exact H].
Qed.

Theorem continuous_window E o q r p pos k : run E o q r -> shown o q p pos -> q_window q = Some k -> no_ties o pos ->
  (o_exact o = true -> away o pos) -> (forall i, (i < o_n o)%nat -> continuous_at (o_vg o) (separation o pos (datum o i))) ->
  forall e, 0 < e -> exists delta, 0 < delta /\ forall q' r' p' pos', run E o q' r' -> q_window q' = Some k -> shown o q' p' pos' ->
    separation o pos' pos < delta ->
    exists v v' s s', r_value r p = Some v /\ r_value r' p' = Some v' /\ r_variance r p = Some s /\ r_variance r' p' = Some s' /\
      Rabs (v' - v) < e /\ Rabs (s' - s) < e.
Proof.
  intros HR HS HW HT HA HC e He.
  destruct (window_cell E o q r p pos k HR HS HW) as (sel & w0 & mu0 & HN & HReg & H0 & HV & HVar).
  destruct (near_estimate k (o_vg o) (fun a b => separation o (datum o (sel a)) (datum o (sel b))) (fun a => o_values o (sel a)) (fun a => g_of o pos (sel a)) w0 mu0 HReg H0 e He) as (dl & Hdl & HNear).
  destruct (all_data (o_n o) (fun i d => forall pos', separation o pos' pos < d -> Rabs (g_of o pos' i - g_of o pos i) <= dl)) as (dd & Hdd & HD).
  - intros i Hi. destruct (HC i Hi dl Hdl) as (d1 & Hd1 & H1).
    destruct (o_exact o) eqn:EX.
    + assert (Hm : 0 < separation o pos (datum o i) - eps) by (pose proof (HA eq_refl i Hi); lra).
      exists (Rmin d1 (separation o pos (datum o i) - eps)). split; [apply Rmin_glb_lt; assumption|].
      intros pos' Hp. pose proof (separation_lipschitz o pos' pos (datum o i)) as SL.
      assert (M1 := Rmin_l d1 (separation o pos (datum o i) - eps)). assert (M2 := Rmin_r d1 (separation o pos (datum o i) - eps)).
      rewrite !g_plain.
      * left. apply H1. eapply Rle_lt_trans; [exact SL|]. lra.
      * intros _. apply HA; [reflexivity|exact Hi].
      * intros _. assert (Q := Rle_abs (- (separation o pos' (datum o i) - separation o pos (datum o i)))). rewrite Rabs_Ropp in Q. lra.
    + exists d1. split; [exact Hd1|]. intros pos' Hp. pose proof (separation_lipschitz o pos' pos (datum o i)) as SL.
      rewrite !g_plain by (rewrite EX; discriminate). left. apply H1. eapply Rle_lt_trans; [exact SL|]. exact Hp.
  - intros i d d' HP Hd pos' Hp. apply HP. lra.
  - destruct (order_stable o pos HT) as (d2 & Hd2 & HO). exists (Rmin dd d2). split; [apply Rmin_glb_lt; assumption|]. intros q' r' p' pos' HR' HW' HS' Hsep.
    assert (M1 := Rmin_l dd d2). assert (M2 := Rmin_r dd d2).
    destruct (window_cell E o q' r' p' pos' k HR' HS' HW') as (sel' & w & mu & HN' & _ & H & HV' & HVar').
    assert (HEq : forall a, (a < k)%nat -> sel' a = sel a).
    { destruct HN as (N1 & N2 & N3 & N4). destruct HN' as (K1 & K2 & K3 & K4).
      apply (nearest_unique (o_n o) k (fun i => separation o pos (datum o i))); try assumption.
      - intros a b Hab Hb. apply (HO pos'); [lra|apply K1; lia|apply K1; lia|apply K3; assumption].
      - intros a j Ha Hj Hb. apply (HO pos'); [lra|apply K1; lia|exact Hj|apply K4; assumption]. }
    assert (H' : OK_system k (data_semivariance (o_vg o) (fun a b => separation o (datum o (sel a)) (datum o (sel b)))) (fun a => g_of o pos' (sel a)) w mu).
    { apply (OK_system_ext k (data_semivariance (o_vg o) (fun a b => separation o (datum o (sel' a)) (datum o (sel' b)))) _ (fun a => g_of o pos' (sel' a)) _); [| |exact H].
      - intros a b Ha Hb. unfold data_semivariance. rewrite !HEq by assumption. reflexivity.
      - intros a Ha. rewrite HEq by assumption. reflexivity. }
    destruct (HNear (fun a => g_of o pos' (sel a)) w mu H') as [N1 N2]; [intros a Ha; apply HD; [apply HN, Ha|lra]|].
    do 4 eexists. split; [exact HV|]. split; [exact HV'|]. split; [exact HVar|]. split; [exact HVar'|].
    rewrite (bsum_ext k (fun a => w a * o_values o (sel' a)) (fun a => w a * o_values o (sel a))) by (intros a Ha; rewrite HEq by assumption; reflexivity).
    rewrite (bsum_ext k (fun a => w a * g_of o pos' (sel' a)) (fun a => w a * g_of o pos' (sel a))) by (intros a Ha; rewrite HEq by assumption; reflexivity).
    split; assumption.
Qed.

Theorem ex_window : exists E o q r, run E o q r /\ shown o q 0 (1, 0, 0) /\ q_window q = Some 2%nat /\ no_ties o (1, 0, 0) /\ o_exact o = true /\ away o (1, 0, 0) /\ o_n o = 4%nat /\
  (forall i, (i < o_n o)%nat -> continuous_at (o_vg o) (separation o (1, 0, 0) (datum o i))).
Proof.
  set (E := wit_env true None). destruct (row_construct E four true ltac:(cbn; lia)) as [o Ho].
  destruct (row_fields E four true o Ho) as (Hre&Hc&Hn&Hct&Hex&Hpi&Hf&Hp&_&_&Hd&Hs). cbn in Hn.
  destruct (row_run E four true o "loop" (Some 2%nat) (wit_env_ok _ _) Ho four_ne ltac:(cbn; lia)) as [r Hr].
  { split; [split; [lia|rewrite Hn; lia]|left; reflexivity]. }
  assert (SEP : forall i, separation o (1, 0, 0) (datum o i) = Rabs (1 - rnth four i)) by (intros i; rewrite Hd; apply (row_sep o _ _ _ Hs)).
  assert (AW : away o (1, 0, 0)).
  { intros i Hi. rewrite Hn in Hi. rewrite SEP. pose proof (four_far i Hi). pose proof eps_lt_1. lra. }
  exists E, o, (at_1 "loop" (Some 2%nat)), r. split; [exact Hr|]. split; [apply at_1_shown, Hc|]. split; [reflexivity|]. split.
  { intros i j Hi Hj Hij. rewrite Hn in Hi, Hj. rewrite !SEP. unfold rnth, four.
    destruct i as [|[|[|[|]]]], j as [|[|[|[|]]]]; try lia; cbn [nth]; intros K; unfold Rabs in K; repeat destruct (Rcase_abs _); lra. }
  split; [exact Hex|]. split; [exact AW|]. split; [exact Hn|]. intros i Hi. specialize (AW i Hi). pose proof eps_val.
  unfold o_vg. apply builtin_continuous; [rewrite Hf; cbn; tauto|lra|intros _ _; rewrite Hp; unfold rnth; cbn; lra].
Qed.
