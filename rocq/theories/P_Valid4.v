(** Less information never lowers the kriging variance: fewer data, a moving
    window, drift terms. *)
From Coq Require Import String.
From Verif Require Import Base Sums Matrix M_Variogram M_Geometry S_Geometry M_Kriging S_Kriging M_Init M_Object M_Execute S_Execute M_UK S_UK S_Valid
  P_Object P_Kriging P_Psd P_Psd2 P_Valid P_Valid2 P_Dup P_OKSpec P_OK P_Det P_Exec2 P_Cells P_Execute P_Master P_Options
  P_UK P_UK2 P_UK3 P_UK4 P_UK5 P_UK6 P_UK7 P_Valid3.

(** an estimator from some of the data is an estimator from all of them *)
Lemma est_embed n m sel G g w : (forall a, (a < m)%nat -> (sel a < n)%nat) ->
  (forall a b, (a < m)%nat -> (b < m)%nat -> sel a = sel b -> a = b) ->
  bsum m w = 1 -> exists w', bsum n w' = 1 /\
    est_variance n G g w' = est_variance m (fun a b => G (sel a) (sel b)) (fun a => g (sel a)) w.
Proof.
  intros Hlt Hinj Hw. destruct (bsum_embed n m sel Hlt Hinj w) as (w' & H').
  exists w'. split.
  - pose proof (H' (fun _ => 1)) as H1. rewrite (bsum_ext n _ w') in H1 by (intros; ring).
    rewrite H1. transitivity (bsum m w); [apply bsum_ext; intros; ring|exact Hw].
  - unfold est_variance. rewrite (H' g). f_equal.
    rewrite (bsum_ext n _ (fun i => w' i * bsum m (fun b => w b * G i (sel b)))).
    + rewrite (H' (fun i => bsum m (fun b => w b * G i (sel b)))). apply bsum_ext; intros i Hi.
      rewrite <- bsum_scal. apply bsum_ext; intros; ring.
    + intros i Hi. rewrite <- (H' (fun j => G i j)). rewrite <- bsum_scal. apply bsum_ext; intros; ring.
Qed.

Lemma est_variance_ext n G G' g g' w : (forall i j, (i < n)%nat -> (j < n)%nat -> G i j = G' i j) -> veq n g g' ->
  est_variance n G g w = est_variance n G' g' w.
Proof.
  intros HG Hg. unfold est_variance. f_equal; [f_equal; apply bsum_ext; intros i Hi; rewrite Hg by exact Hi; reflexivity|].
  apply bsum_ext; intros i Hi. apply bsum_ext; intros j Hj. rewrite HG by assumption. reflexivity.
Qed.

(** the global optimum, without a moving window *)
Lemma proper_global E o q r p pos : run E o q r -> shown o q p pos -> well_posed o q pos -> proper o -> q_window q = None ->
  exists s, r_variance r p = Some s /\ forall w', bsum (o_n o) w' = 1 -> s <= est_variance (o_n o) (G_of o) (g_of o pos) w'.
Proof.
  intros HR HS HW HP HN. destruct (proper_optimal E o q r p pos HR HS HW HP) as (m & sel & w & s & HU & _ & _ & Hs & _ & HO).
  unfold uses in HU. rewrite HN in HU. destruct HU as [-> Hsel]. exists s. split; [exact Hs|]. intros w' Hw'.
  apply Rle_trans with (1 := HO w' Hw'). right. apply est_variance_ext; [intros i j _ _|intros i _]; cbv beta; rewrite ?Hsel; reflexivity.
Qed.

Lemma window_variance E o q q' r r' p p' pos : run E o q r -> run E o q' r' -> shown o q p pos -> shown o q' p' pos ->
  well_posed o q pos -> proper o -> q_window q = None -> q_window q' <> None ->
  exists s s', r_variance r p = Some s /\ r_variance r' p' = Some s' /\ s <= s'.
Proof.
  intros HR HR' HS HS' HW HP HN HN'.
  destruct (proper_global E o q r p pos HR HS HW HP HN) as (s & Hs & HO).
  destruct (proper_optimal E o q' r' p' pos HR' HS' (or_intror (or_introl HN')) HP) as (m & sel & w & s' & HU & H1 & _ & Hs' & He & _).
  exists s, s'. split; [exact Hs|]. split; [exact Hs'|].
  destruct (est_embed (o_n o) m sel (G_of o) (g_of o pos) w (uses_bound o q' pos m sel HU) (uses_inj o q' pos m sel HU) H1) as (w' & Hw' & E').
  rewrite He, <- E'. apply HO. exact Hw'.
Qed.

Lemma more_sep sel o o' p q : more_data sel o o' -> separation o' p q = separation o p q.
Proof. intros H. unfold separation, o_dim. rewrite (md_class _ _ _ H), (md_ct _ _ _ H), (md_scaling _ _ _ H), (md_angle _ _ _ H). reflexivity. Qed.
Lemma more_vg sel o o' d : more_data sel o o' -> o_vg o' d = o_vg o d.
Proof. intros H. unfold o_vg. rewrite (md_fun _ _ _ H), (md_params _ _ _ H). reflexivity. Qed.
Lemma more_G sel o o' i j : more_data sel o o' -> (i < o_n o)%nat -> (j < o_n o)%nat -> G_of o' (sel i) (sel j) = G_of o i j.
Proof.
  intros H Hi Hj. unfold G_of, data_semivariance. rewrite (more_sep sel o o' _ _ H), (more_vg sel o o' _ H), !(md_datum _ _ _ H) by assumption.
  destruct (Nat.eqb_spec i j) as [->|Hne]; [rewrite Nat.eqb_refl; reflexivity|].
  destruct (Nat.eqb_spec (sel i) (sel j)) as [E|_]; [|reflexivity]. exfalso. apply Hne. apply (md_inj _ _ _ H); assumption.
Qed.
Lemma more_g sel o o' pos i : more_data sel o o' -> (i < o_n o)%nat -> g_of o' pos (sel i) = g_of o pos i.
Proof.
  intros H Hi. unfold g_of, query_semivariance. rewrite (more_sep sel o o' _ _ H), (more_vg sel o o' _ H), (md_exact _ _ _ H), !(md_datum _ _ _ H) by assumption.
  reflexivity.
Qed.

Lemma more_data_variance E sel o o' q q' r r' p p' pos : more_data sel o o' -> run E o q r -> run E o' q' r' ->
  shown o q p pos -> shown o' q' p' pos -> well_posed o q pos -> well_posed o' q' pos -> proper o ->
  q_window q' = None -> 
  exists s s', r_variance r p = Some s /\ r_variance r' p' = Some s' /\ s' <= s.
Proof.
  intros HM HR HR' HS HS' HW HW' HP HN'.
  assert (HP' : proper o').
  { destruct HP as [H1 H2]. split; [rewrite (md_ct _ _ _ HM); exact H1|rewrite (md_fun _ _ _ HM), (md_params _ _ _ HM); exact H2]. }
  destruct (proper_global E o' q' r' p' pos HR' HS' HW' HP' HN') as (s' & Hs' & HO).
  destruct (proper_optimal E o q r p pos HR HS HW HP) as (m & sl & w & s & HU & H1 & _ & Hs & He & _).
  exists s, s'. split; [exact Hs|]. split; [exact Hs'|].
  pose proof (uses_bound o q pos m sl HU) as Hb. pose proof (uses_inj o q pos m sl HU) as Hi.
  destruct (est_embed (o_n o') m (fun a => sel (sl a)) (G_of o') (g_of o' pos) w) as (w' & Hw' & E'); [| |exact H1|].
  - intros a Ha. apply (md_bound _ _ _ HM). apply Hb; exact Ha.
  - intros a b Ha Hb' E0. apply Hi; try assumption. apply (md_inj _ _ _ HM); auto.
  - rewrite He. rewrite (est_variance_ext m _ (fun a b => G_of o' (sel (sl a)) (sel (sl b))) _ (fun a => g_of o' pos (sel (sl a)))).
    + rewrite <- E'. apply HO. exact Hw'.
    + intros i j Hi' Hj'. rewrite (more_G sel o o') by auto. reflexivity.
    + intros i Hi'. rewrite (more_g sel o o') by auto. reflexivity.
Qed.

Lemma drift_variance E c c' A D us o u q q' specs r r' p p' pos : counterparts c c' ->
  (c = OK2 -> c_ct A = "euclidean"%string) ->
  built E c A us o -> ubuilt E c' A D us u -> run E o q r -> urun E u q' specs r' -> q_window q = None ->
  shown o q p pos -> shown (u_obj u) q' p' pos -> well_posed o q pos -> uwell_posed u q' specs p' pos -> faithful_specs u q' ->
  proper o ->
  exists s s', r_variance r p = Some s /\ r_variance r' p' = Some s' /\ s <= s'.
Proof.
  intros HC Hct HB HU HR HUR HW HS HS' HWP HUW HF HP. pose proof (built_twin E c c' A D us o u HC Hct HB HU) as HT.
  destruct (proper_global E o q r p pos HR HS HWP HP HW) as (s & Hs & HO).
  destruct (uk_variance_minimal E u q' specs r' p' pos HUR HS' HUW HF) as (w & s' & H1 & _ & _ & Hs' & He & _).
  exists s, s'. split; [exact Hs|]. split; [exact Hs'|]. rewrite (tw_n _ _ HT), (twin_G _ _ HT), (twin_g _ _ pos HT) in *.
  rewrite He. apply HO. exact H1.
Qed.

Lemma proper_nugget_nonneg o : proper o -> 0 <= o_vg o 0.
Proof.
  intros [HE HP]. destruct (proper_shape _ _ HP) as (a & nug & gam & Ha & Hn & Hpos & Hs & Hv).
  rewrite (proper_nugget o a nug gam Hv (proj1 Hs)). exact Hn.
Qed.
(** without a window and without pseudo_inv: succeeds exactly when no two data
    coincide, or there is a nugget *)
Theorem proper_succeeds_iff E o q : env_ok E -> reachable E o -> ordinary o -> proper o -> (0 < o_n o)%nat -> o_pinv o = false ->
  good_query o q -> q_window q = None -> has_backend o q -> ((exists r, run E o q r) <-> solvable_data o).
Proof.
  intros HE Hre Hord HP Hn Hpi HQ HW HB. split; [|intros HD; apply proper_execute; assumption].
  intros [r HR]. destruct (Rle_lt_or_eq_dec 0 (o_vg o 0) (proper_nugget_nonneg o HP)) as [L|L]; [left; exact L|right].
  intros i j Hi Hj Hne E0.
  assert (HA : available E o (q_backend q)).
  { unfold has_backend in HB. rewrite HW in HB. unfold available. destruct HB as [H|[H|[H1 H2]]]; auto.
    right; right. split; [exact H1|]. split; [exact H2|]. intros _. apply proper_c_supported. exact HP. }
  pose proof (duplicate_raises E o q i j HE Hre Hord Hpi HW HA HQ (conj Hi (conj Hj (conj Hne E0))) (eq_sym L)) as HX.
  destruct HR as (_ & _ & _ & _ & HR). congruence.
Qed.
