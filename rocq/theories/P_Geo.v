(** The linear, power (exponent at most 1) and exponential models are proper on the sphere. *)
From Coq Require Import String.
From Verif Require Import Base Sums Matrix M_Variogram M_Geometry S_Geometry P_Geometry M_Kriging S_Kriging M_Init M_Object M_Execute S_Execute S_Valid S_Geo
  P_Psd P_Psd2 P_Psd3 P_Sphere P_Valid P_Valid2 P_Valid4 P_Object P_Dup P_OKSpec P_OK P_Det P_Exec2 P_Cells P_Execute P_WindowExec P_Master P_Options P_Sound.

Definition sph (p : vec3) : vec := fun a =>
  let '(x, y, z) := sphere (lon p) (lat p) in match a with 0%nat => x | 1%nat => y | _ => z end.
Lemma dot_sph p q : dot 3 (sph p) (sph q) = dot3 (sphere (lon p) (lat p)) (sphere (lon q) (lat q)).
Proof.
  unfold dot, sph. destruct (sphere (lon p) (lat p)) as [[a b] c]. destruct (sphere (lon q) (lat q)) as [[u v] w].
  cbn. ring.
Qed.
Lemma sep_gram o (pts : nat -> vec3) i j : o_ct o = Geographic ->
  separation o (pts i) (pts j) = 180 / PI * acos (gram 3 (fun i => sph (pts i)) i j).
Proof. intros H. unfold separation. rewrite H, gc_dot. unfold gram. rewrite dot_sph. reflexivity. Qed.
Lemma sph_unit (pts : nat -> vec3) : unit_gram 3 (fun i => sph (pts i)).
Proof.
  intros i j. unfold gram. rewrite dot_sph. apply Rabs_le. apply dot3_unit_range; apply sphere_unit.
Qed.
Lemma sph_separated o (pts : nat -> vec3) n : o_ct o = Geographic ->
  (forall i j, (i < n)%nat -> (j < n)%nat -> i <> j -> separation o (pts i) (pts j) <> 0) ->
  separated n 3 (fun i => sph (pts i)).
Proof.
  intros HE H. apply separated_sqd. intros i j Hi Hj Hne E. apply (H i j Hi Hj Hne).
  unfold separation. rewrite HE. apply gc_zero. rewrite sqd_gram in E.
  unfold gram in E. rewrite !dot_sph in E. rewrite !sphere_unit in E.
  apply dot3_1_eq; try apply sphere_unit. lra.
Qed.

Section Geo.
Variable o : obj.
Hypothesis Hct : o_ct o = Geographic.
Lemma sep_exp_psd m (pts : nat -> vec3) t : 0 < t -> psd m (fun i j => exp (- (t * separation o (pts i) (pts j)))).
Proof.
  intros Ht. pose proof k_pos as Hk. apply (psd_ext m (fun i j => exp (- (t * (180 / PI) * acos (gram 3 (fun i => sph (pts i)) i j))))).
  - intros i j _ _. rewrite (sep_gram o pts i j Hct). f_equal. ring.
  - apply acos_exp; [apply gram_sym|apply gram_psd|intros; apply sph_unit|]. nra.
Qed.
Lemma sep_exp_pd m (pts : nat -> vec3) t : 0 < t ->
  (forall i j, (i < m)%nat -> (j < m)%nat -> i <> j -> separation o (pts i) (pts j) <> 0) ->
  pd m (fun i j => exp (- (t * separation o (pts i) (pts j)))).
Proof.
  intros Ht Hd c Hc. pose proof k_pos as Hk.
  apply (acos_exp_pd m 3 (fun i => sph (pts i)) (t * (180 / PI)) ltac:(nra) (sph_unit pts) (sph_separated o pts m Hct Hd) c).
  rewrite (qf_ext m c c _ (fun i j => exp (- (t * separation o (pts i) (pts j))))); [exact Hc|reflexivity|].
  intros i j _ _. rewrite (sep_gram o pts i j Hct). f_equal. ring.
Qed.
Lemma sep_cnd m (pts : nat -> vec3) : cond_neg_def m (fun i j => separation o (pts i) (pts j)).
Proof.
  pose proof k_pos as Hk. apply (cnd_ext m (fun i j => 180 / PI * acos (gram 3 (fun i => sph (pts i)) i j))).
  - intros i j _ _. symmetry. apply (sep_gram o pts i j Hct).
  - apply cnd_scal; [lra|]. apply acos_cnd; [apply gram_sym|apply gram_psd|intros; apply sph_unit].
Qed.

Lemma geo_sound : sphere_model (o_fun o) (o_params o) -> exists a nug gam, sound_with o a nug gam /\
  (strict_geographic o -> 0 < nug \/ (0 < a /\ forall m (pts : nat -> vec3),
     (forall i j, (i < m)%nat -> (j < m)%nat -> i <> j -> separation o (pts i) (pts j) <> 0) ->
     scnd m (fun i j => gam (separation o (pts i) (pts j))))).
Proof.
  intros [Ef H1 H2|Ef H1 H2 H3|Ef H1 H2 H3].
  - exists (rnth (o_params o) 0), (rnth (o_params o) 1), (fun d => d). split.
    + split; [assumption|assumption|reflexivity| |].
      * intros d Hd. unfold o_vg. rewrite Ef. reflexivity.
      * intros m pts. apply sep_cnd.
    + intros [H|[[H _]|[H _]]]; [|rewrite Ef in H; discriminate|rewrite Ef in H; discriminate].
      left. unfold o_vg in H. rewrite Ef in H. cbn in H. unfold linear_variogram_model in H. lra.
  - set (e := rnth (o_params o) 1) in *. exists (rnth (o_params o) 0), (rnth (o_params o) 2), (fun d => npow d e).
    assert (He0 : npow 0 e = 0) by (unfold npow; destruct (Reqb_spec 0 0); [|lra]; destruct (Reqb_spec e 0); [lra|reflexivity]).
    assert (Hnn : forall m (pts : nat -> vec3) i j, (i < m)%nat -> (j < m)%nat -> 0 <= separation o (pts i) (pts j)) by (intros; apply P_Object.separation_nonneg).
    split.
    + split; [assumption|assumption|exact He0| |].
      * intros d Hd. unfold o_vg. rewrite Ef. reflexivity.
      * intros m pts. destruct (Req_dec e 1) as [E|E].
        -- apply (cnd_ext m (fun i j => separation o (pts i) (pts j))); [|apply sep_cnd].
           intros i j _ _. rewrite E. symmetry. apply npow_1. apply P_Object.separation_nonneg.
        -- apply (pow_cnd e ltac:(lra) m (fun i j => separation o (pts i) (pts j)) (Hnn m pts)). intros t Ht. apply sep_exp_psd. exact Ht.
    + intros [H|[[H _]|(_ & H & H')]]; [left|rewrite Ef in H; discriminate|right].
      * unfold o_vg in H. rewrite Ef in H. change (0 < rnth (o_params o) 0 * npow 0 e + rnth (o_params o) 2) in H. rewrite He0 in H. lra.
      * split; [exact H|]. intros m pts Hd.
        apply (pow_scnd e ltac:(fold e in H'; lra) m (fun i j => separation o (pts i) (pts j)) (Hnn m pts)); intros t Ht; [apply sep_exp_psd|apply sep_exp_pd]; assumption.
  - set (r := rnth (o_params o) 1) in *. exists (rnth (o_params o) 0), (rnth (o_params o) 2), (fun d => 1 - exp (- d / (r / 3))).
    assert (Hr : 0 < / (r / 3)) by (apply Rinv_0_lt_compat; lra).
    assert (E : forall d, 1 - exp (- (/ (r / 3) * d)) = 1 - exp (- d / (r / 3))) by (intros d; f_equal; f_equal; unfold Rdiv; ring).
    assert (He0 : 1 - exp (- 0 / (r / 3)) = 0) by (rewrite Ropp_0; unfold Rdiv; rewrite Rmult_0_l, exp_0; ring).
    split.
    + split; [assumption|assumption|exact He0| |].
      * intros d Hd. unfold o_vg. rewrite Ef. reflexivity.
      * intros m pts. apply (cnd_ext m (fun i j => 1 - exp (- (/ (r / 3) * separation o (pts i) (pts j))))).
        -- intros i j _ _. apply E.
        -- apply (one_minus_cnd m (fun i j => exp (- (/ (r / 3) * separation o (pts i) (pts j))))). apply sep_exp_psd. exact Hr.
    + intros [H|[[_ H]|(H & _)]]; [left|right|rewrite Ef in H; discriminate].
      * unfold o_vg in H. rewrite Ef in H.
        change (0 < rnth (o_params o) 0 * (1 - exp (- 0 / (r / 3))) + rnth (o_params o) 2) in H. rewrite He0 in H. lra.
      * split; [exact H|]. intros m pts Hd. apply (scnd_ext m (fun i j => 1 - exp (- (/ (r / 3) * separation o (pts i) (pts j))))).
        -- intros i j _ _. apply E.
        -- apply (one_minus_scnd m (fun i j => exp (- (/ (r / 3) * separation o (pts i) (pts j))))). apply sep_exp_pd; [exact Hr|exact Hd].
Qed.
End Geo.

Lemma proper_geo_sound o : proper_geographic o -> sound o.
Proof. intros [H1 H2]. destruct (geo_sound o H1 H2) as (a & nug & gam & H & _). exists a, nug, gam. exact H. Qed.
Lemma proper_geo_strict o : proper_geographic o -> strict_geographic o -> strict o.
Proof. intros [H1 H2] H3. destruct (geo_sound o H1 H2) as (a & nug & gam & H & HX). exists a, nug, gam. split; [exact H|exact (HX H3)]. Qed.
Lemma geo_c_supported o : proper_geographic o -> c_supported o.
Proof.
  intros [_ [Ef H1 H2|Ef H1 H2 H3|Ef H1 H2 H3]].
  - exists "linear"%string. split; [rewrite Ef; reflexivity|]. split; [discriminate|]. intros [H|H]; discriminate.
  - exists "power"%string. split; [rewrite Ef; reflexivity|]. split; [discriminate|]. intros [H|H]; discriminate.
  - exists "exponential"%string. split; [rewrite Ef; reflexivity|]. split; [discriminate|]. intros [H|H]; discriminate.
Qed.

(** ---- the theorems ---- *)
Lemma geo_regular o : proper_geographic o -> strict_geographic o -> solvable_data o -> (0 < o_n o)%nat -> regular o.
Proof. intros H1 H2. apply sound_regular. apply proper_geo_strict; assumption. Qed.
Lemma geo_execute E o q : env_ok E -> reachable E o -> ordinary o -> proper_geographic o -> strict_geographic o -> solvable_data o ->
  (0 < o_n o)%nat -> o_pinv o = false -> good_query o q -> has_backend o q -> exists r, run E o q r.
Proof. intros. apply sound_execute; try assumption; [apply proper_geo_strict; assumption|apply geo_c_supported; assumption]. Qed.
Lemma geo_execute_iff E o q : env_ok E -> reachable E o -> ordinary o -> proper_geographic o -> strict_geographic o -> (0 < o_n o)%nat -> o_pinv o = false ->
  good_query o q -> q_window q = None -> has_backend o q -> ((exists r, run E o q r) <-> solvable_data o).
Proof.
  intros HE Hre Hord HP HS Hn Hpi HQ HW HB. split; [|intros HD; apply geo_execute; assumption].
  intros [r HR]. destruct (Rle_lt_or_eq_dec 0 (o_vg o 0) (sound_nugget_nonneg o (proper_geo_sound o HP))) as [L|L]; [left; exact L|right].
  intros i j Hi Hj Hne E0.
  assert (HA : available E o (q_backend q)).
  { unfold has_backend in HB. rewrite HW in HB. unfold available. destruct HB as [H|[H|[H1 H2]]]; auto.
    right; right. split; [exact H1|]. split; [exact H2|]. intros _. apply geo_c_supported. exact HP. }
  pose proof (duplicate_raises E o q i j HE Hre Hord Hpi HW HA HQ (conj Hi (conj Hj (conj Hne E0))) (eq_sym L)) as HX.
  destruct HR as (_ & _ & _ & _ & HR). congruence.
Qed.
Lemma geo_variance E o q r p pos : run E o q r -> shown o q p pos -> well_posed o q pos -> proper_geographic o ->
  (o_exact o = true -> distinct_data o) -> clear_of_data o pos ->
  exists s, r_variance r p = Some s /\ 0 <= s.
Proof. intros HR HS HW HP HD HC. apply (sound_variance E o q r p pos); auto. apply proper_geo_sound; exact HP. Qed.
Lemma geo_bounds E o q r p pos : run E o q r -> shown o q p pos -> well_posed o q pos -> proper_geographic o -> strict_geographic o ->
  solvable_data o -> off_data o pos -> exists s, r_variance r p = Some s /\ 0 < s /\ o_vg o 0 <= s.
Proof. intros HR HS HW HP HD HC HO. apply (sound_bounds E o q r p pos); auto. apply proper_geo_strict; assumption. Qed.
Lemma geo_noisy E o q r p pos : run E o q r -> shown o q p pos -> well_posed o q pos -> proper_geographic o -> o_exact o = false ->
  exists s, r_variance r p = Some s /\ o_vg o 0 <= s.
Proof. intros HR HS HW HP HO. apply (sound_noisy E o q r p pos); auto. apply proper_geo_sound; exact HP. Qed.
Lemma geo_optimal E o q r p pos : run E o q r -> shown o q p pos -> well_posed o q pos -> proper_geographic o ->
  exists m sel w s, uses o q pos m sel /\ bsum m w = 1 /\
    r_value r p = Some (bsum m (fun a => w a * o_values o (sel a))) /\ r_variance r p = Some s /\
    s = est_variance m (fun a b => G_of o (sel a) (sel b)) (fun a => g_of o pos (sel a)) w /\
    forall w', bsum m w' = 1 -> s <= est_variance m (fun a b => G_of o (sel a) (sel b)) (fun a => g_of o pos (sel a)) w'.
Proof. intros HR HS HW HP. apply (sound_optimal E o q r p pos HR HS HW). apply proper_geo_sound; exact HP. Qed.
Lemma geo_window E o q q' r r' p p' pos : run E o q r -> run E o q' r' -> shown o q p pos -> shown o q' p' pos ->
  well_posed o q pos -> proper_geographic o -> q_window q = None -> q_window q' <> None ->
  exists s s', r_variance r p = Some s /\ r_variance r' p' = Some s' /\ s <= s'.
Proof. intros HR HR' HS HS' HW HP. apply (sound_window E o q q' r r' p p' pos); auto. apply proper_geo_sound; exact HP. Qed.
