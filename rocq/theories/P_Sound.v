(** Kriging with a variogram that is conditionally negative definite for the
    object's own separation (Euclidean or great-circle): regular systems, no
    failures, non-negative variances.  (P_Valid2 is the Euclidean case.) *)
From Coq Require Import String.
From Verif Require Import Base Sums Matrix M_Variogram M_Geometry S_Geometry M_Kriging S_Kriging M_Init M_Object M_Execute S_Execute S_Valid
  P_Psd P_Psd2 P_Valid P_Valid2 P_Valid4 P_Object P_Dup P_OKSpec P_OK P_Det P_Exec2 P_Cells P_Execute P_WindowExec P_Master P_Options.

(** variogram = a * gam + nug, gam conditionally negative definite on all locations *)
Record sound_with (o : obj) (a nug : R) (gam : R -> R) : Prop := {
  sw_a : 0 <= a; sw_nug : 0 <= nug; sw_0 : gam 0 = 0;
  sw_vg : forall d, 0 <= d -> o_vg o d = a * gam d + nug;
  sw_cnd : forall m (pts : nat -> vec3), cond_neg_def m (fun i j => gam (separation o (pts i) (pts j))) }.
Definition sound (o : obj) : Prop := exists a nug gam, sound_with o a nug gam.
(** ... strictly so on different locations, unless there is a nugget *)
Definition strict (o : obj) : Prop := exists a nug gam, sound_with o a nug gam /\
  (0 < nug \/ (0 < a /\ forall m (pts : nat -> vec3),
     (forall i j, (i < m)%nat -> (j < m)%nat -> i <> j -> separation o (pts i) (pts j) <> 0) ->
     scnd m (fun i j => gam (separation o (pts i) (pts j))))).
Lemma strict_sound o : strict o -> sound o.
Proof. intros (a & nug & gam & H & _). exists a, nug, gam. exact H. Qed.

Lemma split_data o m sel a nug gam : sound_with o a nug gam ->
  (forall i j, (i < m)%nat -> (j < m)%nat -> sel i = sel j -> i = j) ->
  forall c, qf m c (fun i j => G_of o (sel i) (sel j))
    = a * qf m c (fun i j => gam (separation o (datum o (sel i)) (datum o (sel j))))
      + nug * (bsum m c * bsum m c) - nug * bsum m (fun i => c i * c i).
Proof.
  intros HS Hinj c.
  rewrite (qf_ext m c c _ (fun i j => a * gam (separation o (datum o (sel i)) (datum o (sel j)))
      + ((fun _ _ => nug) i j + (if Nat.eqb i j then (fun _ => - nug) i else 0)))).
  - rewrite (qf_plus m c (fun i j => a * gam (separation o (datum o (sel i)) (datum o (sel j))))), (qf_plus m c (fun _ _ => nug)).
    rewrite qf_scal, qf_const, qf_diag, bsum_scal. ring.
  - reflexivity.
  - intros i j Hi Hj. unfold G_of, data_semivariance.
    destruct (Nat.eqb_spec i j) as [->|Hne].
    + rewrite Nat.eqb_refl, separation_refl', (sw_0 _ _ _ _ HS). ring.
    + destruct (Nat.eqb_spec (sel i) (sel j)) as [E|_]; [exfalso; auto|].
      rewrite (sw_vg _ _ _ _ HS) by (apply P_Object.separation_nonneg). ring.
Qed.
Lemma sound_nugget o a nug gam : sound_with o a nug gam -> o_vg o 0 = nug.
Proof. intros H. rewrite (sw_vg _ _ _ _ H), (sw_0 _ _ _ _ H) by lra. ring. Qed.
Lemma sound_nugget_nonneg o : sound o -> 0 <= o_vg o 0.
Proof. intros (a & nug & gam & H). rewrite (sound_nugget o a nug gam H). exact (sw_nug _ _ _ _ H). Qed.

Lemma sound_cnd o m sel : sound o ->
  (forall i j, (i < m)%nat -> (j < m)%nat -> sel i = sel j -> i = j) -> cond_neg_def m (fun i j => G_of o (sel i) (sel j)).
Proof.
  intros (a & nug & gam & HS) Hinj c Hc. change (qf m c (fun i j => G_of o (sel i) (sel j)) <= 0).
  rewrite (split_data o m sel a nug gam HS Hinj c), Hc.
  pose proof (sw_cnd _ _ _ _ HS m (fun i => datum o (sel i)) c Hc) as H.
  change (qf m c (fun i j => gam (separation o (datum o (sel i)) (datum o (sel j)))) <= 0) in H.
  pose proof (sum_sq_nonneg m c). pose proof (sw_a _ _ _ _ HS). pose proof (sw_nug _ _ _ _ HS). nra.
Qed.
Lemma strict_scnd o m sel : strict o ->
  (forall i j, (i < m)%nat -> (j < m)%nat -> sel i = sel j -> i = j) ->
  (0 < o_vg o 0 \/ forall i j, (i < m)%nat -> (j < m)%nat -> i <> j -> separation o (datum o (sel i)) (datum o (sel j)) <> 0) ->
  scnd m (fun i j => G_of o (sel i) (sel j)).
Proof.
  intros (a & nug & gam & HS & HX) Hinj Hd c Hc Hq i Hi. rewrite (split_data o m sel a nug gam HS Hinj c), Hc in Hq.
  pose proof (sw_cnd _ _ _ _ HS m (fun i => datum o (sel i)) c Hc) as H.
  change (qf m c (fun i j => gam (separation o (datum o (sel i)) (datum o (sel j)))) <= 0) in H.
  pose proof (sum_sq_nonneg m c) as Hsq. pose proof (sw_a _ _ _ _ HS) as Ha.
  destruct (Rle_lt_or_eq_dec 0 nug (sw_nug _ _ _ _ HS)) as [Hnug|E].
  - assert (Hz : bsum m (fun i => c i * c i) = 0) by nra.
    pose proof (bsum_nonneg_zero m (fun i => c i * c i) (fun i _ => Rle_0_sqr (c i)) Hz i Hi) as H0. cbv beta in H0. nra.
  - destruct Hd as [Hd|Hd]; [rewrite (sound_nugget o a nug gam HS) in Hd; lra|].
    destruct HX as [HX|[Hap HX]]; [lra|].
    apply (HX m (fun i => datum o (sel i)) Hd c Hc); [|exact Hi]. cbv beta. rewrite <- E in Hq. nra.
Qed.
Lemma sound_local_regular o k sel : strict o -> solvable_data o -> (0 < k)%nat ->
  (forall a, (a < k)%nat -> (sel a < o_n o)%nat) ->
  (forall i j, (i < k)%nat -> (j < k)%nat -> sel i = sel j -> i = j) -> local_regular o k sel.
Proof.
  intros HP HD Hk Hb Hinj. apply scnd_regular; [exact Hk|]. apply strict_scnd; [exact HP|exact Hinj|].
  destruct HD as [HD|HD]; [left; exact HD|right]. intros i j Hi Hj Hne. apply HD; auto.
Qed.
Lemma sound_regular o : strict o -> solvable_data o -> (0 < o_n o)%nat -> regular o.
Proof. intros HP HD Hn. apply (sound_local_regular o (o_n o) (fun i => i)); auto. Qed.

(** ---- the query point ---- *)
Lemma sound_with_query o m (pts : nat -> vec3) pos a nug gam c c0 : sound_with o a nug gam -> bsum m c + c0 = 0 ->
  qf m c (fun i j => gam (separation o (pts i) (pts j))) + 2 * c0 * bsum m (fun i => c i * gam (separation o pos (pts i))) <= 0.
Proof.
  intros HS Hc.
  pose (q := with_query m pts pos). pose (e := fun i => if Nat.eqb i m then c0 else c i).
  assert (He : bsum (S m) e = 0).
  { unfold e. cbn [bsum]. rewrite Nat.eqb_refl. rewrite (bsum_ext m _ c); [exact Hc|].
    intros i Hi. destruct (Nat.eqb_spec i m); [lia|reflexivity]. }
  pose proof (sw_cnd _ _ _ _ HS (S m) q e He) as HQ.
  change (qf (S m) e (fun i j => gam (separation o (q i) (q j))) <= 0) in HQ.
  rewrite qf_S in HQ by (intros i Hi; rewrite (P_Object.separation_sym o (q i) (q m)); reflexivity).
  rewrite (separation_refl' o (q m)), (sw_0 _ _ _ _ HS) in HQ.
  assert (Em : e m = c0) by (unfold e; rewrite Nat.eqb_refl; reflexivity). rewrite Em in HQ.
  rewrite (qf_ext m e c _ (fun i j => gam (separation o (pts i) (pts j)))) in HQ.
  - rewrite (bsum_ext m (fun i => e i * gam (separation o (q i) (q m))) (fun i => c i * gam (separation o pos (pts i)))) in HQ; [lra|].
    intros i Hi. unfold e, q, with_query. rewrite Nat.eqb_refl. destruct (Nat.eqb_spec i m); [lia|].
    rewrite (P_Object.separation_sym o pos (pts i)). reflexivity.
  - intros i Hi. unfold e. destruct (Nat.eqb_spec i m); [lia|reflexivity].
  - intros i j Hi Hj. unfold q, with_query. destruct (Nat.eqb_spec i m); [lia|]. destruct (Nat.eqb_spec j m); [lia|reflexivity].
Qed.
Lemma strict_query o m (pts : nat -> vec3) pos gam c c0 : gam 0 = 0 ->
  (forall m (pts : nat -> vec3),
     (forall i j, (i < m)%nat -> (j < m)%nat -> i <> j -> separation o (pts i) (pts j) <> 0) ->
     scnd m (fun i j => gam (separation o (pts i) (pts j)))) -> bsum m c + c0 = 0 -> c0 <> 0 ->
  (forall i j, (i < m)%nat -> (j < m)%nat -> i <> j -> separation o (pts i) (pts j) <> 0) ->
  (forall i, (i < m)%nat -> separation o pos (pts i) <> 0) ->
  qf m c (fun i j => gam (separation o (pts i) (pts j))) + 2 * c0 * bsum m (fun i => c i * gam (separation o pos (pts i))) < 0.
Proof.
  intros Hg HX Hc Hc0 Hd Hp.
  pose (q := with_query m pts pos). pose (e := fun i => if Nat.eqb i m then c0 else c i).
  assert (He : bsum (S m) e = 0).
  { unfold e. cbn [bsum]. rewrite Nat.eqb_refl. rewrite (bsum_ext m _ c); [exact Hc|].
    intros i Hi. destruct (Nat.eqb_spec i m); [lia|reflexivity]. }
  assert (HQ : forall i, (i < S m)%nat -> e i <> 0 -> qf (S m) e (fun i j => gam (separation o (q i) (q j))) < 0).
  { intros i Hi Hne. destruct (Rle_lt_dec 0 (qf (S m) e (fun i j => gam (separation o (q i) (q j))))) as [L|L]; [|exact L].
    exfalso. apply Hne. apply (HX (S m) q); [|exact He|exact L|exact Hi].
    intros x y Hx Hy Hxy. unfold q, with_query.
    destruct (Nat.eqb_spec x m) as [Ei|Ni], (Nat.eqb_spec y m) as [Ej|Nj]; [lia|apply Hp; lia| |apply Hd; lia].
    rewrite P_Object.separation_sym. apply Hp. lia. }
  assert (Em : e m = c0) by (unfold e; rewrite Nat.eqb_refl; reflexivity).
  specialize (HQ m ltac:(lia)). rewrite Em in HQ. specialize (HQ Hc0). rename HQ into L.
  rewrite qf_S in L by (intros i Hi; rewrite (P_Object.separation_sym o (q i) (q m)); reflexivity).
  rewrite (separation_refl' o (q m)), Hg in L. rewrite Em in L.
  rewrite (qf_ext m e c _ (fun i j => gam (separation o (pts i) (pts j)))) in L.
  - rewrite (bsum_ext m (fun i => e i * gam (separation o (q i) (q m))) (fun i => c i * gam (separation o pos (pts i)))) in L; [lra|].
    intros i Hi. unfold e, q, with_query. rewrite Nat.eqb_refl. destruct (Nat.eqb_spec i m); [lia|].
    rewrite (P_Object.separation_sym o pos (pts i)). reflexivity.
  - intros i Hi. unfold e. destruct (Nat.eqb_spec i m); [lia|reflexivity].
  - intros i j Hi Hj. unfold q, with_query. destruct (Nat.eqb_spec i m); [lia|]. destruct (Nat.eqb_spec j m); [lia|reflexivity].
Qed.

Lemma sound_one_zero o pos : distinct_data o ->
  (forall i, (i < o_n o)%nat -> separation o pos (datum o i) <> 0) \/
  exists z, (z < o_n o)%nat /\ separation o pos (datum o z) = 0 /\
    forall i, (i < o_n o)%nat -> i <> z -> separation o pos (datum o i) <> 0.
Proof.
  intros HD. destruct (all_or_one (fun i => separation o pos (datum o i) <> 0) (o_n o)) as [H|(z & Hz & H)].
  - intros i. destruct (Req_dec (separation o pos (datum o i)) 0) as [E|E]; [right; auto|left; exact E].
  - left. exact H.
  - right. exists z. split; [exact Hz|]. assert (E : separation o pos (datum o z) = 0) by (destruct (Req_dec (separation o pos (datum o z)) 0); [assumption|contradiction]).
    split; [exact E|]. intros i Hi Hne E'. apply (HD z i Hz Hi ltac:(auto)). rewrite <- (coincide o pos (datum o z) (datum o i) E). exact E'.
Qed.

Lemma sound_cnd_with o pos : sound o -> (o_exact o = true -> distinct_data o) -> clear_of_data o pos ->
  cond_neg_def_with (o_n o) (G_of o) (g_of o pos).
Proof.
  intros (a & nug & gam & HS) HD HC. 
  pose proof (sw_a _ _ _ _ HS) as Ha. pose proof (sw_nug _ _ _ _ HS) as Hn. pose proof (sw_vg _ _ _ _ HS) as Hv.
  pose proof (sw_0 _ _ _ _ HS) as Hg. intros c c0 Hc. set (n := o_n o) in *.
  change (qf n c (G_of o) + 2 * c0 * bsum n (fun i => c i * g_of o pos i) <= 0).
  pose proof (split_data o n (fun i => i) a nug gam HS (fun i j _ _ E => E) c) as HG. cbv beta in HG.
  change (fun i j => G_of o i j) with (G_of o) in HG. rewrite HG.
  pose proof (sound_with_query o n (datum o) pos a nug gam c c0 HS Hc) as HQ.
  set (Q := qf n c (fun i j => gam (separation o (datum o i) (datum o j)))) in *.
  set (B := bsum n (fun i => c i * gam (separation o pos (datum o i)))) in *.
  assert (Hc0 : bsum n c = - c0) by lra. rewrite Hc0.
  pose proof (sum_sq_nonneg n c) as Hsq. set (S2 := bsum n (fun i => c i * c i)) in *.
  assert (Hfar : (forall i, (i < n)%nat -> g_of o pos i = a * gam (separation o pos (datum o i)) + nug) ->
     a * Q + nug * (- c0 * - c0) - nug * S2 + 2 * c0 * bsum n (fun i => c i * g_of o pos i) <= 0).
  { intros Hgi. rewrite (bsum_ext n (fun i => c i * g_of o pos i) (fun i => a * (c i * gam (separation o pos (datum o i))) + nug * c i))
      by (intros i Hi; rewrite Hgi by exact Hi; ring).
    rewrite bsum_plus, !bsum_scal, Hc0. fold B. nra. }
  unfold clear_of_data in HC. destruct (o_exact o) eqn:Hex.
  2:{ apply Hfar. intros i Hi. unfold g_of, query_semivariance. rewrite Hex. cbn [andb]. apply Hv. apply P_Object.separation_nonneg. }
  specialize (HC eq_refl).
  assert (Hgz : forall i, (i < n)%nat -> separation o pos (datum o i) = 0 -> g_of o pos i = 0).
  { intros i Hi E. unfold g_of, query_semivariance. rewrite Hex, E, Rabs_R0. cbn [andb].
    destruct (Rleb_spec 0 eps); [reflexivity|pose proof eps_pos; lra]. }
  assert (Hgf : forall i, (i < n)%nat -> separation o pos (datum o i) <> 0 -> g_of o pos i = a * gam (separation o pos (datum o i)) + nug).
  { intros i Hi E. destruct (HC i Hi) as [E'|E']; [contradiction|]. unfold g_of, query_semivariance. rewrite Hex. cbn [andb].
    rewrite Rabs_right by (apply Rle_ge, P_Object.separation_nonneg).
    destruct (Rleb_spec (separation o pos (datum o i)) eps); [lra|]. apply Hv. apply P_Object.separation_nonneg. }
  destruct (sound_one_zero o pos (HD eq_refl)) as [Hall|(z & Hz & Ez & Hoth)].
  - apply Hfar. intros i Hi. apply Hgf; [exact Hi|]. apply Hall; exact Hi.
  - assert (HB : bsum n (fun i => c i * g_of o pos i) = a * B + nug * (- c0) - nug * c z).
    { transitivity (bsum n (fun i => (a * (c i * gam (separation o pos (datum o i))) + nug * c i) - nug * ((if Nat.eqb i z then 1 else 0) * c i))).
      - apply bsum_ext. intros i Hi. destruct (Nat.eqb_spec i z) as [->|Hne].
        + rewrite Hgz, Ez, Hg by assumption. ring.
        + rewrite Hgf by (auto; apply Hoth; assumption). ring.
      - rewrite bsum_minus, bsum_plus, !bsum_scal. fold B. rewrite (bsum_delta n z c Hz), Hc0. reflexivity. }
    rewrite HB.
    assert (Hzs : c z * c z <= S2).
    { unfold S2. rewrite <- (bsum_delta n z (fun i => c i * c i) Hz). apply bsum_le. intros i Hi. pose proof (Rle_0_sqr (c i)) as H0. unfold Rsqr in H0.
      destruct (Nat.eqb i z); lra. }
    assert (0 <= (c0 + c z) * (c0 + c z)) by apply Rle_0_sqr. nra.
Qed.

(** ---- execute ---- *)
Lemma sound_execute E o q : env_ok E -> reachable E o -> ordinary o -> strict o -> c_supported o -> solvable_data o -> (0 < o_n o)%nat -> o_pinv o = false ->
  good_query o q -> has_backend o q -> exists r, run E o q r.
Proof.
  intros HE Hre Hord HP HC HD Hn Hpi HQ HB.
  assert (HF : faithful_backend E o q) by (intros _ _; exact HC).
  enough (exists r, execute E o q = Ok r) as [r Hr] by (exists r; unfold run; auto).
  unfold has_backend in HB. destruct (q_window q) as [k|] eqn:HW.
  - destruct HB as [Hk HB]. pose proof (reachable_inv E o Hre) as Hinv.
    rewrite (execute_window_unfold E o q k Hinv Hord HW (proj1 Hk) HB).
    destruct (good_locate o q HQ) as [l HL]. destruct (good_adjust o q l HQ) as [pts Hpts]. rewrite HL. cbn [bind]. rewrite Hpts. cbn [bind].
    assert (HWB : window_backend E o (q_backend q)) by (destruct HB as [HB|[H1 H2]]; [left; exact HB|right; auto]).
    pose proof (window_values_spec E o q k l pts HE Hinv Hpts (proj2 Hk) HWB) as HV. cbv zeta in HV.
    destruct (window_values E o q k l pts) as [[z s]|e]; cbn [bind]; [eauto|exfalso].
    destruct HV as (_ & p & _ & _ & (N1 & N2 & _) & HN). apply HN. apply sound_local_regular; auto; lia.
  - apply execute_valid; auto.
    + unfold available. destruct HB as [H|[H|[H1 H2]]]; auto.
    + apply sound_regular; assumption.
Qed.

Lemma sound_variance E o q r p pos : run E o q r -> shown o q p pos -> well_posed o q pos -> sound o ->
  (o_exact o = true -> distinct_data o) -> clear_of_data o pos ->
  exists s, r_variance r p = Some s /\ 0 <= s.
Proof. intros HR HS HW HP HD HC. apply (variance_nonneg E o q r p pos HR HS HW). apply sound_cnd_with; assumption. Qed.

Lemma sound_optimal E o q r p pos : run E o q r -> shown o q p pos -> well_posed o q pos -> sound o ->
  exists m sel w s, uses o q pos m sel /\ bsum m w = 1 /\
    r_value r p = Some (bsum m (fun a => w a * o_values o (sel a))) /\ r_variance r p = Some s /\
    s = est_variance m (fun a b => G_of o (sel a) (sel b)) (fun a => g_of o pos (sel a)) w /\
    forall w', bsum m w' = 1 -> s <= est_variance m (fun a b => G_of o (sel a) (sel b)) (fun a => g_of o pos (sel a)) w'.
Proof.
  intros HR HS HW HP. destruct (variance_minimal E o q r p pos HR HS HW) as (m & sel & w & s & HU & H1 & Hv & Hs & He & HC).
  exists m, sel, w, s. repeat (split; [assumption|]). apply HC. apply sound_cnd; [exact HP|].
  apply (uses_inj o q pos m sel HU).
Qed.

Lemma sound_split o m sel pos a nug gam c c0 : sound_with o a nug gam ->
  (forall i j, (i < m)%nat -> (j < m)%nat -> sel i = sel j -> i = j) ->
  (forall i, (i < m)%nat -> g_of o pos (sel i) = o_vg o (separation o pos (datum o (sel i)))) ->
  bsum m c + c0 = 0 ->
  qf m c (fun i j => G_of o (sel i) (sel j)) + 2 * c0 * bsum m (fun i => c i * g_of o pos (sel i))
    = a * (qf m c (fun i j => gam (separation o (datum o (sel i)) (datum o (sel j))))
           + 2 * c0 * bsum m (fun i => c i * gam (separation o pos (datum o (sel i)))))
      - nug * (c0 * c0 + bsum m (fun i => c i * c i)).
Proof.
  intros HS Hinj Hq Hc. rewrite (split_data o m sel a nug gam HS Hinj c).
  assert (Hc0 : bsum m c = - c0) by lra. rewrite Hc0.
  rewrite (bsum_ext m (fun i => c i * g_of o pos (sel i)) (fun i => a * (c i * gam (separation o pos (datum o (sel i)))) + nug * c i)).
  - rewrite bsum_plus, !bsum_scal, Hc0. ring.
  - intros i Hi. rewrite Hq, (sw_vg _ _ _ _ HS) by (try exact Hi; apply P_Object.separation_nonneg). ring.
Qed.
Lemma plain_query o pos i : (o_exact o = true -> eps < separation o pos (datum o i)) ->
  g_of o pos i = o_vg o (separation o pos (datum o i)).
Proof.
  intros H. unfold g_of, query_semivariance. destruct (o_exact o); [|reflexivity]. cbn [andb].
  rewrite Rabs_right by (apply Rle_ge, P_Object.separation_nonneg).
  destruct (Rleb_spec (separation o pos (datum o i)) eps); [specialize (H eq_refl); lra|reflexivity].
Qed.
Lemma sound_nugget_bound o m sel pos w : sound o ->
  (forall i j, (i < m)%nat -> (j < m)%nat -> sel i = sel j -> i = j) ->
  (forall i, (i < m)%nat -> g_of o pos (sel i) = o_vg o (separation o pos (datum o (sel i)))) ->
  bsum m w = 1 ->
  o_vg o 0 * (1 + bsum m (fun i => w i * w i)) <= est_variance m (fun i j => G_of o (sel i) (sel j)) (fun i => g_of o pos (sel i)) w.
Proof.
  intros (a & nug & gam & HS) Hinj Hq Hw.
  rewrite (sound_nugget o a nug gam HS).
  pose proof (sound_split o m sel pos a nug gam w (-1) HS Hinj Hq ltac:(lra)) as HF.
  pose proof (sound_with_query o m (fun i => datum o (sel i)) pos a nug gam w (-1) HS ltac:(lra)) as HQ. cbv beta in HQ.
  pose proof (sw_a _ _ _ _ HS) as Ha. unfold est_variance. change (bsum m (fun i => bsum m (fun j => w i * w j * G_of o (sel i) (sel j)))) with (qf m w (fun i j => G_of o (sel i) (sel j))).
  set (X := qf m w (fun i j => G_of o (sel i) (sel j))) in *.
  set (Y := qf m w (fun i j => gam (separation o (datum o (sel i)) (datum o (sel j)))) + _) in *. nra.
Qed.
Lemma sound_strict_bound o m sel pos w : strict o ->
  (forall i j, (i < m)%nat -> (j < m)%nat -> sel i = sel j -> i = j) ->
  (forall i, (i < m)%nat -> g_of o pos (sel i) = o_vg o (separation o pos (datum o (sel i)))) ->
  (0 < o_vg o 0 \/ ((forall i j, (i < m)%nat -> (j < m)%nat -> i <> j -> separation o (datum o (sel i)) (datum o (sel j)) <> 0) /\
     forall i, (i < m)%nat -> separation o pos (datum o (sel i)) <> 0)) ->
  bsum m w = 1 -> 0 < est_variance m (fun i j => G_of o (sel i) (sel j)) (fun i => g_of o pos (sel i)) w.
Proof.
  intros HPo Hinj Hq Hd Hw. pose proof (sound_nugget_bound o m sel pos w (strict_sound o HPo) Hinj Hq Hw) as HB.
  pose proof (sum_sq_nonneg m w) as Hsq. destruct HPo as (a & nug & gam & HS & HX).
  rewrite (sound_nugget o a nug gam HS) in *. pose proof (sw_a _ _ _ _ HS) as Ha.
  destruct (Rle_lt_or_eq_dec 0 nug (sw_nug _ _ _ _ HS)) as [Hnug|E]; [nra|].
  destruct Hd as [Hd|[Hd1 Hd2]]; [lra|]. destruct HX as [HX|[Hap HX]]; [lra|].
  pose proof (sound_split o m sel pos a nug gam w (-1) HS Hinj Hq ltac:(lra)) as HF.
  pose proof (strict_query o m (fun i => datum o (sel i)) pos gam w (-1) (sw_0 _ _ _ _ HS) HX ltac:(lra) ltac:(lra) Hd1 Hd2) as HQ. cbv beta in HQ.
  unfold est_variance. change (bsum m (fun i => bsum m (fun j => w i * w j * G_of o (sel i) (sel j)))) with (qf m w (fun i j => G_of o (sel i) (sel j))).
  set (X := qf m w (fun i j => G_of o (sel i) (sel j))) in *.
  set (Y := qf m w (fun i j => gam (separation o (datum o (sel i)) (datum o (sel j)))) + _) in *. rewrite <- E in HF. nra.
Qed.
Lemma sound_bounds E o q r p pos : run E o q r -> shown o q p pos -> well_posed o q pos -> strict o -> solvable_data o ->
  off_data o pos -> exists s, r_variance r p = Some s /\ 0 < s /\ o_vg o 0 <= s.
Proof.
  intros HR HS HW HP HD HO. destruct (variance_minimal E o q r p pos HR HS HW) as (m & sel & w & s & HU & H1 & Hv & Hs & He & _).
  pose proof (uses_inj o q pos m sel HU) as Hinj. pose proof (uses_bound o q pos m sel HU) as Hb.
  assert (Hq : forall i, (i < m)%nat -> g_of o pos (sel i) = o_vg o (separation o pos (datum o (sel i)))).
  { intros i Hi. apply plain_query. apply (HO (sel i) (Hb i Hi)). }
  exists s. split; [exact Hs|]. rewrite He. split.
  - apply sound_strict_bound; try assumption. destruct HD as [HD|HD]; [left; exact HD|right]. split.
    + intros i j Hi Hj Hne. apply HD; auto.
    + intros i Hi. pose proof (proj1 (HO (sel i) (Hb i Hi))). lra.
  - pose proof (sound_nugget_bound o m sel pos w (strict_sound o HP) Hinj Hq H1) as HB. pose proof (sum_sq_nonneg m w).
    pose proof (sound_nugget_nonneg o (strict_sound o HP)). nra.
Qed.
Lemma sound_noisy E o q r p pos : run E o q r -> shown o q p pos -> well_posed o q pos -> sound o -> o_exact o = false ->
  exists s, r_variance r p = Some s /\ o_vg o 0 <= s.
Proof.
  intros HR HS HW HP HO. destruct (variance_minimal E o q r p pos HR HS HW) as (m & sel & w & s & HU & H1 & Hv & Hs & He & _).
  exists s. split; [exact Hs|]. rewrite He.
  pose proof (sound_nugget_bound o m sel pos w HP (uses_inj o q pos m sel HU)
    (fun i _ => plain_query o pos (sel i) (fun h => ltac:(congruence))) H1) as HB. pose proof (sum_sq_nonneg m w).
  pose proof (sound_nugget_nonneg o HP). nra.
Qed.
Lemma sound_global E o q r p pos : run E o q r -> shown o q p pos -> well_posed o q pos -> sound o -> q_window q = None ->
  exists s, r_variance r p = Some s /\ forall w', bsum (o_n o) w' = 1 -> s <= est_variance (o_n o) (G_of o) (g_of o pos) w'.
Proof.
  intros HR HS HW HP HN. destruct (sound_optimal E o q r p pos HR HS HW HP) as (m & sel & w & s & HU & _ & _ & Hs & _ & HO).
  unfold uses in HU. rewrite HN in HU. destruct HU as [-> Hsel]. exists s. split; [exact Hs|]. intros w' Hw'.
  apply Rle_trans with (1 := HO w' Hw'). right. apply est_variance_ext; [intros i j _ _|intros i _]; cbv beta; rewrite ?Hsel; reflexivity.
Qed.
Lemma sound_window E o q q' r r' p p' pos : run E o q r -> run E o q' r' -> shown o q p pos -> shown o q' p' pos ->
  well_posed o q pos -> sound o -> q_window q = None -> q_window q' <> None ->
  exists s s', r_variance r p = Some s /\ r_variance r' p' = Some s' /\ s <= s'.
Proof.
  intros HR HR' HS HS' HW HP HN HN'.
  destruct (sound_global E o q r p pos HR HS HW HP HN) as (s & Hs & HO).
  destruct (sound_optimal E o q' r' p' pos HR' HS' (or_intror (or_introl HN')) HP) as (m & sel & w & s' & HU & H1 & _ & Hs' & He & _).
  exists s, s'. split; [exact Hs|]. split; [exact Hs'|].
  destruct (est_embed (o_n o) m sel (G_of o) (g_of o pos) w (uses_bound o q' pos m sel HU) (uses_inj o q' pos m sel HU) H1) as (w' & Hw' & E').
  rewrite He, <- E'. apply HO. exact Hw'.
Qed.
