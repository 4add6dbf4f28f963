(** Kriging objects with proper models: regular systems, no failures,
    non-negative variances. *)
From Coq Require Import String.
From Verif Require Import Base Sums Matrix M_Variogram M_Geometry S_Geometry M_Kriging S_Kriging M_Init M_Object M_Execute S_Execute S_Valid
  P_Object P_Psd P_Psd2 P_Valid P_Dup P_OKSpec P_OK P_Det P_Exec2 P_Cells P_Execute P_WindowExec P_Master P_Options.

Lemma separation_self o p : o_ct o = Euclidean -> separation o p p = 0.
Proof. intros HE. rewrite (separation_sqd o (fun _ => p) 0 0 HE). rewrite sqd_diag. apply sqrt_0. Qed.

(** the semivariances of a selection of data, split in shape and nugget *)
Lemma data_split o m sel a nug gam : o_ct o = Euclidean -> gam 0 = 0 ->
  (forall d, 0 <= d -> o_vg o d = a * gam d + nug) ->
  (forall i j, (i < m)%nat -> (j < m)%nat -> sel i = sel j -> i = j) ->
  forall c, qf m c (fun i j => G_of o (sel i) (sel j))
    = a * qf m c (fun i j => gam (separation o (datum o (sel i)) (datum o (sel j))))
      + nug * (bsum m c * bsum m c) - nug * bsum m (fun i => c i * c i).
Proof.
  intros HE Hg Hv Hinj c.
  rewrite (qf_ext m c c _ (fun i j => a * gam (separation o (datum o (sel i)) (datum o (sel j)))
      + ((fun _ _ => nug) i j + (if Nat.eqb i j then (fun _ => - nug) i else 0)))).
  - rewrite (qf_plus m c (fun i j => a * gam (separation o (datum o (sel i)) (datum o (sel j))))), (qf_plus m c (fun _ _ => nug)).
    rewrite qf_scal, qf_const, qf_diag, bsum_scal. ring.
  - reflexivity.
  - intros i j Hi Hj. unfold G_of, data_semivariance.
    destruct (Nat.eqb_spec i j) as [->|Hne].
    + rewrite Nat.eqb_refl, separation_self, Hg by exact HE. ring.
    + destruct (Nat.eqb_spec (sel i) (sel j)) as [E|_]; [exfalso; auto|].
      rewrite Hv by (apply separation_nonneg; exact HE). ring.
Qed.
Lemma sel_cnd o m sel gam : o_ct o = Euclidean -> valid_shape gam ->
  cond_neg_def m (fun i j => gam (separation o (datum o (sel i)) (datum o (sel j)))).
Proof.
  intros HE (_ & H & _). apply (cnd_ext m (fun i j => gam (sqrt (sqd 3 (fun i => euclid_coords o (datum o (sel i))) i j)))); [|apply H; lia].
  intros i j _ _. rewrite (separation_sqd o (fun i => datum o (sel i)) i j HE). reflexivity.
Qed.
Lemma sel_scnd o m sel gam : o_ct o = Euclidean -> valid_shape gam ->
  (forall i j, (i < m)%nat -> (j < m)%nat -> i <> j -> separation o (datum o (sel i)) (datum o (sel j)) <> 0) ->
  scnd m (fun i j => gam (separation o (datum o (sel i)) (datum o (sel j)))).
Proof.
  intros HE (_ & _ & H) Hd. apply (scnd_ext m (fun i j => gam (sqrt (sqd 3 (fun i => euclid_coords o (datum o (sel i))) i j)))).
  - intros i j _ _. rewrite (separation_sqd o (fun i => datum o (sel i)) i j HE). reflexivity.
  - apply H; [lia|]. apply (separated_pts o (fun i => datum o (sel i)) m HE Hd).
Qed.
Lemma sum_sq_nonneg m c : 0 <= bsum m (fun i => c i * c i).
Proof. apply bsum_nonneg. intros. apply Rle_0_sqr. Qed.

Lemma proper_cnd o m sel : proper o ->
  (forall i j, (i < m)%nat -> (j < m)%nat -> sel i = sel j -> i = j) -> cond_neg_def m (fun i j => G_of o (sel i) (sel j)).
Proof.
  intros [HE HP] Hinj. destruct (proper_shape _ _ HP) as (a & nug & gam & Ha & Hn & Hpos & Hs & Hv).
  intros c Hc. change (qf m c (fun i j => G_of o (sel i) (sel j)) <= 0).
  rewrite (data_split o m sel a nug gam HE (proj1 Hs) Hv Hinj c), Hc.
  pose proof (sel_cnd o m sel gam HE Hs c Hc) as H.
  change (qf m c (fun i j => gam (separation o (datum o (sel i)) (datum o (sel j)))) <= 0) in H.
  pose proof (sum_sq_nonneg m c). nra.
Qed.
Lemma proper_nugget o a nug gam : (forall d, 0 <= d -> o_vg o d = a * gam d + nug) -> gam 0 = 0 -> o_vg o 0 = nug.
Proof. intros H Hg. rewrite H, Hg by lra. ring. Qed.
Lemma proper_scnd o m sel : proper o ->
  (forall i j, (i < m)%nat -> (j < m)%nat -> sel i = sel j -> i = j) ->
  (0 < o_vg o 0 \/ forall i j, (i < m)%nat -> (j < m)%nat -> i <> j -> separation o (datum o (sel i)) (datum o (sel j)) <> 0) ->
  scnd m (fun i j => G_of o (sel i) (sel j)).
Proof.
  intros [HE HP] Hinj Hd. destruct (proper_shape _ _ HP) as (a & nug & gam & Ha & Hn & Hpos & Hs & Hv).
  intros c Hc Hq i Hi. rewrite (data_split o m sel a nug gam HE (proj1 Hs) Hv Hinj c), Hc in Hq.
  pose proof (sel_cnd o m sel gam HE Hs c Hc) as H.
  change (qf m c (fun i j => gam (separation o (datum o (sel i)) (datum o (sel j)))) <= 0) in H.
  pose proof (sum_sq_nonneg m c) as Hsq.
  destruct (Rle_lt_or_eq_dec 0 nug Hn) as [Hnug|E].
  - assert (Hz : bsum m (fun i => c i * c i) = 0) by nra.
    pose proof (bsum_nonneg_zero m (fun i => c i * c i) (fun i _ => Rle_0_sqr (c i)) Hz i Hi) as H0. cbv beta in H0. nra.
  - destruct Hd as [Hd|Hd]; [rewrite (proper_nugget o a nug gam Hv (proj1 Hs)) in Hd; lra|].
    apply (sel_scnd o m sel gam HE Hs Hd c Hc); [|exact Hi]. rewrite <- E in Hq. assert (0 < a) by lra. nra.
Qed.

Lemma proper_local_regular o k sel : proper o -> solvable_data o -> (0 < k)%nat ->
  (forall a, (a < k)%nat -> (sel a < o_n o)%nat) ->
  (forall i j, (i < k)%nat -> (j < k)%nat -> sel i = sel j -> i = j) -> local_regular o k sel.
Proof.
  intros HP HD Hk Hb Hinj. apply scnd_regular; [exact Hk|]. apply proper_scnd; [exact HP|exact Hinj|].
  destruct HD as [HD|HD]; [left; exact HD|right]. intros i j Hi Hj Hne. apply HD; auto.
Qed.
Lemma proper_regular o : proper o -> solvable_data o -> (0 < o_n o)%nat -> regular o.
Proof. intros HP HD Hn. apply (proper_local_regular o (o_n o) (fun i => i)); auto. Qed.

(** ---- the query point ---- *)
Definition with_query (m : nat) (pts : nat -> vec3) (pos : vec3) : nat -> vec3 := fun i => if Nat.eqb i m then pos else pts i.
Lemma cnd_with_query o m (pts : nat -> vec3) pos gam c c0 : o_ct o = Euclidean -> valid_shape gam -> bsum m c + c0 = 0 ->
  qf m c (fun i j => gam (separation o (pts i) (pts j))) + 2 * c0 * bsum m (fun i => c i * gam (separation o pos (pts i))) <= 0.
Proof.
  intros HE (Hg & H & _) Hc.
  pose (q := with_query m pts pos). pose (e := fun i => if Nat.eqb i m then c0 else c i).
  assert (He : bsum (S m) e = 0).
  { unfold e. cbn [bsum]. rewrite Nat.eqb_refl. rewrite (bsum_ext m _ c); [exact Hc|].
    intros i Hi. destruct (Nat.eqb_spec i m); [lia|reflexivity]. }
  pose proof (H (S m) 3%nat (fun i => euclid_coords o (q i)) (le_n 3) e He) as HQ.
  change (qf (S m) e (fun i j => gam (sqrt (sqd 3 (fun i => euclid_coords o (q i)) i j))) <= 0) in HQ.
  rewrite (qf_ext (S m) e e _ (fun i j => gam (separation o (q i) (q j)))) in HQ
    by (intros; auto; rewrite (separation_sqd o q) by exact HE; reflexivity).
  rewrite qf_S in HQ by (intros i Hi; rewrite (separation_sym o (q i) (q m) HE); reflexivity).
  rewrite (separation_self o (q m) HE), Hg in HQ.
  assert (Em : e m = c0) by (unfold e; rewrite Nat.eqb_refl; reflexivity). rewrite Em in HQ.
  rewrite (qf_ext m e c _ (fun i j => gam (separation o (pts i) (pts j)))) in HQ.
  - rewrite (bsum_ext m (fun i => e i * gam (separation o (q i) (q m))) (fun i => c i * gam (separation o pos (pts i)))) in HQ; [lra|].
    intros i Hi. unfold e, q, with_query. rewrite Nat.eqb_refl. destruct (Nat.eqb_spec i m); [lia|].
    rewrite (separation_sym o pos (pts i) HE). reflexivity.
  - intros i Hi. unfold e. destruct (Nat.eqb_spec i m); [lia|reflexivity].
  - intros i j Hi Hj. unfold q, with_query. destruct (Nat.eqb_spec i m); [lia|]. destruct (Nat.eqb_spec j m); [lia|reflexivity].
Qed.

Lemma triangle_zero o p q x : o_ct o = Euclidean -> separation o p q = 0 -> separation o p x = 0 -> separation o q x = 0.
Proof. intros HE H1 H2. rewrite <- (coincide o p q x H1). exact H2. Qed.

(** at most one datum coincides with the query *)
Lemma one_zero o pos : o_ct o = Euclidean -> distinct_data o ->
  (forall i, (i < o_n o)%nat -> separation o pos (datum o i) <> 0) \/
  exists z, (z < o_n o)%nat /\ separation o pos (datum o z) = 0 /\
    forall i, (i < o_n o)%nat -> i <> z -> separation o pos (datum o i) <> 0.
Proof.
  intros HE HD. destruct (all_or_one (fun i => separation o pos (datum o i) <> 0) (o_n o)) as [H|(z & Hz & H)].
  - intros i. destruct (Req_dec (separation o pos (datum o i)) 0) as [E|E]; [right; auto|left; exact E].
  - left. exact H.
  - right. exists z. split; [exact Hz|]. assert (E : separation o pos (datum o z) = 0) by (destruct (Req_dec (separation o pos (datum o z)) 0); [assumption|contradiction]).
    split; [exact E|]. intros i Hi Hne E'. apply (HD z i Hz Hi ltac:(auto)). apply (triangle_zero o pos); assumption.
Qed.

Lemma proper_cnd_with o pos : proper o -> (o_exact o = true -> distinct_data o) -> clear_of_data o pos ->
  cond_neg_def_with (o_n o) (G_of o) (g_of o pos).
Proof.
  intros [HE HP] HD HC. destruct (proper_shape _ _ HP) as (a & nug & gam & Ha & Hn & Hpos & Hs & Hv).
  pose proof (proj1 Hs) as Hg. intros c c0 Hc. set (n := o_n o) in *.
  change (qf n c (G_of o) + 2 * c0 * bsum n (fun i => c i * g_of o pos i) <= 0).
  pose proof (data_split o n (fun i => i) a nug gam HE Hg Hv (fun i j _ _ E => E) c) as HG. cbv beta in HG.
  change (fun i j => G_of o i j) with (G_of o) in HG. rewrite HG.
  pose proof (cnd_with_query o n (datum o) pos gam c c0 HE Hs Hc) as HQ.
  set (Q := qf n c (fun i j => gam (separation o (datum o i) (datum o j)))) in *.
  set (B := bsum n (fun i => c i * gam (separation o pos (datum o i)))) in *.
  assert (Hc0 : bsum n c = - c0) by lra. rewrite Hc0.
  pose proof (sum_sq_nonneg n c) as Hsq. set (S2 := bsum n (fun i => c i * c i)) in *.
  assert (Hfar : (forall i, (i < n)%nat -> g_of o pos i = a * gam (separation o pos (datum o i)) + nug) ->
     a * Q + nug * (- c0 * - c0) - nug * S2 + 2 * c0 * bsum n (fun i => c i * g_of o pos i) <= 0).
  { intros Hgi. rewrite (bsum_ext n (fun i => c i * g_of o pos i) (fun i => a * (c i * gam (separation o pos (datum o i))) + nug * c i))
      by (intros i Hi; rewrite Hgi by exact Hi; ring).
    rewrite bsum_plus, !bsum_scal, Hc0. fold B. nra. }
  unfold clear_of_data in HC. destruct (o_exact o) eqn:Hex.
  2:{ apply Hfar. intros i Hi. unfold g_of, query_semivariance. rewrite Hex. cbn [andb]. apply Hv. apply separation_nonneg; exact HE. }
  specialize (HC eq_refl).
  assert (Hgz : forall i, (i < n)%nat -> separation o pos (datum o i) = 0 -> g_of o pos i = 0).
  { intros i Hi E. unfold g_of, query_semivariance. rewrite Hex, E, Rabs_R0. cbn [andb].
    destruct (Rleb_spec 0 eps); [reflexivity|pose proof eps_pos; lra]. }
  assert (Hgf : forall i, (i < n)%nat -> separation o pos (datum o i) <> 0 -> g_of o pos i = a * gam (separation o pos (datum o i)) + nug).
  { intros i Hi E. destruct (HC i Hi) as [E'|E']; [contradiction|]. unfold g_of, query_semivariance. rewrite Hex. cbn [andb].
    rewrite Rabs_right by (apply Rle_ge, separation_nonneg; exact HE).
    destruct (Rleb_spec (separation o pos (datum o i)) eps); [lra|]. apply Hv. apply separation_nonneg; exact HE. }
  destruct (one_zero o pos HE (HD eq_refl)) as [Hall|(z & Hz & Ez & Hoth)].
  - apply Hfar. intros i Hi. apply Hgf; [exact Hi|]. apply Hall; exact Hi.
  - assert (HB : bsum n (fun i => c i * g_of o pos i) = a * B + nug * (- c0) - nug * c z).
    { transitivity (bsum n (fun i => (a * (c i * gam (separation o pos (datum o i))) + nug * c i) - nug * ((if Nat.eqb i z then 1 else 0) * c i))).
      - apply bsum_ext. intros i Hi. destruct (Nat.eqb_spec i z) as [->|Hne].
        + rewrite Hgz, Ez, Hg by assumption. ring.
        + rewrite Hgf by (auto; apply Hoth; assumption). ring.
      - rewrite bsum_minus, bsum_plus, !bsum_scal. fold B. rewrite (bsum_delta n z c Hz), Hc0. reflexivity. }
    rewrite HB.
    assert (Hzs : c z * c z <= S2).
    { unfold S2. rewrite <- (bsum_delta n z (fun i => c i * c i) Hz). apply bsum_le. intros i Hi. pose proof (Rle_0_sqr (c i)) as H0. unfold Rsqr in H0.
      destruct (Nat.eqb i z); lra. }
    assert (0 <= (c0 + c z) * (c0 + c z)) by apply Rle_0_sqr. nra.
Qed.

(** ---- execute ---- *)
Lemma proper_c_supported o : proper o -> c_supported o.
Proof.
  intros [_ HP]. destruct HP as [E H1 H2 H3|E H1 H2 H3 H4|E H1 H2 H3 H4|E H1 H2 H3 H4|E H1 H2 H3 H4].
  - exists "linear"%string. split; [rewrite E; reflexivity|]. split; [discriminate|]. intros [H|H]; discriminate.
  - exists "power"%string. split; [rewrite E; reflexivity|]. split; [discriminate|]. intros [H|H]; discriminate.
  - exists "gaussian"%string. split; [rewrite E; reflexivity|]. split; [discriminate|]. intros _. exact H2.
  - exists "exponential"%string. split; [rewrite E; reflexivity|]. split; [discriminate|]. intros [H|H]; discriminate.
  - exists "spherical"%string. split; [rewrite E; reflexivity|]. split; [discriminate|]. intros _. exact H2.
Qed.

Lemma proper_execute E o q : env_ok E -> reachable E o -> ordinary o -> proper o -> solvable_data o -> (0 < o_n o)%nat -> o_pinv o = false ->
  good_query o q -> has_backend o q -> exists r, run E o q r.
Proof.
  intros HE Hre Hord HP HD Hn Hpi HQ HB. pose proof (proper_c_supported o HP) as HC.
  assert (HF : faithful_backend E o q) by (intros _ _; exact HC).
  enough (exists r, execute E o q = Ok r) as [r Hr] by (exists r; unfold run; auto).
  unfold has_backend in HB. destruct (q_window q) as [k|] eqn:HW.
  - destruct HB as [Hk HB]. pose proof (reachable_inv E o Hre) as Hinv.
    rewrite (execute_window_unfold E o q k Hinv Hord HW (proj1 Hk) HB).
    destruct (good_locate o q HQ) as [l HL]. destruct (good_adjust o q l HQ) as [pts Hpts]. rewrite HL. cbn [bind]. rewrite Hpts. cbn [bind].
    assert (HWB : window_backend E o (q_backend q)) by (destruct HB as [HB|[H1 H2]]; [left; exact HB|right; auto]).
    pose proof (window_values_spec E o q k l pts HE Hinv Hpts (proj2 Hk) HWB) as HV. cbv zeta in HV.
    destruct (window_values E o q k l pts) as [[z s]|e]; cbn [bind]; [eauto|exfalso].
    destruct HV as (_ & p & _ & _ & (N1 & N2 & _) & HN). apply HN. apply proper_local_regular; auto; lia.
  - apply execute_valid; auto.
    + unfold available. destruct HB as [H|[H|[H1 H2]]]; auto.
    + apply proper_regular; assumption.
Qed.

Lemma proper_variance E o q r p pos : run E o q r -> shown o q p pos -> well_posed o q pos -> proper o ->
  (o_exact o = true -> distinct_data o) -> clear_of_data o pos ->
  exists s, r_variance r p = Some s /\ 0 <= s.
Proof. intros HR HS HW HP HD HC. apply (variance_nonneg E o q r p pos HR HS HW). apply proper_cnd_with; assumption. Qed.

Lemma proper_optimal E o q r p pos : run E o q r -> shown o q p pos -> well_posed o q pos -> proper o ->
  exists m sel w s, uses o q pos m sel /\ bsum m w = 1 /\
    r_value r p = Some (bsum m (fun a => w a * o_values o (sel a))) /\ r_variance r p = Some s /\
    s = est_variance m (fun a b => G_of o (sel a) (sel b)) (fun a => g_of o pos (sel a)) w /\
    forall w', bsum m w' = 1 -> s <= est_variance m (fun a b => G_of o (sel a) (sel b)) (fun a => g_of o pos (sel a)) w'.
Proof.
  intros HR HS HW HP. destruct (variance_minimal E o q r p pos HR HS HW) as (m & sel & w & s & HU & H1 & Hv & Hs & He & HC).
  exists m, sel, w, s. repeat (split; [assumption|]). apply HC. apply proper_cnd; [exact HP|].
  apply (uses_inj o q pos m sel HU).
Qed.

(** ---- lower and upper bounds of the variance ---- *)
Lemma with_split o m sel pos a nug gam c c0 : o_ct o = Euclidean -> gam 0 = 0 ->
  (forall d, 0 <= d -> o_vg o d = a * gam d + nug) ->
  (forall i j, (i < m)%nat -> (j < m)%nat -> sel i = sel j -> i = j) ->
  (forall i, (i < m)%nat -> g_of o pos (sel i) = o_vg o (separation o pos (datum o (sel i)))) ->
  bsum m c + c0 = 0 ->
  qf m c (fun i j => G_of o (sel i) (sel j)) + 2 * c0 * bsum m (fun i => c i * g_of o pos (sel i))
    = a * (qf m c (fun i j => gam (separation o (datum o (sel i)) (datum o (sel j))))
           + 2 * c0 * bsum m (fun i => c i * gam (separation o pos (datum o (sel i)))))
      - nug * (c0 * c0 + bsum m (fun i => c i * c i)).
Proof.
  intros HE Hg Hv Hinj Hq Hc. rewrite (data_split o m sel a nug gam HE Hg Hv Hinj c).
  assert (Hc0 : bsum m c = - c0) by lra. rewrite Hc0.
  rewrite (bsum_ext m (fun i => c i * g_of o pos (sel i)) (fun i => a * (c i * gam (separation o pos (datum o (sel i)))) + nug * c i)).
  - rewrite bsum_plus, !bsum_scal, Hc0. ring.
  - intros i Hi. rewrite Hq, Hv by (try exact Hi; apply separation_nonneg; exact HE). ring.
Qed.
Lemma strict_with_query o m (pts : nat -> vec3) pos gam c c0 : o_ct o = Euclidean -> valid_shape gam -> bsum m c + c0 = 0 -> c0 <> 0 ->
  (forall i j, (i < m)%nat -> (j < m)%nat -> i <> j -> separation o (pts i) (pts j) <> 0) ->
  (forall i, (i < m)%nat -> separation o pos (pts i) <> 0) ->
  qf m c (fun i j => gam (separation o (pts i) (pts j))) + 2 * c0 * bsum m (fun i => c i * gam (separation o pos (pts i))) < 0.
Proof.
  intros HE (Hg & _ & H) Hc Hc0 Hd Hp.
  pose (q := with_query m pts pos). pose (e := fun i => if Nat.eqb i m then c0 else c i).
  assert (He : bsum (S m) e = 0).
  { unfold e. cbn [bsum]. rewrite Nat.eqb_refl. rewrite (bsum_ext m _ c); [exact Hc|].
    intros i Hi. destruct (Nat.eqb_spec i m); [lia|reflexivity]. }
  assert (HS : separated (S m) 3 (fun i => euclid_coords o (q i))).
  { apply separated_pts; [exact HE|]. intros i j Hi Hj Hne. unfold q, with_query.
    destruct (Nat.eqb_spec i m) as [Ei|Ni], (Nat.eqb_spec j m) as [Ej|Nj]; [lia|apply Hp; lia| |apply Hd; lia].
    rewrite separation_sym by exact HE. apply Hp. lia. }
  pose proof (H (S m) 3%nat (fun i => euclid_coords o (q i)) (le_n 3) HS e He) as HQ.
  rewrite (qf_ext (S m) e e _ (fun i j => gam (separation o (q i) (q j)))) in HQ
    by (intros; auto; rewrite (separation_sqd o q) by exact HE; reflexivity).
  assert (Em : e m = c0) by (unfold e; rewrite Nat.eqb_refl; reflexivity).
  destruct (Rle_lt_dec 0 (qf (S m) e (fun i j => gam (separation o (q i) (q j))))) as [L|L].
  { exfalso. apply Hc0. rewrite <- Em. apply (HQ L). lia. }
  rewrite qf_S in L by (intros i Hi; rewrite (separation_sym o (q i) (q m) HE); reflexivity).
  rewrite (separation_self o (q m) HE), Hg in L. rewrite Em in L.
  rewrite (qf_ext m e c _ (fun i j => gam (separation o (pts i) (pts j)))) in L.
  - rewrite (bsum_ext m (fun i => e i * gam (separation o (q i) (q m))) (fun i => c i * gam (separation o pos (pts i)))) in L; [lra|].
    intros i Hi. unfold e, q, with_query. rewrite Nat.eqb_refl. destruct (Nat.eqb_spec i m); [lia|].
    rewrite (separation_sym o pos (pts i) HE). reflexivity.
  - intros i Hi. unfold e. destruct (Nat.eqb_spec i m); [lia|reflexivity].
  - intros i j Hi Hj. unfold q, with_query. destruct (Nat.eqb_spec i m); [lia|]. destruct (Nat.eqb_spec j m); [lia|reflexivity].
Qed.

Lemma plain_g o pos i : o_ct o = Euclidean -> (o_exact o = true -> eps < separation o pos (datum o i)) ->
  g_of o pos i = o_vg o (separation o pos (datum o i)).
Proof.
  intros HE H. unfold g_of, query_semivariance. destruct (o_exact o); [|reflexivity]. cbn [andb].
  rewrite Rabs_right by (apply Rle_ge, separation_nonneg; exact HE).
  destruct (Rleb_spec (separation o pos (datum o i)) eps); [specialize (H eq_refl); lra|reflexivity].
Qed.

(** the form at (w, -1) is minus the estimation variance *)
Lemma nugget_bound o m sel pos w : proper o ->
  (forall i j, (i < m)%nat -> (j < m)%nat -> sel i = sel j -> i = j) ->
  (forall i, (i < m)%nat -> g_of o pos (sel i) = o_vg o (separation o pos (datum o (sel i)))) ->
  bsum m w = 1 ->
  o_vg o 0 * (1 + bsum m (fun i => w i * w i)) <= est_variance m (fun i j => G_of o (sel i) (sel j)) (fun i => g_of o pos (sel i)) w.
Proof.
  intros [HE HP] Hinj Hq Hw. destruct (proper_shape _ _ HP) as (a & nug & gam & Ha & Hn & Hpos & Hs & Hv).
  rewrite (proper_nugget o a nug gam Hv (proj1 Hs)).
  pose proof (with_split o m sel pos a nug gam w (-1) HE (proj1 Hs) Hv Hinj Hq ltac:(lra)) as HF.
  pose proof (cnd_with_query o m (fun i => datum o (sel i)) pos gam w (-1) HE Hs ltac:(lra)) as HQ. cbv beta in HQ.
  unfold est_variance. change (bsum m (fun i => bsum m (fun j => w i * w j * G_of o (sel i) (sel j)))) with (qf m w (fun i j => G_of o (sel i) (sel j))).
  set (X := qf m w (fun i j => G_of o (sel i) (sel j))) in *.
  set (Y := qf m w (fun i j => gam (separation o (datum o (sel i)) (datum o (sel j)))) + _) in *. nra.
Qed.
Lemma strict_bound o m sel pos w : proper o ->
  (forall i j, (i < m)%nat -> (j < m)%nat -> sel i = sel j -> i = j) ->
  (forall i, (i < m)%nat -> g_of o pos (sel i) = o_vg o (separation o pos (datum o (sel i)))) ->
  (0 < o_vg o 0 \/ ((forall i j, (i < m)%nat -> (j < m)%nat -> i <> j -> separation o (datum o (sel i)) (datum o (sel j)) <> 0) /\
     forall i, (i < m)%nat -> separation o pos (datum o (sel i)) <> 0)) ->
  bsum m w = 1 -> 0 < est_variance m (fun i j => G_of o (sel i) (sel j)) (fun i => g_of o pos (sel i)) w.
Proof.
  intros HPo Hinj Hq Hd Hw. pose proof (nugget_bound o m sel pos w HPo Hinj Hq Hw) as HB.
  pose proof (sum_sq_nonneg m w) as Hsq. destruct HPo as [HE HP].
  destruct (proper_shape _ _ HP) as (a & nug & gam & Ha & Hn & Hpos & Hs & Hv).
  rewrite (proper_nugget o a nug gam Hv (proj1 Hs)) in *.
  destruct (Rle_lt_or_eq_dec 0 nug Hn) as [Hnug|E]; [nra|].
  destruct Hd as [Hd|[Hd1 Hd2]]; [lra|].
  pose proof (with_split o m sel pos a nug gam w (-1) HE (proj1 Hs) Hv Hinj Hq ltac:(lra)) as HF.
  pose proof (strict_with_query o m (fun i => datum o (sel i)) pos gam w (-1) HE Hs ltac:(lra) ltac:(lra) Hd1 Hd2) as HQ. cbv beta in HQ.
  unfold est_variance. change (bsum m (fun i => bsum m (fun j => w i * w j * G_of o (sel i) (sel j)))) with (qf m w (fun i j => G_of o (sel i) (sel j))).
  set (X := qf m w (fun i j => G_of o (sel i) (sel j))) in *.
  set (Y := qf m w (fun i j => gam (separation o (datum o (sel i)) (datum o (sel j)))) + _) in *. rewrite <- E in HF. assert (0 < a) by lra. nra.
Qed.
Lemma uses_bound o q pos m sel : uses o q pos m sel -> forall i, (i < m)%nat -> (sel i < o_n o)%nat.
Proof. unfold uses. destruct (q_window q); [intros [-> (H & _)]; exact H|intros [-> H] i Hi; rewrite H; exact Hi]. Qed.

Lemma proper_bounds E o q r p pos : run E o q r -> shown o q p pos -> well_posed o q pos -> proper o -> solvable_data o ->
  off_data o pos -> exists s, r_variance r p = Some s /\ 0 < s /\ o_vg o 0 <= s.
Proof.
  intros HR HS HW HP HD HO. destruct (variance_minimal E o q r p pos HR HS HW) as (m & sel & w & s & HU & H1 & Hv & Hs & He & _).
  pose proof (uses_inj o q pos m sel HU) as Hinj. pose proof (uses_bound o q pos m sel HU) as Hb.
  assert (Hq : forall i, (i < m)%nat -> g_of o pos (sel i) = o_vg o (separation o pos (datum o (sel i)))).
  { intros i Hi. apply plain_g; [exact (proj1 HP)|]. apply (HO (sel i) (Hb i Hi)). }
  exists s. split; [exact Hs|]. rewrite He. split.
  - apply strict_bound; try assumption. destruct HD as [HD|HD]; [left; exact HD|right]. split.
    + intros i j Hi Hj Hne. apply HD; auto.
    + intros i Hi. pose proof (proj1 (HO (sel i) (Hb i Hi))). lra.
  - pose proof (nugget_bound o m sel pos w HP Hinj Hq H1) as HB. pose proof (sum_sq_nonneg m w).
    assert (0 <= o_vg o 0). { destruct HP as [HE HP']. destruct (proper_shape _ _ HP') as (a & nug & gam & Ha & Hn & Hpos & Hs' & Hv'). rewrite (proper_nugget o a nug gam Hv' (proj1 Hs')). exact Hn. }
    nra.
Qed.
Lemma proper_noisy E o q r p pos : run E o q r -> shown o q p pos -> well_posed o q pos -> proper o -> o_exact o = false ->
  exists s, r_variance r p = Some s /\ o_vg o 0 <= s.
Proof.
  intros HR HS HW HP HO. destruct (variance_minimal E o q r p pos HR HS HW) as (m & sel & w & s & HU & H1 & Hv & Hs & He & _).
  exists s. split; [exact Hs|]. rewrite He.
  pose proof (nugget_bound o m sel pos w HP (uses_inj o q pos m sel HU)
    (fun i _ => plain_g o pos (sel i) (proj1 HP) (fun h => ltac:(congruence))) H1) as HB. pose proof (sum_sq_nonneg m w).
  assert (0 <= o_vg o 0). { destruct HP as [HE HP']. destruct (proper_shape _ _ HP') as (a & nug & gam & Ha & Hn & Hpos & Hs' & Hv'). rewrite (proper_nugget o a nug gam Hv' (proj1 Hs')). exact Hn. }
  nra.
Qed.
(** at most twice the semivariance to any datum that is used *)
Lemma proper_upper E o q r p pos : run E o q r -> shown o q p pos -> well_posed o q pos -> proper o ->
  exists m sel s, uses o q pos m sel /\ r_variance r p = Some s /\ forall k, (k < m)%nat -> s <= 2 * g_of o pos (sel k).
Proof.
  intros HR HS HW HP. destruct (proper_optimal E o q r p pos HR HS HW HP) as (m & sel & w & s & HU & _ & _ & Hs & _ & HO).
  exists m, sel, s. split; [exact HU|]. split; [exact Hs|]. intros k Hk.
  pose (d := fun i => if Nat.eqb i k then 1 else 0).
  assert (Hd : forall f : vec, bsum m (fun i => d i * f i) = f k) by (intros f; apply (bsum_delta m k f Hk)).
  assert (H1 : bsum m d = 1) by (rewrite <- (Hd (fun _ => 1)); apply bsum_ext; intros; ring).
  specialize (HO d H1). unfold est_variance in HO. rewrite (Hd (fun i => g_of o pos (sel i))) in HO.
  rewrite (bsum_ext m (fun i => bsum m (fun j => d i * d j * G_of o (sel i) (sel j))) (fun i => d i * G_of o (sel i) (sel k))) in HO.
  - rewrite (Hd (fun i => G_of o (sel i) (sel k))), G_of_diag in HO. lra.
  - intros i Hi. rewrite (bsum_ext m _ (fun j => d i * (d j * G_of o (sel i) (sel j)))) by (intros; ring).
    rewrite bsum_scal, (Hd (fun j => G_of o (sel i) (sel j))). reflexivity.
Qed.
