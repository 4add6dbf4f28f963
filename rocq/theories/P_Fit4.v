(** Proofs for C38. *)
From Coq Require Import String Permutation FunctionalExtensionality.
From Verif Require Import Base Sums Matrix M_Variogram M_Geometry S_Geometry P_Geometry M_Kriging S_Kriging M_Init M_Object M_Execute S_Execute
  S_Fit P_Kriging P_Binning P_Object P_Cells P_OK P_Data P_Fit P_Fit2 P_Fit3.

Lemma mapM_inv {A B} (f : A -> res B) l ys d : mapM f l = Ok ys -> ys = map (fun a => match f a with Ok y => y | Err _ => d end) l /\ forall a, In a l -> exists y, f a = Ok y.
Proof.
  revert ys. induction l as [|a l IH]; intros ys H; cbn in H.
  - injection H as <-. split; [reflexivity|intros a []].
  - destruct (f a) as [y|e] eqn:EF; [|discriminate H]. cbn [bind] in H. destruct (mapM f l) as [ys'|e]; [|discriminate H]. cbn [bind] in H.
    injection H as <-. destruct (IH ys' eq_refl) as [H1 H2]. split; [cbn; rewrite EF, <- H1; reflexivity|].
    intros b [<-|Hb]; [eauto|apply H2, Hb].
Qed.

Lemma in_keep l d s : In (d, s) (keep_entries l) -> eps < s.
Proof.
  unfold keep_entries. rewrite in_flat_map. intros ((d', [s'|]) & _ & H); [|contradiction].
  destruct (Rltb_spec eps s'); [|contradiction]. destruct H as [H|[]]. injection H as <- <-. assumption.
Qed.
Lemma keep_length l : (List.length (keep_entries l) <= List.length l)%nat.
Proof.
  unfold keep_entries. induction l as [|[d [s|]] l IH]; cbn; [lia| |lia]. destruct (Rltb eps s); cbn; lia.
Qed.

Lemma lsum_nonneg l : (forall v, In v l -> 0 <= v) -> 0 <= lsum l.
Proof.
  induction l as [|a l IH]; intros H; [unfold lsum; cbn; lra|]. change (0 <= a + lsum l). pose proof (H a (or_introl eq_refl)).
  specialize (IH (fun v Hv => H v (or_intror Hv))). lra.
Qed.

Lemma eps_val : 0 < eps < 1. Proof. unfold eps. split; lra. Qed.

Lemma exp_lsum_ln l : (forall v, In v l -> 0 < v) -> exp (lsum (map (fun s => ln (s * s)) l)) = lprod (map (fun x => x * x) l).
Proof.
  induction l as [|v l IH]; intros H; [apply exp_0|]. cbn [map lsum fold_right lprod]. 
  change (fold_right Rplus 0 (map (fun s => ln (s * s)) l)) with (lsum (map (fun s => ln (s * s)) l)).
  rewrite exp_plus, exp_ln by (pose proof (H v (or_introl eq_refl)); nra). f_equal. apply IH. intros w Hw. apply H. right. exact Hw.
Qed.
Lemma stats_well_formed L ct ndim n X y vg pi s : all_statistics L ct ndim n X y vg pi = Ok s -> stats_ok n s.
Proof.
  unfold all_statistics, find_statistics. intros H. bindok H.
  destruct a as [[delta sigma] epsilon]. cbn in H. injection H as <-.
  match goal with H : bind _ _ = Ok _ |- _ => bindok H; injection H as <- <- <- end.
  match goal with H : mapM _ _ = Ok ?l |- _ => apply (mapM_inv _ _ _ (0, None)) in H; destruct H as [HM _]; rename l into a' end.
  assert (KL : (List.length (keep_entries a') <= n - 1)%nat).
  { destruct n as [|n]; [rewrite HM; cbn; lia|]. rewrite HM. cbn [seq map]. unfold stat_entry at 1. cbn [Nat.eqb].
    assert (Z : forall r, keep_entries ((0, Some 0) :: r) = keep_entries r).
    { intros r. unfold keep_entries. cbn [flat_map]. destruct (Rltb_spec eps 0); [pose proof eps_val; lra|reflexivity]. }
    rewrite Z. eapply Nat.le_trans; [apply keep_length|]. rewrite map_length, seq_length. lia. }
  clear HM. set (kept := keep_entries a') in *.
  assert (HK : forall p, In p kept -> eps < snd p) by (intros [d s] Hp; apply (in_keep a' d s Hp)).
  pose proof eps_val as EV.
  assert (SQ : 0 <= lsum (map (fun e => e * e) (map (fun '(d, s) => d / s) kept))).
  { apply lsum_nonneg. intros v Hv. apply in_map_iff in Hv. destruct Hv as (u & <- & _). apply Rle_0_sqr. }
  assert (Q2P : forall q, calcQ2 (map (fun '(d, s) => d / s) kept) = Some q -> 0 <= q).
  { intros q. unfold calcQ2. rewrite map_length. destruct (Nat.eqb_spec (List.length kept) 1) as [|NE]; [discriminate|].
    intros H. injection H as <-. destruct kept as [|p kept'].
    - cbn. unfold Rdiv. rewrite Rmult_0_l. lra.
    - unfold Rdiv. apply Rmult_le_pos; [exact SQ|]. left. apply Rinv_0_lt_compat.
      assert (2 <= List.length (p :: kept'))%nat by (cbn in *; lia). apply le_INR in H. cbn in H. cbn. lra. }
  constructor; cbn [st_delta st_sigma st_epsilon st_Q1 st_Q2 st_cR]; rewrite ?map_length.
  - reflexivity.
  - reflexivity.
  - exact KL.
  - intros v Hv. apply in_map_iff in Hv. destruct Hv as (p & <- & Hp). apply HK, Hp.
  - intros k Hk. unfold rnth. set (h := fun '(d, s) => d / s : R).
    assert (N : forall (g : R * R -> R), nth k (map g kept) 0 = g (nth k kept (0, 0))).
    { intros g. rewrite (nth_indep _ 0 (g (0, 0))) by (rewrite map_length; exact Hk). apply map_nth. }
    rewrite !N. unfold h.
    pose proof (HK (nth k kept (0, 0)) (nth_In _ _ Hk)) as HS. destruct (nth k kept (0, 0)) as [d s]. cbn in *. field. lra.
  - intros q. unfold calcQ1. destruct (Nat.eqb _ 1); [discriminate|]. intros H. injection H as <-. apply Rabs_pos.
  - exact Q2P.
  - intros q. unfold calc_cR. destruct (calcQ2 _) as [q2|]; [|discriminate]. destruct (map snd kept); [discriminate|].
    intros H. injection H as <-. apply Rmult_le_pos; [apply Q2P; reflexivity|]. left. apply exp_pos.
  - intros H. unfold calcQ1, calcQ2. rewrite map_length. apply Nat.eqb_neq in H. rewrite H. split; discriminate.
  - intros H. unfold calc_cR, calcQ2. rewrite map_length. destruct (Nat.eqb_spec (List.length kept) 1); [lia|].
    destruct kept; [cbn in H; lia|]. discriminate.
  - intros Hm. unfold calcQ1, calcQ2, calc_cR. rewrite map_length in *.
    destruct (Nat.eqb_spec (List.length kept) 1) as [|NE]; [lia|].
    assert (ST : exists x r, map snd kept = x :: r) by (destruct kept as [|x r]; [cbn in Hm; lia|eexists _, _; reflexivity]).
    destruct ST as (x & r & ST). rewrite ST. rewrite <- ST.
    assert (MI : INR (List.length kept - 1) = INR (List.length kept) - 1) by (rewrite minus_INR by lia; reflexivity).
    assert (MP : 0 < INR (List.length kept) - 1) by (rewrite <- MI; apply lt_0_INR; lia).
    eexists _, _, _. split; [reflexivity|]. split; [reflexivity|]. split; [reflexivity|]. rewrite MI. split; [|split].
    + unfold Rdiv. rewrite Rabs_mult, (Rabs_right (/ _)) by (left; apply Rinv_0_lt_compat, MP). field. lra.
    + field. lra.
    + rewrite Rpow_mult_distr. f_equal. rewrite map_length.
      rewrite <- exp_lsum_ln; [|intros v Hv; apply in_map_iff in Hv; destruct Hv as (p & <- & Hp); pose proof (HK p Hp); lra].
      assert (PM : forall k yy, exp yy ^ k = exp (INR k * yy)).
      { induction k as [|k IH]; intros yy; [cbn; rewrite Rmult_0_l, exp_0; reflexivity|]. rewrite S_INR. cbn [pow]. rewrite IH, <- exp_plus. f_equal. ring. }
      rewrite PM. f_equal. field. lra.
Qed.


(** what an update leaves: old statistics, or those of the new object *)
Lemma update_stats E o v : let o' := fst (update_variogram_model E o v) in
  (o_stats o' = o_stats o /\ snd (update_variogram_model E o v) <> None) \/
  (snd (update_variogram_model E o v) = None /\ exists s,
     all_statistics (e_la E) (o_ct o') (o_dim o') (o_n o') (o_adj o') (o_values o') (o_vg o') (o_pinv o') = Ok s /\ o_stats o' = Some s).
Proof.
  unfold update_variogram_model. cbv zeta.
  destruct (resolve_gs E (o_class o) _ v) as [[[[[nm prm] fn] sc] an]|e]; [|left; split; [reflexivity|discriminate]].
  destruct (resolve_fun nm fn) as [f|e]; [|left; split; [reflexivity|discriminate]].
  set (o1 := set_fun _ f).
  set (oe := if aniso_differs _ _ _ _ _ then _ else _).
  assert (HS : o_stats (fst oe) = o_stats o /\ o_dim (fst oe) = o_dim o1).
  { unfold oe. destruct (aniso_differs _ _ _ _ _); [|split; reflexivity]. destruct (o_ct o1); [|split; reflexivity].
    destruct (adjust_for_anisotropy _ _ _ _ _ _); split; reflexivity. }
  destruct HS as [HS HD].
  destruct oe as [o2 [e|]]; cbn [fst] in HS, HD; [left; split; [exact HS|discriminate]|].
  destruct (make_parameter_list nm prm) as [vp|e]; [|left; split; [exact HS|discriminate]].
  assert (D : o_dim o1 = o_dim o) by reflexivity.
  destruct (initialize_variogram_model _ _ _ _ _ _ _ _ _ _ _ _) as [[[lags sv] params]|e]; [|left; split; [exact HS|discriminate]].
  set (o3 := set_variogram o2 lags sv params).
  destruct (all_statistics _ _ _ _ _ _ _ _) as [s|e] eqn:K; [|left; split; [exact HS|discriminate]].
  right. split; [reflexivity|]. exists s. split; [|reflexivity]. cbn [fst]. rewrite <- HD in K. exact K.
Qed.

Lemma construct_stats E c A o : construct E c A = Ok o -> (c = OK2 -> c_stat A = true) ->
  exists s, all_statistics (e_la E) (o_ct o) (o_dim o) (o_n o) (o_adj o) (o_values o) (o_vg o) (o_pinv o) = Ok s /\ o_stats o = Some s.
Proof.
  intros HC HS. pose proof (construct_inv E c A o HC) as (ex & nm & prm & fn & sc & an & f & vp & lags & sv & params & Hall).
  destruct Hall as (_&_&_&_&_&_&_&HST&Hc&Hp&_&_&_&Hf&Hpar&_&_&Hv&_).
  assert (K : exists s', all_statistics (e_la E) (o_ct o) (cdim c) (o_n o) (o_adj o) (rnth (c_values A)) (fcall f params) (c_pinv A) = Ok s' /\ o_stats o = Some s').
  { destruct c; try exact HST. rewrite (HS eq_refl) in HST. exact HST. }
  unfold o_dim. rewrite Hc, Hv, Hp. unfold o_vg. rewrite Hf, Hpar. exact K.
Qed.
Lemma construct_stats_none E A o : construct E OK2 A = Ok o -> c_stat A = false -> o_stats o = None.
Proof.
  intros HC HS. pose proof (construct_inv E OK2 A o HC) as (ex & nm & prm & fn & sc & an & f & vp & lags & sv & params & Hall).
  destruct Hall as (_&_&_&_&_&_&_&HST&_). rewrite HS in HST. exact HST.
Qed.

Theorem built_stats_ok E c A us o s : built E c A us o -> o_stats o = Some s -> stats_ok (o_n o) s.
Proof.
  intros (HL & o0 & HC & ->).
  assert (G : forall us o1, (forall s, o_stats o1 = Some s -> stats_ok (o_n o1) s) -> forall s, o_stats (after_updates E us o1) = Some s -> stats_ok (o_n (after_updates E us o1)) s).
  { clear. induction us as [|v us IH]; intros o1 H; [exact H|]. cbn [after_updates fold_left]. apply IH. clear IH.
    intros s Hs. pose proof (update_preserves E o1 v) as P. cbv zeta in P. destruct P as (_&_&_&_&_&Hn&_).
    destruct (update_stats E o1 v) as [[HO _]|(_ & s' & K & HO)]; rewrite HO in Hs.
    - rewrite Hn. apply H, Hs.
    - injection Hs as <-. apply stats_well_formed in K. exact K. }
  apply G. intros s0 Hs.
  assert (D : (c = OK2 -> c_stat A = true) \/ (c = OK2 /\ c_stat A = false)).
  { destruct c; try (left; discriminate). destruct (c_stat A); [left; reflexivity|right; split; reflexivity]. }
  destruct D as [D|[-> D]].
  - destruct (construct_stats E c A o0 HC D) as (s' & K1 & K2). rewrite K2 in Hs. injection Hs as <-. apply stats_well_formed in K1. exact K1.
  - rewrite (construct_stats_none E A o0 HC D) in Hs. discriminate Hs.
Qed.

(** cross validation *)
Lemma find_none_all {A} (p : A -> bool) l : (forall x, In x l -> p x = false) -> find p l = None.
Proof. induction l as [|a l IH]; intros H; [reflexivity|]. cbn. rewrite (H a (or_introl eq_refl)). apply IH. intros x Hx. apply H. right. exact Hx. Qed.

Lemma krige1_estimate L n vg d bd y k ss : linalg_ok L -> (forall j, (j < n)%nat -> eps < bd j) ->
  krige1 L n vg d bd y false = Ok (k, ss) ->
  OK_estimate n (data_semivariance vg d) (fun j => vg (bd j)) y k ss.
Proof.
  intros HL HD. unfold krige1.
  assert (Z : first_zero n bd = None).
  { apply find_none_all. intros j Hj. apply in_seq in Hj. specialize (HD j ltac:(lia)). fold eps. destruct (Rleb_spec (bd j) eps); [lra|reflexivity]. }
  rewrite Z. set (b := upd _ n 1).
  assert (HB : forall i, (i < n + 1)%nat -> b i = rhs_spec n (fun j => vg (bd j)) i).
  { intros i Hi. unfold b, rhs_spec. destruct (Nat.eqb_spec i n) as [->|NE]; [apply upd_same|]. rewrite upd_other by exact NE. reflexivity. }
  destruct (la_solve L (n + 1) (kriging_matrix n vg d) b) as [x|] eqn:EX; [|discriminate]. intros H. injection H as <- <-.
  destruct (solve_some L HL _ _ _ _ EX) as [_ HX].
  replace (bsum (n + 1) (fun k => x k * - b k)) with (bsum (n + 1) (fun k => x k * - rhs_spec n (fun j => vg (bd j)) k)).
  2: { apply bsum_ext. intros i Hi. rewrite (HB i Hi). reflexivity. }
  apply estimate_of_solution. intros i Hi. rewrite (HX i Hi). apply HB, Hi.
Qed.

Lemma OK_estimate_ext n G G' g g' z v s : (forall i j, (i < n)%nat -> (j < n)%nat -> G i j = G' i j) -> (forall i, (i < n)%nat -> g i = g' i) ->
  OK_estimate n G g z v s -> OK_estimate n G' g' z v s.
Proof.
  intros HG Hg (w & mu & (H1 & H2) & Hv & Hs). exists w, mu. split; [split|split].
  - intros i Hi. rewrite <- (Hg i Hi), <- (H1 i Hi). f_equal. apply bsum_ext. intros j Hj. rewrite (HG i j Hi Hj). reflexivity.
  - exact H2.
  - exact Hv.
  - rewrite Hs. f_equal. apply bsum_ext. intros i Hi. rewrite (Hg i Hi). reflexivity.
Qed.

Lemma keep_map F (ks : list nat) (v y s : nat -> R) :
  (forall i, In i ks -> F i = if Rltb (Rabs (s i)) eps then (0, Some 0) else (y i - v i, if Rltb (s i) 0 then None else Some (sqrt (s i)))) ->
  keep_entries (map F ks) = map (fun i => (y i - v i, sqrt (s i))) (filter (fun i => Rleb eps (s i)) ks).
Proof.
  induction ks as [|i ks IH]; intros H; [reflexivity|].
  assert (IH' : keep_entries (map F ks) = map (fun i => (y i - v i, sqrt (s i))) (filter (fun i => Rleb eps (s i)) ks)) by (apply IH; intros j Hj; apply H; right; exact Hj).
  cbn [map filter]. unfold keep_entries. cbn [flat_map]. fold (keep_entries (map F ks)). rewrite IH'.
  rewrite (H i (or_introl eq_refl)). pose proof eps_val as EV.
  destruct (Rltb_spec (Rabs (s i)) eps) as [LT|GE].
  - destruct (Rltb_spec eps 0); [lra|]. destruct (Rleb_spec eps (s i)) as [LE|_]; [|reflexivity].
    exfalso. rewrite Rabs_right in LT by lra. lra.
  - destruct (Rltb_spec (s i) 0) as [NEG|POS].
    + destruct (Rleb_spec eps (s i)); [lra|reflexivity].
    + rewrite Rabs_right in GE by lra. destruct (Rleb_spec eps (s i)) as [LE|]; [|lra].
      assert (eps < sqrt (s i)).
      { apply Rsqr_incrst_0; [|lra|apply sqrt_pos]. rewrite Rsqr_sqrt by lra. unfold Rsqr. apply Rlt_le_trans with eps; [|exact LE].
        rewrite <- (Rmult_1_r eps) at 3. apply Rmult_lt_compat_l; lra. }
      destruct (Rltb_spec eps (sqrt (s i))); [reflexivity|lra].
Qed.

Theorem statistics_validate E o st : env_ok E -> coords_inv o -> o_pinv o = false ->
  (forall i j, (i < j < o_n o)%nat -> eps < sep o i j) ->
  all_statistics (e_la E) (o_ct o) (o_dim o) (o_n o) (o_adj o) (o_values o) (o_vg o) (o_pinv o) = Ok st ->
  exists v s, predicted_from_before o v s /\ cross_validation o v s st.
Proof.
  intros (HL & _) HI HP HD H. rewrite HP in H. unfold all_statistics, find_statistics in H. bindok H.
  destruct a as [[delta sigma] epsilon]. cbn in H. injection H as <-.
  match goal with H : bind _ _ = Ok _ |- _ => bindok H; injection H as <- <- <- end.
  match goal with H : mapM _ _ = Ok ?l |- _ => apply (mapM_inv _ _ _ (0, None)) in H; destruct H as [HM HA]; rename l into a' end.
  set (kr := fun i => krige_first (e_la E) (o_ct o) (o_dim o) (o_adj o) (o_values o) (o_vg o) false i).
  set (v := fun i => match kr i with Ok (k, _) => k | Err _ => 0 end).
  set (s := fun i => match kr i with Ok (_, ss) => ss | Err _ => 0 end).
  assert (KR : forall i, (1 <= i < o_n o)%nat -> kr i = Ok (v i, s i)).
  { intros i Hi. destruct (HA i) as (y & Hy); [apply in_seq; lia|]. unfold stat_entry in Hy.
    destruct (Nat.eqb_spec i 0); [lia|]. unfold v, s. unfold kr. destruct (krige_first _ _ _ _ _ _ _ i) as [[k ss]|e]; [reflexivity|discriminate Hy]. }
  assert (SEP : forall i j, distance (o_ct o) (o_dim o) (o_adj o j) (o_adj o i) = separation o (datum o i) (datum o j) /\ distance (o_ct o) (o_dim o) (o_adj o i) (o_adj o j) = separation o (datum o i) (datum o j)).
  { intros i j. split; [rewrite separation_sym|]; symmetry; rewrite <- data_distances_sep by exact HI; reflexivity. }
  exists v, s. split.
  - intros i Hi. pose proof (KR i Hi) as K. unfold kr, krige_first in K. apply krige1_estimate in K; [|exact HL|].
    + eapply OK_estimate_ext; [| |exact K].
      * intros p q _ _. unfold G_of, data_semivariance. destruct (Nat.eqb p q); [reflexivity|]. f_equal. apply SEP.
      * intros p _. cbn beta. f_equal. apply SEP.
    + intros j Hj. rewrite (proj2 (SEP j i)). apply HD. lia.
  - assert (KE : keep_entries a' = map (fun i => (o_values o i - v i, sqrt (s i))) (filter (fun i => Rleb eps (s i)) (seq 1 (o_n o - 1)))).
    { rewrite HM. destruct (o_n o) as [|n] eqn:En; [reflexivity|]. cbn [seq map]. unfold stat_entry at 1. cbn [Nat.eqb].
      assert (Z : forall r, keep_entries ((0, Some 0) :: r) = keep_entries r).
      { intros r. unfold keep_entries. cbn [flat_map]. destruct (Rltb_spec eps 0); [pose proof eps_val; lra|reflexivity]. }
      rewrite Z. replace (S n - 1)%nat with n by lia. apply keep_map. intros i Hi. apply in_seq in Hi.
      unfold stat_entry. destruct (Nat.eqb_spec i 0); [lia|]. fold (kr i). rewrite (KR i) by lia. cbn [bind].
      destruct (Rltb (Rabs (s i)) eps); reflexivity. }
    unfold cross_validation. cbn [st_delta st_sigma st_epsilon]. rewrite KE, !map_map. cbn [fst snd]. split; [|split]; reflexivity.
Qed.

(** which objects carry statistics of their current variogram *)
Lemma update_success_stats E o v o' : update_variogram_model E o v = (o', None) -> exists s,
  all_statistics (e_la E) (o_ct o') (o_dim o') (o_n o') (o_adj o') (o_values o') (o_vg o') (o_pinv o') = Ok s /\ o_stats o' = Some s.
Proof.
  intros H. pose proof (update_stats E o v) as K. rewrite H in K. cbn in K. destruct K as [[_ K]|[_ K]]; [contradiction K; reflexivity|exact K].
Qed.

