(** Proofs for C34, C35: distance classes, experimental variogram. *)
From Coq Require Import String Permutation.
From Verif Require Import Base Sums Matrix M_Variogram M_Geometry S_Geometry P_Geometry M_Kriging S_Kriging M_Init M_Object M_Execute S_Execute
  S_Fit P_Binning P_Object.

(** *** Any increasing sequence of limits splits an interval into classes *)
Lemma class_exists (lim : nat -> R) d n : lim 0%nat <= d -> d < lim n ->
  exists k, (k < n)%nat /\ lim k <= d /\ d < lim (S k).
Proof.
  induction n as [|n IH]; intros H0 H1; [lra|].
  destruct (Rlt_le_dec d (lim n)) as [H|H].
  - destruct (IH H0 H) as (k & K & HK). exists k. split; [lia|exact HK].
  - exists n. split; [lia|]. split; assumption.
Qed.
Lemma lim_mono (lim : nat -> R) n : (forall k, (S k < n)%nat -> lim k <= lim (S k)) ->
  forall a b, (a <= b < n)%nat -> lim a <= lim b.
Proof.
  intros H a b. induction b as [|b IH]; intros Hb; [replace a with 0%nat by lia; lra|].
  destruct (Nat.eq_dec a (S b)) as [->|]; [lra|]. eapply Rle_trans; [apply IH; lia|apply H; lia].
Qed.
Lemma class_unique (lim : nat -> R) d n a b : (forall k, (S k < n)%nat -> lim k <= lim (S k)) ->
  (a < n)%nat -> (b < n)%nat -> lim a <= d -> d < lim (S a) -> lim b <= d -> d < lim (S b) -> a = b.
Proof.
  intros HM Ha Hb A1 A2 B1 B2.
  assert (K : forall x y, (x < y < n)%nat -> d < lim (S x) -> lim y <= d -> False).
  { intros x y Hxy H1 H2. pose proof (lim_mono lim n HM (S x) y ltac:(lia)). lra. }
  destruct (lt_eq_lt_dec a b) as [[H|H]|H]; [|exact H|]; exfalso; [apply (K a b); auto|apply (K b a); auto].
Qed.

(** *** Counting *)
Lemma count_classes {A} (n : nat) (c : nat -> A -> bool) (l : list A) :
  (forall a, In a l -> exists k, (k < n)%nat /\ c k a = true /\ forall k', (k' < n)%nat -> c k' a = true -> k' = k) ->
  list_sum (map (fun k => List.length (filter (c k) l)) (seq 0 n)) = List.length l.
Proof.
  intros H. induction l as [|a l IH].
  - clear. induction (seq 0 n) as [|k s IH]; [reflexivity|exact IH].
  - assert (E : forall s, list_sum (map (fun k => List.length (filter (c k) (a :: l))) s) =
        (list_sum (map (fun k => List.length (filter (c k) l)) s) + List.length (filter (fun k => c k a) s))%nat).
    { induction s as [|k s IHs]; [reflexivity|].
      change (map (fun k => List.length (filter (c k) (a :: l))) (k :: s)) with (List.length (filter (c k) (a :: l)) :: map (fun k => List.length (filter (c k) (a :: l))) s).
      change (map (fun k => List.length (filter (c k) l)) (k :: s)) with (List.length (filter (c k) l) :: map (fun k => List.length (filter (c k) l)) s).
      assert (LS : forall x r, list_sum (x :: r) = (x + list_sum r)%nat) by reflexivity.
      rewrite !LS, IHs. cbn [filter]. destruct (c k a); cbn [List.length]; lia. }
    rewrite E, IH by (intros b Hb; apply H; right; exact Hb). clear E IH.
    destruct (H a (or_introl eq_refl)) as (k & Hk & Hc & Hu).
    assert (F : List.length (filter (fun k => c k a) (seq 0 n)) = 1%nat).
    { assert (P : Permutation (filter (fun k => c k a) (seq 0 n)) [k]).
      { apply NoDup_Permutation; [apply NoDup_filter, seq_NoDup|repeat constructor; intros []|].
        intros x. rewrite filter_In, in_seq. split.
        - intros [H1 H2]. left. symmetry. apply Hu; [lia|exact H2].
        - intros [<-|[]]. split; [lia|exact Hc]. }
      apply Permutation_length in P. exact P. }
    rewrite F. cbn [List.length]. lia.
Qed.

(** *** Real arithmetic *)
Lemma bin_limit_R dmin dmax nlags k : (k < nlags)%nat -> bin_limit Rops dmin dmax nlags k = dmin + INR k * ((dmax - dmin) / INR nlags).
Proof. intros H. unfold bin_limit. apply Nat.ltb_lt in H. rewrite H. reflexivity. Qed.
Lemma bin_limit_top dmin dmax nlags : bin_limit Rops dmin dmax nlags nlags = dmax + / 1000.
Proof. unfold bin_limit. rewrite Nat.ltb_irrefl. reflexivity. Qed.

Lemma in_bin_class dmin dmax nlags k d : (k < nlags)%nat -> dmin <= d <= dmax ->
  (in_bin Rops dmin dmax nlags k d = true <-> lag_class dmin dmax nlags k d).
Proof.
  intros Hk Hd. unfold in_bin, lag_class. cbn [n_leb n_ltb Rops num]. rewrite andb_true_iff, Rleb_true, Rltb_true, bin_limit_R by exact Hk.
  destruct (Nat.eq_dec (S k) nlags) as [E|E].
  - rewrite E, bin_limit_top. split; intros [H1 H2]; split; auto; lra.
  - rewrite bin_limit_R by lia. tauto.
Qed.

Lemma class_width dmin dmax nlags : dmin <= dmax -> (1 <= nlags)%nat -> 0 <= (dmax - dmin) / INR nlags.
Proof. intros H Hn. unfold Rdiv. apply Rmult_le_pos; [lra|]. left. apply Rinv_0_lt_compat, lt_0_INR. lia. Qed.

Lemma in_bin_once dmin dmax nlags d : (1 <= nlags)%nat -> dmin <= d <= dmax ->
  exists k, (k < nlags)%nat /\ in_bin Rops dmin dmax nlags k d = true /\
    forall k', (k' < nlags)%nat -> in_bin Rops dmin dmax nlags k' d = true -> k' = k.
Proof.
  intros Hn Hd. set (lim := bin_limit Rops dmin dmax nlags).
  assert (HM : forall k, (S k < nlags)%nat -> lim k <= lim (S k)).
  { intros k Hk. unfold lim. rewrite !bin_limit_R by lia. rewrite S_INR. pose proof (class_width dmin dmax nlags ltac:(lra) Hn). lra. }
  destruct (class_exists lim d nlags) as (k & Hk & H1 & H2).
  - unfold lim. rewrite bin_limit_R by lia. cbn [INR]. lra.
  - unfold lim. rewrite bin_limit_top. lra.
  - exists k. split; [exact Hk|]. split.
    + unfold in_bin. cbn [n_leb n_ltb Rops num]. apply andb_true_iff. split; [apply Rleb_true, H1|apply Rltb_true, H2].
    + intros k' Hk' HB. unfold in_bin in HB. cbn [n_leb n_ltb Rops num] in HB. apply andb_true_iff in HB.
      destruct HB as [B1 B2]. apply Rleb_true in B1. apply Rltb_true in B2.
      apply (class_unique lim d nlags k' k HM Hk' Hk B1 B2 H1 H2).
Qed.

(** *** the experimental variogram of an object *)
Definition members_of (ct : coord_type) (n : nat) (D : nat -> nat -> R) dmin dmax nlags k : list (nat * nat) :=
  filter (fun p => in_bin Rops dmin dmax nlags k (D (fst p) (snd p))) (pairs ct n).

Lemma filter_map' {A B} (f : A -> B) (p : B -> bool) l : filter p (map f l) = map f (filter (fun a => p (f a)) l).
Proof. induction l as [|a l IH]; [reflexivity|]. cbn. destruct (p (f a)); cbn; rewrite IH; reflexivity. Qed.

Lemma drop_nan_map {A} (f : nat -> option A) (g : nat -> A) (ok : nat -> bool) l :
  (forall k, In k l -> f k = if ok k then Some (g k) else None) -> drop_nan (map f l) = map g (filter ok l).
Proof.
  induction l as [|k l IH]; intros H; [reflexivity|]. cbn [map drop_nan flat_map filter]. rewrite (H k (or_introl eq_refl)).
  change (flat_map (fun o : option A => match o with Some a => [a] | None => [] end) (map f l)) with (drop_nan (map f l)).
  rewrite IH by (intros; apply H; right; assumption). destruct (ok k); reflexivity.
Qed.

Lemma experimental_inv ct ndim n nlags X y ls : experimental_variogram ct ndim n nlags X y = Ok ls ->
  let D i j := distance ct ndim (X i) (X j) in
  exists dmin dmax, extremes n D dmin dmax /\
    experimental n D y nlags (members_of ct n D dmin dmax nlags) (map fst ls) (map snd ls).
Proof.
  intros H D. unfold experimental_variogram, experimental_gen in H.
  match type of H with match ?a with _ => _ end = _ => destruct a as [dmax|] eqn:EX; [|discriminate H] end.
  match type of H with match ?a with _ => _ end = _ => destruct a as [dmin|] eqn:EN; [|discriminate H] end.
  apply amax_spec in EX. apply amin_spec in EN.
  assert (HD : forall v, In v (map fst (pair_data ct ndim n X y)) <-> exists i j, (i < j < n)%nat /\ D i j = v).
  { intros v. unfold pair_data. rewrite map_map, in_map_iff. split.
    - intros ((i, j) & E & Hin). exists i, j. apply in_pairs in Hin. split; [exact Hin|exact E].
    - intros (i & j & Hij & E). exists (i, j). split; [exact E|]. apply in_pairs, Hij. }
  exists dmin, dmax. split.
  - destruct EX as [X1 X2], EN as [N1 N2]. split; [apply HD, N1|]. split; [apply HD, X1|].
    intros i j Hij. split; [apply N2|apply X2]; apply HD; exists i, j; auto.
  - injection H as <-.
    assert (HB : forall k, bin_entry Rops dmin dmax nlags (pair_data ct ndim n X y) k =
       if nonempty (members_of ct n D dmin dmax nlags k) then
         Some (mean (map (fun p => D (fst p) (snd p)) (members_of ct n D dmin dmax nlags k)),
               mean (map (fun p => (y (fst p) - y (snd p))² / 2) (members_of ct n D dmin dmax nlags k))) else None).
    { intros k. unfold bin_entry. 
      replace (bin_members Rops dmin dmax nlags k (pair_data ct ndim n X y)) with
        (map (fun p => (D (fst p) (snd p), (y (fst p) - y (snd p))² / 2)) (members_of ct n D dmin dmax nlags k)).
      2:{ unfold bin_members, pair_data, members_of. rewrite filter_map'. cbn [num Rops].
          transitivity (map (fun '(i, j) => (distance ct ndim (X i) (X j), / 2 * ((y i - y j) * (y i - y j))))
             (filter (fun p => in_bin Rops dmin dmax nlags k (D (fst p) (snd p))) (pairs ct n))).
          - apply map_ext. intros [i j]. cbn [fst snd]. f_equal. unfold Rsqr. field.
          - f_equal. apply filter_ext. intros [i j]. reflexivity. }
      destruct (members_of ct n D dmin dmax nlags k) as [|p l]; [reflexivity|]. cbn [map nonempty]. f_equal.
      rewrite !mean_lsum. unfold mean. cbn [map fst snd]. rewrite !map_map. reflexivity. }
    set (M := members_of ct n D dmin dmax nlags) in *.
    rewrite (drop_nan_map _ (fun k => (mean (map (fun p => D (fst p) (snd p)) (M k)), mean (map (fun p => (y (fst p) - y (snd p))² / 2) (M k))))
       (fun k => nonempty (M k))) by (intros k _; apply HB).
    split; rewrite map_map; reflexivity.
Qed.

Lemma members_classes ct n D dmin dmax nlags : extremes n D dmin dmax ->
  classes n D dmin dmax nlags (members_of ct n D dmin dmax nlags).
Proof.
  intros (_ & _ & HE) k Hk. split; [apply NoDup_filter, NoDup_pairs|].
  intros i j. unfold members_of. rewrite filter_In, in_pairs. cbn [fst snd]. split.
  - intros [H1 H2]. split; [exact H1|]. apply in_bin_class; auto.
  - intros [H1 H2]. split; [exact H1|]. apply in_bin_class; auto.
Qed.

Lemma members_once ct n D dmin dmax nlags : extremes n D dmin dmax -> (1 <= nlags)%nat ->
  (forall i j, (i < j < n)%nat -> exists k, (k < nlags)%nat /\ In (i, j) (members_of ct n D dmin dmax nlags k) /\
      forall k', (k' < nlags)%nat -> In (i, j) (members_of ct n D dmin dmax nlags k') -> k' = k) /\
  list_sum (map (fun k => List.length (members_of ct n D dmin dmax nlags k)) (seq 0 nlags)) = (n * (n - 1) / 2)%nat.
Proof.
  intros (_ & _ & HE) Hn. split.
  - intros i j Hij. destruct (in_bin_once dmin dmax nlags (D i j) Hn (HE i j Hij)) as (k & Hk & H1 & H2).
    exists k. split; [exact Hk|]. unfold members_of. split; [apply filter_In; split; [apply in_pairs, Hij|exact H1]|].
    intros k' Hk' H. apply filter_In in H. apply H2; [exact Hk'|apply H].
  - rewrite <- (pairs_length ct n).
    apply (count_classes nlags (fun k p => in_bin Rops dmin dmax nlags k (D (fst p) (snd p)))).
    intros [i j] Hin. apply in_pairs in Hin. apply in_bin_once; [exact Hn|]. apply HE, Hin.
Qed.

(** *** C35 *)
Lemma lsum_bounds l lo hi : (forall v, In v l -> lo <= v <= hi) -> INR (List.length l) * lo <= lsum l <= INR (List.length l) * hi.
Proof.
  induction l as [|a l IH]; intros H; [cbn; unfold lsum; cbn; lra|].
  change (lsum (a :: l)) with (a + lsum l). cbn [List.length]. rewrite S_INR.
  pose proof (H a (or_introl eq_refl)). specialize (IH (fun v Hv => H v (or_intror Hv))). lra.
Qed.
Lemma mean_bounds l lo hi : l <> [] -> (forall v, In v l -> lo <= v <= hi) -> lo <= mean l <= hi.
Proof.
  intros Hl H. pose proof (lsum_bounds l lo hi H) as [H1 H2]. unfold mean.
  assert (HN : 0 < INR (List.length l)) by (apply lt_0_INR; destruct l; [contradiction|cbn; lia]).
  split.
  - apply (Rmult_le_reg_r (INR (List.length l))); [exact HN|]. unfold Rdiv. rewrite Rmult_assoc, Rinv_l by lra. lra.
  - apply (Rmult_le_reg_r (INR (List.length l))); [exact HN|]. unfold Rdiv. rewrite Rmult_assoc, Rinv_l by lra. lra.
Qed.
Lemma lsum_lt l hi : l <> [] -> (forall v, In v l -> v < hi) -> lsum l < INR (List.length l) * hi.
Proof.
  induction l as [|a l IH]; intros Hl H; [contradiction|].
  change (lsum (a :: l)) with (a + lsum l). cbn [List.length]. rewrite S_INR. pose proof (H a (or_introl eq_refl)).
  destruct l as [|b l]; [unfold lsum; cbn; lra|]. specialize (IH ltac:(discriminate) (fun v Hv => H v (or_intror Hv))). lra.
Qed.
Lemma mean_lt l hi : l <> [] -> (forall v, In v l -> v < hi) -> mean l < hi.
Proof.
  intros Hl H. pose proof (lsum_lt l hi Hl H) as H1. unfold mean.
  assert (HN : 0 < INR (List.length l)) by (apply lt_0_INR; destruct l; [contradiction|cbn; lia]).
  apply (Rmult_lt_reg_r (INR (List.length l))); [exact HN|]. unfold Rdiv. rewrite Rmult_assoc, Rinv_l by lra. lra.
Qed.

Lemma filter_seq_increasing' (p : nat -> bool) n : forall i j s,
  (i < j)%nat -> (j < List.length (filter p (seq s n)))%nat -> (nth i (filter p (seq s n)) 0 < nth j (filter p (seq s n)) 0)%nat.
Proof.
  induction n as [|n IH]; intros i j s Hij Hj; [cbn in Hj; lia|].
  cbn [seq filter] in *. destruct (p s).
  - destruct j as [|j]; [lia|]. cbn [List.length] in Hj. cbn [nth].
    destruct i as [|i]; [|apply IH; lia].
    assert (HI : In (nth j (filter p (seq (S s) n)) 0%nat) (filter p (seq (S s) n))) by (apply nth_In; lia).
    apply filter_In in HI. destruct HI as [HI _]. apply in_seq in HI. lia.
  - apply IH; assumption.
Qed.
Lemma filter_seq_increasing (p : nat -> bool) n i j :
  (i < j)%nat -> (j < List.length (filter p (seq 0 n)))%nat -> (nth i (filter p (seq 0 n)) 0 < nth j (filter p (seq 0 n)) 0)%nat.
Proof. apply filter_seq_increasing'. Qed.

Lemma filter_length_le' {A} (p : A -> bool) l : (List.length (filter p l) <= List.length l)%nat.
Proof. induction l as [|a l IH]; cbn; [lia|]. destruct (p a); cbn; lia. Qed.

Lemma experimental_shape n D z nlags dmin dmax members lags sv :
  (1 <= nlags)%nat -> extremes n D dmin dmax -> classes n D dmin dmax nlags members -> experimental n D z nlags members lags sv ->
  List.length lags = List.length sv /\ (1 <= List.length lags <= nlags)%nat /\ increasing lags /\
  (forall v, In v lags -> dmin <= v <= dmax) /\
  (forall v m, (forall i j, (i < j < n)%nat -> (z i - z j)² / 2 <= m) -> In v sv -> 0 <= v <= m).
Proof.
  intros Hn HE HC [H1 H2].
  set (ks := filter (fun k => nonempty (members k)) (seq 0 nlags)) in *.
  assert (HK : forall k, In k ks -> (k < nlags)%nat /\ members k <> []).
  { intros k Hk. unfold ks in Hk. apply filter_In in Hk. destruct Hk as [K1 K2]. apply in_seq in K1.
    split; [lia|]. destruct (members k); [discriminate K2|discriminate]. }
  assert (HM : forall (f : nat -> nat -> R) k, In k ks -> map (fun p => f (fst p) (snd p)) (members k) <> []).
  { intros f k Hk E. apply map_eq_nil in E. apply (HK k Hk), E. }
  split; [rewrite H1, H2, !map_length; reflexivity|]. split.
  - rewrite H1, map_length. split.
    + destruct HE as ((i & j & Hij & HD) & (i' & j' & Hij' & HD') & HE).
      (* the class of the smallest distance is not empty *)
      destruct (in_bin_once dmin dmax nlags (D i j) Hn (HE i j Hij)) as (k & Hk & HB & _).
      assert (Hin : In k ks).
      { unfold ks. apply filter_In. split; [apply in_seq; lia|].
        destruct (HC k Hk) as [_ HC']. assert (In (i, j) (members k)) by (apply HC'; split; [exact Hij|]; apply in_bin_class; auto).
        destruct (members k); [contradiction|reflexivity]. }
      destruct ks; [contradiction|cbn; lia].
    + unfold ks. pose proof (filter_length_le' (fun k => nonempty (members k)) (seq 0 nlags)) as L. rewrite seq_length in L. exact L.
  - split; [|split].
    + intros i j Hij Hj. rewrite H1 in *. rewrite map_length in Hj. unfold rnth.
      rewrite !(nth_indep _ 0 (mean (map (fun p => D (fst p) (snd p)) (members 0%nat)))) by (rewrite map_length; lia).
      rewrite !(map_nth (fun k => mean (map (fun p => D (fst p) (snd p)) (members k)))).
      pose proof (filter_seq_increasing (fun k => nonempty (members k)) nlags i j Hij Hj) as HL. fold ks in HL.
      set (a := nth i ks 0%nat) in *. set (b := nth j ks 0%nat) in *.
      assert (Ha : In a ks) by (apply nth_In; lia). assert (Hb : In b ks) by (apply nth_In; lia).
      destruct (HK a Ha) as [Ka _]. destruct (HK b Hb) as [Kb _].
      set (w := (dmax - dmin) / INR nlags).
      assert (Hw : 0 <= w).
      { apply class_width; [|exact Hn]. destruct HE as ((i' & j' & Hij' & HD) & _ & HE). specialize (HE i' j' Hij'). lra. }
      apply Rlt_le_trans with (dmin + INR (S a) * w).
      * apply mean_lt; [apply HM, Ha|]. intros v Hv. apply in_map_iff in Hv. destruct Hv as ([i' j'] & <- & Hin). cbn [fst snd].
        apply (proj2 (HC a Ka)) in Hin. destruct Hin as [_ [_ [L|L]]]; [exact L|lia].
      * apply Rle_trans with (dmin + INR b * w).
        -- apply Rplus_le_compat_l, Rmult_le_compat_r; [exact Hw|]. apply le_INR. lia.
        -- eapply proj1. apply (mean_bounds _ _ dmax); [apply HM, Hb|]. intros v Hv. apply in_map_iff in Hv. destruct Hv as ([i' j'] & <- & Hin). cbn [fst snd].
           apply (proj2 (HC b Kb)) in Hin. destruct Hin as [Hp [L _]]. split; [exact L|]. apply HE, Hp.
    + intros v Hv. rewrite H1 in Hv. apply in_map_iff in Hv. destruct Hv as (k & <- & Hk). destruct (HK k Hk) as [Kk _].
      apply mean_bounds; [apply HM, Hk|]. intros v Hv. apply in_map_iff in Hv. destruct Hv as ([i j] & <- & Hin). cbn [fst snd].
      apply (proj2 (HC k Kk)) in Hin. apply HE, Hin.
    + intros v m Hm Hv. rewrite H2 in Hv. apply in_map_iff in Hv. destruct Hv as (k & <- & Hk). destruct (HK k Hk) as [Kk _].
      apply mean_bounds; [apply (HM (fun a b => (z a - z b)² / 2)), Hk|]. intros v Hv. apply in_map_iff in Hv. destruct Hv as ([i j] & <- & Hin). cbn [fst snd].
      apply (proj2 (HC k Kk)) in Hin. split; [|apply Hm, Hin]. pose proof (Rle_0_sqr (z i - z j)). lra.
Qed.
