(** Proofs: C84, data values some of which are NaN. *)
From Coq Require Import String FunctionalExtensionality.
From Verif Require Import Base Sums Matrix M_Variogram P_Variogram M_Geometry S_Geometry M_Kriging S_Kriging
  P_Kriging M_Init M_Object M_Execute S_Execute P_Object P_Execute P_Cells P_Window P_WindowExec P_Master P_Det P_OK
  S_Fit P_Binning P_Fit P_Fit2 P_Fit3 P_Fit4 P_Fit5 P_Linear M_Values S_Values P_Values P_Values2.

Theorem nan_raises E o q z e : execute_v Nval E o z q = Err e <-> execute E o q = Err e.
Proof.
  rewrite execute_R, (execute_eval Rval), (execute_eval Nval). destruct (execute_v Fval E o TVar q); cbn [map_res]; split; congruence.
Qed.

Theorem nan_values E o q z r : run E o q r -> (forall i v, (i < o_n o)%nat -> z i = Some v -> o_values o i = v) ->
  exists rn, execute_v Nval E o z q = Ok rn /\ nan_result o q z r rn.
Proof.
  intros HR HZ. destruct (run_inv _ _ _ _ HR) as (HE & Hinv & Hord & HF & H).
  rewrite (execute_eval Nval E o z q). pose proof H as H0. rewrite execute_R, (execute_eval Rval) in H0.
  destruct (execute_v Fval E o TVar q) as [rt|] eqn:HT; cbn [map_res] in *; [|discriminate].
  injection H0 as H0. exists (hr Fval Nval (eval Nval z) rt). split; [reflexivity|].
  destruct (execute_terms E o q rt HT) as (l & pts & HL & HA & HP).
  assert (Hv : forall p, r_value r p = option_map (eval Rval (o_values o)) (rv_value rt p)) by (intros p; rewrite <- H0; reflexivity).
  unfold nan_result. cbn [hr rv_shape rv_value rv_variance]. repeat split.
  - rewrite <- H0. reflexivity.
  - intros p. rewrite <- H0. reflexivity.
  - rewrite Hv. destruct (rv_value rt p); [discriminate|reflexivity].
  - rewrite Hv. destruct (rv_value rt p); [discriminate|reflexivity].
  - intros p pos HS. pose proof HS as [C Hh].
    destruct (locate_cell _ _ _ _ _ (o_dim_cases o) HL C) as [Hp Hpos].
    assert (Hm : l_mask l p = false).
    { destruct (locate_facts _ _ _ _ _ (o_dim_cases o) HL) as [_ [Hs|Hs]]; [|apply Hs].
      destruct (l_mask l p) eqn:Em; [|reflexivity]. exfalso. apply Hh. apply (cell_hidden_mask _ _ _ _ _ (o_dim_cases o) HL C).
      rewrite Hs, Em. reflexivity. }
    destruct (HP p Hp Hm) as (t & Ht & Hu). unfold used in Hu.
    assert (HU : exists m sel, uses o q pos m sel /\ (forall a, (a < m)%nat -> (sel a < o_n o)%nat) /\ made_of m sel t).
    { destruct (q_window q) as [k|] eqn:HW.
      - destruct (window_value E o q k r p pos HE Hinv Hord HF HW H C Hh) as (Hk & l' & pts' & v & s & HL' & HA' & _ & _ & HN & _).
        assert (l' = l) by congruence. subst l'. assert (pts' = pts) by congruence. subst pts'.
        exists k, (snd (neighbours E o pts k p)). split; [unfold uses; rewrite HW; auto|]. split; [|exact Hu]. intros a Ha. apply HN, Ha.
      - exists (o_n o), (fun k => k). split; [unfold uses; rewrite HW; auto|]. split; [auto|exact Hu]. }
    destruct HU as (m & sel & U1 & U2 & U3). exists m, sel. split; [exact U1|]. split; [exact U2|]. rewrite Hv, Ht. cbn [option_map]. split.
    + intros (a & Ha & Hz). f_equal. apply eval_nan. exists (sel a). split; [apply U3; exists a; auto|exact Hz].
    + intros Hz. exists (eval Rval (o_values o) t). split; [reflexivity|]. f_equal. apply eval_number.
      intros i Hi. apply U3 in Hi. destruct Hi as (a & Ha & ->). specialize (Hz a Ha). destruct (z (sel a)) as [v|] eqn:Ez; [|contradiction].
      rewrite (HZ (sel a) v (U2 a Ha) Ez). reflexivity.
Qed.

(** ---- the constructor ---- *)
Definition with_exp (o : obj) (z : vec) (lags sv : list R) : obj :=
  {| o_class := o_class o; o_pinv := o_pinv o; o_pinv_type := o_pinv_type o; o_exact := o_exact o;
     o_ct := o_ct o; o_model := o_model o; o_fun := o_fun o; o_params := o_params o;
     o_n := o_n o; o_orig := o_orig o; o_values := z;
     o_center := o_center o; o_scaling := o_scaling o; o_angle := o_angle o; o_adj := o_adj o;
     o_lags := lags; o_semivariance := sv; o_stats := None;
     o_verbose := o_verbose o; o_plotting := o_plotting o |}.
Lemma execute_with_exp A E o z lags sv Z q : execute_v A E (with_exp o z lags sv) Z q = execute_v A E o Z q.
Proof. reflexivity. Qed.

Definition liftd (l : list R) : list (option R) := map Some l.
Lemma nan_amax l : amax_gen Nops (map Some l) = option_map Some (amax_gen Rops l).
Proof.
  destruct l as [|x l]; [reflexivity|]. cbn [map amax_gen option_map]. f_equal. revert x.
  induction l as [|y l IH]; intros x; [reflexivity|]. cbn [map fold_left]. rewrite <- IH. f_equal. cbn [n_ltb Nops Rops ncmp]. destruct (Rltb x y); reflexivity.
Qed.
Lemma nan_amin l : amin_gen Nops (map Some l) = option_map Some (amin_gen Rops l).
Proof.
  destruct l as [|x l]; [reflexivity|]. cbn [map amin_gen option_map]. f_equal. revert x.
  induction l as [|y l IH]; intros x; [reflexivity|]. cbn [map fold_left]. rewrite <- IH. f_equal. cbn [n_ltb Nops Rops ncmp]. destruct (Rltb y x); reflexivity.
Qed.
Lemma nan_bin_limit dmin dmax nlags k : bin_limit Nops (Some dmin) (Some dmax) nlags k = Some (bin_limit Rops dmin dmax nlags k).
Proof. unfold bin_limit. destruct (Nat.ltb k nlags); reflexivity. Qed.
Lemma nan_in_bin dmin dmax nlags k d : in_bin Nops (Some dmin) (Some dmax) nlags k (Some d) = in_bin Rops dmin dmax nlags k d.
Proof. unfold in_bin. rewrite !nan_bin_limit. reflexivity. Qed.

Lemma nan_sum l : forall a, fold_left nadd l a = 
  match a with None => None | Some a => if forallb is_number l then Some (fold_left Rplus (map number l) a) else None end.
Proof.
  induction l as [|x l IH]; intros [a|]; cbn [fold_left forallb map]; try reflexivity.
  - rewrite IH. destruct x as [v|]; reflexivity.
  - rewrite IH. reflexivity.
Qed.
Lemma nan_mean l : mean_gen Nops l = if forallb is_number l then Some (mean_gen Rops (map number l)) else None.
Proof.
  unfold mean_gen. cbn [n_div n_add n_of_nat Nops]. rewrite nan_sum. destruct (forallb is_number l); [|reflexivity].
  cbn [ndiv]. rewrite map_length. reflexivity.
Qed.

Lemma experimental_nan_inv ct ndim n nlags X y ls : experimental_nan ct ndim n nlags X y = Ok ls ->
  let D i j := distance ct ndim (X i) (X j) in
  exists dmin dmax, extremes n D dmin dmax /\
    experimental_known n D y nlags (members_of ct n D dmin dmax nlags) (map fst ls) (map snd ls).
Proof.
  intros H D. unfold experimental_nan, experimental_gen in H.
  assert (HF : map fst (pair_data_nan ct ndim n X y) = map Some (map (fun p => D (fst p) (snd p)) (pairs ct n))).
  { unfold pair_data_nan. rewrite !map_map. apply map_ext. intros [i j]. reflexivity. }
  change (num Nops) with (option R) in H. rewrite HF in H. rewrite nan_amax, nan_amin in H. clear HF.
  destruct (amax_gen Rops _) as [dmax|] eqn:EX; cbn [option_map] in H; [|discriminate H].
  destruct (amin_gen Rops _) as [dmin|] eqn:EN; cbn [option_map] in H; [|discriminate H].
  cbn [bind] in H. apply amax_spec in EX. apply amin_spec in EN.
  assert (HD : forall v, In v (map (fun p => D (fst p) (snd p)) (pairs ct n)) <-> exists i j, (i < j < n)%nat /\ D i j = v).
  { intros v. rewrite in_map_iff. split.
    - intros ((i, j) & E & Hin). exists i, j. apply in_pairs in Hin. split; [exact Hin|exact E].
    - intros (i & j & Hij & E). exists (i, j). split; [exact E|]. apply in_pairs, Hij. }
  exists dmin, dmax. split.
  - destruct EX as [X1 X2], EN as [N1 N2]. split; [apply HD, N1|]. split; [apply HD, X1|].
    intros i j Hij. split; [apply N2|apply X2]; apply HD; exists i, j; auto.
  - injection H as <-.
    set (M := members_of ct n D dmin dmax nlags).
    set (clean := fun k => forallb (fun p => is_number (y (fst p)) && is_number (y (snd p))) (M k)).
    set (md := fun k => mean (map (fun p => D (fst p) (snd p)) (M k))).
    set (mg := fun k => mean (map (fun p => (number (y (fst p)) - number (y (snd p)))² / 2) (M k))).
    assert (HB : forall k, bin_entry Nops (Some dmin) (Some dmax) nlags (pair_data_nan ct ndim n X y) k =
       if nonempty (M k) then Some (Some (md k), if clean k then Some (mg k) else None) else None).
    { intros k. unfold bin_entry.
      set (G := fun p : nat * nat => nmul2 (Some (/ 2)) (nmul2 (nsub (y (fst p)) (y (snd p))) (nsub (y (fst p)) (y (snd p))))).
      replace (bin_members Nops (Some dmin) (Some dmax) nlags k (pair_data_nan ct ndim n X y)) with
        (map (fun p => (Some (D (fst p) (snd p)), G p)) (M k)).
      2:{ unfold bin_members, pair_data_nan, M, members_of. rewrite filter_map'. cbn [num Nops].
          transitivity (map (fun '(i, j) => (Some (distance ct ndim (X i) (X j)), nmul2 (Some (/ 2)) (nmul2 (nsub (y i) (y j)) (nsub (y i) (y j)))))
             (filter (fun p => in_bin Rops dmin dmax nlags k (D (fst p) (snd p))) (pairs ct n))).
          - apply map_ext. intros [i j]. reflexivity.
          - f_equal. apply filter_ext. intros [i j]. cbn [fst snd]. rewrite nan_in_bin. reflexivity. }
      assert (E1 : mean_gen Nops (map fst (map (fun p => (Some (D (fst p) (snd p)), G p)) (M k))) = Some (md k)).
      { rewrite map_map. cbn [fst]. rewrite nan_mean.
        replace (forallb is_number _) with true.
        - rewrite map_map. cbn [number]. rewrite mean_lsum. reflexivity.
        - symmetry. apply forallb_forall. intros x Hx. apply in_map_iff in Hx. destruct Hx as (p & <- & _). reflexivity. }
      assert (E2 : mean_gen Nops (map snd (map (fun p => (Some (D (fst p) (snd p)), G p)) (M k))) = if clean k then Some (mg k) else None).
      { rewrite map_map. cbn [snd]. etransitivity; [apply nan_mean|].
        assert (HG : forall p, is_number (G p) = is_number (y (fst p)) && is_number (y (snd p))).
        { intros p. unfold G. destruct (y (fst p)), (y (snd p)); reflexivity. }
        assert (HC : forallb is_number (map G (M k)) = clean k).
        { unfold clean. clear - HG. induction (M k) as [|p l IH]; [reflexivity|]. cbn [map forallb]. rewrite HG, IH. reflexivity. }
        match goal with |- (if ?b then _ else _) = _ => change b with (forallb is_number (map G (M k))) end.
        rewrite HC. destruct (clean k) eqn:EF; [|reflexivity]. unfold clean in EF. unfold mg. f_equal. rewrite mean_lsum, map_map. unfold mean. rewrite !map_length. f_equal. f_equal.
        apply map_ext_in. intros p Hp. rewrite forallb_forall in EF. specialize (EF p Hp). apply andb_true_iff in EF. destruct EF as [F1 F2].
        unfold G. destruct (y (fst p)); [|discriminate]. destruct (y (snd p)); [|discriminate]. cbn. unfold Rsqr. field. }
      cbn [num Nops] in *. 
      destruct (M k) as [|p l] eqn:EM; [reflexivity|]. cbn [nonempty]. rewrite <- E1, <- E2. reflexivity. }
    assert (HS : drop_nan_bins (drop_nan (map (bin_entry Nops (Some dmin) (Some dmax) nlags (pair_data_nan ct ndim n X y)) (seq 0 nlags)))
      = map (fun k => (md k, mg k)) (filter (fun k => nonempty (M k) && clean k) (seq 0 nlags))).
    { induction (seq 0 nlags) as [|k l IH]; [reflexivity|]. cbn [map drop_nan flat_map filter].
      rewrite HB. destruct (nonempty (M k)); cbn [andb]; [|exact IH]. 
      change (flat_map (fun o : option (option R * option R) => match o with Some a => [a] | None => [] end) ?x) with (drop_nan x).
      cbn [app drop_nan_bins flat_map].
      change (flat_map (fun e : option R * option R => match e with (Some d, Some g) => [(d, g)] | _ => [] end) ?x) with (drop_nan_bins x).
      destruct (clean k); cbn [app map]; [f_equal|]; exact IH. }
    match goal with |- experimental_known _ _ _ _ _ (map fst ?x) _ => set (X0 := x); assert (HS' : X0 = map (fun k => (md k, mg k)) (filter (fun k => nonempty (M k) && clean k) (seq 0 nlags))) by exact HS end.
    rewrite HS'. split; rewrite map_map; reflexivity.
Qed.

Lemma experimental_nan_iff ct ndim n nlags X y y' :
  match experimental_nan ct ndim n nlags X y, experimental_variogram ct ndim n nlags X y' with
  | Ok _, Ok _ => True | Err e, Err e' => e = e' | _, _ => False end.
Proof.
  unfold experimental_nan, experimental_variogram, experimental_gen, pair_data_nan, pair_data.
  destruct (pairs ct n) as [|[i j] l]; cbn; reflexivity.
Qed.

(** ---- the statistics ---- *)
Lemma known_below z i : known_upto z i = forallb (fun j => is_number (z j)) (seq 0 i) && is_number (z i).
Proof. unfold known_upto. rewrite seq_S, forallb_app. cbn [forallb plus]. rewrite andb_true_r. reflexivity. Qed.
Lemma known_value z i : known_upto z i = true -> exists v, z i = Some v.
Proof. rewrite known_below. intros H. apply andb_true_iff in H. destruct H as [_ H]. destruct (z i) as [v|]; [eauto|discriminate]. Qed.

Section Stats.
Variables (L : linalg) (ct : coord_type) (ndim n : nat) (X : mat) (vg : R -> R) (pi : bool) (z : nat -> option R) (y : vec).
Hypothesis HY : forall i v, (i < n)%nat -> z i = Some v -> y i = v.
Let kr i := krige_first L ct ndim X y vg pi i.
Let v i := match kr i with Ok (k, _) => k | Err _ => 0 end.
Let s i := match kr i with Ok (_, ss) => ss | Err _ => 0 end.

Lemma vsum_known m (x : vec) : (m <= n)%nat -> vsum Nval m (fun k => nmul (x k) (z k)) =
  if forallb (fun j => is_number (z j)) (seq 0 m) then Some (bsum m (fun k => x k * y k)) else None.
Proof.
  induction m as [|m IH]; intros Hm; [reflexivity|]. cbn [vsum]. rewrite IH by lia. rewrite seq_S, forallb_app. cbn [forallb plus bsum].
  destruct (forallb _ (seq 0 m)); cbn [andb Nval vadd nadd]; [|reflexivity]. destruct (z m) as [v0|] eqn:Ez; cbn [is_number andb nmul nadd]; [|reflexivity].
  rewrite (HY m v0) by (assumption || lia). reflexivity.
Qed.
Lemma krige_nan i : (i <= n)%nat ->
  krige1_nan L i vg (fun a b => distance ct ndim (X b) (X a)) (fun a => distance ct ndim (X a) (X i)) z pi =
  map_res (fun p => (if forallb (fun j => is_number (z j)) (seq 0 i) then Some (fst p) else None, snd p)) (kr i).
Proof.
  intros Hi. unfold kr, krige_first, krige1, krige1_nan. match goal with |- match ?t with _ => _ end = _ => destruct t as [x|] end; cbn [map_res]; [|reflexivity].
  rewrite vsum_known by exact Hi. reflexivity.
Qed.
Lemma entry_nan i : (i < n)%nat ->
  match stat_entry_nan L ct ndim X z vg pi i, stat_entry L ct ndim X y vg pi i with
  | Ok e, Ok e' => e' = (if Nat.eqb i 0 || Rltb (Rabs (s i)) eps then (0, Some 0) else (y i - v i, if Rltb (s i) 0 then None else Some (sqrt (s i)))) /\
      e = (if Nat.eqb i 0 || Rltb (Rabs (s i)) eps then (Some 0, Some 0)
           else (if known_upto z i then Some (y i - v i) else None, if Rltb (s i) 0 then None else Some (sqrt (s i))))
  | Err e, Err e' => e = e' | _, _ => False end.
Proof.
  intros Hi. unfold stat_entry_nan, stat_entry. destruct (Nat.eqb i 0); cbn [orb]; [split; reflexivity|].
  rewrite krige_nan by lia. unfold v, s. fold (kr i). destruct (kr i) as [[k ss]|e]; cbn [bind map_res fst snd]; [|reflexivity].
  destruct (Rltb (Rabs ss) eps); [split; reflexivity|]. split; [reflexivity|]. f_equal. rewrite known_below.
  destruct (forallb _ _); cbn [andb]; [|destruct (z i); reflexivity]. destruct (z i) as [w|] eqn:Ez; cbn [is_number nsub]; [|reflexivity].
  rewrite (HY i w Hi Ez). reflexivity.
Qed.
Lemma mapM_both (l : list nat) : (forall i, In i l -> (i < n)%nat) ->
  match mapM (stat_entry_nan L ct ndim X z vg pi) l, mapM (stat_entry L ct ndim X y vg pi) l with
  | Ok e, Ok e' => e' = map (fun i => if Nat.eqb i 0 || Rltb (Rabs (s i)) eps then (0, Some 0) else (y i - v i, if Rltb (s i) 0 then None else Some (sqrt (s i)))) l /\
      e = map (fun i => if Nat.eqb i 0 || Rltb (Rabs (s i)) eps then (Some 0, Some 0)
           else (if known_upto z i then Some (y i - v i) else None, if Rltb (s i) 0 then None else Some (sqrt (s i)))) l
  | Err e, Err e' => e = e' | _, _ => False end.
Proof.
  induction l as [|i l IH]; intros Hl; cbn [mapM map]; [split; reflexivity|].
  pose proof (entry_nan i (Hl i (or_introl eq_refl))) as H1. specialize (IH (fun j Hj => Hl j (or_intror Hj))).
  destruct (stat_entry_nan _ _ _ _ _ _ _ i) as [e|], (stat_entry _ _ _ _ _ _ _ i) as [e'|]; cbn [bind]; try contradiction; [|exact H1].
  destruct (mapM (stat_entry_nan _ _ _ _ _ _ _) l) as [l1|], (mapM (stat_entry _ _ _ _ _ _ _) l) as [l2|]; cbn [bind]; try contradiction; [|exact IH].
  destruct H1 as [-> ->], IH as [-> ->]. split; reflexivity.
Qed.
Lemma kept_both (l : list nat) (D : nat -> R) (DN : nat -> option R) :
  let F i := if Nat.eqb i 0 || Rltb (Rabs (s i)) eps then (0, Some 0) else (D i, if Rltb (s i) 0 then None else Some (sqrt (s i))) in
  let FN i := if Nat.eqb i 0 || Rltb (Rabs (s i)) eps then (Some 0, Some 0) else (DN i, if Rltb (s i) 0 then None else Some (sqrt (s i))) in
  let ks := filter (fun i => negb (Nat.eqb i 0) && Rleb eps (s i)) l in
  keep_entries (map F l) = map (fun i => (D i, sqrt (s i))) ks /\ keep_entries_nan (map FN l) = map (fun i => (DN i, sqrt (s i))) ks.
Proof.
  intros F FN. pose proof eps_val as EV. induction l as [|i l IH]; [split; reflexivity|]. destruct IH as [I1 I2]. cbn zeta in *. cbn [map filter].
  unfold keep_entries, keep_entries_nan in *. cbn [flat_map]. rewrite I1, I2. unfold F, FN. destruct (Nat.eqb i 0); cbn [orb negb andb].
  { destruct (Rltb_spec eps 0); [lra|]. split; reflexivity. }
  destruct (Rltb_spec (Rabs (s i)) eps) as [LT|GE].
  - destruct (Rltb_spec eps 0); [lra|]. destruct (Rleb_spec eps (s i)) as [LE|_]; [|split; reflexivity].
    exfalso. rewrite Rabs_right in LT by lra. lra.
  - destruct (Rltb_spec (s i) 0) as [NEG|POS].
    + destruct (Rleb_spec eps (s i)); [lra|split; reflexivity].
    + rewrite Rabs_right in GE by lra. destruct (Rleb_spec eps (s i)) as [LE|]; [|lra].
      assert (eps < sqrt (s i)).
      { apply Rsqr_incrst_0; [|lra|apply sqrt_pos]. rewrite Rsqr_sqrt by lra. unfold Rsqr. apply Rlt_le_trans with eps; [|exact LE].
        rewrite <- (Rmult_1_r eps) at 3. apply Rmult_lt_compat_l; lra. }
      destruct (Rltb_spec eps (sqrt (s i))); [split; reflexivity|lra].
Qed.
Lemma filter_first (f : nat -> bool) m : filter (fun i => negb (Nat.eqb i 0) && f i) (seq 0 m) = filter f (seq 1 (m - 1)).
Proof.
  destruct m as [|m]; [reflexivity|]. cbn [seq filter Nat.eqb negb andb]. replace (S m - 1)%nat with m by lia. apply filter_ext_in.
  intros i Hi. apply in_seq in Hi. destruct (Nat.eqb_spec i 0); [lia|reflexivity].
Qed.
Lemma nlsum_known {K} (P : K -> bool) (f : K -> R) ks :
  nlsum (map (fun i => if P i then Some (f i) else None) ks) = if forallb P ks then Some (lsum (map f ks)) else None.
Proof.
  induction ks as [|i ks IH]; [reflexivity|]. unfold nlsum in *. cbn [map fold_right forallb]. rewrite IH. unfold lsum. cbn [map fold_right].
  destruct (P i), (forallb P ks); reflexivity.
Qed.
Lemma stats_both :
  match all_statistics_nan L ct ndim n X z vg pi, all_statistics L ct ndim n X y vg pi with
  | Ok sn, Ok st =>
      let kept := filter (fun i => Rleb eps (s i)) (seq 1 (n - 1)) in
      (st_delta st = map (fun i => y i - v i) kept /\ st_sigma st = map (fun i => sqrt (s i)) kept /\
       st_epsilon st = map (fun i => (y i - v i) / sqrt (s i)) kept) /\
      let or_nan (i : nat) (x : R) := if known_upto z i then Some x else None in
      sn_sigma sn = map (fun i => sqrt (s i)) kept /\
      sn_delta sn = map (fun i => or_nan i (y i - v i)) kept /\
      sn_epsilon sn = map (fun i => or_nan i ((y i - v i) / sqrt (s i))) kept /\
      let all (q : option R) := if forallb (known_upto z) kept then q else None in
      sn_Q1 sn = all (st_Q1 st) /\ sn_Q2 sn = all (st_Q2 st) /\ sn_cR sn = all (st_cR st)
  | Err e, Err e' => e = e' | _, _ => False end.
Proof.
  unfold all_statistics_nan, all_statistics, find_statistics.
  pose proof (mapM_both (seq 0 n) (fun i Hi => proj2 (proj1 (in_seq _ _ _) Hi))) as H.
  destruct (mapM (stat_entry_nan _ _ _ _ _ _ _) _) as [l1|], (mapM (stat_entry _ _ _ _ _ _ _) _) as [l2|]; cbn [bind]; try contradiction; [|exact H].
  destruct H as [-> ->]. destruct (kept_both (seq 0 n) (fun i => y i - v i) (fun i => if known_upto z i then Some (y i - v i) else None)) as [-> ->].
  rewrite filter_first. cbn [st_delta st_sigma st_epsilon st_Q1 st_Q2 st_cR sn_delta sn_sigma sn_epsilon sn_Q1 sn_Q2 sn_cR].
  set (kept := filter _ _). rewrite !map_map. cbn [fst snd].
  assert (HE : map (fun x => ndiv (if known_upto z x then Some (y x - v x) else None) (Some (sqrt (s x)))) kept =
               map (fun i => if known_upto z i then Some ((y i - v i) / sqrt (s i)) else None) kept).
  { apply map_ext. intros i. destruct (known_upto z i); reflexivity. }
  rewrite HE. clear HE.
  assert (HQ1 : calcQ1_nan (map (fun i => if known_upto z i then Some ((y i - v i) / sqrt (s i)) else None) kept) =
    if forallb (known_upto z) kept then calcQ1 (map (fun i => (y i - v i) / sqrt (s i)) kept) else None).
  { unfold calcQ1_nan, calcQ1. rewrite nlsum_known, !map_length. destruct (Nat.eqb _ 1), (forallb _ _); reflexivity. }
  assert (HQ2 : calcQ2_nan (map (fun i => if known_upto z i then Some ((y i - v i) / sqrt (s i)) else None) kept) =
    if forallb (known_upto z) kept then calcQ2 (map (fun i => (y i - v i) / sqrt (s i)) kept) else None).
  { unfold calcQ2_nan, calcQ2. rewrite !map_map, !map_length.
    assert (HM : map (fun x => nmul2 (if known_upto z x then Some ((y x - v x) / sqrt (s x)) else None) (if known_upto z x then Some ((y x - v x) / sqrt (s x)) else None)) kept =
      map (fun i => if known_upto z i then Some ((y i - v i) / sqrt (s i) * ((y i - v i) / sqrt (s i))) else None) kept).
    { apply map_ext. intros i. destruct (known_upto z i); reflexivity. }
    rewrite HM, nlsum_known. destruct (Nat.eqb _ 1), (forallb _ _); reflexivity. }
  split; [split; [|split]; reflexivity|]. split; [reflexivity|]. split; [reflexivity|]. split; [reflexivity|].
  split; [exact HQ1|]. split; [exact HQ2|]. rewrite HQ2. destruct (forallb _ _); reflexivity.
Qed.
(** the numbers in [stats_both] are kriging predictions *)
Lemma stats_predict o : o_n o = n -> o_ct o = ct -> o_dim o = ndim -> o_adj o = X -> o_values o = y -> o_vg o = vg -> pi = false ->
  linalg_ok L -> coords_inv o -> (forall i j, (i < j < o_n o)%nat -> eps < sep o i j) ->
  (forall i, (i < n)%nat -> exists e, stat_entry L ct ndim X y vg pi i = Ok e) -> predicted_from_before o v s.
Proof.
  intros En Ec Ed EX Ey Ev HP HL HI HD HA i Hi. rewrite En in *.
  assert (K : kr i = Ok (v i, s i)).
  { destruct (HA i) as (e & He); [lia|]. unfold stat_entry in He. destruct (Nat.eqb_spec i 0); [lia|]. fold (kr i) in He.
    unfold v, s. destruct (kr i) as [[k ss]|]; [reflexivity|discriminate He]. }
  assert (SEP : forall i j, distance ct ndim (X j) (X i) = separation o (datum o i) (datum o j) /\ distance ct ndim (X i) (X j) = separation o (datum o i) (datum o j)).
  { intros a b. rewrite <- Ec, <- Ed, <- EX. split; [rewrite separation_sym|]; symmetry; rewrite <- data_distances_sep by exact HI; reflexivity. }
  unfold kr, krige_first in K. rewrite HP in K. apply krige1_estimate in K; [|exact HL|].
  - rewrite Ey, Ev. eapply OK_estimate_ext; [| |exact K].
    + intros p q _ _. unfold G_of, data_semivariance. rewrite Ev. destruct (Nat.eqb p q); [reflexivity|]. f_equal. apply SEP.
    + intros p _. cbn beta. f_equal. apply SEP.
  - intros j Hj. rewrite (proj2 (SEP j i)). apply HD. lia.
Qed.
End Stats.

Section Construct.
Variables (E : env) (c : kclass) (A : cargs) (z : list (option R)) (zs : list R).
Hypothesis HX : explicit_params (c_v A).
Hypothesis HF : filled z zs.

Lemma filled_nth i v : (i < List.length z)%nat -> nth i z (Some 0) = Some v -> rnth zs i = v.
Proof. destruct HF as [HL HF']. intros Hi H. apply HF'. rewrite (nth_error_nth' z (Some 0) Hi), H. reflexivity. Qed.
Lemma filled_any i v : nth i z (Some 0) = Some v -> rnth zs i = v.
Proof.
  intros Hv. destruct (Nat.lt_ge_cases i (List.length z)) as [Hiz|Hiz]; [exact (filled_nth i v Hiz Hv)|].
  rewrite nth_overflow in Hv by exact Hiz. injection Hv as <-. unfold rnth. apply nth_overflow. rewrite (proj1 HF). exact Hiz.
Qed.

Lemma construct_both :
  match construct_nan E c A z, construct E c (with_values A zs) with
  | Ok (o, zv, sn), Ok o' => zv = (fun i => nth i z (Some 0)) /\ (exists ls,
      experimental_nan (o_ct o') (cdim c) (o_n o') (a_nlags (c_v A)) (o_adj o') zv = Ok ls /\
      o = with_exp o' (rnth (map nan_to_zero z)) (map fst ls) (map snd ls)) /\
      match o_stats o', sn with
      | None, None => True
      | Some st, Some s =>
          all_statistics (e_la E) (o_ct o') (o_dim o') (o_n o') (o_adj o') (rnth zs) (o_vg o') (o_pinv o') = Ok st /\
          all_statistics_nan (e_la E) (o_ct o') (o_dim o') (o_n o') (o_adj o') zv (o_vg o') (o_pinv o') = Ok s
      | _, _ => False end
  | Err e, Err e' => e = e' | _, _ => False end.
Proof.
  unfold construct_nan, construct. cbn [with_values c_pinv_type c_exact c_ct c_v c_coords c_values c_stat c_pinv c_verbose c_plotting].
  destruct (negb (in_names _ _)); [reflexivity|]. destruct (c_exact A) as [ex|]; [|reflexivity]. cbv zeta.
  set (ct := class_ct c (c_ct A)).
  destruct (resolve_gs E c ct (c_v A)) as [[[[[nm prm] fn] sc] an]|] eqn:ER; cbn [bind]; [|reflexivity].
  destruct (resolve_fun nm fn) as [f|]; cbn [bind]; [|reflexivity].
  match goal with |- context [bind (if String.eqb ct "euclidean" then ?x else ?y)] =>
    set (B := if String.eqb ct "euclidean" then x else y) end.
  destruct B as [[[[[ct' center] sc'] an'] Xadj]|]; cbn [bind]; [|reflexivity].
  destruct (make_parameter_list nm prm) as [vp|] eqn:EP; cbn [bind]; [|reflexivity].
  destruct (negb (same_length _)); [reflexivity|].
  destruct (make_explicit _ _ _ (resolve_explicit _ _ _ _ _ _ _ _ _ HX ER) EP) as (p & ->).
  set (n := List.length (nth 0 (c_coords A) [])).
  assert (ST : forall p', match (match c, c_stat A with OK2, false => Ok None
      | _, _ => do s <- all_statistics_nan (e_la E) ct' (cdim c) n Xadj (fun i => nth i z (Some 0)) (fcall f p') (c_pinv A) ;; Ok (Some s) end),
    (match c, c_stat A with OK2, false => Ok None
      | _, _ => do s <- all_statistics (e_la E) ct' (cdim c) n Xadj (rnth zs) (fcall f p') (c_pinv A) ;; Ok (Some s) end) with
    | Ok None, Ok None => True
    | Ok (Some s), Ok (Some st) => all_statistics (e_la E) ct' (cdim c) n Xadj (rnth zs) (fcall f p') (c_pinv A) = Ok st /\
         all_statistics_nan (e_la E) ct' (cdim c) n Xadj (fun i => nth i z (Some 0)) (fcall f p') (c_pinv A) = Ok s
    | Err e, Err e' => e = e' | _, _ => False end).
  { intros p'. pose proof (stats_both (e_la E) ct' (cdim c) n Xadj (fcall f p') (c_pinv A) (fun i => nth i z (Some 0)) (rnth zs) (fun i v _ Hv => filled_any i v Hv)) as HB.
    destruct (all_statistics_nan _ _ _ _ _ _ _ _) as [s|], (all_statistics _ _ _ _ _ _ _ _) as [st|]; try contradiction HB;
      destruct c, (c_stat A); cbn [bind]; auto. }
  unfold initialize_nan, initialize_variogram_model. rewrite (proj1 HF).
  pose proof (experimental_nan_iff ct' (cdim c) n (a_nlags (c_v A)) Xadj (fun i => nth i z (Some 0)) (rnth zs)) as HI.
  destruct ct'; destruct (Nat.eqb (cdim c) 2); try reflexivity; (destruct (negb (Nat.eqb (List.length z) n)); [first [reflexivity|destruct (Nat.leb n 1), (Nat.eqb (a_nlags (c_v A)) 0); reflexivity]|]);
    (destruct (experimental_nan _ _ _ _ _ _) as [ls|e1] eqn:E1; destruct (experimental_variogram _ _ _ _ _ _) as [ls'|e2]; cbn [bind]; try contradiction HI; [|exact HI]);
    (destruct (String.eqb nm "linear" && _); [reflexivity|]); (destruct (in_names nm _ && _); [reflexivity|]); cbn [bind];
    specialize (ST p);
    (match type of ST with match ?t with _ => _ end => destruct t as [[s|]|]; match type of ST with match ?t2 with _ => _ end => destruct t2 as [[st|]|] end end);
    try contradiction ST; cbn [bind]; try exact ST;
    (split; [reflexivity|]); (split; [exists ls; (split; [exact E1|]); reflexivity|]); exact ST.
Qed.
End Construct.

Theorem nan_construct E c A z zs : List.length (c_coords A) = cdim c -> explicit_params (c_v A) -> filled z zs ->
  (forall e, construct_nan E c A z = Err e <-> construct E c (with_values A zs) = Err e) /\
  forall o', construct E c (with_values A zs) = Ok o' -> exists o zv sn, construct_nan E c A z = Ok (o, zv, sn) /\
    ((1 <= a_nlags (c_v A))%nat -> experimental_known_of o zv (a_nlags (c_v A))) /\ o_params o = o_params o' /\ nan_statistics E o' zv sn /\
    (exists lags sv, o = with_exp o' (rnth (map nan_to_zero z)) lags sv) /\ zv = (fun i => nth i z (Some 0)) /\
    forall q, (forall e, execute_v Nval E o zv q = Err e <-> execute E o' q = Err e) /\
      forall r, run E o' q r -> exists rn, execute_v Nval E o zv q = Ok rn /\ nan_result o' q (fun i => nth i z (Some 0)) r rn.
Proof.
  intros HC HX HF. pose proof (construct_both E c A z zs HX HF) as HB. split.
  - intros e. destruct (construct_nan E c A z) as [[[o zv] sn]|], (construct E c _); try contradiction; [split; discriminate|split; congruence].
  - intros o' HO. rewrite HO in HB. destruct (construct_nan E c A z) as [[[o zv] sn]|] eqn:HN; [|contradiction].
    destruct HB as (Hz & (ls & HE & Ho) & HST). exists o, zv, sn. split; [reflexivity|].
    assert (HR : reachable E o') by (apply (reach_new E c (with_values A zs)); [exact HC|exact HO]).
    pose proof (reachable_inv E o' HR) as HI.
    pose proof (construct_inv _ _ _ _ HO) as (ex & name & prm & fn & sc & an & f & vp & lags & sv & params & Hall).
    destruct Hall as (_&_&_&_&_&_&_&_&Hcl&_&_&_&_&_&_&_&_&Hval&_).
    assert (Hd : o_dim o' = cdim c) by (unfold o_dim; rewrite Hcl; destruct c; reflexivity).
    split; [|split; [|split; [|split; [|split]]]].
    + intros Hn. destruct (experimental_nan_inv _ _ _ _ _ _ _ HE) as (dmin & dmax & HD & HP).
      assert (HQ : (fun i j => distance (o_ct o') (cdim c) (o_adj o' i) (o_adj o' j)) = sep o').
      { apply functional_extensionality; intros i. apply functional_extensionality; intros j. rewrite <- Hd. exact (data_distances_sep o' i j HI). }
      rewrite HQ in HD, HP. set (M := members_of (o_ct o') (o_n o') (sep o') dmin dmax (a_nlags (c_v A))) in *.
      rewrite Ho. exists dmin, dmax, M. change (sep (with_exp o' ?a ?b ?c)) with (sep o'). cbn [with_exp o_n o_lags o_semivariance].
      split; [exact HD|]. split; [apply members_classes, HD|].
      destruct (members_once (o_ct o') (o_n o') (sep o') dmin dmax (a_nlags (c_v A)) HD Hn) as [O1 O2]. split; [exact O1|exact HP].
    + rewrite Ho. reflexivity.
    + unfold nan_statistics. destruct (o_stats o') as [st|], sn as [sn|]; try contradiction HST; [|exact I]. destruct HST as [HS1 HS2].
      assert (Hval' : o_values o' = rnth zs) by exact Hval.
      assert (HV : forall i v, (i < o_n o')%nat -> zv i = Some v -> rnth zs i = v) by (intros i v _; rewrite Hz; exact (filled_any z zs HF i v)).
      pose proof (stats_both (e_la E) (o_ct o') (o_dim o') (o_n o') (o_adj o') (o_vg o') (o_pinv o') zv (rnth zs) HV) as HB.
      rewrite HS1, HS2 in HB. cbn zeta in HB. rewrite <- Hval' in HB.
      eexists. eexists. split; [exact (proj1 HB)|]. split; [exact (proj2 HB)|]. intros [HL _] HP HD.
      apply (stats_predict (e_la E) (o_ct o') (o_dim o') (o_n o') (o_adj o') (o_vg o') (o_pinv o') (o_values o') o'); auto.
      unfold all_statistics, find_statistics in HS1. rewrite <- Hval' in HS1. intros i Hi.
      destruct (mapM (stat_entry _ _ _ _ _ _ _) _) as [l|] eqn:EM; [|discriminate HS1].
      apply (P_Fit4.mapM_inv _ _ _ (0, None)) in EM. apply (proj2 EM). apply in_seq. lia.
    + exists (map fst ls), (map snd ls). exact Ho.
    + exact Hz.
    + intros q. rewrite Ho, !execute_with_exp. split; [intros e; apply nan_raises|]. intros r Hr.
      rewrite Hz. apply (nan_values E o' q (fun i => nth i z (Some 0)) r Hr).
      intros i v Hi Hv. rewrite Hval. cbn [with_values c_values]. exact (filled_any z zs HF i v Hv).
Qed.
