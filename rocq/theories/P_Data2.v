(** Proofs for Props_Data: changes of the data. *)
From Coq Require Import String Permutation FunctionalExtensionality.
From Verif Require Import Base Sums Matrix M_Variogram P_Variogram M_Geometry S_Geometry P_Geometry M_Kriging S_Kriging
  P_Kriging P_OKSpec M_Init M_Object M_Execute S_Execute P_Object P_Execute P_Cells P_Window P_WindowExec P_Master P_Det P_OK P_Similar P_Binning P_Data P_Linear Witness P_Exec2.

(** *** C14 *)
Lemma geo_dim o o' : geo o o' -> o_dim o' = o_dim o.
Proof. intros H. unfold o_dim. rewrite (ag_class _ _ H). reflexivity. Qed.
Lemma geo_shown o o' q p pos : geo o o' -> shown o q p pos -> shown o' q p pos.
Proof. intros H. unfold shown. rewrite (geo_dim o o' H). tauto. Qed.
Lemma geo_refl o : geo o o.
Proof. constructor; reflexivity. Qed.

Lemma rnth_map f l i : (i < List.length l)%nat -> rnth (map f l) i = f (rnth l i).
Proof. intros H. unfold rnth. rewrite (nth_indep _ 0 (f 0)) by (rewrite map_length; exact H). apply map_nth. Qed.

Lemma rnth_tab (f : nat -> R) n i : (i < n)%nat -> rnth (map f (seq 0 n)) i = f i.
Proof.
  intros H. unfold rnth. rewrite (nth_indep _ 0 (f 0%nat)) by (rewrite map_length, seq_length; exact H).
  rewrite map_nth, seq_nth by exact H. reflexivity.
Qed.

Lemma affine E c A us o o' q r r' p pos a b :
  built E c A us o -> built E c (with_values A (map (fun z => a * z + b) (c_values A))) us o' ->
  (forall v, In v (c_v A :: us) -> explicit_params v) ->
  run E o q r -> run E o' q r' -> shown o q p pos -> well_posed o q pos ->
  exists v s, r_value r p = Some v /\ r_variance r p = Some s /\
              r_value r' p = Some (a * v + b) /\ r_variance r' p = Some s.
Proof.
  intros HB HB' Hex HR HR' HS HW.
  assert (HG : geo o o') by (apply (built_geo E c A _ us o o' HB HB' Hex); reflexivity).
  destruct (cell_linear E o q r p pos HR HS) as (m & sel & w & s & HU & H1 & _ & HC). specialize (H1 HW).
  destruct (HC o q r p HR (geo_refl o) eq_refl HS eq_refl) as [Hv Hs].
  assert (HXX : o_exact o' = o_exact o).
  { pose proof (built_exact _ _ _ _ _ HB). pose proof (built_exact _ _ _ _ _ HB') as H2. cbn in H2. congruence. }
  destruct (HC o' q r' p HR' HG eq_refl (geo_shown _ _ _ _ _ HG HS) HXX) as [Hv' Hs'].
  exists (bsum m (fun i => w i * o_values o (sel i))), s. repeat split; try assumption.
  rewrite Hv'. f_equal. destruct (built_values _ _ _ _ _ HB) as (Ho & Hn & _). destruct (built_values _ _ _ _ _ HB') as (Ho' & _).
  rewrite (bsum_ext m _ (fun i => a * (w i * o_values o (sel i)) + b * w i)).
  - rewrite bsum_plus, !bsum_scal, H1. ring.
  - intros i Hi. rewrite Ho'. cbn [c_values with_values]. rewrite rnth_map.
    + rewrite Ho. ring.
    + rewrite <- Hn. apply (uses_lt _ _ _ _ _ HU i Hi).
Qed.

Lemma additive E c A us z1 z2 o1 o2 o q r1 r2 r p pos :
  List.length z2 = List.length z1 ->
  built E c (with_values A z1) us o1 -> built E c (with_values A z2) us o2 ->
  built E c (with_values A (map (fun i => rnth z1 i + rnth z2 i) (seq 0 (List.length z1)))) us o ->
  (forall v, In v (c_v A :: us) -> explicit_params v) ->
  run E o1 q r1 -> run E o2 q r2 -> run E o q r -> shown o q p pos ->
  exists v1 v2 s, r_value r1 p = Some v1 /\ r_value r2 p = Some v2 /\ r_value r p = Some (v1 + v2) /\
    r_variance r1 p = Some s /\ r_variance r2 p = Some s /\ r_variance r p = Some s.
Proof.
  intros HL HB1 HB2 HB Hex HR1 HR2 HR HS.
  assert (G1 : geo o o1) by (apply (built_geo E c _ _ us o o1 HB HB1 Hex); reflexivity).
  assert (G2 : geo o o2) by (apply (built_geo E c _ _ us o o2 HB HB2 Hex); reflexivity).
  destruct (cell_linear E o q r p pos HR HS) as (m & sel & w & s & HU & _ & _ & HC).
  destruct (HC o q r p HR (geo_refl o) eq_refl HS eq_refl) as [Hv Hs].
  pose proof (built_exact _ _ _ _ _ HB) as X. pose proof (built_exact _ _ _ _ _ HB1) as X1. pose proof (built_exact _ _ _ _ _ HB2) as X2. cbn in X, X1, X2.
  destruct (HC o1 q r1 p HR1 G1 eq_refl (geo_shown _ _ _ _ _ G1 HS) ltac:(congruence)) as [Hv1 Hs1].
  destruct (HC o2 q r2 p HR2 G2 eq_refl (geo_shown _ _ _ _ _ G2 HS) ltac:(congruence)) as [Hv2 Hs2].
  eexists _, _, s. split; [exact Hv1|]. split; [exact Hv2|]. repeat split; try assumption.
  rewrite Hv. f_equal. rewrite <- bsum_plus. apply bsum_ext; intros i Hi.
  destruct (built_values _ _ _ _ _ HB) as (-> & Hn & _).
  destruct (built_values _ _ _ _ _ HB1) as (-> & _). destruct (built_values _ _ _ _ _ HB2) as (-> & _). cbn [c_values with_values].
  cbn [c_values with_values] in Hn. rewrite map_length, seq_length in Hn.
  assert (Hi' := uses_lt _ _ _ _ _ HU i Hi). rewrite Hn in Hi'.
  rewrite (rnth_tab (fun k => rnth z1 k + rnth z2 k)) by exact Hi'. ring.
Qed.

(** *** C17 *)
Lemma update_Q_true E c ct v : update_Q E c ct (fun _ _ => True) v.
Proof. intros ? ? ? ? ? _. exact I. Qed.

Lemma built_class E c A us o : built E c A us o -> o_class o = c.
Proof.
  intros (_ & o0 & H & ->). destruct (after_updates_fixed E us o0) as (-> & _).
  destruct (construct_inv E c A o0 H) as (ex & name & prm & fn & sc & an & f & vp & lags & sv & params & Hall). apply Hall.
Qed.
Lemma construct_orig E c A o : construct E c A = Ok o -> o_class o = c /\ o_orig o = columns (c_coords A) /\
  o_values o = rnth (c_values A) /\ o_n o = List.length (nth 0 (c_coords A) []) /\ o_n o = List.length (c_values A) /\ same_length (c_coords A) = true.
Proof.
  intros H. destruct (construct_inv E c A o H) as (ex & name & prm & fn & sc & an & f & vp & lags & sv & params & Hall).
  destruct Hall as (_&_&_&_&_&HSL&Hini&_&Hc&_&_&_&_&_&_&Hn&Ho&Hvo&_).
  repeat split; try assumption. symmetry. apply (initialize_length _ _ _ _ _ _ _ _ _ _ _ _ _ Hini).
Qed.
Lemma construct_datum E c A o i : construct E c A = Ok o -> datum o i = input c A i.
Proof.
  intros H. destruct (construct_orig E c A o H) as (Hc & Ho & _). unfold datum, input, o_dim. rewrite Hc, Ho. reflexivity.
Qed.
Lemma built_datum E c A us o i : built E c A us o -> datum o i = input c A i.
Proof.
  intros (_ & o0 & H & ->). rewrite <- (construct_datum E c A o0 i H). unfold datum, o_dim.
  destruct (after_updates_fixed E us o0) as (-> & _ & _ & _ & _ & _ & -> & _). reflexivity.
Qed.
Lemma same_length_nth ls j : same_length ls = true -> (j < List.length ls)%nat -> List.length (nth j ls []) = List.length (nth 0 ls []).
Proof.
  intros H Hj. destruct ls as [|l ls]; [cbn in Hj; lia|]. destruct j as [|j]; [reflexivity|]. cbn in *.
  apply Nat.eqb_eq. rewrite forallb_forall in H. apply H. apply nth_In. lia.
Qed.

Lemma permuted_data E c A us s coords z o o' q r r' p pos :
  (forall j, (j < cdim c)%nat -> rearranged s (nth j (c_coords A) []) (nth j coords [])) ->
  rearranged s (c_values A) z -> perm_on (List.length (c_values A)) s ->
  built E c A us o -> built E c (with_data A coords z) us o' ->
  run E o q r -> run E o' q r' -> shown o q p pos ->
  (q_window q <> None -> no_ties o pos) ->
  r_value r p = r_value r' p /\ r_variance r p = r_variance r' p.
Proof.
  intros Hco Hz Hs HB HB' HR HR' HS Hnt.
  pose proof (built_exact _ _ _ _ _ HB) as X. pose proof (built_exact _ _ _ _ _ HB') as X'. cbn in X'.
  assert (HD := fun i => built_datum _ _ _ _ _ i HB). assert (HD' := fun i => built_datum _ _ _ _ _ i HB').
  pose proof (built_class _ _ _ _ _ HB) as HC. pose proof (built_class _ _ _ _ _ HB') as HC'.
  pose proof HB as (HL & o0 & H & Ho). pose proof HB' as (HL' & o0' & H' & Ho').
  destruct (construct_orig _ _ _ _ H) as (C1 & O1 & V1 & N1 & M1 & S1).
  destruct (construct_orig _ _ _ _ H') as (C2 & O2 & V2 & N2 & M2 & S2). cbn [c_coords c_values with_data] in *.
  assert (HN : o_n o0' = o_n o0) by (rewrite M1, M2; apply (proj1 Hz)).
  assert (HSD : forall i, (i < o_n o0)%nat -> input c (with_data A coords z) i = input c A (s i)).
  { intros i Hi. unfold input. cbn [c_coords with_data]. rewrite N1 in Hi.
    assert (HJ : forall j, (j < cdim c)%nat -> rnth (nth j coords []) i = rnth (nth j (c_coords A) []) (s i)).
    { intros j Hj. apply (Hco j Hj). rewrite (same_length_nth _ j S1); [exact Hi|]. rewrite HL. exact Hj. }
    destruct (cdim_cases c) as [Hc|Hc]; rewrite Hc in *; cbn [loc Nat.eqb].
    - unfold loc; cbn [Nat.eqb]. rewrite !HJ by lia. reflexivity.
    - unfold loc; cbn [Nat.eqb]. rewrite !HJ by lia. reflexivity. }
  rewrite <- M1 in Hs.
  assert (HM : moved (fun _ _ => True) s o o').
  { rewrite Ho, Ho'. apply (built_moved E c A (with_data A coords z) us); try assumption; try reflexivity; try exact I.
    - intros i Hi. rewrite V1, V2. apply (proj2 Hz). rewrite <- M1. exact Hi.
    - intros; apply update_Q_true.
    - intros sc an _ i j Hi Hj. rewrite !(construct_datum _ _ _ _ _ H), !(construct_datum _ _ _ _ _ H').
      rewrite !HSD by assumption. reflexivity. }
  assert (HNN : o_n o = o_n o0) by (rewrite Ho; apply (after_updates_fixed E us o0)).
  assert (HS' : shown o' q p pos).
  { unfold shown in *. rewrite (moved_dim _ _ _ _ HM). exact HS. }
  apply (moved_cells E _ s o o' q q r r' p p pos pos HR HR' HM); try assumption; try reflexivity; [congruence|].
  intros i Hi. rewrite HD, HD', HSD by (rewrite <- HNN; exact Hi).
  rewrite !separation_gen, (moved_dim _ _ _ _ HM), (mv_ct _ _ _ _ HM), (mv_scaling _ _ _ _ HM), (mv_angle _ _ _ _ HM). reflexivity.
Qed.
