(** Proofs for C22 (coinciding data) and C49 (which queries are accepted). *)
From Coq Require Import String Permutation FunctionalExtensionality.
From Verif Require Import Base Sums Matrix M_Variogram P_Variogram M_Geometry S_Geometry P_Geometry M_Kriging S_Kriging
  P_Kriging P_OKSpec M_Init M_Object M_Execute S_Execute P_Object P_Execute P_Cells P_Window P_WindowExec P_Master P_Det P_OK P_Similar P_Binning P_Data P_Linear Witness P_Exec2 P_Data2.

(** *** acceptable queries *)
Lemma good_locate o q : good_query o q -> exists l, locate (o_dim o) (q_style q) (q_pts q) (q_mask q) = Ok l.
Proof.
  intros [H _]. 
  destruct (o_dim_cases o) as [Hd|Hd]; rewrite Hd in *; cbn [locate]; unfold locate2, locate3;
  change (size_of (q_pts q) 0) with (List.length (xs q)); change (size_of (q_pts q) 1) with (List.length (ys q));
  change (size_of (q_pts q) 2) with (List.length (zs q)).
  - destruct H as [->|[(-> & Hy & _)|(-> & [(_ & r & c & f & -> & H)|(H & _)])]]; cbn [String.eqb Ascii.eqb Bool.eqb]; [eauto| | |discriminate].
    + rewrite Hy, Nat.eqb_refl. cbn [negb]. eauto.
    + destruct (Nat.eqb r (List.length (ys q)) && Nat.eqb c (List.length (xs q))) eqn:E1; [eauto|].
      destruct H as [[-> ->]|[-> ->]]; rewrite !Nat.eqb_refl in *; [discriminate|]. cbn [andb]. eauto.
  - destruct H as [->|[(-> & Hy & Hz)|(-> & [(H & _)|(_ & d0 & d1 & d2 & f & -> & H)])]]; cbn [String.eqb Ascii.eqb Bool.eqb]; [eauto| |discriminate|].
    + rewrite Hy, Hz, Nat.eqb_refl by reflexivity. cbn [negb andb orb]. eauto.
    + destruct (Nat.eqb d0 (List.length (zs q)) && Nat.eqb d1 (List.length (ys q)) && Nat.eqb d2 (List.length (xs q))) eqn:E1; [eauto|].
      destruct H as [(-> & -> & ->)|(-> & -> & ->)]; rewrite !Nat.eqb_refl in *; [discriminate|]. cbn [andb]. eauto.
Qed.

Lemma locate_good o q l : locate (o_dim o) (q_style q) (q_pts q) (q_mask q) = Ok l -> (o_ct o = Euclidean -> In false (q_int q)) -> good_query o q.
Proof.
  intros H HI. split; [|exact HI].
  destruct (o_dim_cases o) as [Hd|Hd]; rewrite Hd in *; cbn [locate] in H; unfold locate2, locate3 in H;
  change (size_of (q_pts q) 0) with (List.length (xs q)) in H; change (size_of (q_pts q) 1) with (List.length (ys q)) in H;
  try change (size_of (q_pts q) 2) with (List.length (zs q)) in H.
  - destruct (String.eqb_spec (q_style q) "masked") as [ES|_].
    + right; right. split; [exact ES|]. left. split; [reflexivity|].
      destruct (q_mask q) as [[r c f|? ? ? ?]|]; try discriminate. exists r, c, f. split; [reflexivity|].
      destruct (Nat.eqb_spec r (List.length (ys q))), (Nat.eqb_spec c (List.length (xs q))); cbn [andb] in H; auto;
      destruct (Nat.eqb_spec r (List.length (xs q))), (Nat.eqb_spec c (List.length (ys q))); cbn [andb] in H; auto; discriminate.
    + destruct (String.eqb_spec (q_style q) "grid") as [ES|_]; [auto|].
      destruct (String.eqb_spec (q_style q) "points") as [ES|_]; [|discriminate].
      destruct (Nat.eqb_spec (List.length (xs q)) (List.length (ys q))); [|discriminate].
      right; left. split; [exact ES|]. split; [congruence|discriminate].
  - destruct (String.eqb_spec (q_style q) "masked") as [ES|_].
    + right; right. split; [exact ES|]. right. split; [reflexivity|].
      destruct (q_mask q) as [[r c f|d0 d1 d2 f]|]; try discriminate. exists d0, d1, d2, f. split; [reflexivity|].
      destruct (Nat.eqb_spec d0 (List.length (zs q))), (Nat.eqb_spec d1 (List.length (ys q))), (Nat.eqb_spec d2 (List.length (xs q))); cbn [andb] in H; auto;
      destruct (Nat.eqb_spec d0 (List.length (xs q))), (Nat.eqb_spec d2 (List.length (zs q))); cbn [andb] in H; auto; try discriminate;
      destruct (Nat.eqb_spec d1 (List.length (ys q))); cbn [andb] in H; auto; try discriminate; contradiction.
    + destruct (String.eqb_spec (q_style q) "grid") as [ES|_]; [auto|].
      destruct (String.eqb_spec (q_style q) "points") as [ES|_]; [|discriminate].
      destruct (Nat.eqb_spec (List.length (xs q)) (List.length (ys q))), (Nat.eqb_spec (List.length (ys q)) (List.length (zs q))),
        (Nat.eqb_spec (List.length (xs q)) (List.length (zs q))); cbn [negb andb orb] in H; try discriminate; try congruence.
      right; left. split; [exact ES|]. split; [congruence|intros; congruence].
Qed.

Lemma all_int_false l : In false l -> forallb (fun b => b) l = false.
Proof.
  intros H. destruct (forallb _ l) eqn:E; [|reflexivity]. rewrite forallb_forall in E. specialize (E false H). discriminate.
Qed.

Lemma good_adjust o q l : good_query o q -> exists pts, adjust_query o (q_int q) (l_at l) = Ok pts.
Proof.
  intros [_ H]. unfold adjust_query. destruct (o_ct o); [|eauto]. rewrite (all_int_false _ (H eq_refl)).
  apply (adjust_supported (o_dim o) (l_at l) (o_center o) (o_scaling o) (o_angle o) (o_dim_cases o)).
Qed.

(** *** coinciding data *)

Lemma coincident_G o i j k : coincident o i j -> o_vg o 0 = 0 -> G_of o i k = G_of o j k.
Proof.
  intros (Hi & Hj & Hne & Hs) H0. unfold G_of, data_semivariance.
  destruct (Nat.eqb_spec i k) as [<-|Hik].
  - destruct (Nat.eqb_spec j i); [congruence|]. rewrite (separation_sym o (datum o j)), Hs, H0. reflexivity.
  - destruct (Nat.eqb_spec j k) as [<-|Hjk].
    + rewrite Hs, H0. reflexivity.
    + rewrite (coincide o _ _ (datum o k) Hs). reflexivity.
Qed.

Lemma coincident_singular o i j : coords_inv o -> coincident o i j -> o_vg o 0 = 0 ->
  ~ nonsingular (o_n o + 1) (get_kriging_matrix o).
Proof.
  intros Hinv HC H0. pose proof HC as (Hi & Hj & Hne & _).
  apply (equal_rows_singular (o_n o + 1) _ i j); try lia.
  intros k Hk. rewrite !matrix_entry by (assumption || lia).
  destruct (Nat.ltb_spec i (o_n o)), (Nat.ltb_spec j (o_n o)); try lia.
  destruct (Nat.ltb k (o_n o)); [|reflexivity]. rewrite (coincident_G o i j k HC H0). reflexivity.
Qed.

Lemma duplicate_raises E o q i j : env_ok E -> reachable E o -> ordinary o -> o_pinv o = false -> q_window q = None ->
  available E o (q_backend q) -> good_query o q -> coincident o i j -> o_vg o 0 = 0 ->
  execute E o q = Err LinAlgError.
Proof.
  intros (HL & _) Hr Hord Hp HW HB HG HC H0. pose proof (reachable_inv E o Hr) as Hinv.
  pose proof (execute_ref E o q Hinv Hord HW HB) as H.
  destruct (good_locate o q HG) as [l Hl]. destruct (good_adjust o q l HG) as [pts Hpts].
  unfold ref in H. rewrite Hl in H. cbn [bind] in H. rewrite Hpts in H. cbn [bind] in H. rewrite Hp in H.
  destruct (invert (e_la E) false (o_pinv_type o) (o_n o + 1) (get_kriging_matrix o)) as [a|e] eqn:EI; cbn [bind] in H.
  - exfalso. apply (coincident_singular o i j Hinv HC H0). exists a. apply (invert_ok _ _ _ _ _ HL EI).
  - destruct (invert_err _ _ _ _ _ HL EI) as [-> _]. exact H.
Qed.

Lemma regular_no_dup m G a b : OK_regular m G -> (a < m)%nat -> (b < m)%nat -> a <> b ->
  (forall c, (c < m)%nat -> G a c = G b c) -> False.
Proof.
  intros HR Ha Hb Hne HG.
  destruct (HR (fun c => if Nat.eqb c a then 1 else 0)) as (w & mu & (H1 & _) & _).
  pose proof (H1 a Ha) as Ea. pose proof (H1 b Hb) as Eb. cbn beta in Ea, Eb.
  rewrite Nat.eqb_refl in Ea. destruct (Nat.eqb_spec b a); [congruence|].
  rewrite (bsum_ext m (fun j => w j * G a j) (fun j => w j * G b j)) in Ea; [lra|].
  intros c Hc. rewrite HG by exact Hc. reflexivity.
Qed.

Lemma duplicate_window E o q r p pos k i j : run E o q r -> q_window q = Some k -> shown o q p pos -> o_vg o 0 = 0 ->
  coincident o i j ->
  exists sel v s, nearest o k pos sel /\ r_value r p = Some v /\ r_variance r p = Some s /\ local_estimate o k sel pos v s /\
    ~ ((exists a, (a < k)%nat /\ sel a = i) /\ exists b, (b < k)%nat /\ sel b = j).
Proof.
  intros HR HW HS H0 HC.
  destruct (window_local E o q r p pos k HR HW HS) as (_ & sel & v & s & HN & Hv & Hs & HReg & HEs).
  exists sel, v, s. repeat split; try assumption; try apply HN.
  intros [(a & Ha & Hai) (b & Hb & Hbj)].
  apply (regular_no_dup k _ a b HReg Ha Hb).
  - destruct HC as (_ & _ & Hne & _). congruence.
  - intros c Hc. rewrite Hai, Hbj. apply coincident_G; assumption.
Qed.

(** swapping two indices *)
Definition swap (i j : nat) : nat -> nat := fun a => if Nat.eqb a i then j else if Nat.eqb a j then i else a.
Lemma swap_perm n i j : (i < n)%nat -> (j < n)%nat -> perm_on n (swap i j).
Proof.
  intros Hi Hj. unfold perm_on, swap. split.
  - intros a Ha. destruct (Nat.eqb_spec a i), (Nat.eqb_spec a j); lia.
  - intros a b Ha Hb. destruct (Nat.eqb_spec a i), (Nat.eqb_spec a j), (Nat.eqb_spec b i), (Nat.eqb_spec b j); lia.
Qed.

Lemma coincident_swap_G o i j a b : coincident o i j -> G_of o (swap i j a) (swap i j b) = G_of o a b.
Proof.
  intros (Hi & Hj & Hne & Hs). unfold G_of, data_semivariance.
  assert (HS1 : forall k, separation o (datum o (swap i j a)) (datum o k) = separation o (datum o a) (datum o k)).
  { intros k. unfold swap. destruct (Nat.eqb_spec a i) as [->|]; [symmetry; apply coincide, Hs|].
    destruct (Nat.eqb_spec a j) as [->|]; [apply coincide, Hs|reflexivity]. }
  assert (HS2 : forall k, separation o k (datum o (swap i j b)) = separation o k (datum o b)).
  { intros k. rewrite !(separation_sym o k). unfold swap. destruct (Nat.eqb_spec b i) as [->|]; [symmetry; apply coincide, Hs|].
    destruct (Nat.eqb_spec b j) as [->|]; [apply coincide, Hs|reflexivity]. }
  rewrite HS2, HS1.
  replace (Nat.eqb (swap i j a) (swap i j b)) with (Nat.eqb a b); [reflexivity|].
  unfold swap. destruct (Nat.eqb_spec a i), (Nat.eqb_spec a j), (Nat.eqb_spec b i), (Nat.eqb_spec b j);
    destruct (Nat.eqb_spec a b); subst; try lia; symmetry;
    repeat match goal with |- context [Nat.eqb ?x ?y] => destruct (Nat.eqb_spec x y) end; try lia; reflexivity.
Qed.
Lemma coincident_g o i j pos : coincident o i j -> g_of o pos i = g_of o pos j.
Proof.
  intros (Hi & Hj & Hne & Hs). unfold g_of, query_semivariance.
  rewrite !(separation_sym o pos), (coincide o _ _ pos Hs). reflexivity.
Qed.

Lemma pinv_equal_weights o P pos i j : coords_inv o -> coincident o i j -> is_pinv (o_n o + 1) (get_kriging_matrix o) P ->
  mulv (o_n o + 1) P (rhs_spec (o_n o) (g_of o pos)) i = mulv (o_n o + 1) P (rhs_spec (o_n o) (g_of o pos)) j.
Proof.
  intros Hinv HC HP. pose proof HC as (Hi & Hj & Hne & Hs).
  set (n := o_n o) in *. set (s := swap i j).
  assert (Hsp : perm_on (n + 1) s) by (apply swap_perm; lia).
  assert (Hm : meq (n + 1) (permm s (get_kriging_matrix o)) (get_kriging_matrix o)).
  { intros a b Ha Hb. unfold permm. pose proof (proj1 Hsp a Ha) as Sa. pose proof (proj1 Hsp b Hb) as Sb.
    rewrite !matrix_entry by assumption. fold n.
    assert (La : Nat.ltb (s a) n = Nat.ltb a n).
    { unfold s, swap in *. destruct (Nat.eqb_spec a i), (Nat.eqb_spec a j); subst; try reflexivity;
      repeat match goal with |- context [Nat.ltb ?x n] => destruct (Nat.ltb_spec x n) end; lia || reflexivity. }
    assert (Lb : Nat.ltb (s b) n = Nat.ltb b n).
    { unfold s, swap in *. destruct (Nat.eqb_spec b i), (Nat.eqb_spec b j); subst; try reflexivity;
      repeat match goal with |- context [Nat.ltb ?x n] => destruct (Nat.ltb_spec x n) end; lia || reflexivity. }
    rewrite La, Lb. destruct (Nat.ltb a n), (Nat.ltb b n); try reflexivity. f_equal. apply coincident_swap_G, HC. }
  assert (HPP : meq (n + 1) (permm s P) P).
  { apply (pinv_unique (n + 1) (get_kriging_matrix o)); [|exact HP].
    apply (is_pinv_ext _ (permm s (get_kriging_matrix o))); [exact Hm|]. apply is_pinv_perm; assumption. }
  set (b := rhs_spec n (g_of o pos)).
  assert (Hb : forall a, (a < n + 1)%nat -> b (s a) = b a).
  { intros a Ha. unfold b, rhs_spec, s, swap. pose proof (coincident_g o i j pos HC) as Hg.
    destruct (Nat.eqb_spec a i) as [->|]; [|destruct (Nat.eqb_spec a j) as [->|]; [|reflexivity]];
    repeat match goal with |- context [Nat.eqb ?x n] => destruct (Nat.eqb_spec x n) end; try lia;
    repeat match goal with |- context [Nat.ltb ?x n] => destruct (Nat.ltb_spec x n) end; try lia; rewrite Hg; reflexivity. }
  assert (Hsi : s i = j) by (unfold s, swap; rewrite Nat.eqb_refl; reflexivity).
  unfold mulv. rewrite <- (bsum_perm (n + 1) s (fun k => P j k * b k) Hsp).
  apply bsum_ext; intros k Hk. rewrite Hb by exact Hk. rewrite <- Hsi. rewrite <- (HPP i k) by lia. reflexivity.
Qed.

Lemma duplicates_equal_weights E c A us o q r p pos i j :
  built E c A us o -> (forall v, In v (c_v A :: us) -> explicit_params v) ->
  run E o q r -> q_window q = None -> shown o q p pos -> coincident o i j ->
  exists w, w i = w j /\
    forall z o' r', built E c (with_values A z) us o' -> run E o' q r' ->
      r_value r' p = Some (bsum (o_n o) (fun a => w a * rnth z a)).
Proof.
  intros HB Hex HR HW HS HC.
  destruct (cell_linear E o q r p pos HR HS) as (m & sel & w & s & HU & _ & HP & HCl).
  destruct (HP HW) as (P & HPi & ->). destruct (run_inv _ _ _ _ HR) as (_ & Hinv & _).
  exists (mulv (o_n o + 1) P (rhs_spec (o_n o) (g_of o pos))). split; [apply pinv_equal_weights; assumption|].
  intros z o' r' HB' HR'.
  assert (HG : geo o o') by (apply (built_geo E c A _ us o o' HB HB' Hex); reflexivity).
  assert (HXX : o_exact o' = o_exact o).
  { pose proof (built_exact _ _ _ _ _ HB). pose proof (built_exact _ _ _ _ _ HB') as H2. cbn in H2. congruence. }
  destruct (HCl o' q r' p HR' HG eq_refl (geo_shown _ _ _ _ _ HG HS) HXX) as [-> _].
  unfold uses in HU. rewrite HW in HU. destruct HU as [-> Hsel]. f_equal. apply bsum_ext; intros a _.
  rewrite Hsel. destruct (built_values _ _ _ _ _ HB') as (-> & _). reflexivity.
Qed.

(** *** removing a duplicate *)
Lemma bsum_skip m j f : (j < S m)%nat -> bsum (S m) f = bsum m (fun a => f (skip j a)) + f j.
Proof.
  intros Hj. replace (S m) with (j + S (m - j))%nat by lia. rewrite bsum_split, bsum_S_l.
  replace m with (j + (m - j))%nat at 2 by lia. rewrite bsum_split. rewrite Nat.add_0_r.
  rewrite (bsum_ext j (fun a => f (skip j a)) f), (bsum_ext (m - j) (fun a => f (skip j (j + a)%nat)) (fun a => f (j + S a)%nat)).
  - ring.
  - intros a Ha. unfold skip. destruct (Nat.ltb_spec (j + a) j); [lia|]. f_equal. lia.
  - intros a Ha. unfold skip. destruct (Nat.ltb_spec a j); [reflexivity|lia].
Qed.
Lemma skip_lt m j a : (a < m)%nat -> (skip j a < S m)%nat.
Proof. unfold skip. destruct (Nat.ltb_spec a j); lia. Qed.
Lemma skip_ne j a : skip j a <> j.
Proof. unfold skip. destruct (Nat.ltb_spec a j); lia. Qed.
Lemma skip_inj j a b : skip j a = skip j b -> a = b.
Proof. unfold skip. destruct (Nat.ltb_spec a j), (Nat.ltb_spec b j); lia. Qed.
Lemma skip_surj m i j : (i < S m)%nat -> (j < S m)%nat -> i <> j -> exists a, (a < m)%nat /\ skip j a = i.
Proof.
  intros Hi Hj Hne. unfold skip. destruct (Nat.lt_ge_cases i j) as [H|H].
  - exists i. split; [lia|]. destruct (Nat.ltb_spec i j); lia.
  - exists (i - 1)%nat. split; [lia|]. destruct (Nat.ltb_spec (i - 1) j); lia.
Qed.

(** the weights of i and j merged *)
Definition merged (i j : nat) (w : vec) : vec := fun a => if Nat.eqb (skip j a) i then w i + w j else w (skip j a).
Lemma merged_sum m i j w f : (i < S m)%nat -> (j < S m)%nat -> i <> j -> f i = f j ->
  bsum m (fun a => merged i j w a * f (skip j a)) = bsum (S m) (fun a => w a * f a).
Proof.
  intros Hi Hj Hne Hf. rewrite (bsum_skip m j _ Hj).
  destruct (skip_surj m i j Hi Hj Hne) as (a0 & Ha0 & Hs0).
  rewrite (bsum_ext m (fun a => merged i j w a * f (skip j a))
     (fun a => w (skip j a) * f (skip j a) + (if Nat.eqb a a0 then w j * f j else 0))).
  - rewrite bsum_plus. f_equal. rewrite (bsum_single m a0); [|exact Ha0|].
    + rewrite Nat.eqb_refl. reflexivity.
    + intros a Ha Hna. destruct (Nat.eqb_spec a a0); [contradiction|reflexivity].
  - intros a Ha. unfold merged. destruct (Nat.eqb_spec (skip j a) i) as [He|He].
    + assert (a = a0) by (apply (skip_inj j); congruence). subst a. rewrite Nat.eqb_refl, Hs0, <- Hf. ring.
    + destruct (Nat.eqb_spec a a0); [subst; contradiction|]. ring.
Qed.

Lemma sym_quad_row (G : mat) i j : (forall a b, G a b = G b a) -> (forall k, G i k = G j k) -> forall k, G k i = G k j.
Proof. intros HS H k. rewrite HS, (HS k j). apply H. Qed.

(** the full system (with i and j coinciding) has a solution with equal weights
    for i and j iff the reduced one has the merged solution *)
Lemma reduced_system m i j G g w mu : (i < S m)%nat -> (j < S m)%nat -> i <> j ->
  (forall a b, G a b = G b a) -> (forall k, G i k = G j k) ->
  OK_system (S m) G g w mu ->
  OK_system m (fun a b => G (skip j a) (skip j b)) (fun a => g (skip j a)) (merged i j w) mu.
Proof.
  intros Hi Hj Hne HS HG [H1 H2]. split.
  - intros a Ha. rewrite (merged_sum m i j w (fun b => G (skip j a) b) Hi Hj Hne).
    + apply H1, skip_lt, Ha.
    + apply (sym_quad_row G i j HS HG).
  - rewrite <- H2. rewrite (bsum_ext (S m) w (fun a => w a * 1)) by (intros; ring).
    rewrite <- (merged_sum m i j w (fun _ => 1) Hi Hj Hne eq_refl). apply bsum_ext; intros; ring.
Qed.

Definition unmerged (m i j : nat) (w' : vec) : vec := fun a =>
  bsum m (fun b => (if Nat.eqb (skip j b) (if Nat.eqb a j then i else a) then 1 else 0) * w' b) *
  (if Nat.eqb a i || Nat.eqb a j then / 2 else 1).

Lemma unmerged_merged m i j w' a : (i < S m)%nat -> (j < S m)%nat -> i <> j -> (a < m)%nat ->
  merged i j (unmerged m i j w') a = w' a.
Proof.
  intros Hi Hj Hne Ha.
  assert (HD : forall c, (c < m)%nat -> bsum m (fun b => (if Nat.eqb (skip j b) (skip j c) then 1 else 0) * w' b) = w' c).
  { intros c Hc. rewrite <- (bsum_delta m c w' Hc). apply bsum_ext; intros b Hb.
    destruct (Nat.eqb_spec (skip j b) (skip j c)) as [He|He]; destruct (Nat.eqb_spec b c) as [He'|He']; try reflexivity.
    - apply skip_inj in He. contradiction.
    - subst. contradiction. }
  unfold merged, unmerged. destruct (Nat.eqb_spec (skip j a) i) as [He|He].
  - rewrite !Nat.eqb_refl, orb_true_r, orb_true_l. destruct (Nat.eqb_spec i j); [contradiction|]. rewrite <- He, HD by exact Ha. lra.
  - destruct (Nat.eqb_spec (skip j a) j) as [Hj'|Hj']; [exfalso; apply (skip_ne j a Hj')|].
    destruct (Nat.eqb_spec (skip j a) i); [contradiction|]. cbn [orb]. rewrite HD by exact Ha. ring.
Qed.
Lemma unmerged_equal m i j w' : i <> j -> unmerged m i j w' i = unmerged m i j w' j.
Proof.
  intros Hne. unfold unmerged. rewrite !Nat.eqb_refl, orb_true_r, orb_true_l. destruct (Nat.eqb_spec i j); [contradiction|]. reflexivity.
Qed.

Lemma full_system m i j G g w' mu : (i < S m)%nat -> (j < S m)%nat -> i <> j ->
  (forall a b, G a b = G b a) -> (forall k, G i k = G j k) -> g i = g j ->
  OK_system m (fun a b => G (skip j a) (skip j b)) (fun a => g (skip j a)) w' mu ->
  OK_system (S m) G g (unmerged m i j w') mu.
Proof.
  intros Hi Hj Hne HS HG Hg [H1 H2].
  assert (HM : forall f, f i = f j -> bsum (S m) (fun a => unmerged m i j w' a * f a) = bsum m (fun a => w' a * f (skip j a))).
  { intros f Hf. rewrite <- (merged_sum m i j (unmerged m i j w') f Hi Hj Hne Hf).
    apply bsum_ext; intros a Ha. rewrite unmerged_merged by assumption. reflexivity. }
  split.
  - assert (HR : forall a, (a < m)%nat -> bsum (S m) (fun b => unmerged m i j w' b * G (skip j a) b) + mu = g (skip j a)).
    { intros a Ha. rewrite (HM (fun b => G (skip j a) b)) by apply (sym_quad_row G i j HS HG). apply H1, Ha. }
    intros a Ha. destruct (Nat.eq_dec a j) as [->|Haj].
    + destruct (skip_surj m i j Hi Hj Hne) as (a0 & Ha0 & Hs0). specialize (HR a0 Ha0). rewrite Hs0 in HR.
      rewrite <- Hg, <- HR. f_equal. apply bsum_ext; intros b _. rewrite HG. reflexivity.
    + destruct (skip_surj m a j Ha Hj Haj) as (a0 & Ha0 & Hs0). specialize (HR a0 Ha0). rewrite Hs0 in HR. exact HR.
  - rewrite <- H2. rewrite (bsum_ext (S m) _ (fun a => unmerged m i j w' a * 1)) by (intros; ring).
    rewrite (HM (fun _ => 1) eq_refl). apply bsum_ext; intros; ring.
Qed.

Lemma merged_duplicates E o o' q r r' p pos i j : run E o q r -> run E o' q r' -> q_window q = None -> shown o q p pos ->
  merges i j o o' -> coincident o i j -> o_vg o 0 = 0 -> regular o' ->
  r_value r p = r_value r' p /\ r_variance r p = r_variance r' p.
Proof.
  intros HR HR' HW HS HM HC H0 Hreg. pose proof HC as (Hi & Hj & Hne & _).
  destruct (run_inv _ _ _ _ HR) as (HE & Hinv & Hord & HF & HX).
  set (m := o_n o') in *. pose proof (mg_n _ _ _ _ HM) as Hn. fold m in Hn.
  assert (Hsep : separation o' = separation o).
  { rewrite !separation_gen, (mg_ct _ _ _ _ HM), (mg_scaling _ _ _ _ HM), (mg_angle _ _ _ _ HM). unfold o_dim. rewrite (mg_class _ _ _ _ HM). reflexivity. }
  assert (Hvg : o_vg o' = o_vg o) by (unfold o_vg; rewrite (mg_fun _ _ _ _ HM), (mg_params _ _ _ _ HM); reflexivity).
  assert (HG : forall a b, (a < m)%nat -> (b < m)%nat -> G_of o' a b = G_of o (skip j a) (skip j b)).
  { intros a b Ha Hb. unfold G_of, data_semivariance. rewrite Hsep, Hvg, !(mg_datum _ _ _ _ HM) by assumption.
    destruct (Nat.eqb_spec a b) as [->|Hab]; [rewrite Nat.eqb_refl; reflexivity|].
    destruct (Nat.eqb_spec (skip j a) (skip j b)) as [He|]; [apply skip_inj in He; contradiction|reflexivity]. }
  assert (Hg : forall a, (a < m)%nat -> g_of o' pos a = g_of o pos (skip j a)).
  { intros a Ha. unfold g_of, query_semivariance. rewrite Hsep, Hvg, (mg_exact _ _ _ _ HM), !(mg_datum _ _ _ _ HM) by assumption. reflexivity. }
  assert (HSy : forall a b, G_of o a b = G_of o b a) by (intros; apply G_of_sym).
  assert (HRow : forall k, G_of o i k = G_of o j k) by (intros; apply coincident_G; assumption).
  assert (Hgg : g_of o pos i = g_of o pos j) by (apply coincident_g, HC).
  assert (HS' : shown o' q p pos) by (unfold shown, o_dim in *; rewrite (mg_class _ _ _ _ HM); exact HS).
  (* the full system is solvable *)
  assert (HSol : solvable o pos).
  { destruct (Hreg (g_of o' pos)) as (w' & mu & HSys & _). fold m in HSys.
    exists (unmerged m i j w'), mu. rewrite Hn. apply full_system; try assumption; try lia.
    apply (OK_system_ext m (G_of o') _ (g_of o' pos)); assumption. }
  (* the weights *)
  destruct (cell_linear E o q r p pos HR HS) as (m0 & sel & w & s & HU & _ & HP & HCl).
  destruct (HP HW) as (P & HPi & Hw).
  destruct (HCl o q r p HR (geo_refl o) eq_refl HS eq_refl) as [Hv _].
  unfold uses in HU. rewrite HW in HU. destruct HU as [-> Hsel].
  assert (Hwij : w i = w j) by (rewrite Hw; apply pinv_equal_weights; assumption).
  assert (HSys : OK_system (o_n o) (G_of o) (g_of o pos) w (- w (o_n o))).
  { destruct HSol as (w0 & mu0 & HS0).
    assert (HK := G_of_matrix o Hinv).
    rewrite Hw. apply (OK_system_ext (o_n o) (data_semivariance (o_vg o) (data_distances o)) (G_of o) (g_of o pos) (g_of o pos)).
    - intros a b _ _. apply HK.
    - intros a _; reflexivity.
    - apply (system_iff (o_n o) (o_vg o) (data_distances o) (g_of o pos)).
      apply (pinv_solves _ _ _ _ (fun k => if Nat.eqb k (o_n o) then - mu0 else w0 k) HPi).
      apply system_iff. rewrite Nat.eqb_refl, Ropp_involutive.
      destruct HS0 as [HS1 HS2]. split.
      + intros a Ha. rewrite <- HS1 by exact Ha. f_equal. apply bsum_ext; intros b Hb.
        destruct (Nat.eqb_spec b (o_n o)); [lia|]. rewrite HK. reflexivity.
      + rewrite <- HS2. apply bsum_ext; intros b Hb. destruct (Nat.eqb_spec b (o_n o)); [lia|reflexivity]. }
  (* both estimates *)
  destruct (run_cell E o q r p pos HR HS) as (v & sg & Ev & Es & HK).
  assert (HWP : well_posed o q pos) by (right; right; exact HSol). specialize (HK HWP). unfold kriged in HK. rewrite HW in HK.
  destruct (run_cell E o' q r' p pos HR' HS') as (v' & sg' & Ev' & Es' & HK').
  assert (HWP' : well_posed o' q pos) by (right; right; apply regular_solvable, Hreg). specialize (HK' HWP'). unfold kriged in HK'. rewrite HW in HK'. fold m in HK'.
  assert (HRS := reduced_system m i j (G_of o) (g_of o pos) w (- w (o_n o)) ltac:(lia) ltac:(lia) Hne HSy HRow). rewrite <- Hn in HRS. specialize (HRS HSys).
  assert (HRE : OK_estimate m (G_of o') (g_of o' pos) (o_values o')
     (bsum m (fun a => merged i j w a * o_values o' a)) (bsum m (fun a => merged i j w a * g_of o' pos a) + - w (o_n o))).
  { exists (merged i j w), (- w (o_n o)). split; [|split; reflexivity].
    refine (OK_system_ext m _ _ _ _ _ _ _ _ HRS); [intros a b Ha Hb; symmetry; apply HG; assumption|intros a Ha; symmetry; apply Hg; assumption]. }
  destruct (regular_unique' m (G_of o') (g_of o' pos) (o_values o') _ _ _ _ Hreg HK' HRE) as [E1 E2].
  rewrite Ev', Es', E1, E2, Hv.
  split.
  - f_equal. set (z := fun a => if Nat.eqb a i || Nat.eqb a j then (o_values o i + o_values o j) / 2 else o_values o a).
    transitivity (bsum (o_n o) (fun a => w a * z a)).
    + rewrite Hn. rewrite !(bsum_skip m j _) by lia.
      destruct (skip_surj m i j ltac:(lia) ltac:(lia) Hne) as (a0 & Ha0 & Hs0).
      rewrite (bsum_ext m (fun a => w (skip j a) * z (skip j a))
         (fun a => w (skip j a) * o_values o (sel (skip j a)) + (if Nat.eqb a a0 then w i * ((o_values o j - o_values o i) / 2) else 0))).
      * rewrite bsum_plus, (bsum_single m a0 (fun a => if Nat.eqb a a0 then _ else 0)); [|exact Ha0|].
        -- rewrite Nat.eqb_refl, Hsel. unfold z. rewrite Nat.eqb_refl, orb_true_r, Hwij. lra.
        -- intros a Ha Hna. destruct (Nat.eqb_spec a a0); [contradiction|reflexivity].
      * intros a Ha. rewrite Hsel. unfold z. destruct (Nat.eqb_spec (skip j a) j) as [Hx|_]; [exfalso; apply (skip_ne j a Hx)|].
        rewrite orb_false_r. destruct (Nat.eqb_spec (skip j a) i) as [He|He].
        -- assert (a = a0) by (apply (skip_inj j); congruence). subst a. rewrite Nat.eqb_refl, He. lra.
        -- destruct (Nat.eqb_spec a a0); [subst; contradiction|]. ring.
    + rewrite Hn. rewrite <- (merged_sum m i j w z) by (try lia; unfold z; rewrite !Nat.eqb_refl, orb_true_r; reflexivity).
      apply bsum_ext; intros a Ha. f_equal. rewrite (mg_values _ _ _ _ HM) by exact Ha. unfold z.
      destruct (Nat.eqb_spec (skip j a) j) as [Hx|_]; [exfalso; apply (skip_ne j a Hx)|]. rewrite orb_false_r. reflexivity.
  - rewrite Es. f_equal. destruct HK as (w1 & mu1 & HS1 & _ & ->).
    (* the variance does not depend on the solution chosen: reduce it too *)
    assert (HRS1 := reduced_system m i j (G_of o) (g_of o pos) w1 mu1 ltac:(lia) ltac:(lia) Hne HSy HRow). rewrite <- Hn in HRS1. specialize (HRS1 HS1).
    assert (HRE1 : OK_estimate m (G_of o') (g_of o' pos) (o_values o')
       (bsum m (fun a => merged i j w1 a * o_values o' a)) (bsum m (fun a => merged i j w1 a * g_of o' pos a) + mu1)).
    { exists (merged i j w1), mu1. split; [|split; reflexivity].
      refine (OK_system_ext m _ _ _ _ _ _ _ _ HRS1); [intros a b Ha Hb; symmetry; apply HG; assumption|intros a Ha; symmetry; apply Hg; assumption]. }
    destruct (regular_unique' m (G_of o') (g_of o' pos) (o_values o') _ _ _ _ Hreg HRE HRE1) as [_ E3].
    rewrite E3. f_equal. rewrite Hn.
    rewrite <- (merged_sum m i j w1 (g_of o pos)) by (try lia; exact Hgg).
    apply bsum_ext; intros a Ha. rewrite Hg by exact Ha. reflexivity.
Qed.
