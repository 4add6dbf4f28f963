(** Proofs about the experimental variogram (core.py 424-505): pairs, bins,
    invariance under reordering of the data. *)
From Coq Require Import String Permutation.
From Verif Require Import Base Sums Matrix M_Variogram M_Geometry P_Geometry M_Kriging M_Init M_Object.

(** *** Pairs *)
Lemma in_pairs ct n a b : In (a, b) (pairs ct n) <-> (a < b < n)%nat.
Proof.
  destruct ct; cbn [pairs]; unfold pairs_euclid, pairs_geo; rewrite in_flat_map; split.
  - intros (i & Hi & H). apply in_map_iff in H. destruct H as (j & E & Hj). injection E as <- <-.
    apply in_seq in Hi, Hj. lia.
  - intros H. exists a. split; [apply in_seq; lia|]. apply in_map_iff. exists b. split; [reflexivity|apply in_seq; lia].
  - intros (i & Hi & H). apply in_map_iff in H. destruct H as (j & E & Hj). injection E as <- <-.
    apply in_seq in Hi, Hj. lia.
  - intros H. exists b. split; [apply in_seq; lia|]. apply in_map_iff. exists a. split; [reflexivity|apply in_seq; lia].
Qed.

Lemma NoDup_flat_map {A B} (f : A -> list B) l : NoDup l -> (forall x, In x l -> NoDup (f x)) ->
  (forall x y b, In x l -> In y l -> In b (f x) -> In b (f y) -> x = y) -> NoDup (flat_map f l).
Proof.
  induction l as [|x l IH]; intros Hd Hf Hu; cbn; [constructor|]. inversion Hd as [|? ? Hnx Hd']; subst.
  assert (HA : NoDup (f x)) by (apply Hf; left; reflexivity).
  assert (HB : NoDup (flat_map f l)) by (apply IH; [assumption|intros; apply Hf; right; assumption|intros; eapply Hu; try eassumption; right; assumption]).
  assert (HC : forall b, In b (f x) -> ~ In b (flat_map f l)).
  { intros b Hb Hin. apply in_flat_map in Hin. destruct Hin as (y & Hy & Hby).
    assert (x = y) by (apply (Hu x y b); [left; reflexivity|right; assumption|assumption|assumption]). subst. contradiction. }
  clear - HA HB HC. induction (f x) as [|b fx IH]; cbn; [exact HB|]. inversion HA; subst. constructor.
  - rewrite in_app_iff. intros [H|H]; [contradiction|]. apply (HC b); [left; reflexivity|exact H].
  - apply IH; [assumption|]. intros b' Hb'. apply HC. right; exact Hb'.
Qed.
Lemma NoDup_pairs ct n : NoDup (pairs ct n).
Proof.
  destruct ct; cbn [pairs]; apply NoDup_flat_map; try apply seq_NoDup.
  - intros i _. apply FinFun.Injective_map_NoDup; [intros x y H; congruence|apply seq_NoDup].
  - intros i j [a b] _ _ H1 H2. apply in_map_iff in H1, H2. destruct H1 as (? & E1 & _), H2 as (? & E2 & _). congruence.
  - intros i _. apply FinFun.Injective_map_NoDup; [intros x y H; congruence|apply seq_NoDup].
  - intros i j [a b] _ _ H1 H2. apply in_map_iff in H1, H2. destruct H1 as (? & E1 & _), H2 as (? & E2 & _). congruence.
Qed.

(** both classes of coordinates enumerate the same pairs *)
Lemma pairs_same n : Permutation (pairs Euclidean n) (pairs Geographic n).
Proof. apply NoDup_Permutation; try apply NoDup_pairs. intros [a b]. rewrite !in_pairs. reflexivity. Qed.

Lemma pairs_length ct n : List.length (pairs ct n) = (n * (n - 1) / 2)%nat.
Proof.
  rewrite (Permutation_length (l' := pairs Geographic n)).
  2:{ destruct ct; [apply pairs_same|reflexivity]. }
  cbn [pairs]. unfold pairs_geo. induction n as [|n IH]; [reflexivity|].
  rewrite seq_S, flat_map_app, app_length, IH. cbn [flat_map]. rewrite app_nil_r, map_length, seq_length.
  rewrite Nat.add_0_l. replace (S n * (S n - 1))%nat with (n * (n - 1) + n * 2)%nat by nia.
  rewrite Nat.div_add by lia. reflexivity.
Qed.

Definition norm2 (p : nat * nat) : nat * nat := if Nat.ltb (fst p) (snd p) then p else (snd p, fst p).

Lemma pairs_perm ct n s : perm_on n s ->
  Permutation (map (fun p => norm2 (s (fst p), s (snd p))) (pairs ct n)) (pairs ct n).
Proof.
  intros [Hb Hi]. apply NoDup_Permutation_bis.
  - assert (G : forall l, NoDup l -> (forall a b, In (a, b) l -> (a < b < n)%nat) ->
       NoDup (map (fun p => norm2 (s (fst p), s (snd p))) l)).
    { induction l as [|[a b] l IH]; intros Hd Hl; cbn [map]; [constructor|]. inversion Hd as [|? ? Hnx Hd']; subst.
      constructor; [|apply IH; [assumption|intros; apply Hl; right; assumption]].
      intros Hin. apply in_map_iff in Hin. destruct Hin as ([c d] & He & Hcd).
      assert (Hab := Hl a b (or_introl eq_refl)). assert (Hcd' := Hl c d (or_intror Hcd)).
      cbn [fst snd] in He. unfold norm2 in He. cbn [fst snd] in He.
      assert ((s c = s a /\ s d = s b) \/ (s c = s b /\ s d = s a)) as [[E1 E2]|[E1 E2]].
      { destruct (Nat.ltb (s c) (s d)), (Nat.ltb (s a) (s b)); injection He as E1 E2; auto. }
      - apply Hi in E1, E2; try lia. subst. contradiction.
      - apply Hi in E1, E2; lia. }
    apply G; [apply NoDup_pairs|]. intros a b H. apply in_pairs in H. exact H.
  - rewrite map_length. reflexivity.
  - intros [a b] H. apply in_map_iff in H. destruct H as ([c d] & He & Hcd). apply in_pairs in Hcd. cbn [fst snd] in He.
    apply in_pairs. pose proof (Hb c ltac:(lia)). pose proof (Hb d ltac:(lia)).
    assert (s c <> s d) by (intros E; apply Hi in E; lia).
    unfold norm2 in He. cbn [fst snd] in He. destruct (Nat.ltb_spec (s c) (s d)); injection He as <- <-; lia.
Qed.

(** pair data are the same up to order when distances and values are permuted *)
Lemma pair_data_perm ct ndim n s X X' y y' : perm_on n s ->
  (forall i j, (i < n)%nat -> (j < n)%nat -> distance ct ndim (X' i) (X' j) = distance ct ndim (X (s i)) (X (s j))) ->
  (forall i j, distance ct ndim (X i) (X j) = distance ct ndim (X j) (X i)) ->
  (forall i, (i < n)%nat -> y' i = y (s i)) ->
  Permutation (pair_data ct ndim n X' y') (pair_data ct ndim n X y).
Proof.
  intros Hs HX HS Hy. unfold pair_data.
  eapply Permutation_trans; [|apply Permutation_map, (pairs_perm ct n s Hs)]. rewrite map_map.
  erewrite map_ext_in; [reflexivity|]. intros [i j] Hin. apply in_pairs in Hin. cbn [fst snd].
  rewrite HX, !Hy by lia. unfold norm2. cbn [fst snd]. destruct (Nat.ltb (s i) (s j)); [reflexivity|].
  f_equal; [apply HS|ring].
Qed.

(** *** Maxima, minima, means do not depend on order *)
Lemma fold_max_spec r x : let m := fold_left (fun m v => if Rltb m v then v else m) r x in
  In m (x :: r) /\ forall v, In v (x :: r) -> v <= m.
Proof.
  revert x. induction r as [|a r IH]; intros x; cbn.
  - split; [auto|]. intros v [->|[]]. lra.
  - destruct (Rltb_spec x a) as [H|H]; cbn in IH.
    + destruct (IH a) as [H1 H2]. split; [tauto|]. intros v [->|[->|Hv]]; [|apply H2; auto|apply H2; auto].
      specialize (H2 a (or_introl eq_refl)). lra.
    + destruct (IH x) as [H1 H2]. split; [tauto|]. intros v [->|[->|Hv]]; [apply H2; auto| |apply H2; auto].
      specialize (H2 x (or_introl eq_refl)). lra.
Qed.
Lemma fold_min_spec r x : let m := fold_left (fun m v => if Rltb v m then v else m) r x in
  In m (x :: r) /\ forall v, In v (x :: r) -> m <= v.
Proof.
  revert x. induction r as [|a r IH]; intros x; cbn.
  - split; [auto|]. intros v [->|[]]. lra.
  - destruct (Rltb_spec a x) as [H|H]; cbn in IH.
    + destruct (IH a) as [H1 H2]. split; [tauto|]. intros v [->|[->|Hv]]; [|apply H2; auto|apply H2; auto].
      specialize (H2 a (or_introl eq_refl)). lra.
    + destruct (IH x) as [H1 H2]. split; [tauto|]. intros v [->|[->|Hv]]; [apply H2; auto| |apply H2; auto].
      specialize (H2 x (or_introl eq_refl)). lra.
Qed.
Lemma amax_spec l m : amax_gen Rops l = Some m <-> In m l /\ forall v, In v l -> v <= m.
Proof.
  destruct l as [|x r]; cbn [amax_gen]; [split; [discriminate|intros [[] _]]|].
  destruct (fold_max_spec r x) as [H1 H2]. cbn [n_ltb Rops num] in *. split.
  - intros E. injection E as <-. auto.
  - intros [H3 H4]. f_equal. apply Rle_antisym; [apply H4, H1|apply H2, H3].
Qed.
Lemma amin_spec l m : amin_gen Rops l = Some m <-> In m l /\ forall v, In v l -> m <= v.
Proof.
  destruct l as [|x r]; cbn [amin_gen]; [split; [discriminate|intros [[] _]]|].
  destruct (fold_min_spec r x) as [H1 H2]. cbn [n_ltb Rops num] in *. split.
  - intros E. injection E as <-. auto.
  - intros [H3 H4]. f_equal. apply Rle_antisym; [apply H2, H3|apply H4, H1].
Qed.
Lemma amax_perm l l' : Permutation l l' -> amax_gen Rops l = amax_gen Rops l'.
Proof.
  intros HP. destruct (amax_gen Rops l) as [m|] eqn:E.
  - symmetry. apply amax_spec. apply amax_spec in E. destruct E as [H1 H2]. split.
    + apply (Permutation_in m HP H1).
    + intros v Hv. apply H2, (Permutation_in v (Permutation_sym HP) Hv).
  - destruct l as [|x r]; [|discriminate]. apply Permutation_nil in HP. subst. reflexivity.
Qed.
Lemma amin_perm l l' : Permutation l l' -> amin_gen Rops l = amin_gen Rops l'.
Proof.
  intros HP. destruct (amin_gen Rops l) as [m|] eqn:E.
  - symmetry. apply amin_spec. apply amin_spec in E. destruct E as [H1 H2]. split.
    + apply (Permutation_in m HP H1).
    + intros v Hv. apply H2, (Permutation_in v (Permutation_sym HP) Hv).
  - destruct l as [|x r]; [|discriminate]. apply Permutation_nil in HP. subst. reflexivity.
Qed.

Lemma fold_plus_lsum l a : fold_left Rplus l a = a + lsum l.
Proof. revert a. induction l as [|x l IH]; intros a; [unfold lsum; cbn; ring|]. cbn [fold_left]. rewrite IH. change (lsum (x :: l)) with (x + lsum l). ring. Qed.
Lemma mean_lsum l : mean_gen Rops l = lsum l / INR (List.length l).
Proof. unfold mean_gen. cbn [n_div n_add n_of_nat Rops num]. rewrite fold_plus_lsum. cbn [INR]. rewrite Rplus_0_l. reflexivity. Qed.
Lemma mean_perm l l' : Permutation l l' -> mean_gen Rops l = mean_gen Rops l'.
Proof. intros HP. rewrite !mean_lsum, (lsum_perm l l' HP), (Permutation_length HP). reflexivity. Qed.

Lemma filter_perm {A} (f : A -> bool) l l' : Permutation l l' -> Permutation (filter f l) (filter f l').
Proof.
  induction 1 as [|x l l' H IH|x y l|l1 l2 l3 H1 IH1 H2 IH2]; cbn.
  - constructor.
  - destruct (f x); [constructor|]; assumption.
  - destruct (f x), (f y); try reflexivity. apply perm_swap.
  - rewrite IH1. exact IH2.
Qed.

Lemma experimental_perm nlags dg dg' : Permutation dg dg' ->
  experimental_gen Rops nlags dg = experimental_gen Rops nlags dg'.
Proof.
  intros HP. unfold experimental_gen.
  rewrite (amax_perm _ _ (Permutation_map fst HP)), (amin_perm _ _ (Permutation_map fst HP)).
  destruct (amax_gen Rops (map fst dg')) as [dmax|]; [|reflexivity].
  destruct (amin_gen Rops (map fst dg')) as [dmin|]; [|reflexivity].
  f_equal. f_equal. apply map_ext. intros n. unfold bin_entry.
  assert (HB : Permutation (bin_members Rops dmin dmax nlags n dg) (bin_members Rops dmin dmax nlags n dg'))
    by (apply filter_perm, HP).
  destruct (bin_members Rops dmin dmax nlags n dg) as [|a l], (bin_members Rops dmin dmax nlags n dg') as [|a' l'];
    try reflexivity.
  - apply Permutation_nil in HB. discriminate.
  - apply Permutation_sym, Permutation_nil in HB. discriminate.
  - f_equal. f_equal; apply mean_perm, Permutation_map, HB.
Qed.

Lemma initialize_perm fit ct ndim n X X' m m' y y' name vp f nlags w : m = m' ->
  Permutation (pair_data ct ndim n X y) (pair_data ct ndim n X' y') ->
  initialize_variogram_model fit ct ndim n X m y name vp f nlags w =
  initialize_variogram_model fit ct ndim n X' m' y' name vp f nlags w.
Proof.
  intros <- HP. unfold initialize_variogram_model, experimental_variogram. rewrite (experimental_perm _ _ _ HP). reflexivity.
Qed.
