(** Proofs: objects with the same (or permuted) data, separations and
    semivariances give the same results. *)
From Coq Require Import String.
From Verif Require Import Base Sums Matrix M_Variogram P_Variogram M_Geometry S_Geometry P_Geometry M_Kriging S_Kriging
  P_Kriging P_OKSpec M_Init M_Object M_Execute S_Execute P_Object P_Execute P_Cells P_Window P_WindowExec P_Master P_Det P_OK.

(** the ordered k nearest data are unique when all separations differ *)
Lemma nearest_unique n k (sep : nat -> R) sel sel' :
  (forall i j, (i < n)%nat -> (j < n)%nat -> i <> j -> sep i <> sep j) ->
  (forall a, (a < k)%nat -> (sel a < n)%nat) ->
  (forall a b, (a < k)%nat -> (b < k)%nat -> sel a = sel b -> a = b) ->
  (forall a b, (a <= b)%nat -> (b < k)%nat -> sep (sel a) <= sep (sel b)) ->
  (forall a j, (a < k)%nat -> (j < n)%nat -> (forall b, (b < k)%nat -> sel b <> j) -> sep (sel a) <= sep j) ->
  (forall a, (a < k)%nat -> (sel' a < n)%nat) ->
  (forall a b, (a < k)%nat -> (b < k)%nat -> sel' a = sel' b -> a = b) ->
  (forall a b, (a <= b)%nat -> (b < k)%nat -> sep (sel' a) <= sep (sel' b)) ->
  (forall a j, (a < k)%nat -> (j < n)%nat -> (forall b, (b < k)%nat -> sel' b <> j) -> sep (sel' a) <= sep j) ->
  forall a, (a < k)%nat -> sel a = sel' a.
Proof.
  intros HD A1 A2 A3 A4 B1 B2 B3 B4.
  assert (half : forall s s' a, (a < k)%nat -> (forall b, (b < a)%nat -> s b = s' b) ->
    (forall a, (a < k)%nat -> (s a < n)%nat) -> (forall a b, (a < k)%nat -> (b < k)%nat -> s a = s b -> a = b) ->
    (forall a b, (a <= b)%nat -> (b < k)%nat -> sep (s' a) <= sep (s' b)) ->
    (forall a j, (a < k)%nat -> (j < n)%nat -> (forall b, (b < k)%nat -> s' b <> j) -> sep (s' a) <= sep j) ->
    s a <> s' a -> sep (s' a) <= sep (s a)).
  { intros s s' a Ha IH S1 S2 S3 S4 Hne.
    destruct (existsb (fun c => Nat.eqb (s' c) (s a)) (seq 0 k)) eqn:EX.
    - apply existsb_exists in EX. destruct EX as (c & Hc & HEq). apply in_seq in Hc. apply Nat.eqb_eq in HEq.
      destruct (Nat.lt_trichotomy c a) as [Hl|[->|Hl]].
      + rewrite <- IH in HEq by exact Hl. apply S2 in HEq; lia.
      + congruence.
      + rewrite <- HEq. apply S3; lia.
    - apply S4; [exact Ha|apply S1, Ha|]. intros b Hb HEq. rewrite <- not_true_iff_false in EX. apply EX.
      apply existsb_exists. exists b. split; [apply in_seq; lia|apply Nat.eqb_eq, HEq]. }
  intros a. induction a as [a IH] using lt_wf_ind. intros Ha.
  destruct (Nat.eq_dec (sel a) (sel' a)) as [|Hne]; [assumption|exfalso].
  assert (IH' : forall b, (b < a)%nat -> sel b = sel' b) by (intros; apply IH; lia).
  pose proof (half sel sel' a Ha IH' A1 A2 B3 B4 Hne) as H1.
  pose proof (half sel' sel a Ha (fun b Hb => eq_sym (IH' b Hb)) B1 B2 A3 A4 (fun e => Hne (eq_sym e))) as H2.
  apply (HD (sel a) (sel' a)); [apply A1, Ha|apply B1, Ha|exact Hne|lra].
Qed.

Lemma matrix_entry o i j : coords_inv o -> (i < o_n o + 1)%nat -> (j < o_n o + 1)%nat ->
  get_kriging_matrix o i j =
  if Nat.ltb i (o_n o) then if Nat.ltb j (o_n o) then - G_of o i j else 1
  else if Nat.ltb j (o_n o) then 1 else 0.
Proof.
  intros Hinv Hi Hj. unfold get_kriging_matrix.
  destruct (Nat.ltb_spec i (o_n o)) as [Li|Li].
  - destruct (Nat.ltb_spec j (o_n o)) as [Lj|Lj].
    + rewrite km_entry by assumption. rewrite <- (G_of_matrix o Hinv i j). reflexivity.
    + replace j with (o_n o) by lia. apply km_col, Li.
  - replace i with (o_n o) by lia. destruct (Nat.ltb_spec j (o_n o)) as [Lj|Lj]; [apply km_row, Lj|].
    replace j with (o_n o) by lia. apply km_corner.
Qed.

Lemma cell_similar E o o' s q q' r r' p p' pos pos' : env_ok E -> coords_inv o -> coords_inv o' -> ordinary o -> ordinary o' ->
  faithful_backend E o q -> faithful_backend E o' q' -> q_window q = q_window q' ->
  execute E o q = Ok r -> execute E o' q' = Ok r' ->
  shown o q p pos -> shown o' q' p' pos' ->
  o_n o' = o_n o -> perm_on (o_n o) s ->
  (forall i, (i < o_n o)%nat -> o_values o' i = o_values o (s i)) ->
  (forall i j, (i < o_n o)%nat -> (j < o_n o)%nat -> G_of o' i j = G_of o (s i) (s j)) ->
  (forall i, (i < o_n o)%nat -> g_of o' pos' i = g_of o pos (s i)) ->
  (q_window q <> None -> no_ties o pos /\ exists c, 0 < c /\
     forall i, (i < o_n o)%nat -> separation o' pos' (datum o' i) = c * separation o pos (datum o (s i))) ->
  r_value r p = r_value r' p' /\ r_variance r p = r_variance r' p'.
Proof.
  intros HE Hinv Hinv' Hord Hord' HF HF' HWW H H' [C Hh] [C' Hh'] Hn Hs Hv HG Hg Hw.
  destruct (q_window q) as [k|] eqn:HW.
  - destruct (window_value E o q k r p pos HE Hinv Hord HF HW H C Hh)
      as (Hk & l & pts & v & sg & HL & HA & Hrv & Hrs & HN & HR & HEs).
    destruct (window_value E o' q' k r' p' pos' HE Hinv' Hord' HF' (eq_sym HWW) H' C' Hh')
      as (Hk' & l' & pts' & v' & sg' & HL' & HA' & Hrv' & Hrs' & HN' & HR' & HEs').
    destruct (Hw ltac:(discriminate)) as [HD (cc & Hcc & Hsep)].
    set (sel := snd (neighbours E o pts k p)) in *.
    set (sel' := snd (neighbours E o' pts' k p')) in *.
    destruct HN as (N1 & N2 & N3 & N4), HN' as (N1' & N2' & N3' & N4'). rewrite Hn in *.
    assert (Hsel : forall a, (a < k)%nat -> sel a = s (sel' a)).
    { apply (nearest_unique (o_n o) k (fun i => separation o pos (datum o i)) sel (fun a => s (sel' a))); try assumption.
      - intros a Ha. apply Hs, N1', Ha.
      - intros a b Ha Hb HEq. apply N2'; try assumption. apply Hs in HEq; auto.
      - intros a b Hab Hb. apply (Rmult_le_reg_l cc _ _ Hcc). rewrite <- !Hsep by (apply N1'; lia). apply N3'; assumption.
      - intros a j Ha Hj Hno. destruct (perm_on_surj _ _ Hs j Hj) as (i & Hi & <-).
        apply (Rmult_le_reg_l cc _ _ Hcc). rewrite <- !Hsep by (try apply N1'; assumption). apply N4'; [exact Ha|exact Hi|].
        intros b Hb He. apply (Hno b Hb). rewrite He. reflexivity. }
    rewrite Hrv, Hrs, Hrv', Hrs'.
    assert (v = v' /\ sg = sg') as [-> ->]; [|auto].
    apply (regular_unique' k (fun a b => G_of o (sel a) (sel b)) (fun a => g_of o pos (sel a))
               (fun a => o_values o (sel a)) v sg v' sg' HR HEs).
    refine (OK_estimate_ext _ _ _ _ _ _ _ _ _ _ _ _ HEs').
    + intros i j Hi Hj. rewrite HG by (apply N1'; assumption). rewrite !Hsel by assumption. reflexivity.
    + intros i Hi. rewrite Hg by (apply N1'; assumption). rewrite Hsel by assumption. reflexivity.
    + intros i Hi. rewrite Hv by (apply N1'; assumption). rewrite Hsel by assumption. reflexivity.
  - destruct (execute_ok_ref E o q r Hinv Hord HF HW H) as (r1 & HR & Hsh & Heq).
    destruct (execute_ok_ref E o' q' r' Hinv' Hord' HF' (eq_sym HWW) H') as (r1' & HR' & Hsh' & Heq').
    destruct HE as (HL & _).
    destruct (ref_cell E o q r1 p pos HL Hinv HR C) as [Hp _]. rewrite <- Hsh in Hp. destruct (Heq p Hp) as [-> ->].
    destruct (ref_cell E o' q' r1' p' pos' HL Hinv' HR' C') as [Hp' _]. rewrite <- Hsh' in Hp'. destruct (Heq' p' Hp') as [-> ->].
    destruct (ref_value E o q r1 p pos HR C Hh) as (a & HI & -> & ->).
    destruct (ref_value E o' q' r1' p' pos' HR' C' Hh') as (a' & HI' & -> & ->).
    apply (invert_is_pinv _ _ _ _ _ _ HL) in HI. apply (invert_is_pinv _ _ _ _ _ _ HL) in HI'. rewrite Hn in *.
    set (n := o_n o) in *. set (t := perm_ext n s).
    assert (Ht : perm_on (n + 1) t) by (apply perm_ext_perm; [exact Hs|lia]).
    assert (Hm : meq (n + 1) (permm t (get_kriging_matrix o)) (get_kriging_matrix o')).
    { intros i j Hi Hj. rewrite (matrix_entry o' i j Hinv') by (rewrite Hn; assumption). unfold permm.
      assert (Ti := proj1 Ht i Hi). assert (Tj := proj1 Ht j Hj).
      rewrite (matrix_entry o _ _ Hinv) by assumption. rewrite Hn. fold n. revert Ti Tj. unfold t, perm_ext.
      destruct (Nat.ltb_spec i n) as [Li|Li]; destruct (Nat.ltb_spec j n) as [Lj|Lj]; intros Ti Tj;
      repeat match goal with |- context [Nat.ltb ?x n] => destruct (Nat.ltb_spec x n) end;
      try (pose proof (proj1 Hs _ Li)); try (pose proof (proj1 Hs _ Lj)); try lia; try reflexivity.
      rewrite HG by assumption. reflexivity. }
    assert (HP : meq (n + 1) a' (permm t a)).
    { apply (pinv_unique (n + 1) (get_kriging_matrix o')); [exact HI'|].
      apply (is_pinv_ext _ (permm t (get_kriging_matrix o))); [exact Hm|]. apply is_pinv_perm; assumption. }
    set (b := rhs_spec n (g_of o pos)). set (b' := rhs_spec n (g_of o' pos')).
    assert (Hb : forall i, (i < n + 1)%nat -> b' i = b (t i)).
    { intros i Hi. unfold b', b, rhs_spec, t, perm_ext. destruct (Nat.ltb_spec i n) as [Li|Li].
      - pose proof (proj1 Hs i Li). destruct (Nat.eqb_spec i n); [lia|]. destruct (Nat.eqb_spec (s i) n); [lia|].
        destruct (Nat.ltb_spec (s i) n); [|lia]. rewrite Hg by assumption. reflexivity.
      - replace i with n by lia. rewrite Nat.eqb_refl. reflexivity. }
    assert (Hx : forall i, (i < n + 1)%nat -> mulv (n + 1) a' b' i = mulv (n + 1) a b (t i)).
    { intros i Hi. unfold mulv. rewrite <- (bsum_perm (n + 1) t (fun j => a (t i) j * b j) Ht).
      apply bsum_ext; intros j Hj. rewrite HP, Hb by assumption. reflexivity. }
    unfold point_value, point_variance. split; f_equal.
    + rewrite <- (bsum_perm n s _ Hs). apply bsum_ext; intros i Hi. rewrite Hx, Hv by lia.
      unfold t, perm_ext. destruct (Nat.ltb_spec i n); [reflexivity|lia].
    + rewrite <- (bsum_perm (n + 1) t _ Ht). apply bsum_ext; intros i Hi. rewrite Hx, Hb by lia. reflexivity.
Qed.
