(** PROOFS about M_Kriging: the backends compute the textbook estimate. *)
From Coq Require Import String.
From Verif Require Import Base Sums Matrix M_Variogram P_Variogram M_Kriging S_Kriging.

(** *** The kriging matrix *)
Lemma km_entry n vg d i j : (i < n)%nat -> (j < n)%nat ->
  kriging_matrix n vg d i j = - data_semivariance vg d i j.
Proof.
  intros Hi Hj. unfold kriging_matrix, set_entry, set_col, set_row, fill_diagonal, set_block, data_semivariance.
  destruct (Nat.eqb_spec i n), (Nat.eqb_spec j n); try lia. cbn [andb].
  destruct (Nat.eqb_spec i j); [ring|].
  destruct (Nat.ltb_spec i n), (Nat.ltb_spec j n); try lia. reflexivity.
Qed.
Lemma km_row n vg d j : (j < n)%nat -> kriging_matrix n vg d n j = 1.
Proof.
  intros Hj. unfold kriging_matrix, set_entry, set_col, set_row.
  rewrite Nat.eqb_refl. destruct (Nat.eqb_spec j n); [lia|reflexivity].
Qed.
Lemma km_col n vg d i : (i < n)%nat -> kriging_matrix n vg d i n = 1.
Proof.
  intros Hi. unfold kriging_matrix, set_entry, set_col, set_row.
  rewrite Nat.eqb_refl. destruct (Nat.eqb_spec i n); [lia|reflexivity].
Qed.
Lemma km_corner n vg d : kriging_matrix n vg d n n = 0.
Proof. unfold kriging_matrix, set_entry. rewrite Nat.eqb_refl. reflexivity. Qed.

Lemma bsum_add1 n f : bsum (n + 1) f = bsum n f + f n.
Proof. rewrite Nat.add_1_r. reflexivity. Qed.

Lemma km_mulv n vg d x i : (i < n)%nat ->
  mulv (n + 1) (kriging_matrix n vg d) x i =
  x n - bsum n (fun j => x j * data_semivariance vg d i j).
Proof.
  intros Hi. unfold mulv. rewrite bsum_add1, km_col by assumption.
  rewrite (bsum_ext n _ (fun j => - (x j * data_semivariance vg d i j))).
  - rewrite bsum_opp. ring.
  - intros j Hj. rewrite km_entry by assumption. ring.
Qed.
Lemma km_mulv_last n vg d x : mulv (n + 1) (kriging_matrix n vg d) x n = bsum n x.
Proof.
  unfold mulv. rewrite bsum_add1, km_corner.
  rewrite (bsum_ext n _ x); [ring|]. intros j Hj. rewrite km_row by assumption. ring.
Qed.

Lemma km_symmetric n vg d : (forall i j, (i < n)%nat -> (j < n)%nat -> d i j = d j i) ->
  symmetric (n + 1) (kriging_matrix n vg d).
Proof.
  intros Hd i j Hi Hj. unfold trm.
  destruct (Nat.eq_dec i n) as [->|Hi'], (Nat.eq_dec j n) as [->|Hj'].
  - reflexivity.
  - rewrite km_row, km_col by lia. reflexivity.
  - rewrite km_row, km_col by lia. reflexivity.
  - rewrite !km_entry by lia. unfold data_semivariance. rewrite Nat.eqb_sym.
    rewrite (Hd j i) by lia. reflexivity.
Qed.

(** *** Right-hand sides *)
Definition rhs_spec (n : nat) (g : vec) : vec := fun k => if Nat.eqb k n then 1 else if Nat.ltb k n then - g k else 0.

Lemma any_zero_false eps n bd : any_zero eps n bd = false ->
  forall k, (k < n)%nat -> Rleb (Rabs (bd k)) eps = false.
Proof.
  intros H k Hk. unfold any_zero in H.
  destruct (Rleb (Rabs (bd k)) eps) eqn:E; [|reflexivity].
  assert (existsb (fun k => Rleb (Rabs (bd k)) eps) (seq 0 n) = true); [|congruence].
  apply existsb_exists. exists k. split; [apply in_seq; lia|exact E].
Qed.

Lemma rhs_eq n vg eps ex bd k :
  rhs n vg eps ex bd k = rhs_spec n (query_semivariance vg eps ex bd) k.
Proof.
  unfold rhs, rhs_spec, upd, query_semivariance.
  destruct (Nat.eqb_spec k n); [reflexivity|].
  destruct (any_zero eps n bd) eqn:E, ex; cbn [andb]; destruct (Nat.ltb_spec k n); cbn [andb];
    try reflexivity.
  - destruct (Rleb (Rabs (bd k)) eps); [ring|reflexivity].
  - rewrite (any_zero_false eps n bd E k) by assumption. reflexivity.
Qed.

(** A x = rhs iff (x_0..x_{n-1}, -x_n) solves the kriging equations. *)
Lemma system_iff n vg d g x :
  veq (n + 1) (mulv (n + 1) (kriging_matrix n vg d) x) (rhs_spec n g) <->
  OK_system n (data_semivariance vg d) g x (- x n).
Proof.
  split.
  - intros H. split.
    + intros i Hi. specialize (H i ltac:(lia)). rewrite km_mulv in H by assumption.
      unfold rhs_spec in H. destruct (Nat.eqb_spec i n); [lia|]. destruct (Nat.ltb_spec i n); [|lia]. lra.
    + specialize (H n ltac:(lia)). rewrite km_mulv_last in H. unfold rhs_spec in H.
      rewrite Nat.eqb_refl in H. exact H.
  - intros [H1 H2] i Hi. destruct (Nat.eq_dec i n) as [->|Hne].
    + rewrite km_mulv_last. unfold rhs_spec. rewrite Nat.eqb_refl. exact H2.
    + rewrite km_mulv by lia. unfold rhs_spec.
      destruct (Nat.eqb_spec i n); [lia|]. destruct (Nat.ltb_spec i n); [|lia].
      specialize (H1 i ltac:(lia)). lra.
Qed.

(** *** Result at one point *)
Definition point_value (n : nat) (a_inv : mat) (b Z : vec) : R :=
  bsum n (fun k => mulv (n + 1) a_inv b k * Z k).
Definition point_variance (n : nat) (a_inv : mat) (b : vec) : R :=
  bsum (n + 1) (fun k => mulv (n + 1) a_inv b k * - b k).

Lemma mulv_ext_r n A x y i : veq n x y -> mulv n A x i = mulv n A y i.
Proof. intros H. apply bsum_ext; intros k Hk. rewrite H by assumption. reflexivity. Qed.

Lemma variance_expand n g x :
  bsum (n + 1) (fun k => x k * - rhs_spec n g k) = bsum n (fun k => x k * g k) + - x n.
Proof.
  rewrite bsum_add1. unfold rhs_spec at 2. rewrite Nat.eqb_refl.
  rewrite (bsum_ext n _ (fun k => x k * g k)); [ring|].
  intros k Hk. unfold rhs_spec. destruct (Nat.eqb_spec k n); [lia|].
  destruct (Nat.ltb_spec k n); [ring|lia].
Qed.

Lemma estimate_of_solution n vg d g x z :
  veq (n + 1) (mulv (n + 1) (kriging_matrix n vg d) x) (rhs_spec n g) ->
  OK_estimate n (data_semivariance vg d) g z
    (bsum n (fun k => x k * z k)) (bsum (n + 1) (fun k => x k * - rhs_spec n g k)).
Proof.
  intros H. exists x, (- x n). split; [apply system_iff, H|]. split; [reflexivity|].
  apply variance_expand.
Qed.

Lemma point_estimate n vg d g a_inv z :
  is_inverse (n + 1) (kriging_matrix n vg d) a_inv ->
  OK_estimate n (data_semivariance vg d) g z
    (point_value n a_inv (rhs_spec n g) z) (point_variance n a_inv (rhs_spec n g)).
Proof. intros H. apply estimate_of_solution. apply inverse_solves, H. Qed.

(** Regularity and uniqueness. *)
Lemma nonsingular_regular n vg d :
  nonsingular (n + 1) (kriging_matrix n vg d) -> OK_regular n (data_semivariance vg d).
Proof.
  intros [B HB] g. exists (mulv (n + 1) B (rhs_spec n g)), (- mulv (n + 1) B (rhs_spec n g) n).
  split; [apply system_iff, inverse_solves, HB|].
  intros w' mu' H'.
  set (x := fun k => if Nat.eqb k n then - mu' else w' k).
  assert (Hx : OK_system n (data_semivariance vg d) g x (- x n)).
  { destruct H' as [H1 H2].
    assert (E : forall f, bsum n (fun j => x j * f j) = bsum n (fun j => w' j * f j)).
    { intros f. apply bsum_ext; intros j Hj. unfold x. destruct (Nat.eqb_spec j n); [lia|reflexivity]. }
    split.
    - intros i Hi. rewrite (E (fun j => data_semivariance vg d i j)). unfold x. rewrite Nat.eqb_refl.
      rewrite Ropp_involutive. apply H1, Hi.
    - rewrite <- H2. apply bsum_ext; intros j Hj. unfold x. destruct (Nat.eqb_spec j n); [lia|reflexivity]. }
  apply system_iff in Hx. pose proof (inverse_unique_solution _ _ _ _ _ HB Hx) as U.
  split.
  - intros i Hi. rewrite <- (U i) by lia. unfold x. destruct (Nat.eqb_spec i n); [lia|reflexivity].
  - rewrite <- (U n) by lia. unfold x. rewrite Nat.eqb_refl. ring.
Qed.

Lemma regular_unique n G g z v1 s1 v2 s2 : OK_regular n G ->
  OK_estimate n G g z v1 s1 -> OK_estimate n G g z v2 s2 -> v1 = v2 /\ s1 = s2.
Proof.
  intros HR (w1 & m1 & S1 & -> & ->) (w2 & m2 & S2 & -> & ->).
  destruct (HR g) as (w & m & _ & U). destruct (U _ _ S1) as [E1 ->], (U _ _ S2) as [E2 ->].
  split; [|f_equal]; apply bsum_ext; intros i Hi; rewrite E1, E2 by assumption; reflexivity.
Qed.

(** *** Loops *)
Lemma fold_upd_pair {A} (f g : nat -> A) l z0 s0 :
  NoDup l ->
  let r := fold_left (fun '(z, s) j => (upd z j (f j), upd s j (g j))) l (z0, s0) in
  forall j, fst r j = (if existsb (Nat.eqb j) l then f j else z0 j) /\
            snd r j = (if existsb (Nat.eqb j) l then g j else s0 j).
Proof.
  revert z0 s0. induction l as [|a l IH]; intros z0 s0 Hnd; cbn [fold_left existsb].
  { intros j; split; reflexivity. }
  inversion Hnd as [|? ? Hnot Hnd']; subst. intros j.
  destruct (IH (upd z0 a (f a)) (upd s0 a (g a)) Hnd' j) as [E1 E2]. rewrite E1, E2.
  unfold upd. destruct (Nat.eqb_spec j a) as [->|Hne]; cbn [orb].
  - assert (existsb (Nat.eqb a) l = false) as ->.
    { apply not_true_iff_false. intros H. apply existsb_exists in H. destruct H as [y [Hy Ey]].
      apply Nat.eqb_eq in Ey. subst. contradiction. }
    split; reflexivity.
  - split; reflexivity.
Qed.

Lemma unmasked_in npt mask j : existsb (Nat.eqb j) (unmasked npt mask) = Nat.ltb j npt && negb (mask j).
Proof.
  destruct (existsb (Nat.eqb j) (unmasked npt mask)) eqn:E.
  - apply existsb_exists in E. destruct E as [y [Hy Ey]]. apply Nat.eqb_eq in Ey. subst y.
    apply filter_In in Hy. destruct Hy as [Hs Hm]. apply in_seq in Hs. rewrite Hm.
    destruct (Nat.ltb_spec j npt); [reflexivity|lia].
  - symmetry. apply not_true_iff_false. intros H. apply andb_true_iff in H. destruct H as [H1 H2].
    apply Nat.ltb_lt in H1.
    assert (existsb (Nat.eqb j) (unmasked npt mask) = true); [|congruence].
    apply existsb_exists. exists j. split; [|apply Nat.eqb_refl].
    apply filter_In. split; [apply in_seq; lia|exact H2].
Qed.

Lemma unmasked_NoDup npt mask : NoDup (unmasked npt mask).
Proof. apply NoDup_filter, seq_NoDup. Qed.

(** *** Characterisation of the three global backends *)
Lemma point_value_ext n a_inv b b' Z : veq (n + 1) b b' -> point_value n a_inv b Z = point_value n a_inv b' Z.
Proof. intros H. apply bsum_ext; intros k Hk. rewrite (mulv_ext_r (n + 1) a_inv b b' k H). reflexivity. Qed.
Lemma point_variance_ext n a_inv b b' : veq (n + 1) b b' -> point_variance n a_inv b = point_variance n a_inv b'.
Proof.
  intros H. apply bsum_ext; intros k Hk.
  rewrite (mulv_ext_r (n + 1) a_inv b b' k H), H by assumption. reflexivity.
Qed.

Lemma exec_vector_spec L pi pit n npt vg eps ex Z a bd :
  match invert L pi pit (n + 1) a with
  | Err e => exec_vector L pi pit n npt vg eps ex Z a bd = Err e
  | Ok a_inv => exists z s, exec_vector L pi pit n npt vg eps ex Z a bd = Ok (z, s) /\
      forall j, (j < npt)%nat ->
        z j = point_value n a_inv (rhs_spec n (query_semivariance vg eps ex (bd j))) Z /\
        s j = point_variance n a_inv (rhs_spec n (query_semivariance vg eps ex (bd j)))
  end.
Proof.
  destruct (invert L pi pit (n + 1) a) as [a_inv|e] eqn:EI; unfold exec_vector; rewrite EI; cbn [bind]; [|reflexivity].
  do 2 eexists. split; [reflexivity|]. intros j Hj.
  set (b := rhs_vector n npt vg eps ex bd).
  assert (Hb : veq (n + 1) (b j) (rhs_spec n (query_semivariance vg eps ex (bd j)))).
  { intros k Hk. unfold b, rhs_vector, rhs_spec, query_semivariance.
    destruct (Nat.eqb_spec k n); [reflexivity|].
    destruct (existsb (fun j => any_zero eps n (bd j)) (seq 0 npt)) eqn:E, ex; cbn [andb];
      destruct (Nat.ltb_spec k n); cbn [andb]; try reflexivity; try lia.
    - destruct (Rleb (Rabs (bd j k)) eps); [ring|reflexivity].
    - assert (any_zero eps n (bd j) = false) as Ez.
      { apply not_true_iff_false. intros Hz.
        assert (existsb (fun j => any_zero eps n (bd j)) (seq 0 npt) = true); [|congruence].
        apply existsb_exists. exists j. split; [apply in_seq; lia|exact Hz]. }
      rewrite (any_zero_false eps n (bd j) Ez k) by assumption. reflexivity. }
  split; [apply point_value_ext, Hb|apply point_variance_ext, Hb].
Qed.

Lemma exec_loop_spec L pi pit n npt vg eps ex Z a bd mask :
  match invert L pi pit (n + 1) a with
  | Err e => exec_loop L pi pit n npt vg eps ex Z a bd mask = Err e
  | Ok a_inv => exists z s, exec_loop L pi pit n npt vg eps ex Z a bd mask = Ok (z, s) /\
      forall j, (j < npt)%nat -> mask j = false ->
        z j = point_value n a_inv (rhs_spec n (query_semivariance vg eps ex (bd j))) Z /\
        s j = point_variance n a_inv (rhs_spec n (query_semivariance vg eps ex (bd j)))
  end.
Proof.
  destruct (invert L pi pit (n + 1) a) as [a_inv|e] eqn:EI; unfold exec_loop; rewrite EI; cbn [bind]; [|reflexivity].
  set (f := fun j => bsum n (fun k => mulv (n + 1) a_inv (rhs n vg eps ex (bd j)) k * Z k)).
  set (g := fun j => bsum (n + 1) (fun k => mulv (n + 1) a_inv (rhs n vg eps ex (bd j)) k * - rhs n vg eps ex (bd j) k)).
  pose proof (fold_upd_pair f g (unmasked npt mask) (fun _ => 0) (fun _ => 0) (unmasked_NoDup npt mask)) as H.
  cbv zeta in H.
  change (fold_left _ (unmasked npt mask) _) with
    (fold_left (fun '(z, s) (j : nat) => (upd z j (f j), upd s j (g j))) (unmasked npt mask) (fun _ => 0, fun _ => 0)).
  destruct (fold_left (fun '(z, s) (j : nat) => (upd z j (f j), upd s j (g j))) (unmasked npt mask) (fun _ => 0, fun _ => 0)) as [z s].
  exists z, s. split; [reflexivity|]. intros j Hj Hm. destruct (H j) as [H1 H2]. cbn [fst snd] in H1, H2.
  rewrite unmasked_in, Hm in H1, H2. destruct (Nat.ltb_spec j npt); [|lia]. cbn [andb negb] in H1, H2.
  rewrite H1, H2. unfold f, g.
  assert (Hb : veq (n + 1) (rhs n vg eps ex (bd j)) (rhs_spec n (query_semivariance vg eps ex (bd j)))).
  { intros k _. apply rhs_eq. }
  split; [apply (point_value_ext n a_inv _ _ Z Hb)|apply (point_variance_ext n a_inv _ _ Hb)].
Qed.

Lemma upd_same {A} (f : nat -> A) k v : upd f k v k = v.
Proof. unfold upd. rewrite Nat.eqb_refl. reflexivity. Qed.
Lemma upd_other {A} (f : nat -> A) k v i : i <> k -> upd f k v i = f i.
Proof. intros H. unfold upd. destruct (Nat.eqb_spec i k); [contradiction|reflexivity]. Qed.

(** C helpers *)
Lemma c_sum_bsum n f : c_sum n f = bsum n f.
Proof.
  unfold c_sum. induction n as [|n IH]; [reflexivity|].
  rewrite seq_S, fold_left_app. simpl. rewrite IH. reflexivity.
Qed.

Lemma fold_upd_seq (f : vec -> nat -> R) n b :
  (forall b b' k, b k = b' k -> f b k = f b' k) ->
  forall i, fold_left (fun b k => upd b k (f b k)) (seq 0 n) b i = if Nat.ltb i n then f b i else b i.
Proof.
  intros Hf. induction n as [|n IH]; intros i; [reflexivity|].
  rewrite seq_S, fold_left_app. cbn [fold_left plus]. unfold upd at 1.
  destruct (Nat.eqb_spec i n) as [->|Hne].
  - destruct (Nat.ltb_spec n (S n)); [|lia]. apply Hf. rewrite IH.
    destruct (Nat.ltb_spec n n); [lia|reflexivity].
  - rewrite IH. destruct (Nat.ltb_spec i n), (Nat.ltb_spec i (S n)); try lia; reflexivity.
Qed.

Lemma check_b_vect_spec n bd b eps i :
  check_b_vect n bd b eps i = if Nat.ltb i n && Rleb (bd i) eps then 0 else b i.
Proof.
  unfold check_b_vect. revert i. induction n as [|n IH]; intros i; [reflexivity|].
  rewrite seq_S, fold_left_app. cbn [fold_left plus].
  destruct (Rleb (bd n) eps) eqn:E.
  - unfold upd. destruct (Nat.eqb_spec i n) as [->|Hne].
    + rewrite E. destruct (Nat.ltb_spec n (S n)); [reflexivity|lia].
    + rewrite IH. destruct (Nat.ltb_spec i n), (Nat.ltb_spec i (S n)); try lia; reflexivity.
  - rewrite IH. destruct (Nat.ltb_spec i n), (Nat.ltb_spec i (S n)); try lia; try reflexivity.
    assert (i = n) by lia; subst. rewrite E. reflexivity.
Qed.

(** A C variogram routine that computes [vg] on non-negative distances. *)
Definition cvg_computes (cvg : nat -> vec -> vec -> vec) (vg : R -> R) : Prop :=
  forall n dist out, (forall i, (i < n)%nat -> 0 <= dist i) ->
    forall i, cvg n dist out i = if Nat.ltb i n then vg (dist i) else out i.

Lemma c_point_b n cvg vg eps ex bd b0 :
  cvg_computes cvg vg -> (forall i, (i < n)%nat -> 0 <= bd i) ->
  let b := cvg n bd b0 in
  let b := fold_left (fun b k => upd b k (b k * -1)) (seq 0 n) b in
  let b := upd b n 1 in
  let b := if ex : bool then check_b_vect n bd b eps else b in
  veq (n + 1) b (rhs_spec n (query_semivariance vg eps ex bd)).
Proof.
  intros Hc Hpos b1 b2 b3 b4 k Hk.
  assert (E2 : forall i, b2 i = if Nat.ltb i n then b1 i * -1 else b1 i).
  { intros i. unfold b2. apply (fold_upd_seq (fun b k => b k * -1)). intros b b' k0 ->; reflexivity. }
  assert (E3 : b3 k = if Nat.eqb k n then 1 else - vg (bd k)).
  { unfold b3, upd. destruct (Nat.eqb_spec k n); [reflexivity|]. rewrite E2. unfold b1.
    rewrite Hc by assumption. destruct (Nat.ltb_spec k n); [ring|lia]. }
  unfold rhs_spec, query_semivariance. unfold b4. destruct ex; cbn [andb].
  - rewrite check_b_vect_spec, E3. destruct (Nat.eqb_spec k n) as [->|Hne].
    + destruct (Nat.ltb_spec n n); [lia|reflexivity].
    + destruct (Nat.ltb_spec k n); [|lia]. cbn [andb].
      rewrite (Rabs_pos_eq (bd k)) by (apply Hpos; assumption).
      destruct (Rleb (bd k) eps); [ring|reflexivity].
  - rewrite E3. destruct (Nat.eqb_spec k n); [reflexivity|]. destruct (Nat.ltb_spec k n); [reflexivity|lia].
Qed.

Lemma c_loop_inv n cvg vg eps ex Z a_inv bd_all mask :
  cvg_computes cvg vg -> (forall j i, (i < n)%nat -> 0 <= bd_all j i) ->
  forall npt s,
  let s' := fold_left (c_point n cvg eps ex Z a_inv bd_all mask) (seq 0 npt) s in
  forall j,
    cz s' j = (if Nat.ltb j npt && negb (mask j)
               then point_value n a_inv (rhs_spec n (query_semivariance vg eps ex (bd_all j))) Z else cz s j) /\
    cs s' j = (if Nat.ltb j npt && negb (mask j)
               then point_variance n a_inv (rhs_spec n (query_semivariance vg eps ex (bd_all j))) else cs s j).
Proof.
  intros Hc Hpos. induction npt as [|npt IH]; intros s s' j; [split; reflexivity|].
  unfold s'. rewrite seq_S, fold_left_app. cbn [fold_left plus].
  specialize (IH s j). set (s1 := fold_left (c_point n cvg eps ex Z a_inv bd_all mask) (seq 0 npt) s) in *.
  cbv zeta in IH. destruct IH as [IH1 IH2].
  unfold c_point. destruct (mask npt) eqn:Em.
  - rewrite IH1, IH2. destruct (Nat.ltb_spec j npt), (Nat.ltb_spec j (S npt)); try lia; try (split; reflexivity).
    assert (j = npt) by lia; subst j. rewrite Em. split; reflexivity.
  - cbn [cz cs].
    destruct (Nat.eq_dec j npt) as [->|Hne].
    + rewrite !upd_same, Em. destruct (Nat.ltb_spec npt (S npt)); [|lia]. cbn [andb negb].
      rewrite !c_sum_bsum.
      pose proof (c_point_b n cvg vg eps ex (bd_all npt) (cb s1) Hc (Hpos npt)) as Hb. cbv zeta in Hb.
      match type of Hb with veq _ ?B _ => set (b := B) in * end.
      split.
      * unfold point_value. apply bsum_ext; intros k Hk. unfold dgemv.
        destruct (Nat.ltb_spec k (n + 1)); [|lia]. rewrite (mulv_ext_r (n + 1) a_inv b _ k Hb). reflexivity.
      * unfold point_variance. rewrite <- bsum_opp. apply bsum_ext; intros k Hk. unfold dgemv.
        destruct (Nat.ltb_spec k (n + 1)); [|lia].
        rewrite (mulv_ext_r (n + 1) a_inv b _ k Hb), Hb by assumption. ring.
    + rewrite !upd_other, IH1, IH2 by assumption.
      destruct (Nat.ltb_spec j npt), (Nat.ltb_spec j (S npt)); try lia; split; reflexivity.
Qed.

Lemma c_exec_loop_spec L pi pit n npt f cf params vg eps ex Z a bd mask :
  get_variogram_model (fname f) = Ok cf -> cvg_computes (cf params) vg ->
  (forall j i, (i < n)%nat -> 0 <= bd j i) ->
  match invert L pi pit (n + 1) a with
  | Err e => c_exec_loop L pi pit n npt f params eps ex Z a bd mask = Err e
  | Ok a_inv => exists z s, c_exec_loop L pi pit n npt f params eps ex Z a bd mask = Ok (z, s) /\
      forall j, (j < npt)%nat -> mask j = false ->
        z j = point_value n a_inv (rhs_spec n (query_semivariance vg eps ex (bd j))) Z /\
        s j = point_variance n a_inv (rhs_spec n (query_semivariance vg eps ex (bd j)))
  end.
Proof.
  intros Hg Hc Hpos.
  destruct (invert L pi pit (n + 1) a) as [a_inv|e] eqn:EI; unfold c_exec_loop; rewrite Hg, EI; cbn [bind]; [|reflexivity].
  do 2 eexists. split; [reflexivity|]. intros j Hj Hm.
  pose proof (c_loop_inv n (cf params) vg eps ex Z a_inv bd mask Hc Hpos npt
    {| cz := fun _ => 0; cs := fun _ => 0; cx := fun _ => 0; cb := fun _ => 0 |} j) as H. cbv zeta in H.
  destruct H as [H1 H2]. rewrite H1, H2, Hm. destruct (Nat.ltb_spec j npt); [|lia]. split; reflexivity.
Qed.

(** *** Inversion *)
Lemma invert_ok L pit n a b : linalg_ok L -> invert L false pit n a = Ok b -> is_inverse n a b.
Proof.
  intros HL H. unfold invert in H. destruct (la_inv L n a) as [b'|] eqn:E; [|discriminate].
  injection H as <-. apply (inv_some L HL), E.
Qed.
Lemma invert_err L pit n a e : linalg_ok L -> invert L false pit n a = Err e -> e = LinAlgError /\ ~ nonsingular n a.
Proof.
  intros HL H. unfold invert in H. destruct (la_inv L n a) as [b'|] eqn:E; [discriminate|].
  injection H as <-. split; [reflexivity|]. apply (inv_none L HL), E.
Qed.
Lemma invert_pinv L pit n a p : linalg_ok L -> invert L true pit n a = Ok p -> is_pinv n a p.
Proof.
  intros HL H. unfold invert in H. destruct (la_pinv L pit n a) as [b'|] eqn:E; [|discriminate].
  injection H as <-. apply (pinv_some L HL) with pit, E.
Qed.
(** With a regular matrix both ways of inverting give the inverse. *)
Lemma invert_regular L pi pit n a b : linalg_ok L -> nonsingular n a ->
  invert L pi pit n a = Ok b -> is_inverse n a b.
Proof.
  intros HL [B HB] H. destruct pi; [|apply (invert_ok L pit); assumption].
  apply (is_inverse_ext n a a B b); [apply meq_refl| |exact HB].
  apply meq_sym. apply (pinv_of_nonsingular n a); [exact HB|].
  apply (invert_pinv L pit); assumption.
Qed.
