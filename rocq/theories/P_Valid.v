(** The built-in models are conditionally negative definite in Euclidean space;
    linear algebra for square systems. *)
From Coq Require Import String.
From Verif Require Import Base Sums Matrix M_Variogram M_Geometry S_Geometry M_Kriging S_Kriging M_Init M_Object M_Execute S_Execute S_Valid
  P_Psd P_Psd2 P_Psd3 P_Turn4 P_Dup P_OKSpec P_OK.

(** ---- n+1 vectors in R^n are dependent ---- *)
Lemma all_or_one (P : nat -> Prop) n : (forall i, P i \/ ~ P i) ->
  (forall i, (i < n)%nat -> P i) \/ exists i, (i < n)%nat /\ ~ P i.
Proof.
  intros Hd. induction n as [|n [IH|(i & Hi & HP)]].
  - left. intros; lia.
  - destruct (Hd n) as [H|H].
    + left. intros i Hi. destruct (Nat.eq_dec i n) as [->|]; [exact H|apply IH; lia].
    + right. exists n. split; [lia|exact H].
  - right. exists i. split; [lia|exact HP].
Qed.
Lemma dependent n (v : nat -> vec) : exists c : vec, (exists i, (i < S n)%nat /\ c i <> 0) /\
  forall a, (a < n)%nat -> bsum (S n) (fun i => c i * v i a) = 0.
Proof.
  revert v. induction n as [|n IH]; intros v.
  - exists (fun _ => 1). split; [exists 0%nat; split; [lia|lra]|intros; lia].
  - destruct (all_or_one (fun i => v i n = 0) (S (S n))) as [H0|(p & Hp & Hne)].
    { intros i. destruct (Req_dec (v i n) 0); auto. }
    + destruct (IH v) as (c & (i & Hi & Hci) & Hc).
      exists (fun i => if Nat.eqb i (S n) then 0 else c i). split.
      * exists i. split; [lia|]. destruct (Nat.eqb_spec i (S n)); [lia|exact Hci].
      * intros a Ha. cbn [bsum]. rewrite Nat.eqb_refl.
        rewrite (bsum_ext n _ (fun i => c i * v i a)) by (intros k Hk; destruct (Nat.eqb_spec k (S n)); [lia|reflexivity]).
        destruct (Nat.eqb_spec n (S n)); [lia|].
        destruct (Nat.eq_dec a n) as [->|Han].
        -- rewrite (bsum_0 n) by (intros k Hk; rewrite H0 by lia; ring). rewrite !H0 by lia. ring.
        -- specialize (Hc a ltac:(lia)). cbn [bsum] in Hc. lra.
    + destruct (IH (fun k a => v (skip p k) a - v (skip p k) n / v p n * v p a)) as (c & (i & Hi & Hci) & Hc).
      pose (cp := - bsum (S n) (fun k => c k * (v (skip p k) n / v p n))).
      exists (fun i => if Nat.eqb i p then cp else c (if Nat.ltb i p then i else pred i)).
      assert (Hsk : forall k, (if Nat.eqb (skip p k) p then cp else c (if Nat.ltb (skip p k) p then skip p k else pred (skip p k))) = c k).
      { intros k. destruct (Nat.eqb_spec (skip p k) p) as [E|_]; [exfalso; exact (skip_ne p k E)|].
        f_equal. unfold skip. destruct (Nat.ltb_spec k p).
        - destruct (Nat.ltb_spec k p); lia.
        - destruct (Nat.ltb_spec (S k) p); lia. }
      split.
      * exists (skip p i). split; [apply skip_lt; exact Hi|]. rewrite Hsk. exact Hci.
      * intros a Ha. rewrite (bsum_skip (S n) p) by exact Hp. rewrite Nat.eqb_refl.
        rewrite (bsum_ext (S n) _ (fun k => c k * v (skip p k) a)) by (intros k Hk; cbv beta; rewrite Hsk; reflexivity).
        assert (E : bsum (S n) (fun k => c k * v (skip p k) a) + cp * v p a
                    = bsum (S n) (fun k => c k * (v (skip p k) a - v (skip p k) n / v p n * v p a))).
        { unfold cp. rewrite <- Ropp_mult_distr_l, <- bsum_scal_r.
          change (bsum (S n) (fun k => c k * v (skip p k) a) - bsum (S n) (fun k => c k * (v (skip p k) n / v p n) * v p a)
                  = bsum (S n) (fun k => c k * (v (skip p k) a - v (skip p k) n / v p n * v p a))).
          rewrite <- bsum_minus. apply bsum_ext. intros; ring. }
        rewrite E. destruct (Nat.eq_dec a n) as [->|Han].
        -- apply bsum_0. intros k Hk. replace (v (skip p k) n - v (skip p k) n / v p n * v p n) with 0 by (field; exact Hne). ring.
        -- apply Hc. lia.
Qed.
Lemma injective_surjective n A : (forall x, (forall i, (i < n)%nat -> mulv n A x i = 0) -> forall i, (i < n)%nat -> x i = 0) ->
  forall rhs, exists x, forall i, (i < n)%nat -> mulv n A x i = rhs i.
Proof.
  intros Hinj rhs.
  destruct (dependent n (fun j a => if Nat.eqb j n then rhs a else A a j)) as (c & (i & Hi & Hci) & Hc).
  assert (Hc' : forall a, (a < n)%nat -> mulv n A c a = - c n * rhs a).
  { intros a Ha. specialize (Hc a Ha). cbn [bsum] in Hc. rewrite Nat.eqb_refl in Hc. unfold mulv.
    rewrite (bsum_ext n _ (fun j => A a j * c j)) in Hc
      by (intros j Hj; destruct (Nat.eqb_spec j n); [lia|ring]). lra. }
  destruct (Req_dec (c n) 0) as [E|E].
  - exfalso. apply Hci. destruct (Nat.eq_dec i n) as [->|]; [exact E|].
    apply Hinj; [|lia]. intros a Ha. rewrite Hc' by exact Ha. rewrite E. ring.
  - exists (fun j => - / c n * c j). intros a Ha. unfold mulv.
    rewrite (bsum_ext n _ (fun j => - / c n * (A a j * c j))) by (intros; ring). rewrite bsum_scal.
    specialize (Hc' a Ha). unfold mulv in Hc'. rewrite Hc'. field. exact E.
Qed.

(** strictly conditionally negative definite semivariances: regular system *)
Definition bordered (n : nat) (G : mat) : mat := fun i j =>
  if Nat.ltb i n then (if Nat.ltb j n then G i j else 1) else (if Nat.ltb j n then 1 else 0).
Lemma bordered_mulv n G x i : (i < n)%nat -> mulv (S n) (bordered n G) x i = bsum n (fun j => x j * G i j) + x n.
Proof.
  intros Hi. unfold mulv, bordered. cbn [bsum]. destruct (Nat.ltb_spec i n); [|lia]. destruct (Nat.ltb_spec n n); [lia|].
  rewrite (bsum_ext n _ (fun j => x j * G i j)) by (intros j Hj; destruct (Nat.ltb_spec j n); [ring|lia]). ring.
Qed.
Lemma bordered_mulv_last n G x : mulv (S n) (bordered n G) x n = bsum n x.
Proof.
  unfold mulv, bordered. cbn [bsum]. destruct (Nat.ltb_spec n n); [lia|].
  rewrite (bsum_ext n _ x) by (intros j Hj; destruct (Nat.ltb_spec j n); [ring|lia]). ring.
Qed.
Lemma scnd_kernel n G w mu : (0 < n)%nat -> scnd n G ->
  (forall i, (i < n)%nat -> bsum n (fun j => w j * G i j) + mu = 0) -> bsum n w = 0 ->
  (forall i, (i < n)%nat -> w i = 0) /\ mu = 0.
Proof.
  intros Hn HG H1 H2.
  assert (Hw : forall i, (i < n)%nat -> w i = 0).
  { apply (HG w H2). unfold qf.
    rewrite (bsum_ext n _ (fun i => w i * - mu)).
    - rewrite bsum_scal_r, H2. lra.
    - intros i Hi. rewrite (bsum_ext n _ (fun j => w i * (w j * G i j))) by (intros; ring). rewrite bsum_scal.
      f_equal. specialize (H1 i Hi). lra. }
  split; [exact Hw|]. specialize (H1 0%nat Hn). rewrite bsum_0 in H1 by (intros j Hj; rewrite Hw by exact Hj; ring). lra.
Qed.
Lemma scnd_regular n G : (0 < n)%nat -> scnd n G -> OK_regular n G.
Proof.
  intros Hn HG g.
  destruct (injective_surjective (S n) (bordered n G)) with (rhs := fun i => if Nat.ltb i n then g i else 1) as [x Hx].
  - intros x Hx. destruct (scnd_kernel n G x (x n) Hn HG) as [H1 H2].
    + intros i Hi. rewrite <- bordered_mulv by exact Hi. apply Hx. lia.
    + rewrite <- (bordered_mulv_last n G x). apply Hx. lia.
    + intros i Hi. destruct (Nat.eq_dec i n) as [->|]; [exact H2|apply H1; lia].
  - exists x, (x n). split; [split|].
    + intros i Hi. rewrite <- bordered_mulv by exact Hi. rewrite Hx by lia. destruct (Nat.ltb_spec i n); [reflexivity|lia].
    + rewrite <- (bordered_mulv_last n G x). rewrite Hx by lia. destruct (Nat.ltb_spec n n); [lia|reflexivity].
    + intros w mu [H1 H2]. destruct (scnd_kernel n G (fun j => w j - x j) (mu - x n) Hn HG) as [K1 K2].
      * intros i Hi. rewrite (bsum_ext n _ (fun j => w j * G i j - x j * G i j)) by (intros; ring). rewrite bsum_minus.
        pose proof (H1 i Hi). pose proof (Hx i ltac:(lia)) as Hxi. rewrite bordered_mulv in Hxi by exact Hi.
        destruct (Nat.ltb_spec i n); [lra|lia].
      * rewrite bsum_minus, H2. pose proof (Hx n ltac:(lia)) as H. rewrite bordered_mulv_last in H. destruct (Nat.ltb_spec n n); [lia|lra].
      * split; [|lra]. intros i Hi. specialize (K1 i Hi). cbv beta in K1. lra.
Qed.

(** ---- shapes of the proper models ---- *)
Definition valid_shape (gam : R -> R) : Prop :=
  gam 0 = 0 /\
  (forall n D x, (D <= 3)%nat -> cond_neg_def n (fun i j => gam (sqrt (sqd D x i j)))) /\
  (forall n D x, (D <= 3)%nat -> separated n D x -> scnd n (fun i j => gam (sqrt (sqd D x i j)))).

Lemma cnd_ext n M M' : (forall i j, (i < n)%nat -> (j < n)%nat -> M i j = M' i j) -> cond_neg_def n M -> cond_neg_def n M'.
Proof. intros E H c Hc. change (qf n c M' <= 0). rewrite <- (qf_ext n c c M M') by auto. apply H. exact Hc. Qed.
Lemma scnd_ext n M M' : (forall i j, (i < n)%nat -> (j < n)%nat -> M i j = M' i j) -> scnd n M -> scnd n M'.
Proof. intros E H c Hc Hq. apply H; [exact Hc|]. rewrite (qf_ext n c c M M') by auto. exact Hq. Qed.

Lemma npow_sqrt N e : 0 <= N -> 0 < e -> npow (sqrt N) e = npow N (e / 2).
Proof.
  intros HN He. unfold npow. destruct (Reqb_spec e 0); [lra|]. destruct (Reqb_spec (e / 2) 0); [lra|].
  destruct (Reqb_spec N 0) as [->|Hne].
  - rewrite sqrt_0. destruct (Reqb_spec 0 0); [reflexivity|lra].
  - assert (0 < N) by lra. assert (0 < sqrt N) by (apply sqrt_lt_R0; assumption).
    destruct (Reqb_spec (sqrt N) 0); [lra|].
    rewrite <- Rpower_sqrt by assumption. rewrite Rpower_mult. f_equal. field.
Qed.
Lemma shape_power e : 0 < e < 2 -> valid_shape (fun d => npow d e).
Proof.
  intros He. split; [|split].
  - unfold npow. destruct (Reqb_spec 0 0); [|lra]. destruct (Reqb_spec e 0); [lra|reflexivity].
  - intros n D x HD. apply (cnd_ext n (fun i j => npow (sqd D x i j) (e / 2))).
    + intros. symmetry. apply npow_sqrt; [apply sqd_nonneg|lra].
    + apply pow_cnd; [lra|intros; apply sqd_nonneg|]. intros t Ht. apply gauss_psd. lra.
  - intros n D x HD Hs. apply (scnd_ext n (fun i j => npow (sqd D x i j) (e / 2))).
    + intros. symmetry. apply npow_sqrt; [apply sqd_nonneg|lra].
    + apply pow_scnd; [lra|intros; apply sqd_nonneg| |]; intros t Ht; [apply gauss_psd; lra|apply gauss_pd; assumption].
Qed.
Lemma npow_1 d : 0 <= d -> npow d 1 = d.
Proof.
  intros Hd. unfold npow. destruct (Reqb_spec 1 0); [lra|]. destruct (Reqb_spec d 0); [lra|]. apply Rpower_1. lra.
Qed.
Lemma shape_linear : valid_shape (fun d => d).
Proof.
  destruct (shape_power 1 ltac:(lra)) as (_ & H2 & H3). split; [reflexivity|split].
  - intros n D x HD. apply (cnd_ext n _ _ (fun i j _ _ => npow_1 _ (sqrt_pos _)) (H2 n D x HD)).
  - intros n D x HD Hs. apply (scnd_ext n _ _ (fun i j _ _ => npow_1 _ (sqrt_pos _)) (H3 n D x HD Hs)).
Qed.
Lemma shape_gaussian s : s <> 0 -> valid_shape (fun d => 1 - exp (- (d * d) / (s * s))).
Proof.
  intros Hs. assert (Hp : 0 < / (s * s)) by (apply Rinv_0_lt_compat; nra).
  assert (E : forall D x i j, 1 - exp (- (/ (s * s) * sqd D x i j)) = 1 - exp (- (sqrt (sqd D x i j) * sqrt (sqd D x i j)) / (s * s))).
  { intros. rewrite sqrt_sqrt by apply sqd_nonneg. f_equal. f_equal. unfold Rdiv. ring. }
  split; [|split].
  - rewrite Rmult_0_r, Ropp_0. unfold Rdiv. rewrite Rmult_0_l, exp_0. ring.
  - intros n D x HD. apply (cnd_ext n _ _ (fun i j _ _ => E D x i j)). apply one_minus_cnd. apply gauss_psd. lra.
  - intros n D x HD Hd. apply (scnd_ext n _ _ (fun i j _ _ => E D x i j)).
    apply (one_minus_scnd n (fun i j => exp (- (/ (s * s) * sqd D x i j)))). apply gauss_pd; assumption.
Qed.
Lemma cnd_scal n a M : 0 <= a -> cond_neg_def n M -> cond_neg_def n (fun i j => a * M i j).
Proof.
  intros Ha HM c Hc. change (qf n c (fun i j => a * M i j) <= 0). rewrite qf_scal.
  pose proof (HM c Hc) as H. change (qf n c M <= 0) in H. nra.
Qed.
Lemma scnd_scal n a M : 0 < a -> scnd n M -> scnd n (fun i j => a * M i j).
Proof.
  intros Ha HM c Hc Hq. rewrite qf_scal in Hq. apply HM; [exact Hc|]. nra.
Qed.
Lemma sqrt_sqd_sym n D x : symmetric n (fun i j => sqrt (sqd D x i j)).
Proof. intros i j Hi Hj. unfold trm. f_equal. apply (sqd_sym D x n i j Hi Hj). Qed.
Lemma shape_exponential r : 0 < r -> valid_shape (fun d => 1 - exp (- d / r)).
Proof.
  intros Hr. assert (Hp : 0 < / r) by (apply Rinv_0_lt_compat; exact Hr).
  assert (E : forall d, 1 - exp (- (/ r * d)) = 1 - exp (- d / r)).
  { intros. f_equal. f_equal. unfold Rdiv. ring. }
  assert (Hsym : forall n D x, symmetric n (fun i j => / r * sqrt (sqd D x i j))).
  { intros n D x i j Hi Hj. unfold trm. f_equal. apply (sqrt_sqd_sym n D x i j Hi Hj). }
  destruct shape_linear as (_ & H2 & H3). split; [|split].
  - rewrite Ropp_0. unfold Rdiv. rewrite Rmult_0_l, exp_0. ring.
  - intros n D x HD. apply (cnd_ext n _ _ (fun i j _ _ => E _)). apply one_minus_cnd.
    apply (schoenberg n (fun i j => / r * sqrt (sqd D x i j)) (Hsym n D x)). apply cnd_scal; [lra|]. apply (H2 n D x HD).
  - intros n D x HD Hs. apply (scnd_ext n _ _ (fun i j _ _ => E _)).
    apply (one_minus_scnd n (fun i j => exp (- (/ r * sqrt (sqd D x i j))))).
    apply (schoenberg_strict n (fun i j => / r * sqrt (sqd D x i j)) (Hsym n D x)).
    + apply cnd_scal; [lra|]. apply (H2 n D x HD).
    + apply scnd_scal; [lra|]. apply (H3 n D x HD Hs).
Qed.

Lemma sqd_pad D x i j : (D <= 3)%nat -> sqd 3 (fun i a => if Nat.ltb a D then x i a else 0) i j = sqd D x i j.
Proof. intros HD. unfold sqd. destruct D as [|[|[|[|D]]]]; [..|lia]; cbn; ring. Qed.
Lemma shape_spherical r : 0 < r -> valid_shape (fun d => 1 - c3 (d / r)).
Proof.
  intros Hr. pose (y := fun D (x : nat -> vec) i a => if Nat.ltb a D then x i a / r else 0).
  assert (E : forall D x i j, (D <= 3)%nat -> 1 - c3 (sqrt (sqd 3 (y D x) i j)) = 1 - c3 (sqrt (sqd D x i j) / r)).
  { intros D x i j HD. f_equal. f_equal. unfold y. rewrite (sqd_pad D (fun i a => x i a / r)) by exact HD.
    replace (sqd D (fun i a => x i a / r) i j) with (sqd D x i j / (r * r)).
    - rewrite sqrt_div by (try apply sqd_nonneg; nra). rewrite sqrt_square by lra. reflexivity.
    - unfold sqd, Rdiv. rewrite <- bsum_scal_r. apply bsum_ext. intros a _. field. lra. }
  split; [|split].
  - unfold c3. destruct (Rle_dec (0 / r) 1) as [_|H]; [unfold Rdiv; ring|exfalso; apply H; unfold Rdiv; lra].
  - intros n D x HD. apply (cnd_ext n _ _ (fun i j _ _ => E D x i j HD)). apply one_minus_cnd. intros c. apply c3_psd.
  - intros n D x HD Hs. apply (scnd_ext n _ _ (fun i j _ _ => E D x i j HD)). apply (one_minus_scnd n (fun i j => c3 (sqrt (sqd 3 (y D x) i j)))).
    apply c3_pd. intros i j Hi Hj Hij. destruct (Hs i j Hi Hj Hij) as (a & Ha & Hne). exists a. split; [lia|]. unfold y.
    destruct (Nat.ltb_spec a D); [|lia]. intros E'. apply Hne. apply (Rmult_eq_reg_r (/ r)); [exact E'|]. apply Rinv_neq_0_compat. lra.
Qed.

Lemma proper_shape f m : proper_model f m -> exists a nug gam, 0 <= a /\ 0 <= nug /\ 0 < a + nug /\ valid_shape gam /\
  forall d, 0 <= d -> fcall f m d = a * gam d + nug.
Proof.
  intros [-> H1 H2 H3| -> H1 H2 H3 H4| -> H1 H2 H3 H4| -> H1 H2 H3 H4| -> H1 H2 H3 H4].
  - exists (rnth m 0), (rnth m 1), (fun d => d). repeat (split; [assumption|]). split; [apply shape_linear|reflexivity].
  - exists (rnth m 0), (rnth m 2), (fun d => npow d (rnth m 1)). repeat (split; [assumption|]).
    split; [apply shape_power; assumption|reflexivity].
  - exists (rnth m 0), (rnth m 2), (fun d => 1 - exp (- (d * d) / ((rnth m 1 * 4 / 7) * (rnth m 1 * 4 / 7)))). repeat (split; [assumption|]).
    split; [apply shape_gaussian; lra|reflexivity].
  - exists (rnth m 0), (rnth m 2), (fun d => 1 - exp (- d / (rnth m 1 / 3))). repeat (split; [assumption|]).
    split; [apply shape_exponential; lra|reflexivity].
  - exists (rnth m 0), (rnth m 2), (fun d => 1 - c3 (d / rnth m 1)). repeat (split; [assumption|]).
    split; [apply shape_spherical; lra|]. intros d Hd. cbn. unfold spherical_variogram_model, c3. cbv zeta.
    destruct (Rleb_spec d (rnth m 1)) as [H|H], (Rle_dec (d / rnth m 1) 1) as [K|K].
    + field. lra.
    + exfalso. apply K. apply (Rmult_le_reg_r (rnth m 1)); [lra|]. unfold Rdiv. rewrite Rmult_assoc, Rinv_l; lra.
    + exfalso. apply (Rmult_le_compat_r (rnth m 1)) in K; [|lra]. unfold Rdiv in K. rewrite Rmult_assoc, Rinv_l in K; lra.
    + ring.
Qed.

(** ---- separation is a Euclidean distance ---- *)
Definition euclid_coords (o : obj) (p : vec3) : vec := fun a =>
  if Nat.eqb (o_dim o) 3 then
    let e k := rotated_axis (rad (o_angle o 0%nat)) (rad (o_angle o 1%nat)) (rad (o_angle o 2%nat)) k in
    match a with
    | 0%nat => dot3 (e (1,0,0)) p
    | 1%nat => o_scaling o 0%nat * dot3 (e (0,1,0)) p
    | _ => o_scaling o 1%nat * dot3 (e (0,0,1)) p
    end
  else
    let t := rad (o_angle o 0%nat) in
    match a with
    | 0%nat => dot3 (cos t, sin t, 0) p
    | 1%nat => o_scaling o 0%nat * dot3 (- sin t, cos t, 0) p
    | _ => 0
    end.
Lemma dot3_sub v p q : dot3 v (sub3 p q) = dot3 v p - dot3 v q.
Proof. destruct v as [[v0 v1] v2], p as [[p0 p1] p2], q as [[q0 q1] q2]. unfold dot3, sub3. ring. Qed.
Lemma separation_sqd o (pts : nat -> vec3) i j : o_ct o = Euclidean ->
  separation o (pts i) (pts j) = sqrt (sqd 3 (fun i => euclid_coords o (pts i)) i j).
Proof.
  intros HE. unfold separation. rewrite HE. unfold sqd, euclid_coords. cbn [bsum].
  destruct (Nat.eqb (o_dim o) 3).
  - unfold aniso3. rewrite !dot3_sub. f_equal. unfold Rsqr. ring.
  - unfold aniso2. rewrite !dot3_sub. f_equal. unfold Rsqr. ring.
Qed.
Lemma separation_nonneg o p q : o_ct o = Euclidean -> 0 <= separation o p q.
Proof.
  intros HE. pose proof (separation_sqd o (fun i => if Nat.eqb i 0 then p else q) 0 1 HE) as H. cbn [Nat.eqb] in H.
  rewrite H. apply sqrt_pos.
Qed.
Lemma separation_sym o p q : o_ct o = Euclidean -> separation o p q = separation o q p.
Proof.
  intros HE. pose proof (separation_sqd o (fun i => if Nat.eqb i 0 then p else q) 0 1 HE) as H1.
  pose proof (separation_sqd o (fun i => if Nat.eqb i 0 then p else q) 1 0 HE) as H2. cbn [Nat.eqb] in H1, H2.
  rewrite H1, H2. f_equal. apply (sqd_sym 3 _ 2); lia.
Qed.
Lemma separated_pts o (pts : nat -> vec3) n : o_ct o = Euclidean ->
  (forall i j, (i < n)%nat -> (j < n)%nat -> i <> j -> separation o (pts i) (pts j) <> 0) ->
  separated n 3 (fun i => euclid_coords o (pts i)).
Proof.
  intros HE H. apply separated_sqd. intros i j Hi Hj Hne E. apply (H i j Hi Hj Hne).
  rewrite (separation_sqd o pts i j HE), E. apply sqrt_0.
Qed.
