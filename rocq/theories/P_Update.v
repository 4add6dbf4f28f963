From Coq Require Import String.
From Verif Require Import Base Sums Matrix M_Variogram M_Geometry S_Geometry M_Kriging S_Kriging M_Init M_Object M_Execute S_Execute
  S_Valid M_UK S_UK S_Update.

(** reciprocity *)
Lemma reciprocal n m G F g f g' f' w mu nu w' mu' nu' :
  (forall i j, (i < n)%nat -> (j < n)%nat -> G i j = G j i) ->
  UK_system n m G F g f w mu nu -> UK_system n m G F g' f' w' mu' nu' ->
  bsum n (fun i => w i * g' i) + bsum m (fun k => nu k * f' k) + mu = bsum n (fun i => w' i * g i) + bsum m (fun k => nu' k * f k) + mu'.
Proof.
  intros HS (A & B & C) (A' & B' & C').
  assert (K : forall (u u' : vec) gg (ll : vec) mm, (forall i, (i < n)%nat -> bsum n (fun j => u j * G i j) + bsum m (fun k => ll k * F k i) + mm = gg i) ->
            bsum n (fun i => u' i * gg i) = bsum n (fun i => bsum n (fun j => u' i * u j * G i j)) + bsum m (fun k => ll k * bsum n (fun i => u' i * F k i)) + bsum n u' * mm).
  { intros u u' gg ll mm H. rewrite (bsum_ext n (fun i => u' i * gg i) (fun i => bsum n (fun j => u' i * u j * G i j) + bsum m (fun k => ll k * (u' i * F k i)) + u' i * mm)).
    2:{ intros i Hi. rewrite <- (H i Hi). rewrite !Rmult_plus_distr_l, <- !bsum_scal. f_equal. f_equal; apply bsum_ext; intros; ring. }
    rewrite !bsum_plus, bsum_scal_r. f_equal. f_equal. rewrite (bsum_swap n m (fun i k => ll k * (u' i * F k i))). apply bsum_ext; intros k _. rewrite <- bsum_scal. reflexivity. }
  rewrite (K w' w g' nu' mu' A'), (K w w' g nu mu A), B, B'.
  assert (E1 : bsum m (fun k => nu' k * bsum n (fun i => w i * F k i)) = bsum m (fun k => nu' k * f k)) by (apply bsum_ext; intros; rewrite C by assumption; reflexivity).
  assert (E2 : bsum m (fun k => nu k * bsum n (fun i => w' i * F k i)) = bsum m (fun k => nu k * f' k)) by (apply bsum_ext; intros; rewrite C' by assumption; reflexivity).
  rewrite E1, E2.
  assert (E3 : bsum n (fun i => bsum n (fun j => w i * w' j * G i j)) = bsum n (fun i => bsum n (fun j => w' i * w j * G i j))).
  { rewrite bsum_swap. apply bsum_ext; intros i Hi. apply bsum_ext; intros j Hj. rewrite HS by assumption. ring. }
  rewrite E3. ring.
Qed.

(** adding one row: [G'], [F'] extend [G], [F]; [gP], [fP] are the entries of the new datum *)
Section Add.
Variables (n m : nat) (G G' F F' : mat) (gP fP : vec).
Hypothesis HG : forall i j, (i < n)%nat -> (j < n)%nat -> G' i j = G i j.
Hypothesis HGn : forall i, (i < n)%nat -> G' i n = gP i /\ G' n i = gP i.
Hypothesis HGnn : G' n n = 0.
Hypothesis HF : forall k i, (k < m)%nat -> (i < n)%nat -> F' k i = F k i.
Hypothesis HFn : forall k, (k < m)%nat -> F' k n = fP k.
Hypothesis HSym : forall i j, (i < n)%nat -> (j < n)%nat -> G i j = G j i.
Variables (u : vec) (nuP : vec) (muP : R).
Hypothesis HP : UK_system n m G F gP fP u muP nuP.
Let sP := bsum n (fun i => u i * gP i) + bsum m (fun k => nuP k * fP k) + muP.

Definition ext (n : nat) (w : vec) (lam : R) : vec := fun i => if Nat.eqb i n then lam else w i.
Lemma bsum_ext_S (f h : nat -> R) c : (forall i, (i < n)%nat -> f i = h i) -> f n = c -> bsum (S n) f = bsum n h + c.
Proof. intros H1 H2. cbn [bsum]. rewrite H2. f_equal. apply bsum_ext, H1. Qed.
Lemma ext_n w lam : ext n w lam n = lam.
Proof. unfold ext. rewrite Nat.eqb_refl. reflexivity. Qed.
Lemma ext_i w lam i : (i < n)%nat -> ext n w lam i = w i.
Proof. intros. unfold ext. destruct (Nat.eqb_spec i n); [lia|reflexivity]. Qed.

Lemma new_variance_nonzero : UK_regular (S n) m G' F' -> sP <> 0.
Proof.
  intros HR E. destruct HP as (A & B & C).
  destruct (HR (fun _ => 0) (fun _ => 0)) as (w & mu & nu & HS & HU).
  assert (H2 : UK_system (S n) m G' F' (fun _ => 0) (fun _ => 0) (fun i => w i + ext n (fun i => - u i) 1 i) (mu - muP) (fun k => nu k - nuP k)).
  { destruct HS as (A1 & B1 & C1). split; [|split].
    - intros i Hi.
      rewrite (bsum_ext (S n) _ (fun j => w j * G' i j + ext n (fun i => - u i) 1 j * G' i j)) by (intros; ring). rewrite bsum_plus.
      rewrite (bsum_ext m _ (fun k => nu k * F' k i - nuP k * F' k i)) by (intros; ring). rewrite bsum_minus.
      specialize (A1 i Hi). cbv beta in A1.
      assert (Z : bsum (S n) (fun j => ext n (fun i => - u i) 1 j * G' i j) - bsum m (fun k => nuP k * F' k i) - muP = 0); [|lra].
      destruct (Nat.eq_dec i n) as [->|Hne].
      + rewrite (bsum_ext_S _ (fun j => - (u j * gP j)) 0).
        * rewrite bsum_opp. rewrite (bsum_ext m _ (fun k => nuP k * fP k)) by (intros; rewrite HFn by assumption; reflexivity). unfold sP in E. lra.
        * intros j Hj. rewrite ext_i by exact Hj. rewrite (proj2 (HGn j Hj)). ring.
        * rewrite ext_n, HGnn. ring.
      + assert (Hi' : (i < n)%nat) by lia. rewrite (bsum_ext_S _ (fun j => - (u j * G i j)) (gP i)).
        * rewrite bsum_opp. rewrite (bsum_ext m _ (fun k => nuP k * F k i)) by (intros; rewrite HF by assumption; reflexivity). specialize (A i Hi'). lra.
        * intros j Hj. rewrite ext_i by exact Hj. rewrite HG by assumption. ring.
        * rewrite ext_n, (proj1 (HGn i Hi')). ring.
    - rewrite bsum_plus, B1. rewrite (bsum_ext_S (ext n (fun i => - u i) 1) (fun j => - u j) 1); [|intros; apply ext_i; assumption|apply ext_n].
      rewrite bsum_opp, B. ring.
    - intros k Hk. rewrite (bsum_ext (S n) _ (fun j => w j * F' k j + ext n (fun i => - u i) 1 j * F' k j)) by (intros; ring). rewrite bsum_plus, C1 by exact Hk.
      rewrite (bsum_ext_S _ (fun j => - (u j * F k j)) (fP k)).
      + rewrite bsum_opp, C by exact Hk. ring.
      + intros j Hj. rewrite ext_i by exact Hj. rewrite HF by assumption. ring.
      + rewrite ext_n, HFn by exact Hk. ring. }
  destruct (HU _ _ _ H2) as (HW & _ & _). specialize (HW n ltac:(lia)). cbv beta in HW. rewrite ext_n in HW. lra.
Qed.

Lemma add_system g f w mu nu lam gn :
  UK_system n m G F g f w mu nu ->
  lam * sP = bsum n (fun i => w i * gP i) + bsum m (fun k => nu k * fP k) + mu - gn ->
  UK_system (S n) m G' F' (ext n g gn) f (ext n (fun i => w i - lam * u i) lam) (mu - lam * muP) (fun k => nu k - lam * nuP k).
Proof.
  intros (A & B & C) HL. destruct HP as (A' & B' & C'). split; [|split].
  - intros i Hi. destruct (Nat.eq_dec i n) as [->|Hne].
    + rewrite ext_n. rewrite (bsum_ext_S _ (fun j => w j * gP j - lam * (u j * gP j)) 0).
      * rewrite bsum_minus, bsum_scal. rewrite (bsum_ext m _ (fun k => nu k * fP k - lam * (nuP k * fP k))) by (intros; rewrite HFn by assumption; ring).
        rewrite bsum_minus, bsum_scal. unfold sP in HL. lra.
      * intros j Hj. rewrite ext_i by exact Hj. rewrite (proj2 (HGn j Hj)). ring.
      * rewrite ext_n, HGnn. ring.
    + assert (Hi' : (i < n)%nat) by lia. rewrite (ext_i g) by exact Hi'. rewrite (bsum_ext_S _ (fun j => w j * G i j - lam * (u j * G i j)) (lam * gP i)).
      * rewrite bsum_minus, bsum_scal. rewrite (bsum_ext m _ (fun k => nu k * F k i - lam * (nuP k * F k i))) by (intros; rewrite HF by assumption; ring).
        rewrite bsum_minus, bsum_scal. specialize (A i Hi'). specialize (A' i Hi'). rewrite <- A'. lra.
      * intros j Hj. rewrite ext_i by exact Hj. rewrite HG by assumption. ring.
      * rewrite ext_n, (proj1 (HGn i Hi')). ring.
  - rewrite (bsum_ext_S _ (fun i => w i - lam * u i) lam); [|intros; apply ext_i; assumption|apply ext_n].
    rewrite bsum_minus, bsum_scal, B, B'. ring.
  - intros k Hk. rewrite (bsum_ext_S _ (fun j => w j * F k j - lam * (u j * F k j)) (lam * fP k)).
    + rewrite bsum_minus, bsum_scal, C, C' by exact Hk. ring.
    + intros j Hj. rewrite ext_i by exact Hj. rewrite HF by assumption. ring.
    + rewrite ext_n, HFn by exact Hk. ring.
Qed.

Lemma add_estimate g f w mu nu g' f' z z' w' mu' nu' :
  UK_regular (S n) m G' F' -> UK_system n m G F g f w mu nu -> UK_system (S n) m G' F' g' f' w' mu' nu' ->
  (forall i, (i < n)%nat -> g' i = g i) -> (forall k, (k < m)%nat -> f' k = f k) -> (forall i, (i < n)%nat -> z' i = z i) ->
  sP <> 0 /\
  bsum (S n) (fun i => w' i * z' i) = bsum n (fun i => w i * z i) + w' n * (z' n - bsum n (fun i => u i * z i)) /\
  bsum (S n) (fun i => w' i * g' i) + bsum m (fun k => nu' k * f' k) + mu' =
    bsum n (fun i => w i * g i) + bsum m (fun k => nu k * f k) + mu - w' n * w' n * sP.
Proof.
  intros HR HS HS' Hg Hf Hz. pose proof (new_variance_nonzero HR) as HN. split; [exact HN|].
  set (cc := bsum n (fun i => w i * gP i) + bsum m (fun k => nu k * fP k) + mu - g' n).
  set (lam := cc / sP).
  assert (HL : lam * sP = cc) by (unfold lam; field; exact HN).
  pose proof (add_system g f w mu nu lam (g' n) HS HL) as HX.
  assert (HX' : UK_system (S n) m G' F' g' f' (ext n (fun i => w i - lam * u i) lam) (mu - lam * muP) (fun k => nu k - lam * nuP k)).
  { destruct HX as (X1 & X2 & X3). split; [|split]; [|exact X2|intros k Hk; rewrite Hf by exact Hk; apply X3, Hk].
    intros i Hi. rewrite X1 by exact Hi. destruct (Nat.eq_dec i n) as [->|Hne]; [apply ext_n|]. rewrite ext_i, Hg by lia. reflexivity. }
  destruct (HR g' f') as (w0 & mu0 & nu0 & _ & HU). destruct (HU _ _ _ HS') as (U1 & U2 & U3). destruct (HU _ _ _ HX') as (V1 & V2 & V3).
  assert (W : forall i, (i < S n)%nat -> w' i = ext n (fun i => w i - lam * u i) lam i) by (intros; rewrite U1, V1 by assumption; reflexivity).
  assert (Wn : w' n = lam) by (rewrite W by lia; apply ext_n).
  assert (Wi : forall i, (i < n)%nat -> w' i = w i - lam * u i) by (intros; rewrite W by lia; apply ext_i; assumption).
  split.
  - rewrite (bsum_ext_S _ (fun i => w i * z i - lam * (u i * z i)) (lam * z' n)).
    + rewrite bsum_minus, bsum_scal, Wn. ring.
    + intros i Hi. rewrite Wi, Hz by exact Hi. ring.
    + rewrite Wn. reflexivity.
  - rewrite (bsum_ext_S _ (fun i => w i * g i - lam * (u i * g i)) (lam * g' n)).
    2:{ intros i Hi. rewrite Wi, Hg by exact Hi. ring. }
    2:{ rewrite Wn. reflexivity. }
    rewrite (bsum_ext m (fun k => nu' k * f' k) (fun k => nu k * f k - lam * (nuP k * f k))).
    2:{ intros k Hk. rewrite U3, <- V3, Hf by exact Hk. ring. }
    rewrite !bsum_minus, !bsum_scal, U2, <- V2, Wn.
    pose proof (reciprocal n m G F g f gP fP w mu nu u muP nuP HSym HS HP) as HRc.
    unfold cc in HL. replace (lam * lam * sP) with (lam * (lam * sP)) by ring. rewrite HL.
    replace (bsum n (fun i => w i * gP i) + bsum m (fun k => nu k * fP k) + mu - g' n) with
      (bsum n (fun i => u i * g i) + bsum m (fun k => nuP k * f k) + muP - g' n) by lra. ring.
Qed.
End Add.

(** dual form *)
Lemma dual_form n m G F z : (forall i j, (i < n)%nat -> (j < n)%nat -> G i j = G j i) -> UK_regular n m G F ->
  exists c a b, bsum n c = 0 /\ (forall k, (k < m)%nat -> bsum n (fun i => c i * F k i) = 0) /\
    forall g f w mu nu, UK_system n m G F g f w mu nu ->
      bsum n (fun i => w i * z i) = a + bsum m (fun k => b k * f k) + bsum n (fun i => c i * g i).
Proof.
  intros HSy HR. destruct (HR z (fun _ => 0)) as (w1 & mu1 & nu1 & (A1 & B1 & C1) & _). destruct (HR (fun _ => 0) (fun _ => 0)) as (w0 & mu0 & nu0 & (A0 & B0 & C0) & _).
  exists (fun i => w1 i - w0 i), (mu1 - mu0), (fun k => nu1 k - nu0 k). split; [rewrite bsum_minus, B1, B0; ring|]. split.
  - intros k Hk. rewrite (bsum_ext n _ (fun i => w1 i * F k i - w0 i * F k i)) by (intros; ring). rewrite bsum_minus, C1, C0 by exact Hk. ring.
  - intros g f w mu nu (A & B & C).
    assert (Z : forall i, (i < n)%nat -> z i = bsum n (fun j => (w1 j - w0 j) * G i j) + bsum m (fun k => (nu1 k - nu0 k) * F k i) + (mu1 - mu0)).
    { intros i Hi. rewrite (bsum_ext n _ (fun j => w1 j * G i j - w0 j * G i j)) by (intros; ring). rewrite (bsum_ext m _ (fun k => nu1 k * F k i - nu0 k * F k i)) by (intros; ring).
      rewrite !bsum_minus. pose proof (A1 i Hi) as P1. pose proof (A0 i Hi) as P0. cbv beta in P0. lra. }
    set (c := fun i => w1 i - w0 i) in *. set (b := fun k => nu1 k - nu0 k) in *.
    rewrite (bsum_ext n (fun i => w i * z i) (fun i => bsum n (fun j => c j * (w i * G j i)) + bsum m (fun k => b k * (w i * F k i)) + w i * (mu1 - mu0))).
    2:{ intros i Hi. rewrite (Z i Hi), !Rmult_plus_distr_l, <- !bsum_scal. f_equal. f_equal; apply bsum_ext; intros j Hj; unfold c, b; [rewrite (HSy i j Hi Hj)|]; ring. }
    rewrite !bsum_plus, bsum_scal_r, B. rewrite (bsum_swap n n), (bsum_swap n m).
    rewrite (bsum_ext m _ (fun k => b k * f k)) by (intros k Hk; rewrite bsum_scal, C by exact Hk; reflexivity).
    rewrite (bsum_ext n _ (fun j => c j * g j - c j * mu - bsum m (fun k => nu k * (c j * F k j)))).
    2:{ intros j Hj. rewrite bsum_scal. rewrite <- (A j Hj). rewrite (bsum_ext m (fun k => nu k * (c j * F k j)) (fun k => c j * (nu k * F k j))) by (intros; ring). rewrite bsum_scal. ring. }
    rewrite !bsum_minus, bsum_scal_r. rewrite (bsum_swap n m).
    rewrite (bsum_ext m (fun j => bsum n (fun i => nu j * (c i * F j i))) (fun _ => 0)).
    2:{ intros k Hk. rewrite bsum_scal. unfold c. rewrite (bsum_ext n _ (fun i => w1 i * F k i - w0 i * F k i)) by (intros; ring). rewrite bsum_minus, C1, C0 by exact Hk. ring. }
    rewrite bsum_zero. unfold c, b. rewrite bsum_minus, B1, B0. ring.
Qed.
