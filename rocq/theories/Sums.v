(** Finite sums of reals (np.sum, np.dot).  Library file, no model code. *)
From Verif Require Import Base.
From Coq Require Import Permutation.

Fixpoint bsum (n : nat) (f : nat -> R) : R :=
  match n with O => 0 | S k => bsum k f + f k end.

Lemma bsum_ext n f g : (forall i, (i < n)%nat -> f i = g i) -> bsum n f = bsum n g.
Proof.
  induction n as [|n IH]; intros H; simpl; [reflexivity|].
  rewrite IH by (intros; apply H; lia). rewrite H by lia. reflexivity.
Qed.

Lemma bsum_0 n f : (forall i, (i < n)%nat -> f i = 0) -> bsum n f = 0.
Proof.
  induction n as [|n IH]; intros H; simpl; [reflexivity|].
  rewrite IH by (intros; apply H; lia). rewrite H by lia. ring.
Qed.

Lemma bsum_zero n : bsum n (fun _ => 0) = 0.
Proof. apply bsum_0; auto. Qed.

Lemma bsum_plus n f g : bsum n (fun i => f i + g i) = bsum n f + bsum n g.
Proof. induction n as [|n IH]; simpl; [ring|rewrite IH; ring]. Qed.

Lemma bsum_minus n f g : bsum n (fun i => f i - g i) = bsum n f - bsum n g.
Proof. induction n as [|n IH]; simpl; [ring|rewrite IH; ring]. Qed.

Lemma bsum_opp n f : bsum n (fun i => - f i) = - bsum n f.
Proof. induction n as [|n IH]; simpl; [ring|rewrite IH; ring]. Qed.

Lemma bsum_scal n c f : bsum n (fun i => c * f i) = c * bsum n f.
Proof. induction n as [|n IH]; simpl; [ring|rewrite IH; ring]. Qed.

Lemma bsum_scal_r n c f : bsum n (fun i => f i * c) = bsum n f * c.
Proof. induction n as [|n IH]; simpl; [ring|rewrite IH; ring]. Qed.

Lemma bsum_const n c : bsum n (fun _ => c) = INR n * c.
Proof. induction n as [|n IH]; [simpl; ring|]. rewrite S_INR. simpl. rewrite IH. ring. Qed.

Lemma bsum_swap n m f :
  bsum n (fun i => bsum m (fun j => f i j)) = bsum m (fun j => bsum n (fun i => f i j)).
Proof.
  induction n as [|n IH]; simpl.
  - symmetry; apply bsum_zero.
  - rewrite IH, <- bsum_plus. reflexivity.
Qed.

Lemma bsum_split n m f : bsum (n + m) f = bsum n f + bsum m (fun i => f (n + i)%nat).
Proof.
  induction m as [|m IH].
  - rewrite Nat.add_0_r; simpl; ring.
  - rewrite Nat.add_succ_r; simpl. rewrite IH. ring.
Qed.

Lemma bsum_S_l n f : bsum (S n) f = f O + bsum n (fun i => f (S i)).
Proof.
  change (S n) with (1 + n)%nat. rewrite bsum_split. simpl. ring.
Qed.

Lemma bsum_delta n k f :
  (k < n)%nat -> bsum n (fun i => (if Nat.eqb i k then 1 else 0) * f i) = f k.
Proof.
  induction n as [|n IH]; intros H; [lia|]. simpl.
  destruct (Nat.eqb_spec n k) as [->|Hne].
  - rewrite bsum_0; [ring|]. intros i Hi.
    destruct (Nat.eqb_spec i k); [lia|ring].
  - rewrite IH by lia. ring.
Qed.

Lemma bsum_delta_r n k f :
  (k < n)%nat -> bsum n (fun i => f i * (if Nat.eqb i k then 1 else 0)) = f k.
Proof.
  intros H. rewrite <- (bsum_delta n k f H). apply bsum_ext; intros; ring.
Qed.

Lemma bsum_single n k f :
  (k < n)%nat -> (forall i, (i < n)%nat -> i <> k -> f i = 0) -> bsum n f = f k.
Proof.
  intros Hk H. rewrite <- (bsum_delta n k f Hk). apply bsum_ext; intros i Hi.
  destruct (Nat.eqb_spec i k) as [->|Hne]; [ring|rewrite H by assumption; ring].
Qed.

Lemma bsum_two n i j f :
  (i < n)%nat -> (j < n)%nat -> i <> j ->
  (forall k, (k < n)%nat -> k <> i -> k <> j -> f k = 0) -> bsum n f = f i + f j.
Proof.
  intros Hi Hj Hij H.
  rewrite (bsum_ext n f (fun k => (if Nat.eqb k i then 1 else 0) * f k
                                 + (if Nat.eqb k j then 1 else 0) * f k)).
  - rewrite bsum_plus, !bsum_delta by assumption. reflexivity.
  - intros k Hk. destruct (Nat.eqb_spec k i), (Nat.eqb_spec k j); subst; try lia; try ring.
    rewrite H by assumption; ring.
Qed.

Lemma bsum_le n f g : (forall i, (i < n)%nat -> f i <= g i) -> bsum n f <= bsum n g.
Proof.
  induction n as [|n IH]; intros H; simpl; [lra|].
  apply Rplus_le_compat; [apply IH; intros; apply H; lia|apply H; lia].
Qed.

Lemma bsum_nonneg n f : (forall i, (i < n)%nat -> 0 <= f i) -> 0 <= bsum n f.
Proof. intros H. rewrite <- (bsum_zero n). apply bsum_le; exact H. Qed.

Lemma bsum_pos n f : (0 < n)%nat -> (forall i, (i < n)%nat -> 0 < f i) -> 0 < bsum n f.
Proof.
  destruct n as [|n]; intros Hn H; [lia|]. simpl.
  assert (0 <= bsum n f) by (apply bsum_nonneg; intros; apply Rlt_le, H; lia).
  specialize (H n ltac:(lia)). lra.
Qed.

Lemma bsum_nonneg_zero n f :
  (forall i, (i < n)%nat -> 0 <= f i) -> bsum n f = 0 -> forall i, (i < n)%nat -> f i = 0.
Proof.
  induction n as [|n IH]; intros H Hs i Hi; [lia|]. simpl in Hs.
  assert (0 <= bsum n f) by (apply bsum_nonneg; intros; apply H; lia).
  assert (0 <= f n) by (apply H; lia).
  destruct (Nat.eq_dec i n) as [->|Hne]; [lra|].
  apply IH; [intros; apply H; lia|lra|lia].
Qed.

(** Sum of a list and its relation to [bsum]. *)
Definition lsum (l : list R) : R := fold_right Rplus 0 l.

Lemma lsum_app l1 l2 : lsum (l1 ++ l2) = lsum l1 + lsum l2.
Proof. induction l1 as [|a l IH]; simpl; [ring|rewrite IH; ring]. Qed.

Lemma lsum_perm l1 l2 : Permutation l1 l2 -> lsum l1 = lsum l2.
Proof. induction 1; simpl; lra. Qed.

Lemma bsum_lsum n f : bsum n f = lsum (map f (seq 0 n)).
Proof.
  induction n as [|n IH]; [reflexivity|].
  rewrite seq_S, map_app, lsum_app, <- IH. simpl. ring.
Qed.

Lemma lsum_bsum l : lsum l = bsum (length l) (rnth l).
Proof.
  induction l as [|a l IH]; [reflexivity|].
  cbn [length]. rewrite bsum_S_l. simpl. rewrite IH. f_equal.
Qed.

(** Reindexing by a bijection of [0,n). *)
Definition perm_on (n : nat) (s : nat -> nat) : Prop :=
  (forall i, (i < n)%nat -> (s i < n)%nat) /\
  (forall i j, (i < n)%nat -> (j < n)%nat -> s i = s j -> i = j).

Lemma perm_on_Permutation n s : perm_on n s -> Permutation (map s (seq 0 n)) (seq 0 n).
Proof.
  intros [Hb Hi].
  assert (Hnd : NoDup (map s (seq 0 n))).
  { assert (G : forall l, (forall i, In i l -> (i < n)%nat) -> NoDup l -> NoDup (map s l)).
    { induction l as [|a l IH]; intros Hl Hd; simpl; constructor.
      - inversion Hd; subst. rewrite in_map_iff. intros [x [Hx Hxl]].
        apply Hi in Hx; [subst; contradiction|apply Hl; right; assumption|apply Hl; left; reflexivity].
      - inversion Hd; subst. apply IH; [intros; apply Hl; right; assumption|assumption]. }
    apply G; [intros i Hin; apply in_seq in Hin; lia|apply seq_NoDup]. }
  apply NoDup_Permutation_bis; [exact Hnd|rewrite map_length; reflexivity|].
  intros x Hx. apply in_map_iff in Hx. destruct Hx as [y [<- Hy]].
  apply in_seq in Hy. apply in_seq. specialize (Hb y). lia.
Qed.

Lemma perm_on_surj n s : perm_on n s -> forall k, (k < n)%nat -> exists i, (i < n)%nat /\ s i = k.
Proof.
  intros H k Hk. pose proof (perm_on_Permutation n s H) as Hp.
  assert (In k (map s (seq 0 n))).
  { apply Permutation_in with (seq 0 n); [symmetry; exact Hp|apply in_seq; lia]. }
  apply in_map_iff in H0. destruct H0 as [i [Hi Hin]]. apply in_seq in Hin.
  exists i; split; [lia|assumption].
Qed.

Lemma bsum_perm n s f : perm_on n s -> bsum n (fun i => f (s i)) = bsum n f.
Proof.
  intros H. rewrite !bsum_lsum.
  rewrite <- (map_map s f). apply lsum_perm, Permutation_map, perm_on_Permutation, H.
Qed.

(** Extension of a permutation of [0,n) by the identity beyond. *)
Definition perm_ext (n : nat) (s : nat -> nat) (i : nat) : nat :=
  if Nat.ltb i n then s i else i.

Lemma perm_ext_perm n m s : perm_on n s -> (n <= m)%nat -> perm_on m (perm_ext n s).
Proof.
  intros [Hb Hi] Hnm; unfold perm_ext; split.
  - intros i Hlt. destruct (Nat.ltb_spec i n); [specialize (Hb i); lia|assumption].
  - intros i j Hilt Hjlt.
    destruct (Nat.ltb_spec i n), (Nat.ltb_spec j n); intros E.
    + apply Hi; assumption.
    + specialize (Hb i); lia.
    + specialize (Hb j); lia.
    + assumption.
Qed.
