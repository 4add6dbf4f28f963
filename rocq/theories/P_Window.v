(** Proofs: moving-window loops (Python and Cython). *)
From Coq Require Import String.
From Verif Require Import Base Sums Matrix M_Variogram P_Variogram M_Geometry S_Geometry P_Geometry M_Kriging S_Kriging
  P_Kriging P_OKSpec M_Init M_Object M_Execute S_Execute P_Object P_Execute P_Cells.

(** *** Monadic folds *)
Lemma foldM_pair_spec {A B} (f : nat -> res (A * B)) l : NoDup l -> forall z0 s0,
  match foldM (fun '(z, s) i => do p <- f i ;; Ok (upd z i (fst p), upd s i (snd p))) l (z0, s0) with
  | Ok (z, s) => (forall i, In i l -> f i = Ok (z i, s i)) /\ (forall i, ~ In i l -> z i = z0 i /\ s i = s0 i)
  | Err e => exists i, In i l /\ f i = Err e
  end.
Proof.
  induction 1 as [|i l Hi Hnd IH]; intros z0 s0; cbn [foldM].
  - split; [intros i []|auto].
  - destruct (f i) as [[a b]|e] eqn:Ef; cbn [bind]; [|exists i; split; [left; reflexivity|exact Ef]].
    specialize (IH (upd z0 i a) (upd s0 i b)). cbn [fst snd].
    destruct (foldM _ l _) as [[z s]|e].
    + destruct IH as [H1 H2]. split.
      * intros j [<-|Hj]; [|apply H1, Hj]. destruct (H2 i Hi) as [-> ->]. rewrite !upd_same. exact Ef.
      * intros j Hj. destruct (H2 j) as [-> ->]; [intros C; apply Hj; right; exact C|].
        rewrite !upd_other; [auto|intros ->; apply Hj; left; reflexivity|intros ->; apply Hj; left; reflexivity].
    + destruct IH as (j & Hj & E). exists j. split; [right; exact Hj|exact E].
Qed.

Lemma foldM_ext {A B} (f g : B -> A -> res B) l acc :
  (forall b a, In a l -> f b a = g b a) -> foldM f l acc = foldM g l acc.
Proof.
  revert acc. induction l as [|a l IH]; intros acc H; [reflexivity|]. cbn [foldM].
  rewrite (H acc a) by (left; reflexivity). destruct (g acc a); cbn [bind]; [|reflexivity].
  apply IH. intros; apply H; right; assumption.
Qed.

Lemma foldM_fold_left {A B} (f : B -> A -> B) l acc :
  foldM (fun b a => Ok (f b a)) l acc = Ok (fold_left f l acc).
Proof. revert acc. induction l as [|a l IH]; intros acc; [reflexivity|]. cbn. apply IH. Qed.

Lemma unmasked_spec npt mask i : In i (unmasked npt mask) <-> (i < npt)%nat /\ mask i = false.
Proof.
  unfold unmasked. rewrite filter_In, in_seq. rewrite negb_true_iff. split; intros [H1 H2]; split; auto; lia.
Qed.

(** *** One window *)
Lemma nonsingular_ext n A B : meq n A B -> nonsingular n A -> nonsingular n B.
Proof. intros H [C HC]. exists C. apply (is_inverse_ext n A B C C H (meq_refl n C) HC). Qed.

Lemma solve_estimate L k A b vg d g z x : linalg_ok L ->
  meq (k + 1) A (kriging_matrix k vg d) -> veq (k + 1) b (rhs_spec k g) ->
  la_solve L (k + 1) A b = Some x ->
  nonsingular (k + 1) (kriging_matrix k vg d) /\
  OK_estimate k (data_semivariance vg d) g z (bsum k (fun r => x r * z r)) (- bsum (k + 1) (fun r => x r * b r)).
Proof.
  intros HL HA Hb H. destruct (solve_some L HL _ _ _ _ H) as [HN HS].
  split; [apply (nonsingular_ext _ A); assumption|].
  replace (- bsum (k + 1) (fun r => x r * b r)) with (bsum (k + 1) (fun r => x r * - rhs_spec k g r)).
  - apply estimate_of_solution. intros i Hi. rewrite <- Hb by exact Hi. rewrite <- (HS i Hi).
    apply (mulv_ext (k + 1) _ A x x); [apply meq_sym, HA|intros j _; reflexivity|exact Hi].
  - rewrite <- bsum_opp. apply bsum_ext; intros r Hr. rewrite Hb by exact Hr. ring.
Qed.
Lemma solve_singular L k A b vg d : linalg_ok L ->
  meq (k + 1) A (kriging_matrix k vg d) -> la_solve L (k + 1) A b = None ->
  ~ nonsingular (k + 1) (kriging_matrix k vg d).
Proof.
  intros HL HA H HN. apply (solve_none L HL _ _ _ H). apply (nonsingular_ext _ (kriging_matrix k vg d)); [apply meq_sym, HA|exact HN].
Qed.

Definition valid_sel (N k : nat) (sel : nat -> nat) : Prop :=
  (forall a, (a < k)%nat -> (sel a < N)%nat) /\
  (forall a b, (a < k)%nat -> (b < k)%nat -> sel a = sel b -> a = b).

Lemma window_matrix_eq N k sel vg d : valid_sel N k sel ->
  meq (k + 1) (window_matrix k N sel (kriging_matrix N vg d)) (kriging_matrix k vg (fun a b => d (sel a) (sel b))).
Proof.
  intros [Hlt Hinj] r c Hr Hc. unfold window_matrix.
  destruct (Nat.ltb_spec r k) as [Hrk|Hrk], (Nat.ltb_spec c k) as [Hck|Hck].
  - rewrite !km_entry by (auto; apply Hlt; assumption). unfold data_semivariance.
    destruct (Nat.eqb_spec (sel r) (sel c)) as [E|E], (Nat.eqb_spec r c) as [E'|E']; try reflexivity.
    + exfalso. apply E', Hinj; assumption.
    + exfalso. apply E. rewrite E'. reflexivity.
  - replace c with k by lia. rewrite km_col by (apply Hlt; assumption). rewrite km_col by assumption. reflexivity.
  - replace r with k by lia. rewrite km_row by (apply Hlt; assumption). rewrite km_row by assumption. reflexivity.
  - replace c with k by lia. replace r with k by lia. rewrite !km_corner. reflexivity.
Qed.

Lemma sel_semivariance N k sel vg d a b : valid_sel N k sel -> (a < k)%nat -> (b < k)%nat ->
  data_semivariance vg (fun a b => d (sel a) (sel b)) a b = data_semivariance vg d (sel a) (sel b).
Proof.
  intros [_ Hinj] Ha Hb. unfold data_semivariance.
  destruct (Nat.eqb_spec (sel a) (sel b)) as [E|E], (Nat.eqb_spec a b) as [E'|E']; try reflexivity.
  - exfalso. apply E', Hinj; assumption.
  - exfalso. apply E. rewrite E'. reflexivity.
Qed.

(** the right-hand side with finite distances *)
Lemma rhs_window_finite k vg vinf eps ex (bd : nat -> xdist) (bdr : vec) :
  (forall r, (r < k)%nat -> bd r = Some (bdr r)) ->
  all_finite (k + 1) (rhs_window k vg vinf eps ex bd) = true /\
  veq (k + 1) (fin (rhs_window k vg vinf eps ex bd)) (rhs_spec k (query_semivariance vg eps ex bdr)).
Proof.
  intros H.
  assert (HR : forall r, (r < k + 1)%nat ->
     rhs_window k vg vinf eps ex bd r = Some (rhs_spec k (query_semivariance vg eps ex bdr) r)).
  { intros r Hr. unfold rhs_window, rhs_spec, query_semivariance.
    destruct (Nat.eq_dec r k) as [->|Hne].
    - rewrite upd_same, Nat.eqb_refl. reflexivity.
    - rewrite upd_other by assumption. destruct (Nat.eqb_spec r k); [contradiction|].
      destruct (Nat.ltb_spec r k); [|lia].
      set (zv := existsb _ (seq 0 k)).
      destruct ex; cbn [andb]; [|rewrite andb_false_r].
      + rewrite andb_true_r. destruct zv eqn:EZ.
        * destruct (Nat.ltb_spec r k); [|lia]. cbn [andb]. rewrite H by assumption.
          destruct (Rleb (Rabs (bdr r)) eps); [rewrite Ropp_0; reflexivity|reflexivity].
        * destruct (Nat.ltb_spec r k); [|lia]. rewrite H by assumption.
          assert (Rleb (Rabs (bdr r)) eps = false) as ->; [|reflexivity].
          apply not_true_iff_false. intros Hz. assert (zv = true); [|congruence].
          apply existsb_exists. exists r. split; [apply in_seq; lia|]. rewrite H by assumption. exact Hz.
      + destruct (Nat.ltb_spec r k); [|lia]. rewrite H by assumption. reflexivity. }
  split.
  - apply forallb_forall. intros r Hr. apply in_seq in Hr. rewrite HR by lia. reflexivity.
  - intros r Hr. unfold fin. rewrite HR by exact Hr. reflexivity.
Qed.

(** *** Python loop *)
Definition window_ok (N k : nat) (bd : nat -> xdist) (bdr : vec) (sel : nat -> nat) : Prop :=
  valid_sel N k sel /\ forall r, (r < k)%nat -> bd r = Some (bdr r).

Definition window_result (k : nat) (vg : R -> R) (d : mat) (eps : R) (ex : bool) (Z : vec) (bdr : vec)
   (sel : nat -> nat) (v s : R) : Prop :=
  nonsingular (k + 1) (kriging_matrix k vg (fun a b => d (sel a) (sel b))) /\
  OK_estimate k (data_semivariance vg (fun a b => d (sel a) (sel b))) (query_semivariance vg eps ex bdr)
     (fun r => Z (sel r)) v s.

Lemma loop_window_spec L N k npt vg vinf eps ex Z d bd mask idx (bdr : mat) : linalg_ok L ->
  (forall p, (p < npt)%nat -> mask p = false -> window_ok N k (bd p) (bdr p) (idx p)) ->
  match exec_loop_moving_window L N k npt vg vinf eps ex Z (kriging_matrix N vg d) bd mask idx with
  | Ok (z, s) => forall p, (p < npt)%nat -> mask p = false ->
       window_result k vg d eps ex Z (bdr p) (idx p) (z p) (s p)
  | Err e => e = LinAlgError /\ exists p, (p < npt)%nat /\ mask p = false /\
       ~ nonsingular (k + 1) (kriging_matrix k vg (fun a b => d (idx p a) (idx p b)))
  end.
Proof.
  intros HL HW.
  set (f := fun i => let b := rhs_window k vg vinf eps ex (bd i) in
     do x <- scipy_solve L (k + 1) (window_matrix k N (idx i) (kriging_matrix N vg d)) b ;;
     if forallb (fun r => Nat.ltb (idx i r) N) (seq 0 k)
     then Ok (bsum k (fun r => x r * Z (idx i r)), - bsum (k + 1) (fun r => x r * fin b r))
     else Err IndexError).
  assert (HF : exec_loop_moving_window L N k npt vg vinf eps ex Z (kriging_matrix N vg d) bd mask idx =
    foldM (fun '(z, s) i => do p <- f i ;; Ok (upd z i (fst p), upd s i (snd p))) (unmasked npt mask) ((fun _ => 0), (fun _ => 0))).
  { unfold exec_loop_moving_window. apply foldM_ext. intros [z s] i _. unfold f. cbv zeta.
    destruct (scipy_solve _ _ _ _); cbn [bind]; [|reflexivity].
    destruct (forallb _ _); reflexivity. }
  rewrite HF.
  pose proof (foldM_pair_spec f (unmasked npt mask) (unmasked_NoDup npt mask) (fun _ => 0) (fun _ => 0)) as HS.
  assert (Hf : forall i, In i (unmasked npt mask) ->
     match f i with
     | Ok (v, s) => window_result k vg d eps ex Z (bdr i) (idx i) v s
     | Err e => e = LinAlgError /\ ~ nonsingular (k + 1) (kriging_matrix k vg (fun a b => d (idx i a) (idx i b)))
     end).
  { intros i Hi. apply unmasked_spec in Hi. destruct Hi as [Hi Hm]. destruct (HW i Hi Hm) as [Hv Hb].
    destruct (rhs_window_finite k vg vinf eps ex (bd i) (bdr i) Hb) as [Hfin Hrhs].
    unfold f. cbv zeta. unfold scipy_solve. rewrite Hfin.
    destruct (la_solve _ _ _ _) as [x|] eqn:ES; cbn [bind].
    - assert (forallb (fun r => Nat.ltb (idx i r) N) (seq 0 k) = true) as ->.
      { apply forallb_forall. intros r Hr. apply in_seq in Hr. apply Nat.ltb_lt, Hv. lia. }
      apply (solve_estimate L k (window_matrix k N (idx i) (kriging_matrix N vg d))
               (fin (rhs_window k vg vinf eps ex (bd i))) vg (fun a b => d (idx i a) (idx i b))
               (query_semivariance vg eps ex (bdr i)) (fun r => Z (idx i r)) x HL); [|exact Hrhs|exact ES].
      apply window_matrix_eq, Hv.
    - split; [reflexivity|]. apply (solve_singular L k _ _ vg _ HL (window_matrix_eq N k (idx i) vg d Hv) ES). }
  destruct (foldM _ _ _) as [[z s]|e].
  - destruct HS as [HS _]. intros p Hp Hm. assert (Hin : In p (unmasked npt mask)) by (apply unmasked_spec; auto).
    specialize (Hf p Hin). rewrite (HS p Hin) in Hf. exact Hf.
  - destruct HS as (i & Hi & HE). specialize (Hf i Hi). rewrite HE in Hf. destruct Hf as [-> Hf].
    split; [reflexivity|]. apply unmasked_spec in Hi. exists i. tauto.
Qed.

(** *** Cython loop: memory accesses *)
Lemma fill_block (nb n m : nat) (g : mat) (A : vec) : (m <= nb)%nat -> forall r c, (r < nb)%nat ->
  fold_left (fun A k => fold_left (fun A j => upd A (k + nb * j)%nat (g k j)) (seq 0 n) A) (seq 0 m) A (r + nb * c)%nat
  = if Nat.ltb r m && Nat.ltb c n then g r c else A (r + nb * c)%nat.
Proof.
  intros Hm r c Hr.
  assert (Inner : forall k A n, (k < nb)%nat ->
     fold_left (fun A j => upd A (k + nb * j)%nat (g k j)) (seq 0 n) A (r + nb * c)%nat
     = if Nat.eqb r k && Nat.ltb c n then g k c else A (r + nb * c)%nat).
  { intros k A' n' Hk. induction n' as [|n' IH]; [rewrite andb_false_r; reflexivity|].
    rewrite seq_S, fold_left_app. cbn [fold_left plus].
    destruct (Nat.eq_dec (r + nb * c) (k + nb * n')) as [E|E].
    - assert (r = k /\ c = n') as [-> ->].
      { destruct (Nat.lt_trichotomy c n') as [H|[H|H]]; [nia| |nia]. subst. split; [lia|reflexivity]. }
      rewrite upd_same. rewrite Nat.eqb_refl. destruct (Nat.ltb_spec n' (S n')); [reflexivity|lia].
    - rewrite upd_other by exact E. rewrite IH.
      destruct (Nat.eqb_spec r k); cbn [andb]; [|reflexivity]. subst.
      destruct (Nat.ltb_spec c n'), (Nat.ltb_spec c (S n')); try reflexivity; try lia.
      exfalso. apply E. replace c with n' by lia. reflexivity. }
  revert A. induction m as [|m IH]; intros A; [reflexivity|].
  rewrite seq_S, fold_left_app. cbn [fold_left plus].
  rewrite Inner by lia. rewrite IH by lia.
  destruct (Nat.eqb_spec r m) as [->|]; cbn [andb].
  - destruct (Nat.ltb_spec m m); [lia|]. destruct (Nat.ltb_spec m (S m)); [|lia]. cbn [andb]. reflexivity.
  - destruct (Nat.ltb_spec r m), (Nat.ltb_spec r (S m)); try lia; reflexivity.
Qed.

Lemma fill_border (n m : nat) (A : vec) : (m <= n + 1)%nat -> forall r c, (r < n + 1)%nat -> (c < n + 1)%nat ->
  fold_left (fun A k => upd (upd A (k * (n + 1) + n)%nat 1) (n * (n + 1) + k)%nat 1) (seq 0 m) A (r + (n + 1) * c)%nat
  = if (Nat.eqb r n && Nat.ltb c m) || (Nat.eqb c n && Nat.ltb r m) then 1 else A (r + (n + 1) * c)%nat.
Proof.
  intros Hm r c Hr Hc. induction m as [|m IH]; [rewrite !andb_false_r; reflexivity|].
  rewrite seq_S, fold_left_app. cbn [fold_left plus].
  assert (U : forall a b k : nat, (a < n + 1)%nat -> (r + (n + 1) * c = a + (n + 1) * b)%nat -> r = a /\ c = b).
  { intros a b _ Ha E. destruct (Nat.lt_trichotomy c b) as [H|[H|H]]; [nia| |nia]. subst. split; [lia|reflexivity]. }
  destruct (Nat.eq_dec (r + (n + 1) * c) (n * (n + 1) + m)) as [E|E].
  - rewrite E at 1. rewrite upd_same. destruct (U m n 0%nat ltac:(lia) ltac:(lia)) as [-> ->].
    rewrite !Nat.eqb_refl. destruct (Nat.ltb_spec m (S m)); [|lia]. rewrite orb_true_r. reflexivity.
  - rewrite upd_other by exact E.
    destruct (Nat.eq_dec (r + (n + 1) * c) (m * (n + 1) + n)) as [E'|E'].
    + rewrite E' at 1. rewrite upd_same. destruct (U n m 0%nat ltac:(lia) ltac:(lia)) as [-> ->].
      rewrite Nat.eqb_refl. destruct (Nat.ltb_spec m (S m)); [|lia]. reflexivity.
    + rewrite upd_other by exact E'. rewrite IH by lia.
      destruct (Nat.eqb_spec r n) as [->|], (Nat.eqb_spec c n) as [->|]; cbn [andb orb]; try reflexivity.
      all: repeat match goal with |- context [Nat.ltb ?a ?b] => destruct (Nat.ltb_spec a b) end;
        cbn; try reflexivity; try lia; exfalso;
        first [apply E; nia | apply E'; nia].
Qed.

Lemma foldM_checked {A} (chk : A -> nat -> bool) (f : A -> nat -> A) l acc :
  (forall a i, In i l -> chk a i = true) ->
  foldM (fun a i => if chk a i then Ok (f a i) else Err UndefinedBehaviour) l acc = Ok (fold_left f l acc).
Proof.
  intros H. rewrite <- foldM_fold_left. apply foldM_ext. intros b i Hi. rewrite H by exact Hi. reflexivity.
Qed.

(** For k <= N and valid indices every access of one iteration is in bounds and
    the right-hand side and matrix handed to dgesv do not depend on the work
    arrays' previous contents. *)
Lemma cw_point_spec L lu N k cvg vg eps ex Z a_all bd_all mask idx s i :
  cvg_computes cvg vg -> (k <= N)%nat -> mask i = false ->
  (forall r, (r < k)%nat -> (idx i r < N)%nat) -> (forall r, (r < k)%nat -> 0 <= bd_all i r) ->
  exists A x0 b lu',
    (forall r c, (r < k + 1)%nat -> (c < k + 1)%nat ->
       A (r + c * (k + 1))%nat =
       if Nat.eqb r k && Nat.eqb c k then 0 else if Nat.eqb r k || Nat.eqb c k then 1 else a_all (idx i r) (idx i c)) /\
    veq (k + 1) b (rhs_spec k (query_semivariance vg eps ex (bd_all i))) /\
    veq (k + 1) x0 b /\
    cw_point L lu N k cvg eps ex Z a_all bd_all mask idx s i =
      match la_solve L (k + 1) (fun r c => A (r + c * (k + 1))%nat) x0 with
      | None => Err ValueError
      | Some x => Ok {| wz := upd (wz s) i (bsum k (fun r => x r * Z (idx i r)));
                        ws := upd (ws s) i (- bsum (k + 1) (fun r => x r * b r));
                        wx := (fun j => if Nat.ltb j (k + 1) then x j else x0 j);
                        wtmp := cvg k (bd_all i) (wtmp s); wb := b; wa := lu' |}
      end.
Proof.
  intros Hc HkN Hm Hidx Hpos. unfold cw_point. rewrite Hm. cbv zeta.
  set (sel := idx i) in *. set (bd := bd_all i) in *. set (nb := (k + 1)%nat).
  set (asize := ((N + 1) * (N + 1))%nat).
  assert (Hsz : (nb * nb <= asize)%nat) by (unfold nb, asize; nia).
  (* block *)
  set (A1 := fold_left (fun A k0 => fold_left (fun A j => upd A (k0 + nb * j)%nat (a_all (sel k0) (sel j))) (seq 0 k) A) (seq 0 k) (wa s)).
  assert (H1 : foldM (fun A k0 => foldM (fun A j => do v <- rd2 (N + 1) a_all (sel k0) (sel j);; wr asize A (k0 + nb * j)%nat v) (seq 0 k) A)
     (seq 0 k) (wa s) = Ok A1).
  { unfold A1. rewrite <- foldM_fold_left. apply foldM_ext. intros B k0 Hk0. apply in_seq in Hk0.
    rewrite <- foldM_fold_left. apply foldM_ext. intros B' j Hj. apply in_seq in Hj.
    unfold rd2. pose proof (Hidx k0 ltac:(lia)). pose proof (Hidx j ltac:(lia)).
    destruct (Nat.ltb_spec (sel k0) (N + 1)); [|lia]. destruct (Nat.ltb_spec (sel j) (N + 1)); [|lia].
    cbn [andb bind]. unfold wr. destruct (Nat.ltb_spec (k0 + nb * j) asize); [reflexivity|].
    assert (k0 + nb * j < nb * nb)%nat by (unfold nb in *; nia). lia. }
  rewrite H1. cbn [bind].
  (* border *)
  set (A2 := fold_left (fun A k0 => upd (upd A (k0 * nb + k)%nat 1) (k * nb + k0)%nat 1) (seq 0 nb) A1).
  assert (H2 : foldM (fun A k0 => do A0 <- wr asize A (k0 * nb + k)%nat 1;; wr asize A0 (k * nb + k0)%nat 1) (seq 0 nb) A1 = Ok A2).
  { unfold A2. rewrite <- foldM_fold_left. apply foldM_ext. intros B k0 Hk0. apply in_seq in Hk0.
    unfold wr. assert (k0 * nb + k < nb * nb)%nat by (unfold nb in *; nia).
    assert (k * nb + k0 < nb * nb)%nat by (unfold nb in *; nia).
    destruct (Nat.ltb_spec (k0 * nb + k) asize); [|lia]. cbn [bind].
    destruct (Nat.ltb_spec (k * nb + k0) asize); [reflexivity|lia]. }
  rewrite H2. cbn [bind]. unfold wr at 1.
  destruct (Nat.ltb_spec (k * nb + k) asize) as [_|Hbad].
  2:{ assert (k * nb + k < nb * nb)%nat by (unfold nb in *; nia). lia. }
  cbn [bind]. destruct (Nat.leb_spec k (N + 1)); [|lia]. cbn [bind].
  set (tmp := cvg k bd (wtmp s)).
  set (b1 := fold_left (fun b k0 => upd b k0 (- tmp k0)) (seq 0 k) (wb s)).
  assert (H3 : foldM (fun b k0 => do t <- rd (N + 1) tmp k0;; wr (N + 1) b k0 (- t)) (seq 0 k) (wb s) = Ok b1).
  { unfold b1. rewrite <- foldM_fold_left. apply foldM_ext. intros B k0 Hk0. apply in_seq in Hk0.
    unfold rd, wr. destruct (Nat.ltb_spec k0 (N + 1)); [reflexivity|lia]. }
  rewrite H3. cbn [bind]. unfold wr at 1. destruct (Nat.ltb_spec k (N + 1)) as [_|]; [|lia]. cbn [bind].
  set (b2 := upd b1 k 1). set (b := if ex then check_b_vect k bd b2 eps else b2).
  set (x0 := fold_left (fun x k0 => upd x k0 (b k0)) (seq 0 nb) (wx s)).
  assert (H4 : foldM (fun x k0 => do v <- rd (N + 1) b k0;; wr (N + 1) x k0 v) (seq 0 nb) (wx s) = Ok x0).
  { unfold x0. rewrite <- foldM_fold_left. apply foldM_ext. intros B k0 Hk0. apply in_seq in Hk0.
    unfold rd, wr. destruct (Nat.ltb_spec k0 (N + 1)); [reflexivity|unfold nb in *; lia]. }
  rewrite H4. cbn [bind].
  destruct (Nat.leb_spec nb (N + 1)) as [_|]; [|unfold nb in *; lia]. cbn [negb].
  set (A3 := upd A2 (k * nb + k)%nat 0).
  exists A3, x0, b, (lu A3).
  split; [|split; [|split]].
  - intros r c Hr Hcc. fold nb. unfold A3.
    destruct (Nat.eq_dec (r + c * nb) (k * nb + k)) as [E|E].
    + rewrite E, upd_same.
      assert (r = k /\ c = k) as [-> ->].
      { unfold nb in *. destruct (Nat.lt_trichotomy c k) as [H'|[H'|H']]; [nia| |lia]. subst. split; [lia|reflexivity]. }
      rewrite !Nat.eqb_refl. reflexivity.
    + rewrite upd_other by exact E. unfold A2. unfold nb.
      replace (r + c * (k + 1))%nat with (r + (k + 1) * c)%nat by ring.
      rewrite (fill_border k (k + 1) A1) by lia.
      destruct (Nat.eqb_spec r k) as [->|Nr], (Nat.eqb_spec c k) as [->|Nc]; cbn [andb orb].
      * exfalso. apply E. ring.
      * destruct (Nat.ltb_spec c (k + 1)); [reflexivity|lia].
      * destruct (Nat.ltb_spec r (k + 1)); [reflexivity|lia].
      * unfold A1, nb. rewrite (fill_block (k + 1) k k (fun a b => a_all (sel a) (sel b))) by lia.
        destruct (Nat.ltb_spec r k), (Nat.ltb_spec c k); try lia. reflexivity.
  - intros r Hr. unfold b.
    assert (Hb2 : forall j, (j < k + 1)%nat -> b2 j = if Nat.eqb j k then 1 else - vg (bd j)).
    { intros j Hj. unfold b2. destruct (Nat.eqb_spec j k) as [->|Hne]; [apply upd_same|].
      rewrite upd_other by exact Hne. unfold b1.
      rewrite (fold_upd_seq (fun _ k0 => - tmp k0) k (wb s)) by (intros; reflexivity).
      destruct (Nat.ltb_spec j k); [|lia]. unfold tmp. rewrite (Hc k bd (wtmp s) Hpos j).
      destruct (Nat.ltb_spec j k); [reflexivity|lia]. }
    unfold rhs_spec, query_semivariance.
    destruct ex; cbn [andb].
    + rewrite check_b_vect_spec, Hb2 by exact Hr.
      destruct (Nat.ltb_spec r k) as [Hrk|]; cbn [andb].
      * destruct (Nat.eqb_spec r k); [lia|]. rewrite (Rabs_pos_eq (bd r)) by (apply Hpos; exact Hrk).
        destruct (Rleb (bd r) eps); [ring|reflexivity].
      * destruct (Nat.eqb_spec r k); [reflexivity|lia].
    + rewrite Hb2 by exact Hr. destruct (Nat.eqb_spec r k); [reflexivity|].
      destruct (Nat.ltb_spec r k); [reflexivity|lia].
  - intros r Hr. unfold x0. rewrite (fold_upd_seq (fun _ k0 => b k0) nb (wx s)) by (intros; reflexivity).
    destruct (Nat.ltb_spec r nb); [reflexivity|unfold nb in *; lia].
  - unfold dgesv. fold nb.
    destruct (la_solve L nb (fun r c => A3 (r + c * nb)%nat) x0) as [x|]; [|reflexivity].
    set (xx := fun j => if Nat.ltb j nb then x j else x0 j).
    assert (H5 : foldM (fun acc k0 => do z <- rd N Z (sel k0);; Ok (acc + xx k0 * z)) (seq 0 k) 0
                 = Ok (bsum k (fun r => x r * Z (sel r)))).
    { rewrite <- c_sum_bsum. unfold c_sum. rewrite <- foldM_fold_left. apply foldM_ext.
      intros acc k0 Hk0. apply in_seq in Hk0. unfold rd. pose proof (Hidx k0 ltac:(lia)).
      destruct (Nat.ltb_spec (sel k0) N); [|lia]. cbn [bind]. unfold xx.
      destruct (Nat.ltb_spec k0 nb); [reflexivity|unfold nb in *; lia]. }
    unfold xx in H5. rewrite H5. cbn [bind]. rewrite c_sum_bsum.
    replace (bsum nb (fun k0 => (if Nat.ltb k0 nb then x k0 else x0 k0) * b k0)) with (bsum nb (fun r => x r * b r)); [reflexivity|].
    apply bsum_ext. intros r Hr. destruct (Nat.ltb_spec r nb); [reflexivity|lia].
Qed.

(** fold over all points: only wz/ws matter *)
Lemma cw_loop_inv L lu N k cvg vg eps ex Z d bd mask idx : linalg_ok L -> cvg_computes cvg vg -> (k <= N)%nat ->
  forall npt,
  (forall p, (p < npt)%nat -> mask p = false -> valid_sel N k (idx p) /\ forall r, (r < k)%nat -> 0 <= bd p r) ->
  forall s0,
  match foldM (cw_point L lu N k cvg eps ex Z (kriging_matrix N vg d) bd mask idx) (seq 0 npt) s0 with
  | Ok s => forall p, (p < npt)%nat -> mask p = false ->
      window_result k vg d eps ex Z (bd p) (idx p) (wz s p) (ws s p)
  | Err e => e = ValueError /\ exists p, (p < npt)%nat /\ mask p = false /\
       ~ nonsingular (k + 1) (kriging_matrix k vg (fun a b => d (idx p a) (idx p b)))
  end.
Proof.
  intros HL Hc HkN. induction npt as [|npt IH]; intros HW s0; [cbn; intros; lia|].
  rewrite seq_S. 
  assert (App : forall (f : wstate -> nat -> res wstate) l x s, foldM f (l ++ [x]) s = (do s' <- foldM f l s ;; f s' x)).
  { intros f l x. induction l as [|y l IHl]; intros s; cbn [foldM app].
    - cbn. destruct (f s x); reflexivity.
    - destruct (f s y); cbn [bind]; [apply IHl|reflexivity]. }
  rewrite App. cbn [plus].
  specialize (IH (fun p Hp => HW p ltac:(lia)) s0).
  destruct (foldM _ (seq 0 npt) s0) as [s|e]; cbn [bind].
  2:{ destruct IH as (-> & p & Hp & Hm & HN). split; [reflexivity|]. exists p. split; [lia|]. auto. }
  destruct (mask npt) eqn:Hm.
  - unfold cw_point. rewrite Hm. intros p Hp Hmp. apply IH; [|exact Hmp].
    destruct (Nat.eq_dec p npt) as [->|]; [congruence|lia].
  - destruct (HW npt ltac:(lia) Hm) as [[Hlt Hinj] Hpos].
    destruct (cw_point_spec L lu N k cvg vg eps ex Z (kriging_matrix N vg d) bd mask idx s npt Hc HkN Hm Hlt Hpos)
      as (A & x0 & b & lu' & HA & Hb & Hx0 & ->).
    assert (HAm : meq (k + 1) (fun r c => A (r + c * (k + 1))%nat) (kriging_matrix k vg (fun a b => d (idx npt a) (idx npt b)))).
    { intros r c Hr Hcc. rewrite HA by assumption.
      destruct (Nat.eqb_spec r k) as [->|Nr], (Nat.eqb_spec c k) as [->|Nc]; cbn [andb orb].
      - rewrite km_corner. reflexivity.
      - rewrite km_row by lia. reflexivity.
      - rewrite km_col by lia. reflexivity.
      - rewrite !km_entry by (try lia; apply Hlt; lia). unfold data_semivariance.
        destruct (Nat.eqb_spec (idx npt r) (idx npt c)) as [E|E], (Nat.eqb_spec r c) as [E'|E']; try reflexivity.
        + exfalso. apply E', Hinj; lia || assumption.
        + exfalso. apply E. rewrite E'. reflexivity. }
    assert (Hx0' : veq (k + 1) x0 (rhs_spec k (query_semivariance vg eps ex (bd npt)))).
    { intros r Hr. rewrite Hx0, Hb by exact Hr. reflexivity. }
    destruct (la_solve _ _ _ _) as [x|] eqn:ES.
    + destruct (solve_estimate L k _ x0 vg _ _ (fun r => Z (idx npt r)) x HL HAm Hx0' ES) as [HN HE].
      intros p Hp Hmp. cbn [wz ws]. destruct (Nat.eq_dec p npt) as [->|Hne].
      * rewrite !upd_same. split; [exact HN|].
        replace (bsum (k + 1) (fun r => x r * b r)) with (bsum (k + 1) (fun r => x r * x0 r)); [exact HE|].
        apply bsum_ext; intros r Hr. rewrite Hx0 by exact Hr. reflexivity.
      * rewrite !upd_other by exact Hne. apply IH; [lia|exact Hmp].
    + split; [reflexivity|]. exists npt. split; [lia|]. split; [exact Hm|].
      apply (solve_singular L k _ _ vg _ HL HAm ES).
Qed.

(** window bigger than the data: the first unmasked point writes out of bounds *)
Lemma foldM_err_in {A} (f : A -> nat -> res A) l (bad : nat) acc e :
  In bad l -> (forall a i, In i l -> is_ok (f a i) = true \/ f a i = Err e) -> (forall a, f a bad = Err e) ->
  foldM f l acc = Err e.
Proof.
  revert acc. induction l as [|i l IH]; intros acc Hin Hany Hbad; [destruct Hin|].
  cbn [foldM]. destruct (Nat.eq_dec i bad) as [->|Hne].
  - rewrite Hbad. reflexivity.
  - destruct Hin as [->|Hin]; [contradiction|].
    destruct (Hany acc i (or_introl eq_refl)) as [Hok|He].
    + destruct (f acc i); [|discriminate]. cbn [bind]. apply IH; [exact Hin| |exact Hbad].
      intros a0 j Hj. apply Hany. right. exact Hj.
    + rewrite He. reflexivity.
Qed.

Lemma foldM_step_errs {A} (f : A -> nat -> res A) (e : exn) l acc :
  (forall a i, is_ok (f a i) = true \/ f a i = Err e) ->
  is_ok (foldM f l acc) = true \/ foldM f l acc = Err e.
Proof.
  intros H. revert acc. induction l as [|i l IH]; intros acc; [left; reflexivity|]. cbn [foldM].
  destruct (H acc i) as [Hok|He]; [|rewrite He; right; reflexivity].
  destruct (f acc i); [|discriminate]. apply IH.
Qed.

Lemma cw_point_oob L lu N k cvg eps ex Z a_all bd mask idx s i :
  (N < k)%nat -> mask i = false ->
  cw_point L lu N k cvg eps ex Z a_all bd mask idx s i = Err UndefinedBehaviour.
Proof.
  intros HNk Hm. unfold cw_point. rewrite Hm. cbv zeta.
  set (ub := fun {A} (x : res A) => is_ok x = true \/ x = Err UndefinedBehaviour).
  assert (Hwr : forall sz f i v, ub vec (wr sz f i v)).
  { intros sz f i' v. unfold ub, wr. destruct (Nat.ltb i' sz); auto. }
  assert (Hrd : forall sz f i, ub R (rd sz f i)).
  { intros sz f i'. unfold ub, rd. destruct (Nat.ltb i' sz); auto. }
  assert (Hbind : forall A B (x : res A) (f : A -> res B), ub A x -> (forall a, ub B (f a)) -> ub B (bind x f)).
  { intros A B x f [Hx|Hx] Hf; [destruct x; [apply Hf|discriminate]|rewrite Hx; right; reflexivity]. }
  assert (Hstep : forall A (x : res A) (f : A -> res wstate), ub A x ->
     (forall a, f a = Err UndefinedBehaviour) -> bind x f = Err UndefinedBehaviour).
  { intros A x f [Hx|Hx] Hf; [destruct x; [apply Hf|discriminate]|rewrite Hx; reflexivity]. }
  apply Hstep.
  { apply foldM_step_errs. intros B k0. apply foldM_step_errs. intros B' j. apply Hbind; [|intros; apply Hwr].
    unfold ub, rd2. destruct (_ && _); auto. }
  intros A1. apply Hstep.
  { apply foldM_step_errs. intros B k0. apply Hbind; [apply Hwr|intros; apply Hwr]. }
  intros A2. apply Hstep; [apply Hwr|]. intros A3. apply Hstep.
  { unfold ub. destruct (Nat.leb k (N + 1)); auto. }
  intros tmp. apply Hstep.
  { apply foldM_step_errs. intros B k0. apply Hbind; [apply Hrd|intros; apply Hwr]. }
  intros b. unfold wr at 1. destruct (Nat.ltb_spec k (N + 1)); [lia|]. reflexivity.
Qed.
