(** C85: the warnings of write_asc_grid. *)
From Coq Require Import String Ascii ZArith QArith Qabs Qround Lia List.
From Verif Require Import Base M_Text S_Text P_Text M_AscGrid S_AscGrid P_AscGrid P_AscGrid2 P_AscGrid3 P_AscGrid4 P_AscGrid5 S_Warn.
From Coq Require Import Lqa.
Import ListNotations.
Open Scope Q_scope.

Lemma fold_qmin l m : (fold_left (fun m v => if Qle_bool m v then m else v) l m <= m) /\
  (forall v, In v l -> fold_left (fun m v => if Qle_bool m v then m else v) l m <= v) /\
  (fold_left (fun m v => if Qle_bool m v then m else v) l m = m \/ In (fold_left (fun m v => if Qle_bool m v then m else v) l m) l).
Proof.
  revert m. induction l as [|a l IH]; intros m; cbn [fold_left].
  - split; [lra|]. split; [intros v []|left; reflexivity].
  - destruct (Qle_bool m a) eqn:E.
    + apply Qle_bool_iff in E. destruct (IH m) as (I1 & I2 & I3). split; [exact I1|]. split.
      * intros v [<-|Hv]; [eapply Qle_trans; [exact I1|exact E]|apply I2, Hv].
      * destruct I3 as [I3|I3]; [left; exact I3|right; right; exact I3].
    + assert (HE : a <= m) by (destruct (Qlt_le_dec a m) as [H|H]; [lra|apply Qle_bool_iff in H; congruence]).
      destruct (IH a) as (I1 & I2 & I3). split; [eapply Qle_trans; [exact I1|exact HE]|]. split.
      * intros v [<-|Hv]; [exact I1|apply I2, Hv].
      * right. destruct I3 as [I3|I3]; [left; symmetry; exact I3|right; exact I3].
Qed.

(** the warning about the order: the first coordinate is not the least *)
Theorem in_order_iff l : l <> [] -> out_of_order l = false <-> least_first l.
Proof.
  intros Hl. destruct l as [|a l]; [contradiction|]. unfold out_of_order, qmin, least_first. cbn [tl hd]. rewrite negb_false_iff, Qeq_bool_iff.
  destruct (fold_qmin l a) as (I1 & I2 & I3). set (m := fold_left _ l a) in *. clearbody m. change (qnth (a :: l) 0) with a. split.
  - intros H [|i] Hi; [change (qnth (a :: l) 0) with a; lra|]. change (qnth (a :: l) (S i)) with (nth i l 0). cbn in Hi.
    assert (HI : (i < List.length l)%nat) by lia. specialize (I2 (nth i l 0) (nth_In l 0 HI)). lra.
  - intros H. destruct I3 as [-> |I3]; [reflexivity|]. apply (In_nth _ _ 0) in I3 as (i & Hi & HI).
    assert (Hi' : (S i < List.length (a :: l))%nat) by (cbn; lia). specialize (H (S i) Hi'). change (qnth (a :: l) (S i)) with (nth i l 0) in H. rewrite HI in H. lra.
Qed.

Theorem warnings_iff x y z : plane z -> (2 <= List.length x)%nat -> (2 <= List.length y)%nat ->
  (fst (asc_warnings x y z) = false <-> g_rows z = List.length y /\ g_cols z = List.length x) /\
  (snd (asc_warnings x y z) = false <-> least_first x /\ least_first y).
Proof.
  intros D Lx Ly. unfold asc_warnings. rewrite (plane_true _ D). cbn [negb fst snd]. split.
  - rewrite negb_false_iff, andb_true_iff, !Nat.eqb_eq. reflexivity.
  - replace (2 <=? List.length x)%nat with true by (symmetry; apply Nat.leb_le; exact Lx).
    replace (2 <=? List.length y)%nat with true by (symmetry; apply Nat.leb_le; exact Ly). cbn [andb].
    rewrite orb_false_iff, !in_order_iff by (intros K; rewrite K in *; cbn in *; lia). reflexivity.
Qed.

Lemma line_first l n f s : line_axis l n f s -> qnth l 0 == f /\ first_step l == Qabs s.
Proof.
  intros (Hn & _ & _ & H). unfold first_step. pose proof (H 0%nat ltac:(lia)) as H0. pose proof (H 1%nat ltac:(lia)) as H1. cbn in H0, H1. split.
  - rewrite H0. ring.
  - apply Qabs_wd. rewrite H1, H0. ring.
Qed.

Lemma line_steps l n f s : line_axis l n f s -> steps_agree l.
Proof.
  intros H. destruct (line_first _ _ _ _ H) as [H0 H1]. destruct H as (Hn & Hs & HL & HP). unfold steps_agree.
  assert (HM : mean_step l == Qabs s).
  { unfold mean_step. apply Qabs_wd. rewrite HL, H0, HP by lia.
    assert (HZ : inject_Z (Z.of_nat n) - 1 == inject_Z (Z.of_nat (n - 1))).
    { rewrite Nat2Z.inj_sub by lia. unfold Z.sub. rewrite inject_Z_plus. reflexivity. }
    assert (HZ' : inject_Z (Z.of_nat n - 1) == inject_Z (Z.of_nat (n - 1))) by (rewrite Nat2Z.inj_sub by lia; reflexivity).
    rewrite HZ'. field. intros K. unfold inject_Z, Qeq in K. cbn in K. lia. }
  rewrite HM, H1. assert (HA : Qabs (Qabs s - Qabs s) == 0).
  { setoid_replace (Qabs s - Qabs s) with 0 by ring. reflexivity. }
  rewrite HA. pose proof (Qabs_nonneg s). lra.
Qed.

Lemma line_least l n f s : line_axis l n f s -> least_first l <-> 0 < s.
Proof.
  intros (Hn & Hs & HL & HP). unfold least_first. rewrite HL. pose proof (HP 0%nat ltac:(lia)) as H0. change (inject_Z (Z.of_nat 0)) with 0 in H0. split.
  - intros H. specialize (H 1%nat ltac:(lia)). rewrite (HP 1%nat) in H by lia. rewrite H0 in H. change (inject_Z (Z.of_nat 1)) with 1 in H. destruct (Qlt_le_dec 0 s) as [K|K]; [exact K|].
    exfalso. apply Hs. lra.
  - intros H i Hi. rewrite (HP i Hi), H0. assert (0 <= inject_Z (Z.of_nat i)) by (change 0 with (inject_Z 0); rewrite <- Zle_Qle; lia). nra.
Qed.

Lemma hundredths_abs s : hundredths s -> hundredths (Qabs s).
Proof. intros [k Hk]. exists (Z.abs k). rewrite Hk, Qabs_Qmult. reflexivity. Qed.

Lemma hundredths_eq a b : a == b -> hundredths a -> hundredths b.
Proof. intros E [k Hk]. exists k. rewrite <- E. exact Hk. Qed.

Lemma axis_same l n f s l' n' : line_axis l n f s -> progression l' n' f (Qabs s) -> (2 <= n')%nat ->
  same_numbers l' l <-> n' = List.length l /\ least_first l.
Proof.
  intros HA (HL' & HP') Hn'. pose proof (line_least _ _ _ _ HA) as HLe. destruct HA as (Hn & Hs & HL & HP). unfold same_numbers. rewrite HLe, HL', HL. split.
  - intros (E & H). split; [exact E|]. specialize (H 1%nat ltac:(lia)). rewrite (HP' 1%nat), (HP 1%nat) in H by lia. change (inject_Z (Z.of_nat 1)) with 1 in H.
    pose proof (Qabs_nonneg s). destruct (Qlt_le_dec 0 s) as [K|K]; [exact K|]. exfalso. apply Hs. lra.
  - intros (E & H). split; [exact E|]. intros i Hi. rewrite (HP' i), (HP i) by lia. rewrite (Qabs_pos s) by lra. reflexivity.
Qed.

(** a warning is issued exactly when the axes are not read back as they were *)
Theorem warned_iff x y z nx ny fx fy sx sy nd :
  line_axis x nx fx sx -> line_axis y ny fy sy -> hundredths fx -> hundredths fy -> hundredths sx -> hundredths sy ->
  (2 <= g_rows z)%nat -> (2 <= g_cols z)%nat -> cells_in_field z nd ->
  exists t a, write_asc exact x y z nd 1 = (Some t, Ok tt) /\ read_asc exact t 0 = Ok a /\
    (asc_warnings x y z = (false, false) <-> same_numbers (a_x a) x /\ same_numbers (a_y a) y).
Proof.
  intros X Y Hfx Hfy Hsx Hsy HR HC HF.
  assert (D : plane z) by (unfold plane; lia).
  assert (Lx : (2 <= List.length x)%nat) by (destruct X as (Hn & _ & HL & _); lia).
  assert (Ly : (2 <= List.length y)%nat) by (destruct Y as (Hn & _ & HL & _); lia).
  destruct (proj2 (accepted_iff x y z nd Lx Ly (plane_true _ D))) as (t & W).
  { split; eapply line_steps; eassumption. }
  destruct (line_first _ _ _ _ X) as [X0 X1]. destruct (line_first _ _ _ _ Y) as [Y0 Y1].
  assert (Ex : rd exact (first_step x) == Qabs sx).
  { rewrite <- X1. apply rd_itself. apply (hundredths_eq (Qabs sx)); [symmetry; exact X1|apply hundredths_abs, Hsx]. }
  assert (Ey : rd exact (first_step y) == Qabs sy).
  { rewrite <- Y1. apply rd_itself. apply (hundredths_eq (Qabs sy)); [symmetry; exact Y1|apply hundredths_abs, Hsy]. }
  assert (NZ : forall s, ~ s == 0 -> ~ Qabs s == 0).
  { intros s Hs K. apply Hs. assert (K' : Qabs s <= 0) by lra. apply Qabs_Qle_condition in K'. lra. }
  destruct (round_trip1 x y z nd t W HR HC HF) as (a & A1 & A2 & A3 & A4 & A5 & A6).
  { rewrite Ex. apply NZ, X. }
  { rewrite Ey. apply NZ, Y. }
  assert (P1 : progression (a_x a) (g_cols z) fx (Qabs sx)).
  { eapply progression_eq; [|exact Ex|exact A4]. rewrite <- X0. apply rd_itself. apply (hundredths_eq fx); [symmetry; exact X0|exact Hfx]. }
  assert (P2 : progression (a_y a) (g_rows z) fy (Qabs sy)).
  { eapply progression_eq; [|exact Ey|exact A5]. rewrite <- Y0. apply rd_itself. apply (hundredths_eq fy); [symmetry; exact Y0|exact Hfy]. }
  exists t, a. split; [exact W|]. split; [exact A1|].
  rewrite (axis_same x nx fx sx _ _ X P1 HC), (axis_same y ny fy sy _ _ Y P2 HR).
  destruct (warnings_iff x y z D Lx Ly) as [W1 W2].
  transitivity (fst (asc_warnings x y z) = false /\ snd (asc_warnings x y z) = false).
  - destruct (asc_warnings x y z) as [b1 b2]. cbn. split; [intros H; injection H as -> ->; auto|intros [-> ->]; reflexivity].
  - rewrite W1, W2. tauto.
Qed.
