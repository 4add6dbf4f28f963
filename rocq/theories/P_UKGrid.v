(** C28: the interpolated external drift depends continuously on the location. *)
From Coq Require Import String.
From Verif Require Import Base Sums Matrix M_Variogram P_Variogram M_Geometry S_Geometry P_Geometry M_Kriging S_Kriging
  M_Init M_Object M_Execute S_Execute M_UK S_UK S_Bilinear P_Bilinear.

(** an interval of the grid near x contains x *)
Lemma near_interval (l : list R) x : exists d, 0 < d /\ forall i x', (S i < List.length l)%nat ->
  Rabs (x' - x) < d -> rnth l i <= x' <= rnth l (S i) -> rnth l i <= x <= rnth l (S i).
Proof.
  enough (H : forall n, exists d, 0 < d /\ forall i x', (i < n)%nat -> Rabs (x' - x) < d -> rnth l i <= x' <= rnth l (S i) -> rnth l i <= x <= rnth l (S i)).
  { destruct (H (List.length l)) as (d & Hd & HP). exists d. split; [exact Hd|]. intros i x' Hi. apply HP. lia. }
  induction n as [|n IH]; [exists 1; split; [lra|]; intros; lia|].
  destruct IH as (d & Hd & HP).
  assert (A : exists d', 0 < d' /\ forall x', Rabs (x' - x) < d' -> rnth l n <= x' <= rnth l (S n) -> rnth l n <= x <= rnth l (S n)).
  { destruct (Rlt_dec x (rnth l n)) as [L|L].
    - exists (rnth l n - x). split; [lra|]. intros x' Hx. apply Rabs_def2 in Hx. lra.
    - destruct (Rlt_dec (rnth l (S n)) x) as [L'|L'].
      + exists (x - rnth l (S n)). split; [lra|]. intros x' Hx. apply Rabs_def2 in Hx. lra.
      + exists 1. split; [lra|]. intros. lra. }
  destruct A as (d' & Hd' & HA).
  exists (Rmin d d'). split; [apply Rmin_glb_lt; assumption|]. assert (M1 := Rmin_l d d'). assert (M2 := Rmin_r d d').
  intros i x' Hi Hx. destruct (Nat.eq_dec i n) as [->|N]; [apply HA|apply HP]; try lia; lra.
Qed.

Lemma bilinear_continuous x1 x2 y1 y2 a b c d x y : x1 < x2 -> y1 < y2 ->
  forall e, 0 < e -> exists dl, 0 < dl /\ forall x' y', Rabs (x' - x) < dl -> Rabs (y' - y) < dl ->
    Rabs (bilinear x1 x2 y1 y2 a b c d x' y' - bilinear x1 x2 y1 y2 a b c d x y) < e.
Proof.
  intros Hx Hy e He.
  set (D := (x2 - x1) * (y2 - y1)). assert (HD : 0 < D) by (apply Rmult_lt_0_compat; lra).
  (* = p + q x + r y + s x y *)
  set (q := (- a * y2 + b * y2 + c * y1 - d * y1) / D). set (r := (- a * x2 + c * x2 + b * x1 - d * x1) / D). set (s := (a - b - c + d) / D).
  set (L := 1 + Rabs q + Rabs r + Rabs s * (Rabs x + Rabs y + 1)).
  assert (Pq := Rabs_pos q). assert (Pr := Rabs_pos r). assert (Ps := Rabs_pos s). assert (Px := Rabs_pos x). assert (Py := Rabs_pos y).
  assert (PS : 0 <= Rabs s * (Rabs x + Rabs y + 1)) by (apply Rmult_le_pos; lra).
  assert (HL : 1 <= L) by (unfold L; lra).
  set (dl := Rmin 1 (e / (2 * L))).
  assert (Hdl : 0 < dl) by (unfold dl; apply Rmin_glb_lt; [lra|apply Rdiv_lt_0_compat; lra]).
  assert (Hdl1 : dl <= 1) by apply Rmin_l.
  assert (HdlL : dl * L < e).
  { apply Rle_lt_trans with (e / (2 * L) * L); [apply Rmult_le_compat_r; [lra|apply Rmin_r]|]. replace (e / (2 * L) * L) with (e / 2) by (field; lra). lra. }
  exists dl. split; [exact Hdl|]. intros x' y' Dx Dy.
  assert (E : bilinear x1 x2 y1 y2 a b c d x' y' - bilinear x1 x2 y1 y2 a b c d x y =
     q * (x' - x) + r * (y' - y) + s * ((x' - x) * (y' - y) + x * (y' - y) + y * (x' - x))).
  { unfold bilinear, q, r, s, D. field. split; lra. }
  rewrite E. clear E.
  assert (A1 : Rabs (q * (x' - x)) <= Rabs q * dl) by (rewrite Rabs_mult; apply Rmult_le_compat_l; lra).
  assert (A2 : Rabs (r * (y' - y)) <= Rabs r * dl) by (rewrite Rabs_mult; apply Rmult_le_compat_l; lra).
  assert (P3 := Rabs_pos (x' - x)). assert (P4 := Rabs_pos (y' - y)).
  assert (A3 : Rabs (s * ((x' - x) * (y' - y) + x * (y' - y) + y * (x' - x))) <= Rabs s * ((Rabs x + Rabs y + 1) * dl)).
  { rewrite Rabs_mult. apply Rmult_le_compat_l; [lra|]. eapply Rle_trans; [apply Rabs_triang|]. eapply Rle_trans; [apply Rplus_le_compat_r, Rabs_triang|].
    rewrite !Rabs_mult.
    assert (B1 : Rabs (x' - x) * Rabs (y' - y) <= 1 * dl) by (apply Rmult_le_compat; lra).
    assert (B2 : Rabs x * Rabs (y' - y) <= Rabs x * dl) by (apply Rmult_le_compat_l; lra).
    assert (B3 : Rabs y * Rabs (x' - x) <= Rabs y * dl) by (apply Rmult_le_compat_l; lra). lra. }
  eapply Rle_lt_trans; [apply Rabs_triang|]. eapply Rle_lt_trans; [apply Rplus_le_compat_r, Rabs_triang|].
  apply Rle_lt_trans with (dl * L - dl); [unfold L; lra|lra].
Qed.

(** a common delta for finitely many *)
Lemma common_delta (n : nat) (P : nat -> R -> Prop) : (forall i, (i < n)%nat -> exists d, 0 < d /\ P i d) -> (forall i d d', P i d -> 0 < d' <= d -> P i d') ->
  exists d, 0 < d /\ forall i, (i < n)%nat -> P i d.
Proof.
  intros H HM. induction n as [|n IH].
  - exists 1. split; [lra|]. intros; lia.
  - destruct IH as (d & Hd & HP); [intros; apply H; lia|]. destruct (H n ltac:(lia)) as (d' & Hd' & HP').
    exists (Rmin d d'). assert (M : 0 < Rmin d d') by (apply Rmin_glb_lt; assumption). split; [exact M|].
    intros i Hi. destruct (Nat.eq_dec i n) as [->|Hne].
    + apply (HM n d' _ HP'). split; [exact M|apply Rmin_r].
    + apply (HM i d _ (HP i ltac:(lia))). split; [exact M|apply Rmin_l].
Qed.

(** the interpolated value is continuous on the grid's range *)
Theorem zscalar_continuous arr ex ey x y v : ascending ex -> ascending ey -> (2 <= List.length ex)%nat -> (2 <= List.length ey)%nat ->
  zscalar arr ex ey x y = Ok v ->
  forall e, 0 < e -> exists dl, 0 < dl /\ forall x' y' v', Rabs (x' - x) < dl -> Rabs (y' - y) < dl ->
    zscalar arr ex ey x' y' = Ok v' -> Rabs (v' - v) < e.
Proof.
  intros Ax Ay Lx Ly HV e He.
  destruct (near_interval ex x) as (dx & Hdx & NX). destruct (near_interval ey y) as (dy & Hdy & NY).
  set (P := fun (i j : nat) (d : R) => rnth ex i <= x <= rnth ex (S i) -> rnth ey j <= y <= rnth ey (S j) -> forall x' y', Rabs (x' - x) < d -> Rabs (y' - y) < d ->
    Rabs (bilinear (rnth ex i) (rnth ex (S i)) (rnth ey j) (rnth ey (S j)) (arr j i) (arr j (S i)) (arr (S j) i) (arr (S j) (S i)) x' y'
        - bilinear (rnth ex i) (rnth ex (S i)) (rnth ey j) (rnth ey (S j)) (arr j i) (arr j (S i)) (arr (S j) i) (arr (S j) (S i)) x y) < e).
  assert (PM : forall i j d d', P i j d -> 0 < d' <= d -> P i j d').
  { intros i j d d' H Hd Hx Hy x' y' H1 H2. apply H; try assumption; lra. }
  destruct (common_delta (List.length ex - 1) (fun i d => forall j, (j < List.length ey - 1)%nat -> P i j d)) as (d0 & Hd0 & HP).
  - intros i Hi. destruct (common_delta (List.length ey - 1) (fun j d => P i j d)) as (d & Hd & HPd).
    + intros j Hj. destruct (bilinear_continuous (rnth ex i) (rnth ex (S i)) (rnth ey j) (rnth ey (S j)) (arr j i) (arr j (S i)) (arr (S j) i) (arr (S j) (S i)) x y) with (e := e) as (dl & Hdl & HB).
      * apply Ax; lia.
      * apply Ay; lia.
      * exact He.
      * exists dl. split; [exact Hdl|]. intros _ _. exact HB.
    + intros j d d' H Hd. exact (PM i j d d' H Hd).
    + exists d. auto.
  - intros i d d' H Hd j Hj. exact (PM i j d d' (H j Hj) Hd).
  - set (dl := Rmin d0 (Rmin dx dy)). assert (M1 := Rmin_l d0 (Rmin dx dy)). assert (M2 := Rmin_r d0 (Rmin dx dy)). assert (M3 := Rmin_l dx dy). assert (M4 := Rmin_r dx dy).
    exists dl. split; [apply Rmin_glb_lt; [exact Hd0|apply Rmin_glb_lt; assumption]|]. fold dl in M1, M2.
    intros x' y' v' Dx Dy HV'.
    assert (W : within ex x' /\ within ey y').
    { destruct (zscalar_accepts arr ex ey x' y') as [_ N]. apply Classical_Prop.NNPP. intros H. specialize (N H). congruence. }
    destruct W as [W1 W2]. destruct (ascending_cell ex x' Ax Lx W1) as (i & Hi & Ci). destruct (ascending_cell ey y' Ay Ly W2) as (j & Hj & Cj).
    pose proof (NX i x' Hi ltac:(lra) Ci) as Di. pose proof (NY j y' Hj ltac:(lra) Cj) as Dj.
    rewrite (zscalar_bilinear arr ex ey x' y' i j v' Ax Ay Hi Hj Ci Cj HV'), (zscalar_bilinear arr ex ey x y i j v Ax Ay Hi Hj Di Dj HV).
    apply (HP i ltac:(lia) j ltac:(lia) Di Dj); lra.
Qed.
