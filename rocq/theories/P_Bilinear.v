(** Proofs: the external drift is bilinear interpolation. *)
From Coq Require Import String Sorting.Sorted.
From Verif Require Import Base Sums Matrix M_Variogram M_Geometry S_Geometry M_Kriging S_Kriging M_Init M_Object
  M_Execute S_Execute P_Binning M_UK S_UK S_Bilinear.

Lemma where_In p l i : In i (where_ p l) <-> (i < List.length l)%nat /\ p (rnth l i) = true.
Proof. unfold where_. rewrite filter_In, in_seq. intuition lia. Qed.

Lemma where_sorted p l : StronglySorted lt (where_ p l).
Proof.
  unfold where_. generalize 0%nat. induction (List.length l) as [|n IH]; intros s; cbn; [constructor|].
  destruct (p (rnth l s)); [constructor; [apply IH|]|apply IH].
  apply Forall_forall. intros x Hx. apply filter_In in Hx as [Hx _]. apply in_seq in Hx. lia.
Qed.
Lemma sorted_last l x : StronglySorted lt (x :: l) -> In (last l x) (x :: l) /\ forall i, In i (x :: l) -> (i <= last l x)%nat.
Proof.
  revert x. induction l as [|y l IH]; intros x H.
  - cbn. split; [auto|]. intros i [<-|[]]; lia.
  - inversion H as [|? ? HS HF]; subst. destruct (IH y HS) as [I1 I2]. 
    replace (last (y :: l) x) with (last l y).
    2:{ clear. revert x y. induction l as [|z l IH]; intros x y; [reflexivity|]. cbn [last]. destruct l; [reflexivity|]. apply IH. }
    split; [right; exact I1|]. intros i [<-|Hi]; [|apply I2, Hi].
    rewrite Forall_forall in HF. specialize (HF _ I1). lia.
Qed.

Lemma first_where_ok p l i : first_where p l = Ok i <->
  (i < List.length l)%nat /\ p (rnth l i) = true /\ forall j, (j < i)%nat -> p (rnth l j) = false.
Proof.
  unfold first_where. pose proof (where_sorted p l) as HS. pose proof (where_In p l) as HI.
  destruct (where_ p l) as [|x r].
  - split; [discriminate|]. intros (A & B & _). destruct (proj2 (HI i) (conj A B)).
  - inversion HS as [|? ? _ HF]; subst. rewrite Forall_forall in HF. 
    assert (Hx : (x < List.length l)%nat /\ p (rnth l x) = true) by (apply HI; left; reflexivity).
    assert (Hm : forall j, (j < x)%nat -> p (rnth l j) = false).
    { intros j Hj. destruct (p (rnth l j)) eqn:E; [|reflexivity]. exfalso.
      assert (In j (x :: r)) as [<-|K] by (apply HI; split; [lia|exact E]); [lia|]. specialize (HF j K). lia. }
    split.
    + intros [= <-]. tauto.
    + intros (A & B & C). f_equal. destruct (Nat.lt_trichotomy x i) as [L|[L|L]]; [|exact L|].
      * rewrite (C x L) in Hx. destruct Hx; discriminate.
      * rewrite (Hm i L) in B. discriminate.
Qed.
Lemma last_where_ok p l i : last_where p l = Ok i <->
  (i < List.length l)%nat /\ p (rnth l i) = true /\ forall j, (i < j < List.length l)%nat -> p (rnth l j) = false.
Proof.
  unfold last_where. pose proof (where_sorted p l) as HS. pose proof (where_In p l) as HI.
  destruct (where_ p l) as [|x r].
  - split; [discriminate|]. intros (A & B & _). destruct (proj2 (HI i) (conj A B)).
  - destruct (sorted_last r x HS) as [L1 L2]. set (y := last r x) in *.
    assert (Hy : (y < List.length l)%nat /\ p (rnth l y) = true) by (apply HI; exact L1).
    assert (Hm : forall j, (y < j < List.length l)%nat -> p (rnth l j) = false).
    { intros j Hj. destruct (p (rnth l j)) eqn:E; [|reflexivity]. exfalso.
      assert (K : In j (x :: r)) by (apply HI; split; [lia|exact E]). specialize (L2 j K). lia. }
    split.
    + intros [= <-]. tauto.
    + intros (A & B & C). f_equal. destruct (Nat.lt_trichotomy y i) as [L|[L|L]]; [|exact L|].
      * rewrite (Hm i ltac:(lia)) in B. discriminate.
      * rewrite (C y ltac:(lia)) in Hy. destruct Hy; discriminate.
Qed.
Lemma first_where_err p l e : first_where p l = Err e -> forall i, (i < List.length l)%nat -> p (rnth l i) = false.
Proof.
  unfold first_where. intros H i Hi. pose proof (where_In p l i) as HI. destruct (where_ p l); [|discriminate].
  destruct (p (rnth l i)); [|reflexivity]. destruct (proj2 HI (conj Hi eq_refl)).
Qed.
Lemma last_where_err p l e : last_where p l = Err e -> forall i, (i < List.length l)%nat -> p (rnth l i) = false.
Proof.
  unfold last_where. intros H i Hi. pose proof (where_In p l i) as HI. destruct (where_ p l); [|discriminate].
  destruct (p (rnth l i)); [|reflexivity]. destruct (proj2 HI (conj Hi eq_refl)).
Qed.

(** range check *)
Lemma amax_within l M x : amax_gen Rops l = Some M -> (Rltb M x = false <-> exists b, In b l /\ x <= b).
Proof.
  intros H. apply amax_spec in H as [H1 H2]. rewrite Rltb_false. split; [intros; exists M; auto|].
  intros (b & Hb & Hx). specialize (H2 b Hb). lra.
Qed.
Lemma amin_within l M x : amin_gen Rops l = Some M -> (Rltb x M = false <-> exists b, In b l /\ b <= x).
Proof.
  intros H. apply amin_spec in H as [H1 H2]. rewrite Rltb_false. split; [intros; exists M; auto|].
  intros (b & Hb & Hx). specialize (H2 b Hb). lra.
Qed.
Lemma amax_some l : l <> [] -> exists M, amax_gen Rops l = Some M.
Proof. destruct l; [congruence|]. cbn. eauto. Qed.
Lemma amin_some l : l <> [] -> exists M, amin_gen Rops l = Some M.
Proof. destruct l; [congruence|]. cbn. eauto. Qed.

(** brackets of the bisection by np.where *)
Lemma within_where l x : within l x -> exists i j, first_where (fun g => Rleb x g) l = Ok i /\ last_where (fun g => Rleb g x) l = Ok j.
Proof.
  intros [(a & Ha & Hax) (b & Hb & Hbx)].
  destruct (first_where (fun g => Rleb x g) l) as [i|e] eqn:E1.
  - destruct (last_where (fun g => Rleb g x) l) as [j|e] eqn:E2; [eauto|].
    apply (In_nth _ _ 0) in Ha as (k & Hk & <-). pose proof (last_where_err _ _ _ E2 k Hk) as K. cbn in K. apply Rleb_false in K. unfold rnth in K. lra.
  - apply (In_nth _ _ 0) in Hb as (k & Hk & <-). pose proof (first_where_err _ _ _ E1 k Hk) as K. cbn in K. apply Rleb_false in K. unfold rnth in K. lra.
Qed.

(** ascending coordinates: either a node, or strictly between two neighbours *)
Lemma ascending_bracket l x x2 x1 : ascending l ->
  first_where (fun g => Rleb x g) l = Ok x2 -> last_where (fun g => Rleb g x) l = Ok x1 ->
  (x1 < List.length l)%nat /\ (x2 < List.length l)%nat /\
  ((x1 = x2 /\ rnth l x1 = x) \/ (x2 = S x1 /\ rnth l x1 < x < rnth l x2)).
Proof.
  intros HA H2 H1. apply first_where_ok in H2 as (L2 & P2 & M2). apply last_where_ok in H1 as (L1 & P1 & M1).
  cbn beta in *. apply Rleb_true in P1, P2. split; [exact L1|]. split; [exact L2|].
  destruct (Nat.lt_trichotomy x1 x2) as [L|[L|L]].
  - assert (x2 = S x1).
    { destruct (Nat.eq_dec x2 (S x1)) as [|Hne]; [assumption|exfalso].
      pose proof (M2 (S x1) ltac:(lia)) as A. pose proof (M1 (S x1) ltac:(lia)) as B. apply Rleb_false in A, B. lra. }
    right. split; [assumption|]. pose proof (M2 x1 L) as A. pose proof (M1 x2 ltac:(lia)) as B. apply Rleb_false in A, B. lra.
  - left. split; [exact L|]. subst. lra.
  - exfalso. pose proof (HA x2 x1 L L1). lra.
Qed.

(** exactly the points inside the grid's range are accepted *)
Theorem zscalar_accepts arr ex ey x y :
  (within ex x /\ within ey y -> exists v, zscalar arr ex ey x y = Ok v) /\
  (~ (within ex x /\ within ey y) -> zscalar arr ex ey x y = Err ValueError).
Proof.
  split.
  - intros [Hx Hy]. unfold zscalar.
    assert (Nx : ex <> []) by (destruct Hx as [(a & Ha & _) _]; intros ->; destruct Ha).
    assert (Ny : ey <> []) by (destruct Hy as [(a & Ha & _) _]; intros ->; destruct Ha).
    destruct (amax_some ex Nx) as (xM & EXM), (amin_some ex Nx) as (xm & EXm), (amax_some ey Ny) as (yM & EYM), (amin_some ey Ny) as (ym & EYm).
    rewrite EXM, EXm, EYM, EYm.
    rewrite (proj2 (amax_within ex xM x EXM)), (proj2 (amin_within ex xm x EXm)), (proj2 (amax_within ey yM y EYM)), (proj2 (amin_within ey ym y EYm))
      by (apply Hx || apply Hy). cbn [orb].
    destruct (within_where ex x Hx) as (x2 & x1 & E1 & E2), (within_where ey y Hy) as (y2 & y1 & E3 & E4).
    rewrite E1, E2, E3, E4. cbn [bind]. destruct (Nat.eqb y1 y2), (Nat.eqb x1 x2); eauto.
  - intros HN. unfold zscalar.
    destruct (amax_gen Rops ex) as [xM|] eqn:EXM; [|reflexivity]. destruct (amin_gen Rops ex) as [xm|] eqn:EXm; [|reflexivity].
    destruct (amax_gen Rops ey) as [yM|] eqn:EYM; [|reflexivity]. destruct (amin_gen Rops ey) as [ym|] eqn:EYm; [|reflexivity].
    destruct (Rltb xM x) eqn:B1; [reflexivity|]. destruct (Rltb x xm) eqn:B2; [reflexivity|].
    destruct (Rltb yM y) eqn:B3; [reflexivity|]. destruct (Rltb y ym) eqn:B4; [reflexivity|]. exfalso. apply HN.
    split; split; [apply (amin_within _ _ _ EXm)|apply (amax_within _ _ _ EXM)|apply (amin_within _ _ _ EYm)|apply (amax_within _ _ _ EYM)]; assumption.
Qed.

(** the value: bilinear interpolation in any grid rectangle containing the point *)
Lemma div_between a b x : a < b -> a <= x <= b -> 0 <= (x - a) / (b - a) <= 1.
Proof.
  intros H Hx. assert (0 < / (b - a)) by (apply Rinv_0_lt_compat; lra). unfold Rdiv. split.
  - apply Rmult_le_pos; lra.
  - apply (Rmult_le_reg_r (b - a)); [lra|]. rewrite Rmult_assoc, Rinv_l by lra. lra.
Qed.

(** where the bracket lies relative to a cell i, i+1 of the grid containing x *)
Lemma bracket_in_cell l x i x1 x2 : ascending l -> (S i < List.length l)%nat -> rnth l i <= x <= rnth l (S i) ->
  (x1 < List.length l)%nat -> (x1 = x2 /\ rnth l x1 = x) \/ (x2 = S x1 /\ (x2 < List.length l)%nat /\ rnth l x1 < x < rnth l x2) ->
  (x1 = i /\ x2 = i /\ x = rnth l i) \/ (x1 = S i /\ x2 = S i /\ x = rnth l (S i)) \/ (x1 = i /\ x2 = S i /\ rnth l i < x < rnth l (S i)).
Proof.
  intros HA Hi Hx L1 [[-> E]|(-> & L2 & E)].
  - destruct (Nat.lt_trichotomy x2 i) as [L|[->|L]].
    + pose proof (HA x2 i L ltac:(lia)). lra.
    + left. auto.
    + destruct (Nat.eq_dec x2 (S i)) as [->|]; [right; left; auto|].
      pose proof (HA (S i) x2 ltac:(lia) ltac:(lia)). lra.
  - destruct (Nat.lt_trichotomy x1 i) as [L|[->|L]].
    + exfalso. destruct (Nat.eq_dec (S x1) i) as [<-|]; [lra|]. pose proof (HA (S x1) i ltac:(lia) ltac:(lia)). lra.
    + right. right. auto.
    + exfalso. destruct (Nat.eq_dec x1 (S i)) as [->|]; [lra|]. pose proof (HA (S i) x1 ltac:(lia) ltac:(lia)). lra.
Qed.

Theorem zscalar_bilinear arr ex ey x y i j v : ascending ex -> ascending ey ->
  (S i < List.length ex)%nat -> (S j < List.length ey)%nat ->
  rnth ex i <= x <= rnth ex (S i) -> rnth ey j <= y <= rnth ey (S j) ->
  zscalar arr ex ey x y = Ok v ->
  v = bilinear (rnth ex i) (rnth ex (S i)) (rnth ey j) (rnth ey (S j)) (arr j i) (arr j (S i)) (arr (S j) i) (arr (S j) (S i)) x y.
Proof.
  intros HAx HAy Hi Hj Hx Hy H. unfold zscalar in H.
  destruct (amax_gen Rops ex); [|discriminate]. destruct (amin_gen Rops ex); [|discriminate].
  destruct (amax_gen Rops ey); [|discriminate]. destruct (amin_gen Rops ey); [|discriminate].
  destruct (_ || _ || _ || _); [discriminate|].
  destruct (first_where (fun g => Rleb x g) ex) as [x2|] eqn:E1; cbn [bind] in H; [|discriminate].
  destruct (last_where (fun g => Rleb g x) ex) as [x1|] eqn:E2; cbn [bind] in H; [|discriminate].
  destruct (first_where (fun g => Rleb y g) ey) as [y2|] eqn:E3; cbn [bind] in H; [|discriminate].
  destruct (last_where (fun g => Rleb g y) ey) as [y1|] eqn:E4; cbn [bind] in H; [|discriminate].
  destruct (ascending_bracket ex x x2 x1 HAx E1 E2) as (LX1 & LX2 & BX).
  destruct (ascending_bracket ey y y2 y1 HAy E3 E4) as (LY1 & LY2 & BY).
  pose proof (HAx i (S i) ltac:(lia) Hi) as DX. pose proof (HAy j (S j) ltac:(lia) Hj) as DY.
  assert (CX := bracket_in_cell ex x i x1 x2 HAx Hi Hx LX1). assert (CY := bracket_in_cell ey y j y1 y2 HAy Hj Hy LY1).
  assert (BX' : (x1 = i /\ x2 = i /\ x = rnth ex i) \/ (x1 = S i /\ x2 = S i /\ x = rnth ex (S i)) \/ (x1 = i /\ x2 = S i /\ rnth ex i < x < rnth ex (S i))) by (apply CX; destruct BX as [?|[? ?]]; auto).
  assert (BY' : (y1 = j /\ y2 = j /\ y = rnth ey j) \/ (y1 = S j /\ y2 = S j /\ y = rnth ey (S j)) \/ (y1 = j /\ y2 = S j /\ rnth ey j < y < rnth ey (S j))) by (apply CY; destruct BY as [?|[? ?]]; auto).
  clear CX CY BX BY. unfold bilinear.
  assert (NX : rnth ex (S i) - rnth ex i <> 0) by lra. assert (NY : rnth ey (S j) - rnth ey j <> 0) by lra.
  set (a := rnth ex i) in *. set (b := rnth ex (S i)) in *. set (c := rnth ey j) in *. set (d := rnth ey (S j)) in *.
  assert (EQ1 : forall k, Nat.eqb k (S k) = false) by (intros k; apply Nat.eqb_neq; lia).
  destruct BX' as [(-> & -> & Ex)|[(-> & -> & Ex)|(-> & -> & Ex)]], BY' as [(-> & -> & Ey)|[(-> & -> & Ey)|(-> & -> & Ey)]];
    rewrite ?Nat.eqb_refl, ?EQ1 in H; injection H as <-; fold a b c d; try rewrite Ex; try rewrite Ey; field; auto.
Qed.

(** node values *)
Theorem zscalar_node arr ex ey i j : ascending ex -> ascending ey -> (i < List.length ex)%nat -> (j < List.length ey)%nat ->
  zscalar arr ex ey (rnth ex i) (rnth ey j) = Ok (arr j i).
Proof.
  intros HAx HAy Hi Hj.
  assert (W : forall l k, (k < List.length l)%nat -> within l (rnth l k)).
  { intros l k Hk. split; exists (rnth l k); (split; [apply nth_In, Hk|lra]). }
  destruct (zscalar_accepts arr ex ey (rnth ex i) (rnth ey j)) as [(v & H) _]; [split; apply W; assumption|].
  rewrite H. f_equal. revert H. unfold zscalar.
  destruct (amax_gen Rops ex); [|discriminate]. destruct (amin_gen Rops ex); [|discriminate].
  destruct (amax_gen Rops ey); [|discriminate]. destruct (amin_gen Rops ey); [|discriminate].
  destruct (_ || _ || _ || _); [discriminate|].
  assert (K : forall l k x2 x1, ascending l -> (k < List.length l)%nat -> first_where (fun g => Rleb (rnth l k) g) l = Ok x2 ->
     last_where (fun g => Rleb g (rnth l k)) l = Ok x1 -> x1 = k /\ x2 = k).
  { intros l k x2 x1 HA Hk E1 E2. apply first_where_ok in E1 as (L2 & P2 & M2). apply last_where_ok in E2 as (L1 & P1 & M1).
    cbn beta in *. apply Rleb_true in P1, P2. split.
    - destruct (Nat.lt_trichotomy x1 k) as [L|[L|L]]; [|exact L|].
      + pose proof (M1 k ltac:(lia)) as A. apply Rleb_false in A. lra.
      + pose proof (HA k x1 L L1). lra.
    - destruct (Nat.lt_trichotomy x2 k) as [L|[L|L]]; [|exact L|].
      + pose proof (HA x2 k L Hk). lra.
      + pose proof (M2 k ltac:(lia)) as A. apply Rleb_false in A. lra. }
  destruct (first_where (fun g => Rleb (rnth ex i) g) ex) as [x2|] eqn:E1; cbn [bind]; [|discriminate].
  destruct (last_where (fun g => Rleb g (rnth ex i)) ex) as [x1|] eqn:E2; cbn [bind]; [|discriminate].
  destruct (first_where (fun g => Rleb (rnth ey j) g) ey) as [y2|] eqn:E3; cbn [bind]; [|discriminate].
  destruct (last_where (fun g => Rleb g (rnth ey j)) ey) as [y1|] eqn:E4; cbn [bind]; [|discriminate].
  destruct (K ex i x2 x1 HAx Hi E1 E2) as [-> ->], (K ey j y2 y1 HAy Hj E3 E4) as [-> ->].
  rewrite !Nat.eqb_refl. intros [= <-]. reflexivity.
Qed.

(** a containing rectangle exists inside a grid with at least two nodes per axis *)
Lemma ascending_cell l x : ascending l -> (2 <= List.length l)%nat -> within l x ->
  exists i, (S i < List.length l)%nat /\ rnth l i <= x <= rnth l (S i).
Proof.
  intros HA HL HW. destruct (within_where l x HW) as (x2 & x1 & E1 & E2).
  destruct (ascending_bracket l x x2 x1 HA E1 E2) as (L1 & L2 & [[-> <-]|[-> Hx]]).
  - destruct (Nat.eq_dec (S x2) (List.length l)) as [Hlast|].
    + destruct x2 as [|k]; [lia|]. exists k. split; [lia|]. pose proof (HA k (S k) ltac:(lia) L2). lra.
    + exists x2. split; [lia|]. pose proof (HA x2 (S x2) ltac:(lia) ltac:(lia)). lra.
  - exists x1. split; [lia|]. lra.
Qed.

Theorem zscalar_reproduces arr ex ey x y a b c d v : ascending ex -> ascending ey ->
  (2 <= List.length ex)%nat -> (2 <= List.length ey)%nat ->
  (forall i j, (i < List.length ex)%nat -> (j < List.length ey)%nat ->
     arr j i = a + b * rnth ex i + c * rnth ey j + d * rnth ex i * rnth ey j) ->
  zscalar arr ex ey x y = Ok v -> v = a + b * x + c * y + d * x * y.
Proof.
  intros HAx HAy Lx Ly HF H.
  assert (HW : within ex x /\ within ey y).
  { destruct (Classical_Prop.classic (within ex x /\ within ey y)) as [W|W]; [exact W|].
    rewrite (proj2 (zscalar_accepts arr ex ey x y) W) in H. discriminate. }
  destruct (ascending_cell ex x HAx Lx (proj1 HW)) as (i & Hi & Hx), (ascending_cell ey y HAy Ly (proj2 HW)) as (j & Hj & Hy).
  rewrite (zscalar_bilinear arr ex ey x y i j v HAx HAy Hi Hj Hx Hy H). unfold bilinear. rewrite !HF by lia.
  pose proof (HAx i (S i) ltac:(lia) Hi). pose proof (HAy j (S j) ltac:(lia) Hj). field. split; lra.
Qed.

Theorem bilinear_between x1 x2 y1 y2 z11 z12 z21 z22 x y lo hi : x1 < x2 -> y1 < y2 -> x1 <= x <= x2 -> y1 <= y <= y2 ->
  lo <= z11 <= hi -> lo <= z12 <= hi -> lo <= z21 <= hi -> lo <= z22 <= hi ->
  lo <= bilinear x1 x2 y1 y2 z11 z12 z21 z22 x y <= hi.
Proof.
  intros H1 H2 Hx Hy A B C D. unfold bilinear. pose proof (div_between x1 x2 x H1 Hx) as T. pose proof (div_between y1 y2 y H2 Hy) as U.
  set (t := (x - x1) / (x2 - x1)) in *. set (u := (y - y1) / (y2 - y1)) in *. clearbody t u.
  assert (K : forall p q t, 0 <= t <= 1 -> lo <= p <= hi -> lo <= q <= hi -> lo <= (1 - t) * p + t * q <= hi).
  { intros p q s Hs Hp Hq. split; nra. }
  apply K; [exact U|apply K|apply K]; assumption.
Qed.
