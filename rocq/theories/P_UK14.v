(** Universal kriging: systems related by an affine change of the drift functions. *)
From Coq Require Import String Permutation.
From Verif Require Import Base Sums Matrix M_Variogram M_Geometry S_Geometry M_Kriging S_Kriging M_Init M_Object
  M_Execute S_Execute P_Object P_Execute P_Cells P_Master P_Det P_OK P_Similar P_Data P_Exec2 P_Data2 M_UK S_UK S_UK2 P_UK P_UK2 P_UK3 P_UK4 P_UK5
  P_UK7 P_UK11 P_UK13.

Definition left_inverse (m : nat) (L T : mat) : Prop :=
  forall c b, (c < m)%nat -> (b < m)%nat -> bsum m (fun a => L c a * T a b) = if Nat.eqb b c then 1 else 0.

Lemma left_inverse_injective m L T : left_inverse m L T -> injective_on m T.
Proof.
  intros H x Hx c Hc.
  assert (E : bsum m (fun a => L c a * bsum m (fun b => T a b * x b)) = x c).
  { rewrite (bsum_ext m _ (fun a => bsum m (fun b => L c a * T a b * x b))).
    2:{ intros a Ha. rewrite <- bsum_scal. apply bsum_ext; intros; ring. }
    rewrite bsum_swap. rewrite (bsum_ext m _ (fun b => (if Nat.eqb b c then 1 else 0) * x b)).
    2:{ intros b Hb. rewrite bsum_scal_r, H by assumption. reflexivity. }
    apply (bsum_delta m c x Hc). }
  rewrite <- E. apply bsum_0. intros a Ha. rewrite Hx by exact Ha. ring.
Qed.

(** terms [ts'] at the moved data and cell are an invertible affine function of [ts] *)
Definition affine_rel (n : nat) (sg : nat -> nat) (p p' : nat) (pos pos' : vec3) (ts ts' : list term) : Prop :=
  let m := List.length ts in
  List.length ts' = m /\ exists L T t, left_inverse m L T /\
    (forall a i, (a < m)%nat -> (i < n)%nat -> F_of ts' a i = bsum m (fun b => T a b * F_of ts b (sg i)) + t a) /\
    (forall a, (a < m)%nat -> f_of ts' p' pos' a = bsum m (fun b => T a b * f_of ts p pos b) + t a).

Definition block (m : nat) (T T' : mat) : mat := fun a b =>
  if Nat.ltb a m then (if Nat.ltb b m then T a b else 0) else if Nat.ltb b m then 0 else T' (a - m)%nat (b - m)%nat.

Lemma block_row1 (m m' : nat) (T T' : mat) (a : nat) (x : vec) : (a < m)%nat -> bsum (m + m')%nat (fun b => block m T T' a b * x b) = bsum m (fun b => T a b * x b).
Proof.
  intros Ha. rewrite bsum_split, (bsum_0 m'), Rplus_0_r.
  - apply bsum_ext; intros b Hb. unfold block. rewrite (proj2 (Nat.ltb_lt a m) Ha), (proj2 (Nat.ltb_lt b m) Hb). reflexivity.
  - intros b Hb. unfold block. rewrite (proj2 (Nat.ltb_lt a m) Ha), (proj2 (Nat.ltb_ge (m + b) m)) by lia. ring.
Qed.
Lemma block_row2 (m m' : nat) (T T' : mat) (a : nat) (x : vec) : bsum (m + m')%nat (fun b => block m T T' (m + a)%nat b * x b) = bsum m' (fun b => T' a b * x (m + b)%nat).
Proof.
  rewrite bsum_split, (bsum_0 m), Rplus_0_l.
  - apply bsum_ext; intros b Hb. unfold block. rewrite !(proj2 (Nat.ltb_ge _ m)) by lia. replace (m + a - m)%nat with a by lia. replace (m + b - m)%nat with b by lia. reflexivity.
  - intros b Hb. unfold block. rewrite (proj2 (Nat.ltb_ge (m + a) m)) by lia. rewrite (proj2 (Nat.ltb_lt b m) Hb). ring.
Qed.

Lemma affine_rel_app n sg p p' pos pos' ts1 ts1' ts2 ts2' :
  affine_rel n sg p p' pos pos' ts1 ts1' -> affine_rel n sg p p' pos pos' ts2 ts2' -> affine_rel n sg p p' pos pos' (ts1 ++ ts2) (ts1' ++ ts2').
Proof.
  intros (L1 & Li1 & T1 & t1 & I1 & HF1 & Hf1) (L2 & Li2 & T2 & t2 & I2 & HF2 & Hf2).
  cbv zeta in L1, L2. set (m1 := List.length ts1) in *. set (m2 := List.length ts2) in *.
  split; [cbv zeta; rewrite !app_length; fold m1 m2; lia|]. exists (block m1 Li1 Li2), (block m1 T1 T2), (fun a => if Nat.ltb a m1 then t1 a else t2 (a - m1)%nat).
  rewrite app_length. fold m1 m2.
  assert (HN1 : forall (A : Type) (l1 l2 : list A) d b, (b < List.length l1)%nat -> nth b (l1 ++ l2) d = nth b l1 d) by (intros; apply app_nth1; assumption).
  assert (HN2 : forall (A : Type) (l1 l2 : list A) d b, nth (List.length l1 + b) (l1 ++ l2) d = nth b l2 d).
  { intros. rewrite app_nth2 by lia. f_equal. lia. }
  split; [|split].
  - intros c b Hc Hb. destruct (Nat.lt_ge_cases c m1) as [Lc|Lc].
    + rewrite (block_row1 m1 m2 Li1 Li2 c (fun a => block m1 T1 T2 a b) Lc). destruct (Nat.lt_ge_cases b m1) as [Lb|Lb].
      * rewrite <- (I1 c b Lc Lb). apply bsum_ext; intros a Ha. unfold block. rewrite (proj2 (Nat.ltb_lt a m1) Ha), (proj2 (Nat.ltb_lt b m1) Lb). reflexivity.
      * rewrite bsum_0; [destruct (Nat.eqb_spec b c); [lia|reflexivity]|]. intros a Ha. unfold block.
        rewrite (proj2 (Nat.ltb_lt a m1) Ha), (proj2 (Nat.ltb_ge b m1) Lb). ring.
    + replace c with (m1 + (c - m1))%nat by lia. rewrite (block_row2 m1 m2 Li1 Li2 (c - m1) (fun a => block m1 T1 T2 a b)).
      destruct (Nat.lt_ge_cases b m1) as [Lb|Lb].
      * rewrite bsum_0; [destruct (Nat.eqb_spec b (m1 + (c - m1))); [lia|reflexivity]|]. intros a Ha. unfold block.
        rewrite (proj2 (Nat.ltb_ge (m1 + a) m1)) by lia. rewrite (proj2 (Nat.ltb_lt b m1) Lb). ring.
      * replace (Nat.eqb b (m1 + (c - m1))) with (Nat.eqb (b - m1) (c - m1)).
        2:{ destruct (Nat.eqb_spec (b - m1) (c - m1)), (Nat.eqb_spec b (m1 + (c - m1))); try reflexivity; lia. }
        rewrite <- (I2 (c - m1)%nat (b - m1)%nat) by lia. apply bsum_ext; intros a Ha. unfold block.
        rewrite !(proj2 (Nat.ltb_ge _ m1)) by lia. replace (m1 + a - m1)%nat with a by lia. reflexivity.
  - intros a i Ha Hi. destruct (Nat.lt_ge_cases a m1) as [La|La].
    + rewrite (proj2 (Nat.ltb_lt a m1) La), block_row1 by exact La. unfold F_of at 1. rewrite HN1 by lia. fold (F_of ts1' a i). rewrite HF1 by assumption.
      f_equal. apply bsum_ext; intros b Hb. unfold F_of. rewrite HN1 by exact Hb. reflexivity.
    + replace a with (m1 + (a - m1))%nat by lia. set (a' := (a - m1)%nat). rewrite (proj2 (Nat.ltb_ge (m1 + a') m1)) by lia. rewrite block_row2.
      replace (m1 + a' - m1)%nat with a' by lia. unfold F_of at 1. rewrite <- L1, HN2. fold (F_of ts2' a' i). rewrite HF2 by (unfold a'; lia).
      f_equal. apply bsum_ext; intros b Hb. unfold F_of. rewrite L1. unfold m1. rewrite HN2. reflexivity.
  - intros a Ha. destruct (Nat.lt_ge_cases a m1) as [La|La].
    + rewrite (proj2 (Nat.ltb_lt a m1) La), block_row1 by exact La. unfold f_of at 1. rewrite HN1 by lia. fold (f_of ts1' p' pos' a). rewrite Hf1 by assumption.
      f_equal. apply bsum_ext; intros b Hb. unfold f_of. rewrite HN1 by exact Hb. reflexivity.
    + replace a with (m1 + (a - m1))%nat by lia. set (a' := (a - m1)%nat). rewrite (proj2 (Nat.ltb_ge (m1 + a') m1)) by lia. rewrite block_row2.
      replace (m1 + a' - m1)%nat with a' by lia. unfold f_of at 1. rewrite <- L1, HN2. fold (f_of ts2' p' pos' a'). rewrite Hf2 by (unfold a'; lia).
      f_equal. apply bsum_ext; intros b Hb. unfold f_of. rewrite L1. unfold m1. rewrite HN2. reflexivity.
Qed.

(** each term shifted by a constant *)
Definition shift_rel (n : nat) (sg : nat -> nat) (p p' : nat) (pos pos' : vec3) (t t' : term) : Prop :=
  exists d, (forall i, (i < n)%nat -> t_data t' i = t_data t (sg i) + d) /\ t_query t' p' pos' = t_query t p pos + d.

Lemma affine_rel_nil n sg p p' pos pos' : affine_rel n sg p p' pos pos' [] [].
Proof.
  split; [reflexivity|]. exists (fun _ _ => 0), (fun _ _ => 0), (fun _ => 0).
  split; [intros c b Hc; cbn in Hc; lia|]. split; [intros a i Ha; cbn in Ha; lia|intros a Ha; cbn in Ha; lia].
Qed.
Lemma affine_rel_one n sg p p' pos pos' t t' : shift_rel n sg p p' pos pos' t t' -> affine_rel n sg p p' pos pos' [t] [t'].
Proof.
  intros (d & H1 & H2). split; [reflexivity|]. exists (fun _ _ => 1), (fun _ _ => 1), (fun _ => d).
  cbn [List.length bsum]. split; [|split].
  - intros [|c] [|b] Hc Hb; try lia. cbn. ring.
  - intros [|a] i Ha Hi; [|lia]. unfold F_of. cbn [nth]. rewrite H1 by exact Hi. ring.
  - intros [|a] Ha; [|lia]. unfold f_of. cbn [nth]. rewrite H2. ring.
Qed.
Lemma affine_rel_shift n sg p p' pos pos' ts ts' : Forall2 (shift_rel n sg p p' pos pos') ts ts' -> affine_rel n sg p p' pos pos' ts ts'.
Proof.
  induction 1 as [|t t' ts ts' H HF IH]; [apply affine_rel_nil|].
  apply (affine_rel_app n sg p p' pos pos' [t] [t'] ts ts'); [apply affine_rel_one, H|exact IH].
Qed.

(** solvability carries over *)
Lemma UK_transport n m G F g f w mu nu G' F' g' f' (sg : nat -> nat) (k : R) (L T : mat) (t : vec) :
  UK_system n m G F g f w mu nu -> perm_on n sg -> left_inverse m L T ->
  (forall i j, (i < n)%nat -> (j < n)%nat -> G' i j = k * G (sg i) (sg j)) ->
  (forall i, (i < n)%nat -> g' i = k * g (sg i)) ->
  (forall a i, (a < m)%nat -> (i < n)%nat -> F' a i = bsum m (fun b => T a b * F b (sg i)) + t a) ->
  (forall a, (a < m)%nat -> f' a = bsum m (fun b => T a b * f b) + t a) ->
  exists w' mu' nu', UK_system n m G' F' g' f' w' mu' nu'.
Proof.
  intros (A1 & A2 & A3) Hp HL HG Hg HF Hf.
  set (nu' := fun a => k * bsum m (fun c => nu c * L c a)).
  assert (HN : forall b, (b < m)%nat -> bsum m (fun a => nu' a * T a b) = k * nu b).
  { intros b Hb. rewrite (bsum_ext m _ (fun a => k * bsum m (fun c => nu c * (L c a * T a b)))).
    2:{ intros a Ha. unfold nu'. rewrite Rmult_assoc, <- bsum_scal_r. f_equal. apply bsum_ext; intros; ring. }
    rewrite bsum_scal, bsum_swap. f_equal. rewrite (bsum_ext m _ (fun c => (if Nat.eqb c b then 1 else 0) * nu c)).
    2:{ intros c Hc. rewrite bsum_scal, HL by assumption. rewrite Nat.eqb_sym. ring. }
    apply (bsum_delta m b nu Hb). }
  exists (fun j => w (sg j)), (k * mu - bsum m (fun a => nu' a * t a)), nu'. split; [|split].
  - intros i Hi. assert (Hi' : (sg i < n)%nat) by (apply Hp, Hi). pose proof (A1 (sg i) Hi') as Q.
    rewrite (bsum_ext n _ (fun j => k * (w (sg j) * G (sg i) (sg j)))) by (intros j Hj; rewrite HG by assumption; ring).
    rewrite bsum_scal, (bsum_perm n sg (fun j => w j * G (sg i) j) Hp), Hg, <- Q by exact Hi.
    rewrite (bsum_ext m (fun a => nu' a * F' a i) (fun a => bsum m (fun b => nu' a * T a b * F b (sg i)) + nu' a * t a)).
    2:{ intros a Ha. rewrite HF by assumption. rewrite Rmult_plus_distr_l, <- bsum_scal. f_equal. apply bsum_ext; intros; ring. }
    rewrite bsum_plus, bsum_swap. rewrite (bsum_ext m (fun j => bsum m _) (fun b => k * (nu b * F b (sg i)))).
    2:{ intros b Hb. rewrite bsum_scal_r, HN by exact Hb. ring. }
    rewrite bsum_scal. ring.
  - rewrite (bsum_perm n sg w Hp). exact A2.
  - intros a Ha. rewrite Hf by exact Ha.
    rewrite (bsum_ext n _ (fun j => bsum m (fun b => T a b * (w (sg j) * F b (sg j))) + w (sg j) * t a)).
    2:{ intros j Hj. rewrite HF by assumption. rewrite Rmult_plus_distr_l, <- bsum_scal. f_equal. apply bsum_ext; intros; ring. }
    rewrite bsum_plus, bsum_scal_r, (bsum_perm n sg w Hp), A2, bsum_swap, Rmult_1_l. f_equal.
    apply bsum_ext; intros b Hb. rewrite bsum_scal, (bsum_perm n sg (fun j => w j * F b j) Hp), A3 by exact Hb. reflexivity.
Qed.

(** the general comparison of two cells *)
Lemma ucompare E E' u u' sg q q' specs specs' r r' p p' pos pos' (k al be : R) (cs : vec) :
  urun E u q specs r -> urun E' u' q' specs' r' -> faithful_specs u q -> faithful_specs u' q' ->
  shown (u_obj u) q p pos -> shown (u_obj u') q' p' pos' -> uregular u q specs ->
  let n := o_n (u_obj u) in let ts := drift_terms u q specs in let ts' := drift_terms u' q' specs' in let m := List.length ts in
  o_n (u_obj u') = n -> perm_on n sg -> k <> 0 ->
  (forall i j, (i < n)%nat -> (j < n)%nat -> G_of (u_obj u') i j = k * G_of (u_obj u) (sg i) (sg j)) ->
  (forall i, (i < n)%nat -> g_of (u_obj u') pos' i = k * g_of (u_obj u) pos (sg i)) ->
  affine_rel n sg p p' pos pos' ts ts' ->
  (forall i, (i < n)%nat -> o_values (u_obj u') i = al * o_values (u_obj u) (sg i) + be + bsum m (fun b => cs b * F_of ts b (sg i))) ->
  exists v s, r_value r p = Some v /\ r_variance r p = Some s /\
    r_value r' p' = Some (al * v + be + bsum m (fun b => cs b * f_of ts p pos b)) /\ r_variance r' p' = Some (k * s).
Proof.
  intros HR HR' HF HF' HS HS' Hreg n ts ts' m Hn Hp Hk HG Hg (HL & Li & T & t & HLi & HFF & Hff) Hz. fold m in HL, HLi, HFF, Hff.
  pose proof (uregular_get E u q specs r HR Hreg) as HU. fold n ts m in HU.
  destruct (uk_cells E u q specs r p pos HR HS (uregular_well_posed u q specs p pos Hreg) HF) as (v & s & Hv & Hs & HE). fold n ts m in HE.
  assert (HW : uwell_posed u' q' specs' p' pos').
  { right. destruct HE as (w & mu & nu & HSy & _). unfold usolvable. rewrite Hn. fold ts'. rewrite HL.
    apply (UK_transport n m _ _ _ _ w mu nu _ _ _ _ sg k Li T t HSy Hp HLi HG Hg HFF Hff). }
  destruct (uk_cells E' u' q' specs' r' p' pos' HR' HS' HW HF') as (v' & s' & Hv' & Hs' & HE'). rewrite Hn in HE'. fold ts' in HE'. rewrite HL in HE'.
  destruct (UK_compare n m _ _ _ _ _ v s _ _ _ _ _ v' s' sg k al be T t cs HU HE HE' Hp Hk (left_inverse_injective m Li T HLi) HG Hg HFF Hff Hz) as [-> ->].
  exists v, s. auto.
Qed.
