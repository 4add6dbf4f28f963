(** Two universal kriging systems whose data, semivariances and drift functions
    correspond: comparison of the estimates (for C14, C17, C18, C52, C66). *)
From Coq Require Import String.
From Verif Require Import Base Sums Matrix M_Variogram M_Geometry S_Geometry M_Kriging S_Kriging M_Init M_Object
  M_Execute S_Execute P_Object P_Execute P_Cells P_Master P_Det M_UK S_UK S_UK2 P_UK P_UK2 P_UK3 P_UK4 P_UK5.

Definition injective_on (m : nat) (T : mat) : Prop :=
  forall x : vec, (forall a, (a < m)%nat -> bsum m (fun b => T a b * x b) = 0) -> forall b, (b < m)%nat -> x b = 0.

Lemma perm_inverse n s : perm_on n s -> exists si, perm_on n si /\ (forall i, (i < n)%nat -> s (si i) = i) /\ (forall i, (i < n)%nat -> si (s i) = i).
Proof.
  intros H. pose proof (perm_on_surj n s H) as HS.
  assert (HX : forall N, (N <= n)%nat -> exists si : nat -> nat, forall i, (i < N)%nat -> (si i < n)%nat /\ s (si i) = i).
  { induction N as [|N IH]; intros HN; [exists (fun i => i); intros; lia|].
    destruct (IH ltac:(lia)) as [si Hsi]. destruct (HS N ltac:(lia)) as (j & Hj & Ej).
    exists (fun i => if Nat.eqb i N then j else si i). intros i Hi. destruct (Nat.eqb_spec i N) as [->|Hne]; [auto|]. apply Hsi. lia. }
  destruct (HX n (Nat.le_refl n)) as [si Hsi]. exists si. split; [split|split].
  - intros i Hi. apply Hsi, Hi.
  - intros i j Hi Hj He. rewrite <- (proj2 (Hsi i Hi)), <- (proj2 (Hsi j Hj)), He. reflexivity.
  - intros i Hi. apply Hsi, Hi.
  - intros i Hi. destruct H as [Hb Hinj]. apply Hinj; [apply Hsi, Hb, Hi|exact Hi|]. apply Hsi, Hb, Hi.
Qed.

Lemma UK_compare n m G F g f z v s G' F' g' f' z' v' s' (sg : nat -> nat) (k al be : R) (T : mat) (t cs : vec) :
  UK_regular n m G F -> UK_estimate n m G F g f z v s -> UK_estimate n m G' F' g' f' z' v' s' ->
  perm_on n sg -> k <> 0 -> injective_on m T ->
  (forall i j, (i < n)%nat -> (j < n)%nat -> G' i j = k * G (sg i) (sg j)) ->
  (forall i, (i < n)%nat -> g' i = k * g (sg i)) ->
  (forall a i, (a < m)%nat -> (i < n)%nat -> F' a i = bsum m (fun b => T a b * F b (sg i)) + t a) ->
  (forall a, (a < m)%nat -> f' a = bsum m (fun b => T a b * f b) + t a) ->
  (forall i, (i < n)%nat -> z' i = al * z (sg i) + be + bsum m (fun b => cs b * F b (sg i))) ->
  v' = al * v + be + bsum m (fun b => cs b * f b) /\ s' = k * s.
Proof.
  intros HR HE HE' Hp Hk HT HG Hg HF Hf Hz.
  destruct HE' as (w' & mu' & nu' & (A1 & A2 & A3) & Ev & Es).
  destruct (perm_inverse n sg Hp) as (si & Hsi & S1 & S2).
  set (w := fun j => w' (si j)).
  set (nu := fun b => / k * bsum m (fun a => nu' a * T a b)).
  set (mu := / k * (mu' + bsum m (fun a => nu' a * t a))).
  assert (HW : forall h : nat -> R, bsum n (fun j => w j * h j) = bsum n (fun j => w' j * h (sg j))).
  { intros h. rewrite <- (bsum_perm n sg (fun j => w j * h j) Hp). apply bsum_ext; intros j Hj. unfold w. rewrite S2 by exact Hj. reflexivity. }
  assert (W1 : bsum n w = 1).
  { rewrite <- A2, <- (bsum_perm n sg w Hp). apply bsum_ext; intros j Hj. unfold w. rewrite S2 by exact Hj. reflexivity. }
  assert (HFW : forall b, (b < m)%nat -> bsum n (fun j => w j * F b j) = f b).
  { intros b Hb. apply Rminus_diag_uniq. pattern b.
    refine (HT (fun b => bsum n (fun j => w j * F b j) - f b) _ b Hb). intros a Ha.
    pose proof (A3 a Ha) as Q. rewrite Hf in Q by exact Ha.
    rewrite (bsum_ext n _ (fun j => bsum m (fun b => T a b * (w' j * F b (sg j))) + w' j * t a)) in Q.
    2:{ intros j Hj. rewrite HF by assumption. rewrite Rmult_plus_distr_l, <- bsum_scal. f_equal. apply bsum_ext; intros; ring. }
    rewrite bsum_plus, bsum_scal_r, A2, bsum_swap in Q.
    rewrite (bsum_ext m _ (fun b => T a b * bsum n (fun j => w' j * F b (sg j)) - T a b * f b)) by (intros b' Hb'; rewrite HW; ring).
    rewrite bsum_minus. rewrite (bsum_ext m (fun i => bsum n (fun j => T a i * (w' j * F i (sg j)))) (fun i => T a i * bsum n (fun j => w' j * F i (sg j)))) in Q by (intros; apply bsum_scal).
    lra. }
  assert (HSys : UK_system n m G F g f w mu nu).
  { split; [|split; [exact W1|exact HFW]]. intros i Hi.
    assert (Hi' : (si i < n)%nat) by (apply Hsi, Hi).
    pose proof (A1 (si i) Hi') as Q. rewrite Hg, S1 in Q by assumption.
    rewrite (bsum_ext n _ (fun j => k * (w' j * G i (sg j)))) in Q by (intros j Hj; rewrite HG, S1 by assumption; ring).
    rewrite bsum_scal in Q. rewrite HW.
    rewrite (bsum_ext m (fun a => nu' a * F' a (si i)) (fun a => bsum m (fun b => nu' a * T a b * F b i) + nu' a * t a)) in Q.
    2:{ intros a Ha. rewrite HF, S1 by assumption. rewrite Rmult_plus_distr_l, <- bsum_scal. f_equal. apply bsum_ext; intros; ring. }
    rewrite bsum_plus, bsum_swap in Q.
    rewrite (bsum_ext m (fun b => nu b * F b i) (fun b => / k * bsum m (fun a => nu' a * T a b * F b i))) by (intros b Hb; unfold nu; rewrite bsum_scal_r; ring).
    rewrite bsum_scal. unfold mu. apply (Rmult_eq_reg_l k); [|exact Hk].
    rewrite <- Q. field. exact Hk. }
  assert (HE2 : UK_estimate n m G F g f z (bsum n (fun i => w i * z i)) (bsum n (fun i => w i * g i) + bsum m (fun b => nu b * f b) + mu))
    by (exists w, mu, nu; auto).
  destruct (UK_estimate_unique n m G F g f z _ _ _ _ HR HE HE2) as [Vv Vs]. split.
  - rewrite Ev, Vv. rewrite (bsum_ext n _ (fun j => al * (w' j * z (sg j)) + w' j * be + bsum m (fun b => cs b * (w' j * F b (sg j))))).
    2:{ intros j Hj. rewrite Hz by exact Hj. rewrite !Rmult_plus_distr_l, <- bsum_scal. f_equal; [ring|]. apply bsum_ext; intros; ring. }
    rewrite !bsum_plus, bsum_scal, bsum_scal_r, A2, bsum_swap, HW.
    rewrite (bsum_ext m _ (fun b => cs b * f b)). { ring. }
    intros b Hb. rewrite bsum_scal, <- HFW by exact Hb. f_equal. rewrite HW. reflexivity.
  - rewrite Es, Vs. rewrite (bsum_ext n _ (fun j => k * (w' j * g (sg j)))) by (intros j Hj; rewrite Hg by exact Hj; ring).
    rewrite bsum_scal, HW.
    rewrite (bsum_ext m (fun a => nu' a * f' a) (fun a => bsum m (fun b => nu' a * T a b * f b) + nu' a * t a)).
    2:{ intros a Ha. rewrite Hf by assumption. rewrite Rmult_plus_distr_l, <- bsum_scal. f_equal. apply bsum_ext; intros; ring. }
    rewrite bsum_plus, bsum_swap.
    rewrite (bsum_ext m (fun b => nu b * f b) (fun b => / k * bsum m (fun a => nu' a * T a b * f b))) by (intros b Hb; unfold nu; rewrite bsum_scal_r; ring).
    rewrite bsum_scal. unfold mu. field. exact Hk.
Qed.

Lemma identity_injective m : injective_on m (fun a b => if Nat.eqb b a then 1 else 0).
Proof. intros x H b Hb. rewrite <- (H b Hb). rewrite (bsum_delta m b x Hb). reflexivity. Qed.

(** The weights used at a cell, also when the pseudo-inverse is of a singular matrix. *)
Lemma ucell_pinv E u q specs r p pos : urun E u q specs r -> shown (u_obj u) q p pos -> faithful_specs u q ->
  let ts := drift_terms u q specs in let n := o_n (u_obj u) in let m := List.length ts in
  exists P, is_pinv (n + m + 1) (UA n m (G_of (u_obj u)) (F_of ts)) P /\
    let b := Ub n m (g_of (u_obj u) pos) (f_of ts p pos) in let x := mulv (n + m + 1) P b in
    r_value r p = Some (bsum n (fun i => x i * o_values (u_obj u) i)) /\
    r_variance r p = Some (bsum (n + m + 1) (fun i => x i * - b i)) /\
    (uwell_posed u q specs p pos -> UK_system n m (G_of (u_obj u)) (F_of ts) (g_of (u_obj u) pos) (f_of ts p pos)
       x (- x (n + m)%nat) (fun k => - x (n + k)%nat)).
Proof.
  intros (HE & HR & w & HX) [C NH] HF ts n m. destruct HE as [HL _]. pose proof (ureachable_inv E u HR) as HI.
  destruct (execute_uk_call E u q specs r w HI HX) as (_ & l & gs & a_inv & HC).
  destruct (uc_cell _ _ _ _ _ _ _ _ HC p pos C NH) as (_ & Hv & Hs).
  pose proof (call_specs_fit _ _ _ _ (uc_specs _ _ _ _ _ _ _ _ HC)) as HSf.
  pose proof (urhs_spec u q specs gs p pos HSf HF) as HB. cbv zeta in HB. fold ts n m in HB.
  destruct (upoint_ext (o_n (u_obj u)) _ a_inv _ _ (o_values (u_obj u)) HB) as [E1 E2]. rewrite E1 in Hv. rewrite E2 in Hs.
  pose proof (UM_spec u q specs HI HSf) as HM. cbv zeta in HM. fold ts in HM.
  pose proof (uc_inv _ _ _ _ _ _ _ _ HC) as HInv.
  assert (Hsz : uk_size u = (n + m + 1)%nat) by (unfold uk_size, m, ts; rewrite (mu_count_terms u q specs HSf); reflexivity).
  rewrite Hsz in *. exists a_inv. split; [|split; [exact Hv|split; [exact Hs|]]].
  - apply (is_pinv_ext _ _ _ _ HM (invert_is_pinv _ _ _ _ _ _ HL HInv)).
  - intros HW. pose proof (usolves E u q specs r l gs a_inv p pos HL HI HC HW) as HSol. cbv zeta in HSol. fold ts n m in HSol.
    destruct (upoint_estimate _ _ _ _ _ _ (o_values (u_obj u)) a_inv HSol) as (S1 & _). exact S1.
Qed.

Lemma UA_perm n m G F G' F' sg : perm_on n sg ->
  (forall i j, (i < n)%nat -> (j < n)%nat -> G' i j = G (sg i) (sg j)) ->
  (forall a i, (a < m)%nat -> (i < n)%nat -> F' a i = F a (sg i)) ->
  meq (n + m + 1) (permm (perm_ext n sg) (UA n m G F)) (UA n m G' F').
Proof.
  intros Hp HG HF i j Hi Hj. unfold permm, UA, perm_ext.
  destruct (Nat.ltb_spec i n) as [Li|Li]; destruct (Nat.ltb_spec j n) as [Lj|Lj];
    try (pose proof (proj1 Hp _ Li)); try (pose proof (proj1 Hp _ Lj));
    repeat match goal with |- context [Nat.ltb ?x n] => destruct (Nat.ltb_spec x n); try lia end.
  - rewrite HG by assumption. reflexivity.
  - destruct (Nat.ltb_spec j (n + m)); [|reflexivity]. rewrite HF by lia. reflexivity.
  - destruct (Nat.ltb_spec i (n + m)); [|reflexivity]. rewrite HF by lia. reflexivity.
  - reflexivity.
Qed.

(** Corresponding systems: same weights. *)
Lemma ucell_similar E E' u u' sg q q' specs specs' r r' p p' pos pos' :
  urun E u q specs r -> urun E' u' q' specs' r' -> faithful_specs u q -> faithful_specs u' q' ->
  shown (u_obj u) q p pos -> shown (u_obj u') q' p' pos' ->
  let n := o_n (u_obj u) in let ts := drift_terms u q specs in let ts' := drift_terms u' q' specs' in let m := List.length ts in
  o_n (u_obj u') = n -> List.length ts' = m -> perm_on n sg ->
  (forall i j, (i < n)%nat -> (j < n)%nat -> G_of (u_obj u') i j = G_of (u_obj u) (sg i) (sg j)) ->
  (forall i, (i < n)%nat -> g_of (u_obj u') pos' i = g_of (u_obj u) pos (sg i)) ->
  (forall a i, (a < m)%nat -> (i < n)%nat -> F_of ts' a i = F_of ts a (sg i)) ->
  (forall a, (a < m)%nat -> f_of ts' p' pos' a = f_of ts p pos a) ->
  exists x s, r_value r p = Some (bsum n (fun i => x i * o_values (u_obj u) i)) /\ r_variance r p = Some s /\
    r_value r' p' = Some (bsum n (fun i => x (sg i) * o_values (u_obj u') i)) /\ r_variance r' p' = Some s /\
    (uwell_posed u q specs p pos -> exists mu nu, UK_system n m (G_of (u_obj u)) (F_of ts) (g_of (u_obj u) pos) (f_of ts p pos) x mu nu).
Proof.
  intros HR HR' HF HF' HS HS' n ts ts' m Hn Hm Hp HG Hg HFF Hff.
  destruct (ucell_pinv E u q specs r p pos HR HS HF) as (P & HP & Hv & Hs & Hsys).
  destruct (ucell_pinv E' u' q' specs' r' p' pos' HR' HS' HF') as (P' & HP' & Hv' & Hs' & _).
  fold ts n m in HP, Hv, Hs, Hsys. fold ts' in HP', Hv', Hs'. rewrite Hn, Hm in *.
  set (b := Ub n m (g_of (u_obj u) pos) (f_of ts p pos)) in *.
  set (b' := Ub n m (g_of (u_obj u') pos') (f_of ts' p' pos')) in *.
  set (t := perm_ext n sg).
  assert (Ht : perm_on (n + m + 1) t) by (apply perm_ext_perm; [exact Hp|lia]).
  assert (HPP : meq (n + m + 1) P' (permm t P)).
  { apply (pinv_unique _ (UA n m (G_of (u_obj u')) (F_of ts'))); [exact HP'|].
    apply (is_pinv_ext _ (permm t (UA n m (G_of (u_obj u)) (F_of ts)))); [apply UA_perm; assumption|]. apply is_pinv_perm; assumption. }
  assert (Hb : forall i, (i < n + m + 1)%nat -> b' i = b (t i)).
  { intros i Hi. unfold b', b, Ub, t, perm_ext. destruct (Nat.ltb_spec i n) as [Li|Li].
    - pose proof (proj1 Hp i Li). rewrite (proj2 (Nat.ltb_lt (sg i) n)) by lia. rewrite Hg by exact Li. reflexivity.
    - rewrite (proj2 (Nat.ltb_ge i n)) by exact Li. destruct (Nat.ltb_spec i (n + m)); [|reflexivity]. apply Hff. lia. }
  assert (Hx : forall i, (i < n + m + 1)%nat -> mulv (n + m + 1) P' b' i = mulv (n + m + 1) P b (t i)).
  { intros i Hi. unfold mulv. rewrite <- (bsum_perm (n + m + 1) t (fun j => P (t i) j * b j) Ht).
    apply bsum_ext; intros j Hj. rewrite HPP, Hb by assumption. reflexivity. }
  exists (mulv (n + m + 1) P b). eexists. split; [exact Hv|]. split; [exact Hs|]. split; [|split].
  - rewrite Hv'. f_equal. apply bsum_ext; intros i Hi. rewrite Hx by lia. unfold t, perm_ext.
    rewrite (proj2 (Nat.ltb_lt i n)) by exact Hi. reflexivity.
  - rewrite Hs'. f_equal. rewrite <- (bsum_perm (n + m + 1) t (fun i => mulv (n + m + 1) P b i * - b i) Ht).
    apply bsum_ext; intros i Hi. rewrite Hx, Hb by exact Hi. reflexivity.
  - intros HW. eexists _, _. apply Hsys, HW.
Qed.

Lemma perm_id n : perm_on n (fun i => i).
Proof. split; auto. Qed.

Lemma terms_agree u q q' specs specs' p p' pos : specs_agree u q q' specs specs' p p' ->
  map (fun t => t_query t p pos) (drift_terms u q specs) = map (fun t => t_query t p' pos) (drift_terms u q' specs') /\
  forall i, map (fun t => t_data t i) (drift_terms u q specs) = map (fun t => t_data t i) (drift_terms u q' specs').
Proof.
  intros HA. unfold drift_terms. rewrite !map_app.
  assert (HSP : map (fun t => t_query t p pos) (spec_terms u q specs) = map (fun t => t_query t p' pos) (spec_terms u q' specs') /\
    forall i, map (fun t => t_data t i) (spec_terms u q specs) = map (fun t => t_data t i) (spec_terms u q' specs')).
  { unfold spec_terms, specs_agree in *. destruct (dr_spec (u_drift u)) as [ds|]; [|split; reflexivity].
    specialize (HA ltac:(discriminate)). rewrite !map_map. split.
    - revert specs specs' HA. induction ds as [|d ds IH]; intros [|s specs] [|s' specs'] HA; try discriminate; try reflexivity.
      cbn [map combine] in *. injection HA as H1 H2. cbn [t_query]. rewrite H1. f_equal. apply IH, H2.
    - intros i. rewrite !map_map. revert specs specs' HA. induction ds as [|d ds IH]; intros [|s specs] [|s' specs'] HA; try discriminate; try reflexivity.
      cbn [map combine] in *. injection HA as H1 H2. cbn [t_data]. f_equal. apply (IH specs specs'), H2. }
  destruct HSP as [S1 S2]. split.
  - rewrite S1. unfold linear_terms, well_terms, ext_terms, fun_terms.
    apply f_equal2; [|apply f_equal2; [|apply f_equal2; [|apply f_equal2; [reflexivity|]]]].
    + destruct (dr_linear (u_drift u)); [|reflexivity]. rewrite !map_map. reflexivity.
    + rewrite !map_map. apply map_ext. intros [[a b] c]. reflexivity.
    + destruct (dr_ext (u_drift u)) as [[[[a b] c] d]|]; reflexivity.
    + rewrite !map_map. reflexivity.
  - intros i. rewrite !map_app, S2. reflexivity.
Qed.

Lemma terms_agree_at u q q' specs specs' p p' pos : specs_agree u q q' specs specs' p p' ->
  let ts := drift_terms u q specs in let ts' := drift_terms u q' specs' in
  List.length ts' = List.length ts /\ (forall a i, F_of ts' a i = F_of ts a i) /\ (forall a, f_of ts' p' pos a = f_of ts p pos a).
Proof.
  intros HA ts ts'. destruct (terms_agree u q q' specs specs' p p' pos HA) as [H1 H2]. fold ts ts' in H1, H2. split; [|split].
  - pose proof (f_equal (@List.length R) H1) as H. rewrite !map_length in H. symmetry. exact H.
  - intros a i. unfold F_of. rewrite !nth_t_data, H2. reflexivity.
  - intros a. unfold f_of. rewrite !nth_t_query, H1. reflexivity.
Qed.

Theorem uk_location_only E u q q' specs specs' r r' p p' pos : urun E u q specs r -> urun E u q' specs' r' ->
  faithful_specs u q -> faithful_specs u q' -> shown (u_obj u) q p pos -> shown (u_obj u) q' p' pos ->
  specs_agree u q q' specs specs' p p' ->
  r_value r p = r_value r' p' /\ r_variance r p = r_variance r' p'.
Proof.
  intros HR HR' HF HF' HS HS' HA.
  destruct (terms_agree_at u q q' specs specs' p p' pos HA) as (H1 & H2 & H3).
  destruct (ucell_similar E E u u (fun i => i) q q' specs specs' r r' p p' pos pos HR HR' HF HF' HS HS' eq_refl H1 (perm_id _)
    ltac:(reflexivity) ltac:(reflexivity) (fun a i _ _ => H2 a i) (fun a _ => H3 a)) as (x & s & Hv & Hs & Hv' & Hs' & _).
  rewrite Hv, Hv', Hs, Hs'. auto.
Qed.
