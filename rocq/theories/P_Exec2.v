(** Proofs of the ordinary kriging properties stated in Props_OK. *)
From Coq Require Import String FunctionalExtensionality.
From Verif Require Import Base Sums Matrix M_Variogram P_Variogram M_Geometry S_Geometry P_Geometry M_Kriging S_Kriging
  P_Kriging P_OKSpec M_Init M_Object M_Execute S_Execute P_Object P_Execute P_Cells P_Window P_WindowExec P_Master P_Det P_OK P_Similar P_Data Witness.

Lemma weights_exist E o q r p pos : run E o q r -> shown o q p pos -> well_posed o q pos ->
    exists m sel w mu,
      uses o q pos m sel /\
      OK_system m (fun a b => G_of o (sel a) (sel b)) (fun a => g_of o pos (sel a)) w mu /\
      bsum m w = 1 /\
      r_value r p = Some (bsum m (fun a => w a * o_values o (sel a))) /\
      r_variance r p = Some (bsum m (fun a => w a * g_of o pos (sel a)) + mu).
Proof.
  intros HR HS HW. destruct (run_cell E o q r p pos HR HS) as (v & s & -> & -> & HK).
  destruct (kriged_uses o q pos v s (HK HW)) as (m & sel & HU & _ & _ & (w & mu & HSy & -> & ->)).
  exists m, sel, w, mu. split; [exact HU|]. split; [exact HSy|]. split; [apply HSy|]. auto.
Qed.

Lemma uses_lt o q pos m sel : uses o q pos m sel -> forall a, (a < m)%nat -> (sel a < o_n o)%nat.
Proof. unfold uses. destruct (q_window q); [intros [-> (H & _)]; exact H|intros [-> H] a Ha; rewrite H; exact Ha]. Qed.

Lemma constants_reproduced E o q r p pos c : run E o q r -> shown o q p pos -> well_posed o q pos ->
    (forall i, (i < o_n o)%nat -> o_values o i = c) -> r_value r p = Some c.
Proof.
  intros HR HS HW Hc. destruct (weights_exist E o q r p pos HR HS HW) as (m & sel & w & mu & HU & _ & H1 & -> & _).
  f_equal. rewrite (bsum_ext m _ (fun a => w a * c)).
  - rewrite bsum_scal_r, H1. ring.
  - intros a Ha. rewrite Hc; [reflexivity|]. apply (uses_lt _ _ _ _ _ HU a Ha).
Qed.

Lemma interpolates E o q r p k : run E o q r -> regular_for o q -> o_exact o = true ->
    (k < o_n o)%nat -> shown o q p (datum o k) ->
    (forall i, (i < o_n o)%nat -> i <> k -> eps < separation o (datum o k) (datum o i)) ->
    r_value r p = Some (o_values o k) /\ r_variance r p = Some 0.
Proof.
  intros HR Hreg Hex Hk HS Hsep. apply (exact_at E o q r p (datum o k) k HR HS Hreg Hk).
  - apply separation_refl'.
  - intros i Hi Hne. pose proof eps_pos. pose proof (Hsep i Hi Hne). lra.
  - intros i Hi Hne. unfold g_of, query_semivariance.
    rewrite Rabs_pos_eq by apply separation_nonneg. rewrite (proj2 (Rleb_false _ _) (Hsep i Hi Hne)), andb_false_r. reflexivity.
  - unfold g_of, query_semivariance. rewrite Hex, separation_refl', Rabs_R0.
    rewrite (proj2 (Rleb_true 0 eps)); [reflexivity|]. pose proof eps_pos. lra.
Qed.
Lemma interpolates_default E o q r p k : run E o q r -> (o_pinv o = false \/ q_window q <> None) -> o_exact o = true ->
    (k < o_n o)%nat -> shown o q p (datum o k) ->
    (forall i, (i < o_n o)%nat -> i <> k -> eps < separation o (datum o k) (datum o i)) ->
    r_value r p = Some (o_values o k) /\ r_variance r p = Some 0.
Proof.
  intros HR Hreg. apply (interpolates E o q r p k HR). destruct Hreg as [H|H]; [left; exact H|right; left; exact H].
Qed.

Lemma no_nugget_exact E o q r p k : run E o q r -> regular_for o q -> o_exact o = false -> o_vg o 0 = 0 ->
    (k < o_n o)%nat -> shown o q p (datum o k) ->
    (forall i, (i < o_n o)%nat -> i <> k -> 0 < separation o (datum o k) (datum o i)) ->
    r_value r p = Some (o_values o k) /\ r_variance r p = Some 0.
Proof.
  intros HR Hreg Hex H0 Hk HS Hsep. apply (exact_at E o q r p (datum o k) k HR HS Hreg Hk).
  - apply separation_refl'.
  - exact Hsep.
  - intros i Hi Hne. unfold g_of, query_semivariance. rewrite Hex. reflexivity.
  - unfold g_of, query_semivariance. rewrite Hex, separation_refl'. exact H0.
Qed.

Lemma flag_irrelevant E c A us o o' q r r' p pos b :
    built E c A us o -> built E c (with_exact A b) us o' ->
    run E o q r -> run E o' q r' -> shown o q p pos ->
    (forall i, (i < o_n o)%nat -> eps < separation o pos (datum o i)) ->
    r_value r p = r_value r' p /\ r_variance r p = r_variance r' p.
Proof.
  intros HB HB' HR HR' HS Hfar.
  assert (Ag : agree o o') by (apply (built_agree E c A (with_exact A b) us); auto).
  destruct (run_inv _ _ _ _ HR) as (HE & Hinv & Hord & HF & H). destruct (run_inv _ _ _ _ HR') as (_ & Hinv' & _ & HF' & H').
  destruct (agree_sep o o' Ag) as [A1 A2].
  eapply (cell_det E o o' q q r r' p p pos); try eassumption; try reflexivity.
  - destruct HS as [C Hh]. unfold shown, o_dim in *. rewrite (ag_class _ _ Ag). auto.
  - intros i Hi. rewrite g_of_far by assumption. rewrite g_of_far.
    + rewrite A1, A2. unfold o_vg. rewrite (ag_fun _ _ Ag), (ag_params _ _ Ag). reflexivity.
    + rewrite A1, A2, (ag_n _ _ Ag). exact Hfar.
    + rewrite (ag_n _ _ Ag). exact Hi.
Qed.

(** *** Witnesses *)
Lemma ex_generic_run : exists E o q r,
  run E o q r /\ shown o q 0 (1, 1, 0) /\ well_posed o q (1, 1, 0) /\ o_n o = 2%nat.
Proof.
  destruct (two_run 1 1 0 1 true 1 1 true None) as (o & r & Ho & HR); [lra|].
  destruct (two_fields _ _ _ _ _ _ _ _ Ho) as (Hre&Hinv&Hc&Hn&Hct&Hex&Hpi&_).
  exists (wit_env true None), o, (one_point 1 1 "vectorized"), r.
  split; [exact HR|]. split; [apply one_point_cell, Hc|]. split; [left; exact Hpi|exact Hn].
Qed.

Lemma eps_lt_5 : eps < 5.
Proof. unfold eps. lra. Qed.

Lemma ex_exact : exists E o q r,
  run E o q r /\ regular_for o q /\ o_exact o = true /\ shown o q 0 (datum o 0) /\ o_n o = 2%nat /\
  o_values o 0%nat = 7 /\ o_vg o 0 = 1 /\
  (forall i, (i < o_n o)%nat -> i <> 0%nat -> eps < separation o (datum o 0) (datum o i)).
Proof.
  destruct (two_run 1 1 7 1 true 0 0 true None) as (o & r & Ho & HR); [lra|].
  destruct (two_fields _ _ _ _ _ _ _ _ Ho) as (Hre&Hinv&Hc&Hn&Hct&Hex&Hpi&_&_&Hvg&Hv&Hd0&Hd1&Hs).
  exists (wit_env true None), o, (one_point 0 0 "vectorized"), r.
  split; [exact HR|]. split; [left; exact Hpi|]. split; [exact Hex|].
  split; [rewrite Hd0; apply one_point_cell, Hc|]. split; [exact Hn|]. split; [rewrite Hv; reflexivity|].
  split; [rewrite Hvg; ring|]. intros i Hi Hne. rewrite Hn in Hi. assert (i = 1%nat) by lia. subst i.
  rewrite Hs, Hd0, Hd1. unfold lon, lat. cbn [fst snd]. rewrite sqrt_25. apply eps_lt_5.
Qed.

Lemma nugget_inexact nugget : 0 < nugget ->
    exists E o q r, run E o q r /\ o_exact o = false /\ o_vg o 0 = nugget /\
      shown o q 0 (datum o 0) /\ o_values o 0%nat = 0 /\ o_values o 1%nat = 1 /\
      r_value r 0%nat = Some (nugget / (2 * (5 + nugget))).
Proof.
  intros Hn0.
  destruct (two_run 1 nugget 0 1 false 0 0 true None) as (o & r & Ho & HR); [lra|].
  pose proof (two_G _ _ _ _ _ _ _ _ Ho) as HG.
  destruct (two_fields _ _ _ _ _ _ _ _ Ho) as (Hre&Hinv&Hc&Hn&Hct&Hex&Hpi&_&_&Hvg&Hv&Hd0&Hd1&Hs).
  set (q := one_point 0 0 "vectorized") in *.
  assert (HS : shown o q 0 (datum o 0)) by (rewrite Hd0; apply one_point_cell, Hc).
  exists (wit_env true None), o, q, r.
  split; [exact HR|]. split; [exact Hex|]. split; [rewrite Hvg; ring|]. split; [exact HS|].
  split; [rewrite Hv; reflexivity|]. split; [rewrite Hv; reflexivity|].
  destruct (weights_exist _ o q r 0 (datum o 0) HR HS (or_introl Hpi)) as (m & sel & w & mu & HU & [H1 H2] & _ & -> & _).
  unfold uses in HU. cbn [q_window q one_point] in HU. destruct HU as [-> Hsel]. rewrite Hn in *.
  f_equal. cbn [bsum] in *. rewrite !Hsel, Hv. cbn [rnth nth]. 
  pose proof (H1 0%nat ltac:(lia)) as A0. pose proof (H1 1%nat ltac:(lia)) as A1. clear H1. cbn [bsum] in A0, A1.
  rewrite !Hsel, !G_of_diag in A0, A1. rewrite HG in A0. rewrite (G_of_sym o 1 0), HG in A1.
  unfold g_of, query_semivariance in A0, A1. rewrite Hex in A0, A1. cbn [andb] in A0, A1. rewrite Hvg in A0, A1.
  rewrite separation_refl' in A0. rewrite Hs, Hd0, Hd1 in A1. unfold lon, lat in A1. cbn [fst snd] in A1. rewrite sqrt_25 in A1.
  cbv [rnth nth]. 
  assert (W1 : w 1%nat = nugget / (2 * (5 + nugget))).
  { apply (Rmult_eq_reg_r (2 * (5 + nugget))); [|lra]. unfold Rdiv. rewrite Rmult_assoc, Rinv_l by lra. nra. }
  rewrite W1. ring.
Qed.

(** *** C15 *)
Lemma backends_agree E o q b b' : reachable E o -> ordinary o -> q_window q = None ->
    available E o b -> available E o b' ->
    same_outcome (execute E o (with_backend q b)) (execute E o (with_backend q b')).
Proof.
  intros Hr Hord HW HB HB'. pose proof (reachable_inv E o Hr) as Hinv.
  pose proof (execute_ref E o (with_backend q b) Hinv Hord HW HB) as H1.
  pose proof (execute_ref E o (with_backend q b') Hinv Hord HW HB') as H2.
  change (ref E o (with_backend q b')) with (ref E o (with_backend q b)) in H2.
  destruct (ref E o (with_backend q b)) as [r|e].
  - destruct H1 as (r1 & -> & H1), H2 as (r2 & -> & H2). cbn.
    eapply result_eq_trans; [exact H1|]. apply result_eq_sym, H2.
  - rewrite H1, H2. reflexivity.
Qed.

Lemma window_one E o q k : reachable E o -> o_class o = OK2 -> q_window q = Some k -> (k <= 1)%nat ->
    execute E o q = Err ValueError.
Proof.
  intros _ Hc HW Hk. unfold execute. rewrite Hc. unfold execute2. rewrite HW.
  destruct (negb (in_names _ _)); [reflexivity|]. rewrite (proj2 (Nat.leb_le k 1) Hk). reflexivity.
Qed.

Lemma window_backends_agree E o q k : env_ok E -> reachable E o -> o_class o = OK2 -> q_window q = Some k -> (k <= o_n o)%nat ->
    (e_cython E = true -> c_supported o) ->
    both_or_neither (execute E o (with_backend q "loop")) (execute E o (with_backend q "C")).
Proof.
  intros HE Hr Hc HW HkN HCs. pose proof (reachable_inv E o Hr) as Hinv.
  destruct (Nat.le_gt_cases k 1) as [Hk|Hk].
  { rewrite !(window_one E o _ k) by assumption. exact I. }
  assert (Hk2 : (2 <= k)%nat) by lia.
  rewrite (execute_window_unfold E o (with_backend q "loop") k Hinv (or_introl Hc) HW Hk2 (or_introl eq_refl)).
  rewrite (execute_window_unfold E o (with_backend q "C") k Hinv (or_introl Hc) HW Hk2 (or_intror (conj Hc eq_refl))).
  cbn [q_style q_pts q_mask q_int with_backend].
  destruct (locate (o_dim o) (q_style q) (q_pts q) (q_mask q)) as [l|e] eqn:HL; cbn [bind]; [|exact I].
  destruct (adjust_query o (q_int q) (l_at l)) as [pts|e] eqn:HA; cbn [bind]; [|exact I].
  pose proof (window_values_spec E o (with_backend q "loop") k l pts HE Hinv HA HkN (or_introl eq_refl)) as S1.
  pose proof (window_values_spec E o (with_backend q "C") k l pts HE Hinv HA HkN (or_intror (conj Hc (conj eq_refl HCs)))) as S2.
  cbv zeta in S1, S2.
  destruct (locate_facts _ _ _ _ _ (o_dim_cases o) HL) as [Hn Hm].
  destruct (window_values E o (with_backend q "loop") k l pts) as [[z s]|e];
  destruct (window_values E o (with_backend q "C") k l pts) as [[z' s']|e']; cbn [bind].
  - cbn [both_or_neither]. split; [reflexivity|]. cbn [r_shape finish]. intros p Hp. rewrite <- Hn in Hp. cbn [finish r_value r_variance fst snd q_style with_backend].
    specialize (S1 p Hp). specialize (S2 p Hp).
    assert (HV : l_mask l p = false -> z p = z' p /\ s p = s' p).
    { intros Hmp. destruct (S1 Hmp) as (_ & R1 & E1). destruct (S2 Hmp) as (_ & _ & E2).
      apply (regular_unique' _ _ _ _ _ _ _ _ R1 E1 E2). }
    destruct (String.eqb_spec (q_style q) "masked").
    + destruct (l_mask l p); [auto|]. destruct (HV eq_refl) as [-> ->]. auto.
    + destruct Hm as [Hm|Hm]; [contradiction|]. destruct (HV (Hm p)) as [-> ->]. auto.
  - destruct S2 as (_ & p & Hp & Hmp & _ & HN). apply HN, (S1 p Hp Hmp).
  - destruct S1 as (_ & p & Hp & Hmp & _ & HN). apply HN, (S2 p Hp Hmp).
  - exact I.
Qed.

Lemma linear_supported o s n : o_fun o = f_linear -> o_params o = [s; n] -> c_supported o.
Proof.
  intros Hf Hp. exists "linear"%string. split; [rewrite Hf; reflexivity|]. split; [discriminate|].
  intros [H|H]; discriminate.
Qed.

Lemma ex_backends : exists E o q r,
  run E o q r /\ o_class o = OK2 /\ q_window q = None /\ e_cython E = true /\
  available E o "vectorized" /\ available E o "loop" /\ available E o "C".
Proof.
  destruct (two_run 1 1 0 1 true 1 1 true None) as (o & r & Ho & HR); [lra|].
  destruct (two_fields _ _ _ _ _ _ _ _ Ho) as (Hre&Hinv&Hc&Hn&Hct&Hex&Hpi&Hf&Hp&_).
  exists (wit_env true None), o, (one_point 1 1 "vectorized"), r.
  split; [exact HR|]. split; [exact Hc|]. split; [reflexivity|]. split; [reflexivity|].
  split; [left; reflexivity|]. split; [right; left; reflexivity|]. right; right.
  split; [exact Hc|]. split; [reflexivity|]. intros _. apply (linear_supported o 1 1); assumption.
Qed.

(** *** C16 *)
Lemma variance_minimal E o q r p pos : run E o q r -> shown o q p pos -> well_posed o q pos ->
    exists m sel w s,
      uses o q pos m sel /\ bsum m w = 1 /\
      r_value r p = Some (bsum m (fun a => w a * o_values o (sel a))) /\ r_variance r p = Some s /\
      s = est_variance m (fun a b => G_of o (sel a) (sel b)) (fun a => g_of o pos (sel a)) w /\
      (cond_neg_def m (fun a b => G_of o (sel a) (sel b)) ->
       forall w', bsum m w' = 1 ->
         s <= est_variance m (fun a b => G_of o (sel a) (sel b)) (fun a => g_of o pos (sel a)) w').
Proof.
  intros HR HS HW. destruct (weights_exist E o q r p pos HR HS HW) as (m & sel & w & mu & HU & HSy & H1 & Hv & Hs).
  set (G := fun a b => G_of o (sel a) (sel b)) in *. set (g := fun a => g_of o pos (sel a)) in *.
  exists m, sel, w, (bsum m (fun a => w a * g a) + mu).
  split; [exact HU|]. split; [exact H1|]. split; [exact Hv|]. split; [exact Hs|].
  assert (Hval : bsum m (fun a => w a * g a) + mu = est_variance m G g w).
  { unfold est_variance. destruct HSy as [HSy _].
    assert (EE : bsum m (fun i => bsum m (fun j => w i * w j * G i j)) = bsum m (fun i => w i * g i) - mu).
    { rewrite (bsum_ext m _ (fun i => w i * g i - mu * w i)).
      - rewrite bsum_minus, bsum_scal, H1. ring.
      - intros i Hi. rewrite <- (HSy i) by assumption.
        transitivity (w i * bsum m (fun j => w j * G i j)); [|ring].
        rewrite <- bsum_scal. apply bsum_ext; intros; ring. }
    rewrite EE. ring. }
  split; [exact Hval|]. intros HC w' Hw'.
  destruct (est_optimal m G g (fun a => o_values o (sel a)) (bsum m (fun a => w a * o_values o (sel a))) (bsum m (fun a => w a * g a) + mu)) as (w2 & _ & _ & _ & Hopt).
  - intros i j _ _. unfold G. apply G_of_sym.
  - exact HC.
  - exists w, mu. auto.
  - apply Hopt, Hw'.
Qed.

(** conditional negative definiteness passes to subsets of the data *)
Lemma bsum_embed n m (sel : nat -> nat) : (forall a, (a < m)%nat -> (sel a < n)%nat) ->
  (forall a b, (a < m)%nat -> (b < m)%nat -> sel a = sel b -> a = b) ->
  forall c : vec, exists c' : vec, forall f : vec, bsum n (fun i => c' i * f i) = bsum m (fun a => c a * f (sel a)).
Proof.
  revert sel. induction m as [|m IH]; intros sel Hlt Hinj c.
  - exists (fun _ => 0). intros f. cbn [bsum]. rewrite (bsum_ext n _ (fun _ => 0)) by (intros; ring). apply bsum_zero.
  - destruct (IH sel ltac:(intros; apply Hlt; lia) ltac:(intros; apply Hinj; lia) c) as (c' & Hc').
    exists (fun i => c' i + if Nat.eqb i (sel m) then c m else 0). intros f. cbn [bsum].
    rewrite <- (Hc' f). rewrite (bsum_ext n _ (fun i => c' i * f i + (if Nat.eqb i (sel m) then c m * f (sel m) else 0))).
    + rewrite bsum_plus. f_equal. rewrite (bsum_single n (sel m)); [rewrite Nat.eqb_refl; reflexivity|apply Hlt; lia|].
      intros i _ Hne. destruct (Nat.eqb_spec i (sel m)); [contradiction|reflexivity].
    + intros i _. destruct (Nat.eqb_spec i (sel m)) as [->|]; ring.
Qed.

Lemma cnd_subset n m sel G g : (forall a, (a < m)%nat -> (sel a < n)%nat) ->
  (forall a b, (a < m)%nat -> (b < m)%nat -> sel a = sel b -> a = b) ->
  cond_neg_def_with n G g -> cond_neg_def_with m (fun a b => G (sel a) (sel b)) (fun a => g (sel a)).
Proof.
  intros Hlt Hinj HC c c0 Hc. destruct (bsum_embed n m sel Hlt Hinj c) as (c' & H').
  assert (H1 : bsum n c' = bsum m c).
  { pose proof (H' (fun _ => 1)) as H1. rewrite (bsum_ext n _ c') in H1 by (intros; ring).
    rewrite H1. apply bsum_ext; intros; ring. }
  specialize (HC c' c0). rewrite H1 in HC. specialize (HC Hc). rewrite (H' g) in HC.
  replace (bsum m (fun i => bsum m (fun j => c i * c j * G (sel i) (sel j))))
    with (bsum n (fun i => bsum n (fun j => c' i * c' j * G i j))); [exact HC|].
  rewrite (bsum_ext n _ (fun i => c' i * bsum m (fun b => c b * G i (sel b)))).
  - rewrite (H' (fun i => bsum m (fun b => c b * G i (sel b)))). apply bsum_ext; intros i Hi.
    rewrite <- bsum_scal. apply bsum_ext; intros; ring.
  - intros i Hi. rewrite <- (H' (fun j => G i j)). rewrite <- bsum_scal. apply bsum_ext; intros; ring.
Qed.

Lemma variance_nonneg E o q r p pos : run E o q r -> shown o q p pos -> well_posed o q pos ->
    cond_neg_def_with (o_n o) (G_of o) (g_of o pos) ->
    exists s, r_variance r p = Some s /\ 0 <= s.
Proof.
  intros HR HS HW HC. destruct (run_cell E o q r p pos HR HS) as (v & s & _ & Hs & HK). exists s. split; [exact Hs|].
  destruct (kriged_uses o q pos v s (HK HW)) as (m & sel & HU & Hlt & _ & He).
  refine (est_nonneg m _ _ _ v s _ He). apply (cnd_subset (o_n o)); try assumption.
  apply (uses_inj o q pos m sel HU).
Qed.

Lemma ex_cnd : exists E o q r,
  run E o q r /\ shown o q 0 (datum o 0) /\ well_posed o q (datum o 0) /\ o_n o = 2%nat /\
  cond_neg_def_with (o_n o) (G_of o) (g_of o (datum o 0)).
Proof.
  destruct (two_run 1 1 7 1 true 0 0 true None) as (o & r & Ho & HR); [lra|].
  pose proof (two_G _ _ _ _ _ _ _ _ Ho) as HG.
  destruct (two_fields _ _ _ _ _ _ _ _ Ho) as (Hre&Hinv&Hc&Hn&Hct&Hex&Hpi&_&_&Hvg&Hv&Hd0&Hd1&Hs).
  exists (wit_env true None), o, (one_point 0 0 "vectorized"), r.
  split; [exact HR|]. split; [rewrite Hd0; apply one_point_cell, Hc|]. split; [left; exact Hpi|]. split; [exact Hn|].
  rewrite Hn. intros c c0. cbn [bsum]. rewrite !G_of_diag, (G_of_sym o 1 0), HG. unfold g_of, query_semivariance.
  rewrite Hex, !separation_refl', Rabs_R0. rewrite (proj2 (Rleb_true 0 eps)) by (pose proof eps_pos; lra). cbn [andb].
  rewrite Hs, Hd0, Hd1. unfold lon, lat. cbn [fst snd]. rewrite sqrt_25.
  rewrite (proj2 (Rleb_false _ _)) by (rewrite Rabs_pos_eq; [apply eps_lt_5|lra]). rewrite Hvg. intros Hc0.
  assert (E0 : c0 = - (c 0%nat + c 1%nat)) by lra. rewrite E0. nra.
Qed.

(** *** C18 *)
Lemma execute_locate E o q r : ordinary o -> execute E o q = Ok r ->
  exists l, locate (o_dim o) (q_style q) (q_pts q) (q_mask q) = Ok l /\ r_shape r = l_shape l.
Proof.
  intros Hord H. unfold execute in H. destruct Hord as [Hc|Hc]; rewrite Hc in H.
  - unfold execute2 in H. ifd H. ifd H. bindok H. bindok H. bindok H. injection H as <-.
    exists a. split; [unfold o_dim; rewrite Hc; exact E0|reflexivity].
  - unfold execute3 in H. ifd H. bindok H. bindok H. bindok H. injection H as <-.
    exists a. split; [unfold o_dim; rewrite Hc; exact E0|reflexivity].
Qed.

Lemma entries_are_cells E o q r p : reachable E o -> ordinary o -> execute E o q = Ok r -> (p < shape_size (r_shape r))%nat ->
    exists pos, cell (o_dim o) q p pos /\ forall pos', cell (o_dim o) q p pos' -> pos' = pos.
Proof.
  intros _ Hord H Hp. destruct (execute_locate E o q r Hord H) as (l & HL & HS). rewrite HS in Hp.
  destruct (locate_facts _ _ _ _ _ (o_dim_cases o) HL) as [Hn _]. rewrite <- Hn in Hp.
  destruct (locate_all_cells _ q l p (o_dim_cases o) HL Hp) as [pos C]. exists pos. split; [exact C|].
  intros pos' C'. destruct (locate_cell _ _ _ _ _ (o_dim_cases o) HL C) as [_ <-].
  destruct (locate_cell _ _ _ _ _ (o_dim_cases o) HL C') as [_ <-]. reflexivity.
Qed.

Lemma location_only E o q q' r r' p p' pos : run E o q r -> run E o q' r' -> q_window q = q_window q' ->
    shown o q p pos -> shown o q' p' pos ->
    r_value r p = r_value r' p' /\ r_variance r p = r_variance r' p'.
Proof.
  intros HR HR' HW HS HS'.
  destruct (run_inv _ _ _ _ HR) as (HE & Hinv & Hord & HF & H). destruct (run_inv _ _ _ _ HR') as (_ & _ & _ & HF' & H').
  eapply (cell_det E o o q q' r r' p p' pos); try eassumption; [apply agree_refl|reflexivity].
Qed.

Lemma result_shape E o q r : reachable E o -> ordinary o -> execute E o q = Ok r ->
    r_shape r = (if String.eqb (q_style q) "points" then [List.length (xs q)]
                 else if Nat.eqb (o_dim o) 3 then [List.length (zs q); List.length (ys q); List.length (xs q)]
                 else [List.length (ys q); List.length (xs q)]).
Proof.
  intros _ Hord H. destruct (execute_locate E o q r Hord H) as (l & HL & ->).
  destruct (o_dim_cases o) as [Hd|Hd]; rewrite Hd in *; cbn [locate Nat.eqb] in *.
  - unfold locate2 in HL.
    destruct (String.eqb_spec (q_style q) "masked") as [ES|ES]; [rewrite ES; cbn [String.eqb Ascii.eqb Bool.eqb]|].
    { destruct (q_mask q) as [[r0 c f|? ? ? ?]|]; try discriminate.
      destruct (Nat.eqb r0 _ && _); [injection HL as <-; reflexivity|].
      destruct (Nat.eqb r0 _ && _); [injection HL as <-; reflexivity|discriminate]. }
    destruct (String.eqb_spec (q_style q) "grid") as [EG|EG]; [rewrite EG; injection HL as <-; reflexivity|].
    destruct (String.eqb (q_style q) "points"); [|discriminate]. destruct (negb _); [discriminate|]. injection HL as <-. reflexivity.
  - unfold locate3 in HL.
    destruct (String.eqb_spec (q_style q) "masked") as [ES|ES]; [rewrite ES; cbn [String.eqb Ascii.eqb Bool.eqb]|].
    { destruct (q_mask q) as [[? ? ?|d0 d1 d2 f]|]; try discriminate.
      destruct (Nat.eqb d0 _ && _ && _); [injection HL as <-; reflexivity|].
      destruct (Nat.eqb d0 _ && _ && _); [injection HL as <-; reflexivity|discriminate]. }
    destruct (String.eqb_spec (q_style q) "grid") as [EG|EG]; [rewrite EG; injection HL as <-; reflexivity|].
    destruct (String.eqb (q_style q) "points"); [|discriminate]. destruct (_ && _); [discriminate|].
    destruct (_ || _); [discriminate|]. injection HL as <-. reflexivity.
Qed.

Lemma not_hidden dim q p : q_style q <> "masked"%string -> ~ hidden dim q p.
Proof. intros H HH. destruct HH; contradiction. Qed.

Lemma grid_is_points E o q q' r r' i j k : run E o q r -> run E o q' r' -> q_window q = q_window q' ->
    o_dim o = 2%nat -> q_style q = "grid"%string -> q_style q' = "points"%string ->
    (i < List.length (ys q))%nat -> (j < List.length (xs q))%nat -> (k < List.length (xs q'))%nat ->
    rnth (xs q') k = rnth (xs q) j -> rnth (ys q') k = rnth (ys q) i ->
    r_value r (i * List.length (xs q) + j)%nat = r_value r' k /\
    r_variance r (i * List.length (xs q) + j)%nat = r_variance r' k.
Proof.
  intros HR HR' HW Hd Hs Hs' Hi Hj Hk Hx Hy.
  apply (location_only E o q q' r r' _ k (loc 2 (rnth (xs q) j) (rnth (ys q) i) 0) HR HR' HW).
  - split; [|apply not_hidden; congruence]. rewrite Hd. apply cell_grid2; auto.
  - split; [|apply not_hidden; congruence]. rewrite Hd.
    replace (loc 2 (rnth (xs q) j) (rnth (ys q) i) 0) with (loc 2 (rnth (xs q') k) (rnth (ys q') k) (rnth (zs q') k)).
    + apply cell_point; assumption.
    + unfold loc. cbn [Nat.eqb]. rewrite Hx, Hy. reflexivity.
Qed.
Lemma grid_is_points3 E o q q' r r' kz i j k : run E o q r -> run E o q' r' -> q_window q = q_window q' ->
    o_dim o = 3%nat -> q_style q = "grid"%string -> q_style q' = "points"%string ->
    (kz < List.length (zs q))%nat -> (i < List.length (ys q))%nat -> (j < List.length (xs q))%nat -> (k < List.length (xs q'))%nat ->
    rnth (xs q') k = rnth (xs q) j -> rnth (ys q') k = rnth (ys q) i -> rnth (zs q') k = rnth (zs q) kz ->
    let p := ((kz * List.length (ys q) + i) * List.length (xs q) + j)%nat in
    r_value r p = r_value r' k /\ r_variance r p = r_variance r' k.
Proof.
  intros HR HR' HW Hd Hs Hs' Hz Hi Hj Hk Hx Hy Hzz p.
  apply (location_only E o q q' r r' _ k (loc 3 (rnth (xs q) j) (rnth (ys q) i) (rnth (zs q) kz)) HR HR' HW).
  - split; [|apply not_hidden; congruence]. rewrite Hd. apply cell_grid3; auto.
  - split; [|apply not_hidden; congruence]. rewrite Hd. rewrite <- Hx, <- Hy, <- Hzz.
    apply cell_point; assumption.
Qed.

(** *** C19 *)
Lemma cell_grid_of_masked dim q p pos : q_style q = "masked"%string -> cell dim q p pos -> cell dim (with_style q "grid") p pos.
Proof.
  intros Hs C. destruct C as [p Hp|i j _ Hd Hi Hj|k i j _ Hd Hk Hi Hj]; [congruence| |].
  - apply (cell_grid2 dim (with_style q "grid") i j); auto.
  - apply (cell_grid3 dim (with_style q "grid") k i j); auto.
Qed.

Lemma masks_hide E o q r r' p pos : run E o q r -> run E o (with_style q "grid") r' ->
    q_style q = "masked"%string -> cell (o_dim o) q p pos ->
    (hidden (o_dim o) q p -> r_value r p = None /\ r_variance r p = None) /\
    (~ hidden (o_dim o) q p ->
       r_value r p = r_value r' p /\ r_variance r p = r_variance r' p /\ r_value r p <> None /\ r_variance r p <> None).
Proof.
  intros HR HR' Hs C. destruct (run_inv _ _ _ _ HR) as (HE & Hinv & Hord & HF & H).
  destruct (execute_cells E o q r p pos HE Hinv Hord HF H C) as (_ & HH & HV). split; [exact HH|].
  intros Hn. destruct (HV Hn) as (v & s & Ev & Es & _).
  destruct (location_only E o q (with_style q "grid") r r' p p pos HR HR' eq_refl) as [E1 E2].
  - split; assumption.
  - split; [apply cell_grid_of_masked; assumption|apply not_hidden; discriminate].
  - repeat split; congruence.
Qed.

Lemma unmasked_styles E o q r p pos : run E o q r -> q_style q <> "masked"%string -> cell (o_dim o) q p pos ->
    r_value r p <> None /\ r_variance r p <> None.
Proof.
  intros HR Hs C. destruct (run_cell E o q r p pos HR) as (v & s & -> & -> & _); [|split; discriminate].
  split; [exact C|apply not_hidden, Hs].
Qed.

Lemma execute_locate_err E o q e : ordinary o -> locate (o_dim o) (q_style q) (q_pts q) (q_mask q) = Err e ->
  in_names (q_style q) ["grid"; "masked"; "points"]%string = true ->
  (match q_window q with Some k => (2 <= k)%nat | None => True end) -> execute E o q = Err e.
Proof.
  intros Hord HL HS HW. unfold execute. destruct Hord as [Hc|Hc]; rewrite Hc; unfold o_dim in HL; rewrite Hc in HL; cbn [cdim locate] in HL.
  - unfold execute2. rewrite HS. cbn [negb].
    replace (match q_window q with Some k => Nat.leb k 1 | None => false end) with false.
    + cbv zeta. rewrite HL. reflexivity.
    + destruct (q_window q); [|reflexivity]. symmetry. apply Nat.leb_gt. lia.
  - unfold execute3. rewrite HS. cbn [negb]. cbv zeta. rewrite HL. reflexivity.
Qed.

Lemma mask_errors E o q : reachable E o -> ordinary o -> q_style q = "masked"%string ->
    (match q_window q with Some k => (2 <= k)%nat | None => True end) ->
    (q_mask q = None -> execute E o q = Err OSErr) /\
    (forall r c f, o_dim o = 2%nat -> q_mask q = Some (Mask2 r c f) ->
       ~ (r = List.length (ys q) /\ c = List.length (xs q)) -> ~ (r = List.length (xs q) /\ c = List.length (ys q)) ->
       execute E o q = Err ValueError) /\
    (forall a b c f, o_dim o = 3%nat -> q_mask q = Some (Mask3 a b c f) ->
       ~ (a = List.length (zs q) /\ b = List.length (ys q) /\ c = List.length (xs q)) ->
       ~ (a = List.length (xs q) /\ b = List.length (ys q) /\ c = List.length (zs q)) ->
       execute E o q = Err ValueError).
Proof.
  intros _ Hord Hs HW.
  assert (HG : forall e, locate (o_dim o) (q_style q) (q_pts q) (q_mask q) = Err e -> execute E o q = Err e).
  { intros e He. apply execute_locate_err; try assumption. rewrite Hs. reflexivity. }
  split; [|split].
  - intros Hm. apply HG. rewrite Hs, Hm. destruct (o_dim_cases o) as [-> | ->]; reflexivity.
  - intros r c f Hd Hm H1 H2. apply HG. rewrite Hs, Hm, Hd. cbn [locate]. unfold locate2. cbn [String.eqb Ascii.eqb Bool.eqb].
    change (size_of (q_pts q) 0) with (List.length (xs q)). change (size_of (q_pts q) 1) with (List.length (ys q)).
    destruct (Nat.eqb_spec r (List.length (ys q))), (Nat.eqb_spec c (List.length (xs q))); cbn [andb]; try tauto;
    destruct (Nat.eqb_spec r (List.length (xs q))), (Nat.eqb_spec c (List.length (ys q))); cbn [andb]; try tauto; reflexivity.
  - intros a b c f Hd Hm H1 H2. apply HG. rewrite Hs, Hm, Hd. cbn [locate]. unfold locate3. cbn [String.eqb Ascii.eqb Bool.eqb].
    change (size_of (q_pts q) 0) with (List.length (xs q)). change (size_of (q_pts q) 1) with (List.length (ys q)).
    change (size_of (q_pts q) 2) with (List.length (zs q)).
    destruct (Nat.eqb_spec a (List.length (zs q))), (Nat.eqb_spec b (List.length (ys q))), (Nat.eqb_spec c (List.length (xs q))); cbn [andb]; try tauto;
    destruct (Nat.eqb_spec a (List.length (xs q))), (Nat.eqb_spec c (List.length (zs q))); cbn [andb]; try tauto; try reflexivity;
    destruct (Nat.eqb_spec b (List.length (ys q))); try tauto; try reflexivity.
Qed.

(** *** C20 *)
Lemma perm_inverse n s : perm_on n s -> exists t, perm_on n t /\ forall i, (i < n)%nat -> s (t i) = i.
Proof.
  intros Hs. destruct (finite_choice (fun i j => (j < n)%nat /\ s j = i) 0%nat n) as [t Ht].
  { intros i Hi. destruct (perm_on_surj n s Hs i Hi) as (j & Hj & He). exists j. auto. }
  exists t. split; [|intros i Hi; apply Ht, Hi].
  unfold perm_on. split; [intros i Hi; apply Ht, Hi|]. intros i j Hi Hj He.
  destruct (Ht i Hi) as [_ <-], (Ht j Hj) as [_ <-]. rewrite He. reflexivity.
Qed.

Lemma full_window E o q r r' p pos b : run E o q r -> run E o (with_window (with_backend q b) (Some (o_n o))) r' ->
    q_window q = None -> shown o q p pos ->
    r_value r p = r_value r' p /\ r_variance r p = r_variance r' p.
Proof.
  intros HR HR' HW [C Hh].
  set (q' := with_window (with_backend q b) (Some (o_n o))) in *.
  assert (HS' : shown o q' p pos).
  { split.
    - destruct C as [p Hp|i j H1 Hd Hi Hj|k i j H1 Hd Hk Hi Hj].
      + apply (cell_point _ q'); assumption.
      + apply (cell_grid2 _ q' i j); assumption.
      + apply (cell_grid3 _ q' k i j); assumption.
    - intros HH. apply Hh. destruct HH as [i j m H1 Hd Hm Hi Hj Hv|k i j m H1 Hd Hm Hk Hi Hj Hv].
      + apply (hidden2 _ q i j m); assumption.
      + apply (hidden3 _ q k i j m); assumption. }
  destruct (run_cell E o q' r' p pos HR' HS') as (v' & s' & -> & -> & HK').
  assert (HWP' : well_posed o q' pos) by (right; left; unfold q'; cbn [q_window with_window]; congruence).
  specialize (HK' HWP').
  unfold kriged in HK'. cbn [q_window q' with_window] in HK'. destruct HK' as (_ & sel & (N1 & N2 & _) & HLR & HLE).
  assert (Hp : perm_on (o_n o) sel) by (split; assumption).
  destruct (perm_inverse _ _ Hp) as (t & Ht & Hst).
  assert (HG : OK_estimate (o_n o) (G_of o) (g_of o pos) (o_values o) v' s').
  { refine (OK_estimate_ext _ _ _ _ _ _ _ _ _ _ _ _ (est_perm _ t _ _ _ _ _ Ht HLE)); unfold permm, veq; intros; rewrite ?Hst by assumption; reflexivity. }
  destruct (run_cell E o q r p pos HR (conj C Hh)) as (v & s & -> & -> & HK).
  assert (HWP : well_posed o q pos).
  { right; right. destruct HG as (w & mu & HSy & _). exists w, mu. exact HSy. }
  specialize (HK HWP). unfold kriged in HK. rewrite HW in HK.
  pose proof (est_perm _ sel _ _ _ _ _ Hp HK) as HK2.
  destruct (regular_unique' _ _ _ _ _ _ _ _ HLR HK2 HLE) as [-> ->]. auto.
Qed.

Lemma oversized_window E o q k r p pos : env_ok E -> reachable E o -> ordinary o -> q_window q = Some k -> (o_n o < k)%nat ->
    cell (o_dim o) q p pos -> ~ hidden (o_dim o) q p -> execute E o q <> Ok r.
Proof.
  intros HE Hr Hord HW Hk C Hh H.
  destruct (execute_ok_window E o q r k Hord HW H) as [Hk2 HB].
  destruct (execute_locate E o q r Hord H) as (l & HL & _).
  refine (window_too_large E o q k r p pos l HE (reachable_inv E o Hr) Hord HW HB Hk2 Hk C HL _ H).
  destruct (locate_facts _ _ _ _ _ (o_dim_cases o) HL) as [_ Hm].
  destruct Hm as [Hm|Hm]; [|apply Hm].
  destruct (l_mask l p) eqn:EM; [|reflexivity]. exfalso. apply Hh.
  apply (cell_hidden_mask _ q l p pos (o_dim_cases o) HL C). rewrite Hm, EM. reflexivity.
Qed.

Lemma oversized_C : exists E o q, env_ok E /\ reachable E o /\ o_class o = OK2 /\ q_backend q = "C"%string /\ c_supported o /\
    e_cython E = true /\ q_window q = Some 3%nat /\ o_n o = 2%nat /\ execute E o q = Err UndefinedBehaviour.
Proof.
  set (E := wit_env true None). destruct (two_construct E 1 1 0 1 true false) as [o Ho].
  destruct (two_fields _ _ _ _ _ _ _ _ Ho) as (Hre&Hinv&Hc&Hn&Hct&Hex&Hpi&Hf&Hp&_).
  set (q := with_window (one_point 1 1 "C") (Some 3%nat)).
  assert (Hsup : c_supported o) by (apply (linear_supported o 1 1); assumption).
  exists E, o, q. split; [apply wit_env_ok|]. split; [exact Hre|]. split; [exact Hc|]. split; [reflexivity|].
  split; [exact Hsup|]. split; [reflexivity|]. split; [reflexivity|]. split; [exact Hn|].
  assert (Hd : o_dim o = 2%nat) by (unfold o_dim; rewrite Hc; reflexivity).
  destruct (locate (o_dim o) (q_style q) (q_pts q) (q_mask q)) as [l|] eqn:HL; [|rewrite Hd in HL; cbn in HL; discriminate].
  destruct (adjust_query o (q_int q) (l_at l)) as [pts|] eqn:HA.
  2:{ unfold adjust_query in HA. rewrite Hct in HA. cbn [q_int q with_window one_point forallb andb] in HA.
      destruct (adjust_supported (o_dim o) (l_at l) (o_center o) (o_scaling o) (o_angle o) (o_dim_cases o)) as [Y HY]. congruence. }
  apply (window_too_large_C E o q 3 0 (1, 1, 0) l pts (wit_env_ok true None) Hinv Hc Hct); try reflexivity; try assumption; try lia.
  - rewrite Hd. apply (cell_point 2 q 0 eq_refl). cbn. lia.
  - rewrite Hd in HL. cbn in HL. injection HL as <-. reflexivity.
Qed.

Lemma window_local E o q r p pos k : run E o q r -> q_window q = Some k -> shown o q p pos ->
    (2 <= k <= o_n o)%nat /\
    exists sel v s, nearest o k pos sel /\ r_value r p = Some v /\ r_variance r p = Some s /\
      local_regular o k sel /\ local_estimate o k sel pos v s.
Proof.
  intros HR HW HS. destruct (run_cell E o q r p pos HR HS) as (v & s & Hv & Hs & HK).
  assert (HWP : well_posed o q pos) by (right; left; rewrite HW; discriminate).
  specialize (HK HWP). unfold kriged in HK. rewrite HW in HK.
  destruct HK as (Hk & sel & HN & HLR & HLE). split; [exact Hk|]. exists sel, v, s. auto.
Qed.

(** *** C21 *)
Lemma no_stale_state E o q q1 r r1 p pos :
    run E o q r -> q_backend q = "C"%string -> q_window q <> None -> shown o q p pos ->
    q1 = single q pos -> run E o q1 r1 ->
    r_value r p = r_value r1 0%nat /\ r_variance r p = r_variance r1 0%nat.
Proof.
  intros HR HB HW HS -> HR1. apply (location_only E o q (single q pos) r r1 p 0 pos HR HR1); [destruct pos as [[x y] z]; reflexivity|exact HS|].
  split; [|destruct pos as [[x y] z]; apply not_hidden; discriminate].
  assert (Hl : forall x y z, pos = loc (o_dim o) x y z -> cell (o_dim o) (single q pos) 0 pos).
  { intros x y z ->. unfold loc.
    assert (Hz : (if Nat.eqb (o_dim o) 3 then z else 0) = if Nat.eqb (o_dim o) 3 then (if Nat.eqb (o_dim o) 3 then z else 0) else 0)
      by (destruct (Nat.eqb (o_dim o) 3); reflexivity).
    rewrite Hz at 2. set (z' := if Nat.eqb (o_dim o) 3 then z else 0).
    apply (cell_point (o_dim o) (single q (x, y, z')) 0 eq_refl). cbn. lia. }
  destruct HS as [C _]. destruct C; eapply Hl; reflexivity.
Qed.

Lemma c_window_python E o q r r' p pos : run E o q r -> q_backend q = "C"%string -> q_window q <> None -> shown o q p pos ->
    run E o (with_backend q "loop") r' ->
    r_value r p = r_value r' p /\ r_variance r p = r_variance r' p.
Proof.
  intros HR HB HW [C Hh] HR'. apply (location_only E o q (with_backend q "loop") r r' p p pos HR HR' eq_refl); [split; assumption|].
  split.
  - destruct C as [p Hp|i j H1 Hd Hi Hj|k i j H1 Hd Hk Hi Hj].
    + apply (cell_point _ (with_backend q "loop")); assumption.
    + apply (cell_grid2 _ (with_backend q "loop") i j); assumption.
    + apply (cell_grid3 _ (with_backend q "loop") k i j); assumption.
  - intros HH. apply Hh. destruct HH as [i j m H1 Hd Hm Hi Hj Hv|k i j m H1 Hd Hm Hk Hi Hj Hv].
    + apply (hidden2 _ q i j m); assumption.
    + apply (hidden3 _ q k i j m); assumption.
Qed.

Lemma ex_c_window : exists E o q r,
  run E o q r /\ q_backend q = "C"%string /\ q_window q = Some 2%nat /\ e_cython E = true /\ shown o q 0 (1, 1, 0).
Proof.
  set (E := wit_env true None). destruct (two_construct E 1 1 0 1 true false) as [o Ho].
  pose proof (two_G _ _ _ _ _ _ _ _ Ho) as HG.
  destruct (two_fields _ _ _ _ _ _ _ _ Ho) as (Hre&Hinv&Hc&Hn&Hct&Hex&Hpi&Hf&Hp&_).
  set (q := with_window (one_point 1 1 "C") (Some 2%nat)).
  assert (Hsup : c_supported o) by (apply (linear_supported o 1 1); assumption).
  assert (Hd : o_dim o = 2%nat) by (unfold o_dim; rewrite Hc; reflexivity).
  assert (HS : shown o q 0 (1, 1, 0)).
  { split; [|apply not_hidden; discriminate]. rewrite Hd. apply (cell_point 2 q 0 eq_refl). cbn. lia. }
  assert (HX : exists r, execute E o q = Ok r).
  { rewrite (execute_window_unfold E o q 2 Hinv (or_introl Hc) eq_refl (le_n 2) (or_intror (conj Hc eq_refl))).
    destruct (locate (o_dim o) (q_style q) (q_pts q) (q_mask q)) as [l|] eqn:HL; [|rewrite Hd in HL; cbn in HL; discriminate].
    cbn [bind]. destruct (adjust_query o (q_int q) (l_at l)) as [pts|] eqn:HA.
    2:{ unfold adjust_query in HA. rewrite Hct in HA. cbn [q_int q with_window one_point forallb andb] in HA.
      destruct (adjust_supported (o_dim o) (l_at l) (o_center o) (o_scaling o) (o_angle o) (o_dim_cases o)) as [Y HY]. congruence. }
    cbn [bind].
    pose proof (window_values_spec E o q 2 l pts (wit_env_ok true None) Hinv HA ltac:(lia) (or_intror (conj Hc (conj eq_refl (fun _ => Hsup))))) as S.
    cbv zeta in S. destruct (window_values E o q 2 l pts) as [[z s]|e]; cbn [bind]; [eauto|].
    destruct S as (_ & p & _ & _ & (N1 & N2 & _) & HN). exfalso. apply HN.
    set (sel := snd (neighbours E o pts 2 p)) in *.
    pose proof (N1 0%nat ltac:(lia)). pose proof (N1 1%nat ltac:(lia)).
    assert (sel 0%nat <> sel 1%nat) by (intros He; apply N2 in He; lia).
    apply (two_regular_gen _ 6); try apply G_of_diag; [| |lra];
      destruct (sel 0%nat) as [|[|?]], (sel 1%nat) as [|[|?]]; try lia; rewrite ?(G_of_sym o 1 0), HG; ring. }
  destruct HX as [r Hr]. exists E, o, q, r. split; [|split; [reflexivity|split; [reflexivity|split; [reflexivity|exact HS]]]].
  split; [apply wit_env_ok|]. split; [exact Hre|]. split; [left; exact Hc|]. split; [intros _ _; exact Hsup|exact Hr].
Qed.
