From Coq Require Import String.
From Verif Require Import Base Sums Matrix M_Variogram M_Geometry S_Geometry M_Kriging S_Kriging M_Init M_Object M_Execute S_Execute
  S_Valid M_UK S_UK S_Line S_Update P_Object P_Execute P_Cells P_OK P_Far P_UK4 P_UK5 P_Update.

(** ordinary kriging as universal kriging without drift *)
Lemma ok_as_uk n G F g f w mu nu : OK_system n G g w mu <-> UK_system n 0 G F g f w mu nu.
Proof.
  unfold OK_system, UK_system. cbn [bsum]. split.
  - intros (A & B). split; [|split]; [intros i Hi; rewrite <- (A i Hi); ring|exact B|intros; lia].
  - intros (A & B & _). split; [intros i Hi; rewrite <- (A i Hi); ring|exact B].
Qed.
Lemma ok_regular_as_uk n G F : OK_regular n G -> UK_regular n 0 G F.
Proof.
  intros HR g f. destruct (HR g) as (w & mu & H & HU). exists w, mu, (fun _ => 0). split; [apply (ok_as_uk n G F g f), H|].
  intros w' mu' nu' H'. apply ok_as_uk in H'. destruct (HU w' mu' H') as [X Y]. split; [exact X|]. split; [exact Y|]. intros k Hk; lia.
Qed.

Section More.
Variables (o o' : obj).
Hypothesis HM : more_data (fun i => i) o o'.
Lemma md_vg d : o_vg o' d = o_vg o d.
Proof. destruct HM. unfold o_vg. congruence. Qed.
Lemma md_dim : o_dim o' = o_dim o.
Proof. destruct HM. unfold o_dim. congruence. Qed.
Lemma md_sep p q : separation o' p q = separation o p q.
Proof. unfold separation. rewrite md_dim. destruct HM as [_ -> _ _ _ -> -> _ _ _]. reflexivity. Qed.
Lemma md_G i j : (i < o_n o)%nat -> (j < o_n o)%nat -> G_of o' i j = G_of o i j.
Proof.
  intros Hi Hj. unfold G_of, data_semivariance. rewrite md_vg, md_sep, (md_datum _ _ _ HM i Hi), (md_datum _ _ _ HM j Hj). reflexivity.
Qed.
Lemma md_g pos i : (i < o_n o)%nat -> g_of o' pos i = g_of o pos i.
Proof.
  intros Hi. unfold g_of, query_semivariance. rewrite md_vg, md_sep, (md_datum _ _ _ HM i Hi). destruct HM as [_ _ -> _ _ _ _ _ _ _]. reflexivity.
Qed.
End More.

Lemma new_row o o' : adds o o' -> (o_exact o = true -> away o (new_place o o')) -> forall i, (i < o_n o)%nat ->
  G_of o' i (o_n o) = g_of o (new_place o o') i /\ G_of o' (o_n o) i = g_of o (new_place o o') i.
Proof.
  intros [HM Hn _] HA i Hi.
  assert (E : G_of o' (o_n o) i = g_of o (new_place o o') i).
  { rewrite g_plain by (intros HX; apply (HA HX), Hi). unfold G_of, data_semivariance. destruct (Nat.eqb_spec (o_n o) i); [lia|].
    rewrite (md_vg o o' HM), (md_sep o o' HM), (md_datum _ _ _ HM i Hi). reflexivity. }
  split; [rewrite G_of_sym|]; exact E.
Qed.

Theorem one_more E o o' qP rP pP q r p q' r' p' pos :
  adds o o' -> run E o qP rP -> run E o q r -> run E o' q' r' ->
  shown o qP pP (new_place o o') -> shown o q p pos -> shown o' q' p' pos ->
  q_window qP = None -> q_window q = None -> q_window q' = None -> regular_for o q -> regular_for o' q' ->
  (o_exact o = true -> away o (new_place o o')) ->
  exists vP sP v s lam, r_value rP pP = Some vP /\ r_variance rP pP = Some sP /\ r_value r p = Some v /\ r_variance r p = Some s /\ sP <> 0 /\
    r_value r' p' = Some (v + lam * (new_value o o' - vP)) /\ r_variance r' p' = Some (s - lam² * sP) /\
    forall o'' q'' r'' p'', indicator (o_n o) o' o'' -> run E o'' q'' r'' -> shown o'' q'' p'' pos -> q_window q'' = None -> regular_for o'' q'' ->
      r_value r'' p'' = Some lam.
Proof.
  intros HA HRP HR HR' HSP HS HS' WP W W' Hreg Hreg' HAw. pose proof HA as [HM Hn HV].
  pose proof (run_is_regular _ _ _ _ HR Hreg W) as RG. pose proof (run_is_regular _ _ _ _ HR' Hreg' W') as RG'.
  destruct (global_cell E o qP rP pP _ HRP HSP RG WP) as (u & muP & SP & VP & VaP).
  destruct (global_cell E o q r p pos HR HS RG W) as (w & mu & Sy & V & Va).
  destruct (global_cell E o' q' r' p' pos HR' HS' RG' W') as (w' & mu' & Sy' & V' & Va').
  rewrite Hn in Sy'. set (N := fun _ : nat => 0). set (F := fun _ _ : nat => 0).
  assert (RG2 : UK_regular (S (o_n o)) 0 (G_of o') F) by (apply ok_regular_as_uk; rewrite <- Hn; exact RG').
  destruct (add_estimate (o_n o) 0 (G_of o) (G_of o') F F (g_of o (new_place o o')) N
              (md_G o o' HM) (new_row o o' HA HAw) (G_of_diag o' (o_n o)) ltac:(intros; lia) ltac:(intros; lia) (fun i j _ _ => G_of_sym o i j)
              u N muP (proj1 (ok_as_uk _ _ _ _ _ _ _ _) SP)
              (g_of o pos) N w mu N (g_of o' pos) N (o_values o) (o_values o') w' mu' N
              RG2 (proj1 (ok_as_uk _ _ _ _ _ _ _ _) Sy) (proj1 (ok_as_uk _ _ _ _ _ _ _ _) Sy') (md_g o o' HM pos) ltac:(intros; lia) HV) as (Q1 & Q2 & Q3).
  cbn [bsum] in Q1, Q3.
  eexists _, _, _, _, (w' (o_n o)). split; [exact VP|]. split; [exact VaP|]. split; [exact V|]. split; [exact Va|].
  split; [intros Z; apply Q1; lra|].
  split; [rewrite V', Hn; f_equal; exact Q2|]. split; [rewrite Va', Hn; f_equal; unfold Rsqr; cbn [bsum]; lra|].
  intros o'' q'' r'' p'' HI HR'' HS'' W'' Hreg''. destruct HI as [HM2 Hn2 HV2].
  pose proof (run_is_regular _ _ _ _ HR'' Hreg'' W'') as RG''.
  destruct (global_cell E o'' q'' r'' p'' pos HR'' HS'' RG'' W'') as (w2 & mu2 & Sy2 & V2 & _).
  rewrite V2. f_equal. rewrite Hn2 in Sy2 |- *.
  assert (Sy3 : OK_system (o_n o') (G_of o') (g_of o' pos) w2 mu2).
  { destruct Sy2 as [X Y]. split; [|exact Y]. intros i Hi. rewrite <- (md_g o' o'' HM2 pos i Hi), <- (X i Hi). f_equal. apply bsum_ext; intros j Hj.
    rewrite (md_G o' o'' HM2 i j Hi Hj). reflexivity. }
  rewrite <- Hn in Sy'. destruct (RG' (g_of o' pos)) as (w3 & mu3 & _ & HU). destruct (HU _ _ Sy') as [U1 _]. destruct (HU _ _ Sy3) as [U2 _].
  rewrite (bsum_ext _ _ (fun i => if Nat.eqb i (o_n o) then w' i else 0)).
  - rewrite Hn. cbn [bsum]. rewrite Nat.eqb_refl, (bsum_0 (o_n o)); [ring|]. intros i Hi. destruct (Nat.eqb_spec i (o_n o)); [lia|reflexivity].
  - intros i Hi. rewrite (HV2 i Hi). destruct (Nat.eqb i (o_n o)); [rewrite U1, U2 by exact Hi|]; ring.
Qed.

Theorem predicted_datum E o o' qP rP pP q r p q' r' p' pos :
  adds o o' -> run E o qP rP -> run E o q r -> run E o' q' r' ->
  shown o qP pP (new_place o o') -> shown o q p pos -> shown o' q' p' pos ->
  q_window qP = None -> q_window q = None -> q_window q' = None -> regular_for o q -> regular_for o' q' ->
  (o_exact o = true -> away o (new_place o o')) ->
  r_value rP pP = Some (new_value o o') -> r_value r' p' = r_value r p.
Proof.
  intros H1 H2 H3 H4 H5 H6 H7 H8 H9 H10 H11 H12 H13 HV.
  destruct (one_more E o o' qP rP pP q r p q' r' p' pos H1 H2 H3 H4 H5 H6 H7 H8 H9 H10 H11 H12 H13) as (vP & sP & v & s & lam & E1 & _ & E2 & _ & _ & E3 & _).
  rewrite HV in E1. injection E1 as E1. rewrite E3, E2, E1. f_equal. ring.
Qed.

(** dual form *)
Theorem surface o : regular o -> exists c a, bsum (o_n o) c = 0 /\
  forall E q r p pos, run E o q r -> q_window q = None -> shown o q p pos ->
    r_value r p = Some (a + bsum (o_n o) (fun i => c i * g_of o pos i)).
Proof.
  intros RG. destruct (dual_form (o_n o) 0 (G_of o) (fun _ _ => 0) (o_values o) (fun i j _ _ => G_of_sym o i j) (ok_regular_as_uk _ _ _ RG)) as (c & a & b & Hc & _ & H).
  exists c, a. split; [exact Hc|]. intros E q r p pos HR W HS. destruct (global_cell E o q r p pos HR HS RG W) as (w & mu & Sy & V & _).
  rewrite V. f_equal. rewrite (H (g_of o pos) (fun _ => 0) w mu (fun _ => 0) (proj1 (ok_as_uk _ _ _ _ _ _ _ _) Sy)). cbn [bsum]. ring.
Qed.
