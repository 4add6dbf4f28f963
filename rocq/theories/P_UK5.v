(** Proofs: drift reproduction, exactness and optimality of universal kriging. *)
From Coq Require Import String.
From Verif Require Import Base Sums Matrix Nz M_Variogram P_Variogram M_Geometry S_Geometry P_Geometry M_Kriging S_Kriging
  P_Kriging P_OKSpec M_Init M_Object M_Execute S_Execute P_Object P_Execute P_Cells P_Window P_WindowExec P_Master P_Det P_OK
  M_UK S_UK P_UK P_UK2 P_UK3 P_UK4.

(** *** C23, C24 *)
Theorem uk_reproduces E u q specs r p pos c cs : urun E u q specs r -> shown (u_obj u) q p pos ->
  uwell_posed u q specs p pos -> faithful_specs u q ->
  let ts := drift_terms u q specs in
  (forall i, (i < o_n (u_obj u))%nat -> o_values (u_obj u) i = c + combination cs (map (fun t => t_data t i) ts)) ->
  r_value r p = Some (c + combination cs (map (fun t => t_query t p pos) ts)).
Proof.
  intros HR HS HW HF ts Hz. destruct (uk_cells E u q specs r p pos HR HS HW HF) as (v & s & -> & _ & HE).
  cbv zeta in HE. fold ts in HE. f_equal.
  rewrite (UK_reproduces _ _ _ _ _ _ _ _ _ c (fun k => nth k cs 0) HE).
  - rewrite combination_nth, map_length. f_equal. apply bsum_ext; intros k _. unfold f_of. rewrite nth_t_query. reflexivity.
  - intros i Hi. rewrite (Hz i Hi). rewrite combination_nth, map_length. f_equal. apply bsum_ext; intros k _. unfold F_of. rewrite nth_t_data. reflexivity.
Qed.

(** affine functions of the original coordinates *)
Lemma parseval3' ax ay az b d :
  let e k := rotated_axis ax ay az k in
  dot3 (e (1,0,0)) b * dot3 (e (1,0,0)) d + dot3 (e (0,1,0)) b * dot3 (e (0,1,0)) d
  + dot3 (e (0,0,1)) b * dot3 (e (0,0,1)) d = dot3 b d.
Proof.
  intros e. pose proof (parseval3 ax ay az (add3 b d)) as P. pose proof (parseval3 ax ay az b) as P1. pose proof (parseval3 ax ay az d) as P2.
  cbv zeta in P, P1, P2. unfold e. clear e.
  set (x := rotated_axis ax ay az (1, 0, 0)) in *. set (y := rotated_axis ax ay az (0, 1, 0)) in *. set (z := rotated_axis ax ay az (0, 0, 1)) in *.
  clearbody x y z.
  assert (A : forall x y z, dot3 x (add3 y z) = dot3 x y + dot3 x z).
  { intros [[a1 a2] a3] [[b1 b2] b3] [[c1 c2] c3]. cbn. ring. }
  assert (B : forall x y, dot3 x y = dot3 y x). { intros [[a1 a2] a3] [[b1 b2] b3]. cbn. ring. }
  rewrite (A (add3 b d)), !(B (add3 b d)), !A in P. rewrite (B d b) in P. lra.
Qed.

Definition in_dim (dim : nat) (p : vec3) : Prop := dim = 2%nat -> snd p = 0.
Lemma cell_in_dim dim q p pos : cell dim q p pos -> in_dim dim pos.
Proof. intros H E. destruct H; subst; reflexivity || (subst; discriminate) || idtac; unfold loc; cbn; reflexivity. Qed.
Lemma datum_in_dim o i : in_dim (o_dim o) (datum o i).
Proof. intros E. unfold datum. rewrite E. reflexivity. Qed.

Lemma affine_terms u q specs (a : R) (b : vec3) : dr_linear (u_drift u) = true ->
  o_scaling (u_obj u) 0%nat <> 0 -> (o_dim (u_obj u) = 3%nat -> o_scaling (u_obj u) 1%nat <> 0) ->
  exists c cs, (forall i, a + dot3 b (datum (u_obj u) i) = c + combination cs (map (fun t => t_data t i) (drift_terms u q specs))) /\
    (forall p pos, in_dim (o_dim (u_obj u)) pos ->
       a + dot3 b pos = c + combination cs (map (fun t => t_query t p pos) (drift_terms u q specs))).
Proof.
  intros HL H1 H2. set (o := u_obj u) in *.
  assert (K : exists c cs, List.length cs = o_dim o /\ forall pos, in_dim (o_dim o) pos ->
     a + dot3 b pos = c + combination cs (map (fun k => coord k (frame o pos)) (seq 0 (o_dim o)))).
  { destruct (o_dim_cases o) as [ED|ED].
    - set (al := rad (o_angle o 0%nat)). set (b1 := dot3 (cos al, sin al, 0) b). set (b2 := dot3 (- sin al, cos al, 0) b).
      set (s := o_scaling o 0%nat) in *.
      exists (a + dot3 b (center3 o) - b1 * coord 0 (center3 o) - b2 / s * coord 1 (center3 o)), [b1; b2 / s].
      split; [rewrite ED; reflexivity|]. intros [[x y] z] Hz. specialize (Hz ED). cbn in Hz. subst z.
      rewrite ED. unfold frame. rewrite ED. cbn [Nat.eqb]. fold al s.
      assert (HC : snd (center3 o) = 0) by (unfold center3; rewrite ED; reflexivity).
      destruct (center3 o) as [[cx cy] cz]. cbn in HC. subst cz. destruct b as [[bx by_] bz].
      cbn [seq map combination coord sub3 add3 fst snd]. unfold b1, b2. cbn [dot3].
      pose proof (sc1 al) as SC. apply (Rmult_eq_reg_l s); [|exact H1].
      replace (s * (a + (bx * cx + by_ * cy + bz * 0) - (cos al * bx + sin al * by_ + 0 * bz) * cx - (- sin al * bx + cos al * by_ + 0 * bz) / s * cy + ((cos al * bx + sin al * by_ + 0 * bz) * (cx + (cos al * (x - cx) + sin al * (y - cy) + 0 * (0 - 0))) + ((- sin al * bx + cos al * by_ + 0 * bz) / s * (cy + s * (- sin al * (x - cx) + cos al * (y - cy) + 0 * (0 - 0))) + 0))))
        with (s * (a + (bx * cx + by_ * cy) + (cos al * bx + sin al * by_) * (cos al * (x - cx) + sin al * (y - cy)) + (- sin al * bx + cos al * by_) * (- sin al * (x - cx) + cos al * (y - cy)))) by (field; exact H1).
      assert (X : (cos al * bx + sin al * by_) * (cos al * (x - cx) + sin al * (y - cy)) + (- sin al * bx + cos al * by_) * (- sin al * (x - cx) + cos al * (y - cy)) = bx * (x - cx) + by_ * (y - cy)).
      { nsz. }
      apply (f_equal (fun r => s * (a + (bx * cx + by_ * cy) + r))) in X. lra.
    - set (e := fun k => rotated_axis (rad (o_angle o 0%nat)) (rad (o_angle o 1%nat)) (rad (o_angle o 2%nat)) k).
      set (b1 := dot3 (e (1,0,0)) b). set (b2 := dot3 (e (0,1,0)) b). set (b3 := dot3 (e (0,0,1)) b).
      set (s := o_scaling o 0%nat) in *. specialize (H2 ED). set (t := o_scaling o 1%nat) in *.
      exists (a + dot3 b (center3 o) - b1 * coord 0 (center3 o) - b2 / s * coord 1 (center3 o) - b3 / t * coord 2 (center3 o)), [b1; b2 / s; b3 / t].
      split; [rewrite ED; reflexivity|]. intros pos _.
      pose proof (parseval3' (rad (o_angle o 0%nat)) (rad (o_angle o 1%nat)) (rad (o_angle o 2%nat)) b (sub3 pos (center3 o))) as P.
      cbv zeta in P. change (b1 * dot3 (e (1,0,0)) (sub3 pos (center3 o)) + b2 * dot3 (e (0,1,0)) (sub3 pos (center3 o))
        + b3 * dot3 (e (0,0,1)) (sub3 pos (center3 o)) = dot3 b (sub3 pos (center3 o))) in P.
      rewrite ED.
      assert (EF : frame o pos = add3 (center3 o) (dot3 (e (1,0,0)) (sub3 pos (center3 o)),
          s * dot3 (e (0,1,0)) (sub3 pos (center3 o)), t * dot3 (e (0,0,1)) (sub3 pos (center3 o)))).
      { unfold frame. rewrite ED. reflexivity. }
      rewrite EF.
      assert (S : dot3 b pos = dot3 b (center3 o) + dot3 b (sub3 pos (center3 o))).
      { destruct b as [[? ?] ?], pos as [[? ?] ?], (center3 o) as [[? ?] ?]. cbn. ring. }
      rewrite S, <- P. clear P S EF. clearbody b1 b2 b3 s t.
      set (d1 := dot3 (e (1,0,0)) _). set (d2 := dot3 (e (0,1,0)) _). set (d3 := dot3 (e (0,0,1)) _). clearbody d1 d2 d3.
      destruct (center3 o) as [[cx cy] cz]. cbn [seq map combination coord add3 fst snd]. field. split; assumption. }
  destruct K as (c & cs & Hl & K). exists c, cs.
  assert (CA : forall cs vs ws, List.length cs = List.length vs -> combination cs (vs ++ ws) = combination cs vs).
  { intros cs0. induction cs0 as [|x cs0 IH]; intros [|v vs] ws Hn; cbn in *; try discriminate; [destruct ws; reflexivity|]. rewrite IH by lia. reflexivity. }
  assert (EL : linear_terms u = map (fun k => spatial o (fun p => coord k (frame o p))) (seq 0 (o_dim o))) by (unfold linear_terms; rewrite HL; reflexivity).
  split.
  - intros i. unfold drift_terms. rewrite EL, map_app, CA by (rewrite !map_length, seq_length; exact Hl).
    rewrite map_map. cbn [spatial t_data]. apply K, datum_in_dim.
  - intros p pos Hp. unfold drift_terms. rewrite EL, map_app, CA by (rewrite !map_length, seq_length; exact Hl).
    rewrite map_map. cbn [spatial t_query]. apply K, Hp.
Qed.

Theorem uk_affine E u q specs r p pos a b : urun E u q specs r -> shown (u_obj u) q p pos ->
  uwell_posed u q specs p pos -> faithful_specs u q -> dr_linear (u_drift u) = true ->
  o_scaling (u_obj u) 0%nat <> 0 -> (o_dim (u_obj u) = 3%nat -> o_scaling (u_obj u) 1%nat <> 0) ->
  (forall i, (i < o_n (u_obj u))%nat -> o_values (u_obj u) i = a + dot3 b (datum (u_obj u) i)) ->
  r_value r p = Some (a + dot3 b pos).
Proof.
  intros HR HS HW HF HL H1 H2 Hz. destruct (affine_terms u q specs a b HL H1 H2) as (c & cs & K1 & K2).
  rewrite (K2 p pos) by (apply (cell_in_dim _ q p), HS). apply (uk_reproduces E); try assumption.
  intros i Hi. rewrite Hz by exact Hi. apply K1.
Qed.

(** *** exactness *)
Lemma UK_exact n m G F g f z k v s : UK_regular n m G F -> (k < n)%nat -> G k k = 0 ->
  veq n g (fun i => G i k) -> veq m f (fun j => F j k) -> UK_estimate n m G F g f z v s -> v = z k /\ s = 0.
Proof.
  intros HR Hk Hkk Hg Hf He.
  apply (UK_estimate_unique n m G F g f z); [exact HR|exact He|].
  exists (fun i => if Nat.eqb i k then 1 else 0), 0, (fun _ => 0). split; [split; [|split]|split].
  - intros i Hi. rewrite (bsum_delta n k (fun j => G i j) Hk), bsum_0 by (intros; ring). rewrite Hg by exact Hi. ring.
  - transitivity (bsum n (fun i => (if Nat.eqb i k then 1 else 0) * 1)); [apply bsum_ext; intros; ring|].
    rewrite (bsum_delta n k (fun _ => 1) Hk). reflexivity.
  - intros j Hj. rewrite (bsum_delta n k (fun i => F j i) Hk). symmetry. apply Hf, Hj.
  - symmetry. apply (bsum_delta n k z Hk).
  - rewrite (bsum_delta n k g Hk), Hg, Hkk, bsum_0 by (try assumption; intros; ring). ring.
Qed.

Lemma uregular_get E u q specs r : urun E u q specs r -> uregular u q specs ->
  UK_regular (o_n (u_obj u)) (List.length (drift_terms u q specs)) (G_of (u_obj u)) (F_of (drift_terms u q specs)).
Proof. intros HR [H|H]; [exact (uk_regular E u q specs r HR H)|exact H]. Qed.
Lemma uregular_well_posed u q specs p pos : uregular u q specs -> uwell_posed u q specs p pos.
Proof. intros [H|H]; [left; exact H|right]. destruct (H (g_of (u_obj u) pos) (f_of (drift_terms u q specs) p pos)) as (w & mu & nu & S & _). exists w, mu, nu. exact S. Qed.

(** all terms but the specified ones take the datum's value at the datum *)
Lemma terms_at_datum u k p t : In t (linear_terms u ++ well_terms u ++ ext_terms u ++ fun_terms u) ->
  t_query t p (datum (u_obj u) k) = t_data t k.
Proof.
  intros H. repeat (apply in_app_or in H as [H|H]).
  - unfold linear_terms in H. destruct (dr_linear (u_drift u)); [|destruct H]. apply in_map_iff in H as (x & <- & _). reflexivity.
  - unfold well_terms in H. apply in_map_iff in H as ([[wx wy] sg] & <- & _). reflexivity.
  - unfold ext_terms in H. destruct (dr_ext (u_drift u)) as [[[[? ?] ?] ?]|]; [|destruct H]. destruct H as [<-|[]]. reflexivity.
  - unfold fun_terms in H. apply in_map_iff in H as (x & <- & _). reflexivity.
Qed.

Theorem uk_interpolates E u q specs r p k : urun E u q specs r -> uregular u q specs -> faithful_specs u q ->
  o_exact (u_obj u) = true -> (k < o_n (u_obj u))%nat -> shown (u_obj u) q p (datum (u_obj u) k) ->
  (forall t, In t (spec_terms u q specs) -> t_query t p (datum (u_obj u) k) = t_data t k) ->
  (forall i, (i < o_n (u_obj u))%nat -> i <> k -> eps < separation (u_obj u) (datum (u_obj u) k) (datum (u_obj u) i)) ->
  r_value r p = Some (o_values (u_obj u) k) /\ r_variance r p = Some 0.
Proof.
  intros HR Hreg HF Hex Hk HS HSp Hsep. set (o := u_obj u) in *.
  destruct (uk_cells E u q specs r p _ HR HS (uregular_well_posed _ _ _ _ _ Hreg) HF) as (v & s & -> & -> & HE). cbv zeta in HE. fold o in HE.
  assert (D0 : separation o (datum o k) (datum o k) = 0) by apply separation_refl'.
  destruct (UK_exact (o_n o) (List.length (drift_terms u q specs)) (G_of o) (F_of (drift_terms u q specs))
     (g_of o (datum o k)) (f_of (drift_terms u q specs) p (datum o k)) (o_values o) k v s) as [-> ->]; try assumption.
  - exact (uregular_get E u q specs r HR Hreg).
  - apply G_of_diag.
  - intros i Hi. unfold g_of, query_semivariance. rewrite Rabs_pos_eq by apply separation_nonneg. rewrite Hex. cbn [andb].
    destruct (Nat.eq_dec i k) as [->|Hne].
    + rewrite D0, G_of_diag. rewrite (proj2 (Rleb_true 0 eps)); [reflexivity|]. left. apply eps_pos.
    + rewrite (proj2 (Rleb_false _ _) (Hsep i Hi Hne)). unfold G_of, data_semivariance.
      destruct (Nat.eqb_spec i k); [contradiction|]. rewrite separation_sym. reflexivity.
  - intros j Hj. unfold f_of, F_of. set (t := nth j (drift_terms u q specs) no_term).
    assert (HI : In t (drift_terms u q specs)) by (apply nth_In; exact Hj).
    unfold drift_terms in HI. 
    assert (HI' : In t (linear_terms u ++ well_terms u ++ ext_terms u ++ fun_terms u) \/ In t (spec_terms u q specs)).
    { rewrite !in_app_iff in *. tauto. }
    destruct HI' as [H|H]; [apply terms_at_datum, H|apply HSp, H].
  - auto.
Qed.

(** *** optimality *)
Lemma UK_variance_value n m G F g f w mu nu : UK_system n m G F g f w mu nu ->
  bsum n (fun i => w i * g i) + bsum m (fun k => nu k * f k) + mu = est_variance n G g w.
Proof.
  intros (H1 & H2 & H3). unfold est_variance.
  assert (E : bsum n (fun i => bsum n (fun j => w i * w j * G i j)) = bsum n (fun i => w i * g i) - bsum m (fun k => nu k * f k) - mu).
  { rewrite (bsum_ext n _ (fun i => w i * g i - bsum m (fun k => nu k * (w i * F k i)) - mu * w i)).
    - rewrite !bsum_minus, bsum_scal, H2, bsum_swap. f_equal; [f_equal|ring].
      apply bsum_ext; intros k Hk. rewrite bsum_scal, H3 by exact Hk. reflexivity.
    - intros i Hi. rewrite <- H1 by assumption.
      transitivity (w i * bsum n (fun j => w j * G i j)); [rewrite <- bsum_scal; apply bsum_ext; intros; ring|].
      assert (Y : bsum m (fun k => nu k * (w i * F k i)) = w i * bsum m (fun k => nu k * F k i)) by (rewrite <- bsum_scal; apply bsum_ext; intros; ring).
      rewrite Y. ring. }
  rewrite E. ring.
Qed.

Lemma UK_optimal n m G F g f w mu nu : (forall i j, (i < n)%nat -> (j < n)%nat -> G i j = G j i) ->
  cond_neg_def n G -> UK_system n m G F g f w mu nu ->
  forall w', bsum n w' = 1 -> (forall k, (k < m)%nat -> bsum n (fun i => w' i * F k i) = f k) ->
    est_variance n G g w <= est_variance n G g w'.
Proof.
  intros HG HC (H1 & H2 & H3) w' Hw' HF'. unfold est_variance.
  set (d := fun i => w' i - w i).
  assert (Hd : bsum n d = 0) by (unfold d; rewrite bsum_minus, Hw', H2; ring).
  assert (HdF : forall k, (k < m)%nat -> bsum n (fun i => d i * F k i) = 0).
  { intros k Hk. rewrite (bsum_ext n _ (fun i => w' i * F k i - w i * F k i)) by (intros; unfold d; ring).
    rewrite bsum_minus, HF', H3 by exact Hk. ring. }
  rewrite (bsum_ext n (fun i => w' i * g i) (fun i => w i * g i + d i * g i)) by (intros; unfold d; ring).
  rewrite bsum_plus.
  rewrite (bsum_ext n (fun i => bsum n (fun j => w' i * w' j * G i j))
     (fun i => bsum n (fun j => (w i + d i) * (w j + d j) * G i j)))
    by (intros; apply bsum_ext; intros; unfold d; ring).
  rewrite quad_expand by assumption.
  assert (E : bsum n (fun i => d i * g i) = bsum n (fun i => d i * bsum n (fun j => w j * G i j))).
  { rewrite (bsum_ext n (fun i => d i * g i)
      (fun i => d i * bsum n (fun j => w j * G i j) + bsum m (fun k => nu k * (d i * F k i)) + d i * mu)).
    - rewrite !bsum_plus, bsum_scal_r, Hd, bsum_swap.
      rewrite (bsum_0 m); [ring|]. intros k Hk. rewrite bsum_scal, HdF by exact Hk. ring.
    - intros i Hi. rewrite <- H1 by assumption.
      assert (Y : bsum m (fun k => nu k * (d i * F k i)) = d i * bsum m (fun k => nu k * F k i)) by (rewrite <- bsum_scal; apply bsum_ext; intros; ring).
      rewrite Y. ring. }
  rewrite E. specialize (HC d Hd). lra.
Qed.

Theorem uk_variance_minimal E u q specs r p pos : urun E u q specs r -> shown (u_obj u) q p pos ->
  uwell_posed u q specs p pos -> faithful_specs u q ->
  let o := u_obj u in let ts := drift_terms u q specs in let n := o_n o in
  exists w s, bsum n w = 1 /\
    (forall t, In t ts -> bsum n (fun i => w i * t_data t i) = t_query t p pos) /\
    r_value r p = Some (bsum n (fun i => w i * o_values o i)) /\ r_variance r p = Some s /\
    s = est_variance n (G_of o) (g_of o pos) w /\
    (cond_neg_def n (G_of o) -> forall w', bsum n w' = 1 ->
       (forall t, In t ts -> bsum n (fun i => w' i * t_data t i) = t_query t p pos) ->
       s <= est_variance n (G_of o) (g_of o pos) w').
Proof.
  intros HR HS HW HF o ts n. destruct (uk_cells E u q specs r p pos HR HS HW HF) as (v & s & Hv & Hs & (w & mu & nu & HSys & Ev & Es)).
  fold o ts n in HSys, Ev, Es. exists w, s. pose proof HSys as (H1 & H2 & H3).
  pose proof (UK_variance_value _ _ _ _ _ _ _ _ _ HSys) as EV. rewrite <- Es in EV.
  split; [exact H2|]. split; [|split; [rewrite Hv, Ev; reflexivity|split; [exact Hs|split; [exact EV|]]]].
  - intros t Ht. apply (In_nth _ _ no_term) in Ht as (k & Hk & <-). apply (H3 k Hk).
  - intros HC w' Hw' Ht'. rewrite EV. apply (UK_optimal n (List.length ts) (G_of o) (F_of ts) _ (f_of ts p pos) w mu nu); try assumption.
    + intros i j _ _. apply G_of_sym.
    + intros k Hk. apply (Ht' (nth k ts no_term)), nth_In, Hk.
Qed.

Theorem uk_variance_nonneg E u q specs r p pos : urun E u q specs r -> shown (u_obj u) q p pos ->
  uwell_posed u q specs p pos -> faithful_specs u q ->
  cond_neg_def_with (o_n (u_obj u)) (G_of (u_obj u)) (g_of (u_obj u) pos) ->
  exists s, r_variance r p = Some s /\ 0 <= s.
Proof.
  intros HR HS HW HF HC. destruct (uk_variance_minimal E u q specs r p pos HR HS HW HF) as (w & s & H1 & _ & _ & Hs & -> & _).
  exists (est_variance (o_n (u_obj u)) (G_of (u_obj u)) (g_of (u_obj u) pos) w). split; [exact Hs|].
  specialize (HC w (-1) ltac:(lra)). unfold est_variance. lra.
Qed.
