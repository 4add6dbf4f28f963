(** C67: with a nugget of at least eps no residual is skipped; examples. *)
From Coq Require Import String.
From Verif Require Import Base Sums Matrix M_Variogram P_Variogram M_Geometry S_Geometry M_Kriging S_Kriging P_OKSpec M_Init M_Object M_Execute S_Execute
  S_State S_Amplify S_Fit S_Access S_Valid M_UK S_UK P_Object P_Cells P_Data P_Fit P_Fit2 P_Fit3 P_Fit4 P_Fit5 P_Amplify P_Access P_Valid2 P_Valid4 P_State Witness P_UK8 P_UK9.

Lemma all_kept o v s : proper o -> eps <= o_vg o 0 -> (forall i j, (i < j < o_n o)%nat -> eps < sep o i j) -> predicted_from_before o v s ->
  filter (fun i => Rleb eps (s i)) (seq 1 (o_n o - 1)) = seq 1 (o_n o - 1).
Proof.
  intros HP He HD HV. assert (H : forall i, In i (seq 1 (o_n o - 1)) -> Rleb eps (s i) = true).
  { intros i Hi. apply in_seq in Hi. apply Rleb_true. destruct (est_variance_value _ _ _ _ _ _ (HV i ltac:(lia))) as (w & Hw & _ & ->).
    assert (Hg : forall j, (j < i)%nat -> g_of o (datum o i) j = o_vg o (separation o (datum o i) (datum o j))).
    { intros j Hj. apply plain_g; [exact (proj1 HP)|]. intros _. rewrite separation_sym. apply (HD j i). lia. }
    pose proof (nugget_bound o i (fun j => j) (datum o i) w HP (fun a b _ _ h => h) Hg Hw) as HB. cbv beta in HB.
    replace (est_variance i (G_of o) (fun j => o_vg o (separation o (datum o j) (datum o i))) w)
      with (est_variance i (fun a b => G_of o a b) (fun a => g_of o (datum o i) a) w).
    - pose proof (sum_sq_nonneg i w). assert (0 < eps) by (unfold eps; lra). nra.
    - unfold est_variance. f_equal. f_equal. apply bsum_ext. intros j Hj. rewrite (Hg j Hj), separation_sym. reflexivity. }
  revert H. generalize (seq 1 (o_n o - 1)). intros l H. induction l as [|i l IH]; [reflexivity|]. cbn.
  rewrite (H i (or_introl eq_refl)), IH; [reflexivity|]. intros j Hj. apply H. right. exact Hj.
Qed.

Lemma construct_built E c A o : construct E c A = Ok o -> List.length (c_coords A) = cdim c -> built E c A [] o.
Proof. intros HC HL. split; [exact HL|]. exists o. split; [exact HC|reflexivity]. Qed.
Lemma built_snoc E c A us o v o' : built E c A us o -> update_variogram_model E o v = (o', None) -> built E c A (us ++ [v]) o'.
Proof.
  intros (HL & o0 & HC & ->) HU. split; [exact HL|]. exists o0. split; [exact HC|]. unfold after_updates in *. rewrite fold_left_app. cbn. rewrite HU. reflexivity.
Qed.

Theorem reported_construct E c A o : env_ok E -> construct E c A = Ok o -> List.length (c_coords A) = cdim c -> (c = OK2 -> c_stat A = true) ->
  c_pinv A = false -> (forall i j, (i < j < o_n o)%nat -> eps < sep o i j) ->
  exists v s, predicted_from_before o v s /\ reported o v s (filter (fun i => Rleb eps (s i)) (seq 1 (o_n o - 1))).
Proof.
  intros HE HC HL HS HP HD. destruct (construct_stats E c A o HC HS) as (st & K & K').
  destruct (statistics_validate E o st HE) as (v & s & H1 & H2); try assumption; [exact (reachable_inv E o (reach_new E c A o HL HC))| |].
  - pose proof (construct_inv E c A o HC) as (ex & nm & prm & fn & sc & an & f & vp & lags & sv & params & Hall).
    destruct Hall as (_&_&_&_&_&_&_&_&_&-> & _). exact HP.
  - exists v, s. split; [exact H1|]. exact (reported_statistics E c A [] o v s st (construct_built _ _ _ _ HC HL) K' H1 H2).
Qed.
Theorem reported_update E c A us o u o' : env_ok E -> built E c A us o -> update_variogram_model E o u = (o', None) -> c_pinv A = false ->
  (forall i j, (i < j < o_n o')%nat -> eps < sep o' i j) ->
  exists v s, predicted_from_before o' v s /\ reported o' v s (filter (fun i => Rleb eps (s i)) (seq 1 (o_n o' - 1))).
Proof.
  intros HE HB HU HP HD. destruct (update_success_stats E o u o' HU) as (st & K & K').
  pose proof (built_snoc _ _ _ _ _ _ _ HB HU) as HB'. pose proof (P_Data.built_reachable _ _ _ _ _ HB') as HR.
  destruct (statistics_validate E o' st HE) as (v & s & H1 & H2); try assumption; [exact (reachable_inv E o' HR)| |].
  - rewrite (ba_pinv _ _ _ (built_based _ _ _ _ _ HB')); exact HP.
  - exists v, s. split; [exact H1|]. exact (reported_statistics E c A _ o' v s st HB' K' H1 H2).
Qed.

Lemma tri_fields z o : List.length z = 3%nat -> construct WE UK2 (tri_args z) = Ok o ->
  o_n o = 3%nat /\ proper o /\ o_vg o 0 = 1 /\ (forall i j, (i < j < 3)%nat -> 1 <= sep o i j).
Proof.
  intros Hz H.
  destruct (construct_inv WE UK2 _ o H) as (ex & name & prm & fn & sc & an & f & vp & lags & sv & params & Hall).
  destruct Hall as (_&Hex&Hgs&Hf&Hmp&_&Hini&_&Hc&Hpi&_&Hexo&_&Hfo&Hpo&Hn&Horig&Hval&_&_&_&_&Hct).
  cbn in Hex, Hgs, Hn, Horig, Hval, Hpi. injection Hex as <-. injection Hgs as <- <- <- <- <-.
  cbn in Hf. injection Hf as <-. cbn in Hmp. injection Hmp as <-.
  destruct Hct as [(_ & Hct & _ & Hs & Ha & _)|(Hg & _)]; [|discriminate].
  apply init_params in Hini. subst params.
  assert (Hdim : o_dim o = 2%nat) by (unfold o_dim; rewrite Hc; reflexivity).
  split; [exact Hn|]. split; [|split].
  - split; [exact Hct|]. rewrite Hfo, Hpo. apply proper_linear; try reflexivity; cbn; lra.
  - unfold o_vg. rewrite Hfo, Hpo. cbn. unfold linear_variogram_model. cbn. ring.
  - assert (HS : forall p q, separation o p q = sqrt ((lon p - lon q)² + (lat p - lat q)²)).
    { intros [[x y] zz] [[u v] w]. unfold separation, lon, lat. rewrite Hct, Hdim, Hs, Ha. cbn [Nat.eqb fst snd].
      unfold aniso2, rad, dot3, sub3. cbv zeta. replace (0 * PI / 180) with 0 by (field). rewrite cos_0, sin_0. f_equal. unfold Rsqr. ring. }
    assert (HD : forall i, datum o i = (rnth [0; 1; 0] i, rnth [0; 0; 1] i, 0)).
    { intros i. unfold datum, loc. rewrite Hdim, Horig. reflexivity. }
    intros i j Hij. unfold sep. rewrite HS, !HD. unfold lon, lat. cbn [fst snd]. rewrite <- sqrt_1 at 1. apply sqrt_le_1_alt.
    destruct i as [|[|i]]; [| |lia]; (destruct j as [|[|[|j]]]; [lia| | |lia]); try lia; cbn; unfold Rsqr; lra.
Qed.

Theorem ex_reported z : List.length z = 3%nat -> exists o, env_ok WE /\ construct WE UK2 (tri_args z) = Ok o /\
  List.length (c_coords (tri_args z)) = cdim UK2 /\ c_pinv (tri_args z) = false /\ o_n o = 3%nat /\
  proper o /\ eps <= o_vg o 0 /\ (forall i j, (i < j < o_n o)%nat -> eps < sep o i j).
Proof.
  intros Hz. destruct (tri_construct z Hz) as [o Ho]. destruct (tri_fields z o Hz Ho) as (Hn & HP & HV & HD).
  exists o. split; [apply wit_env_ok|]. split; [exact Ho|]. split; [reflexivity|]. split; [reflexivity|]. split; [exact Hn|]. split; [exact HP|].
  assert (eps < 1) by (unfold eps; lra). split; [lra|]. intros i j Hij. rewrite Hn in Hij. specialize (HD i j Hij). lra.
Qed.
