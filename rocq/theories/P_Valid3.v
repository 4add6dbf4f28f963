(** Universal kriging objects with proper models. *)
From Coq Require Import String.
From Verif Require Import Base Sums Matrix M_Variogram M_Geometry S_Geometry M_Kriging S_Kriging M_Init M_Object M_Execute S_Execute M_UK S_UK S_Valid
  P_Object P_Kriging P_Psd P_Psd2 P_Valid P_Valid2 P_Dup P_OKSpec P_OK P_Det P_Exec2 P_Cells P_Execute P_Master P_Options
  P_UK P_UK2 P_UK3 P_UK4 P_UK5 P_UK6.

Definition cols_independent (n m : nat) (F : mat) : Prop :=
  forall (c : R) (cs : vec), (forall i, (i < n)%nat -> c + bsum m (fun k => cs k * F k i) = 0) ->
    c = 0 /\ forall k, (k < m)%nat -> cs k = 0.

Lemma UA_kernel n m G F x : scnd n G -> cols_independent n m F ->
  veq (n + m + 1) (mulv (n + m + 1) (UA n m G F) x) (fun _ => 0) -> veq (n + m + 1) x (fun _ => 0).
Proof.
  intros HG HF Hx.
  assert (H1 : forall i, (i < n)%nat -> - bsum n (fun j => x j * G i j) + bsum m (fun k => x (n + k)%nat * F k i) + x (n + m)%nat = 0).
  { intros i Hi. rewrite <- UA_row by exact Hi. apply Hx. lia. }
  assert (H2 : bsum n x = 0) by (rewrite <- (UA_row_last n m G F x); apply Hx; lia).
  assert (H3 : forall k, (k < m)%nat -> bsum n (fun j => x j * F k j) = 0).
  { intros k Hk. rewrite <- (UA_row_drift n m G F x k Hk). apply Hx. lia. }
  assert (Hw : forall i, (i < n)%nat -> x i = 0).
  { apply (HG x H2). right. symmetry. unfold qf.
    rewrite (bsum_ext n _ (fun i => bsum m (fun k => x (n + k)%nat * (x i * F k i)) + x i * x (n + m)%nat)).
    - rewrite bsum_plus, bsum_scal_r, H2, bsum_swap. rewrite bsum_0; [ring|].
      intros k Hk. rewrite bsum_scal, H3 by exact Hk. ring.
    - intros i Hi. rewrite (bsum_ext n _ (fun j => x i * (x j * G i j))) by (intros; ring). rewrite bsum_scal.
      rewrite (bsum_ext m (fun k => x (n + k)%nat * (x i * F k i)) (fun k => x i * (x (n + k)%nat * F k i))) by (intros; ring).
      rewrite bsum_scal. specialize (H1 i Hi). nra. }
  destruct (HF (x (n + m)%nat) (fun k => x (n + k)%nat)) as [E1 E2].
  { intros i Hi. specialize (H1 i Hi). rewrite (bsum_0 n) in H1 by (intros j Hj; rewrite Hw by exact Hj; ring). lra. }
  intros i Hi. destruct (Nat.lt_ge_cases i n) as [L|L]; [apply Hw; exact L|].
  destruct (Nat.eq_dec i (n + m)) as [->|Hne]; [exact E1|].
  specialize (E2 (i - n)%nat ltac:(lia)). cbv beta in E2. replace (n + (i - n))%nat with i in E2 by lia. exact E2.
Qed.
Lemma UA_nonsingular n m G F : scnd n G -> cols_independent n m F -> nonsingular (n + m + 1) (UA n m G F).
Proof.
  intros HG HF. assert (HK : forall x, veq (n + m + 1) (mulv (n + m + 1) (UA n m G F) x) (fun _ => 0) -> veq (n + m + 1) x (fun _ => 0))
    by (intros x; apply UA_kernel; assumption).
  apply solvable_nonsingular; [|exact HK]. intros b.
  destruct (injective_surjective (n + m + 1) (UA n m G F) HK b) as [x Hx]. exists x. exact Hx.
Qed.
(** a dependence gives a second solution *)
Lemma regular_independent n m G F : UK_regular n m G F -> cols_independent n m F.
Proof.
  intros HR c cs Hc. destruct (HR (fun _ => 0) (fun _ => 0)) as (w & mu & nu & (H1 & H2 & H3) & U).
  destruct (U w (mu + c) (fun k => nu k + cs k)) as (_ & Um & Un).
  - split; [|split; assumption]. intros i Hi. specialize (H1 i Hi). specialize (Hc i Hi).
    rewrite (bsum_ext m (fun k => (nu k + cs k) * F k i) (fun k => nu k * F k i + cs k * F k i)) by (intros; ring).
    rewrite bsum_plus. lra.
  - split; [lra|]. intros k Hk. specialize (Un k Hk). cbv beta in Un. lra.
Qed.
Lemma UK_regular_iff n m G F : scnd n G -> (UK_regular n m G F <-> cols_independent n m F).
Proof.
  intros HG. split; [apply regular_independent|]. intros HF. destruct (UA_nonsingular n m G F HG HF) as [B HB].
  apply (UK_regular_of_inverse n m G F B HB).
Qed.

(** ---- objects ---- *)
Lemma ureachable_proper_scnd u : proper (u_obj u) -> solvable_data (u_obj u) -> scnd (o_n (u_obj u)) (G_of (u_obj u)).
Proof.
  intros HP HD. apply (proper_scnd (u_obj u) (o_n (u_obj u)) (fun i => i) HP); [auto|].
  destruct HD as [HD|HD]; [left; exact HD|right]. exact HD.
Qed.
Lemma uk_regular_iff u q specs : proper (u_obj u) -> solvable_data (u_obj u) ->
  (UK_regular (o_n (u_obj u)) (List.length (drift_terms u q specs)) (G_of (u_obj u)) (F_of (drift_terms u q specs))
   <-> drift_independent u q specs).
Proof. intros HP HD. apply UK_regular_iff. apply ureachable_proper_scnd; assumption. Qed.

Lemma uk_inverts E u q specs pit : env_ok E -> uinv u -> specs_fit u specs -> proper (u_obj u) -> solvable_data (u_obj u) ->
  drift_independent u q specs -> exists b, invert (e_la E) false pit (uk_size u) (UM u) = Ok b.
Proof.
  intros HE HI HS HP HD HF. apply invert_regular_ok; [exact (proj1 HE)| |reflexivity].
  pose proof (UM_spec u q specs HI HS) as HM. cbv zeta in HM.
  destruct (UA_nonsingular (o_n (u_obj u)) (List.length (drift_terms u q specs)) (G_of (u_obj u)) (F_of (drift_terms u q specs))
    (ureachable_proper_scnd u HP HD) HF) as [B HB].
  exists B. assert (Hsz : uk_size u = (o_n (u_obj u) + List.length (drift_terms u q specs) + 1)%nat)
    by (unfold uk_size; rewrite (mu_count_terms u q specs HS); reflexivity).
  rewrite Hsz in *. apply (is_inverse_ext _ (UA_spec u (drift_terms u q specs)) _ B B); [|apply meq_refl|exact HB].
  intros i j Hi Hj. symmetry. apply HM; assumption.
Qed.

Theorem uk_no_linalg_error E u q specs : env_ok E -> ureachable E u -> proper (u_obj u) -> solvable_data (u_obj u) ->
  o_pinv (u_obj u) = false -> drift_independent u q specs -> q_backend q = "vectorized"%string ->
  execute_uk E u q specs <> Err LinAlgError.
Proof.
  intros HE HR HP HD Hpi HF HB. pose proof (ureachable_inv E u HR) as HI. unfold execute_uk. cbv zeta.
  destruct (negb _); [discriminate|]. rewrite UM_eq. cbn [bind].
  change (match o_dim (u_obj u) with 2%nat => locate2 | _ => locate3 end) with (locate (o_dim (u_obj u))).
  destruct (locate (o_dim (u_obj u)) (q_style q) (q_pts q) (q_mask q)) as [l|e1] eqn:EL; cbn [bind].
  2:{ destruct (locate_err _ _ _ _ _ EL) as [->| ->]; discriminate. }
  destruct (spec_grids u (q_style q) (q_pts q) specs) as [gs|e1] eqn:EG; cbn [bind].
  2:{ rewrite (spec_grids_err _ _ _ _ _ EG). discriminate. }
  destruct (adjust_query (u_obj u) (q_int q) (l_at l)) as [pts|e1] eqn:EQ; cbn [bind].
  2:{ unfold adjust_query in EQ. rewrite (ui_ct u HI) in EQ. unfold adjust_for_anisotropy in EQ.
      destruct (o_dim_cases (u_obj u)) as [ED|ED]; rewrite ED in EQ; cbn in EQ;
      destruct (forallb (fun b => b) (q_int q)); try discriminate; injection EQ as <-; discriminate. }
  rewrite HB. cbn [String.eqb Ascii.eqb Bool.eqb].
  pose proof (spec_grids_length u q specs gs EG) as Hgs.
  pose proof (uk_exec_vector_spec (e_la E) u (l_npt l) (UM u) (query_distances (u_obj u) pts)
      (query_array (o_dim (u_obj u)) pts) (l_at l) gs Hgs) as HV. cbv zeta in HV.
  change (o_n (u_obj u) + List.length (data_cols u) + 1)%nat with (uk_size u) in HV.
  rewrite Hpi in HV.
  destruct (uk_inverts E u q specs (o_pinv_type (u_obj u)) HE HI (call_specs_fit _ _ _ _ EG) HP HD HF) as [b Hb].
  rewrite Hb in HV.
  destruct (ext_values _ _ _) as [zv|e1] eqn:EZ.
  2:{ rewrite HV. cbn [bind]. unfold ext_values in EZ. destruct (dr_ext (u_drift u)) as [[[[? ?] ?] ?]|]; [|discriminate].
      destruct (zscalars_err _ _ _ _ _ _ _ EZ) as [-> _]. discriminate. }
  destruct HV as (z & s & -> & _). discriminate.
Qed.

Lemma uk_succeeds_vectorized E u q specs : env_ok E -> ureachable E u -> proper (u_obj u) -> solvable_data (u_obj u) ->
  o_pinv (u_obj u) = false -> drift_independent u q specs -> q_backend q = "vectorized"%string ->
  dr_ext (u_drift u) = None -> dr_spec (u_drift u) = None -> good_query (u_obj u) q ->
  exists r w, execute_uk E u q specs = Ok (r, w).
Proof.
  intros HE HR HP HD Hpi HF HB HX HSp HQ. pose proof (ureachable_inv E u HR) as HI.
  destruct (good_locate (u_obj u) q HQ) as [l HL]. destruct (good_adjust (u_obj u) q l HQ) as [pts Hpts].
  unfold execute_uk. cbv zeta.
  assert (HBad : negb (in_names (q_style q) ["grid"; "masked"; "points"]%string) = false).
  { destruct HQ as ([H|[(H & _)|(H & _)]] & _); rewrite H; reflexivity. }
  rewrite HBad, UM_eq. cbn [bind].
  change (match o_dim (u_obj u) with 2%nat => locate2 | _ => locate3 end) with (locate (o_dim (u_obj u))).
  rewrite HL. cbn [bind]. assert (EG : spec_grids u (q_style q) (q_pts q) specs = Ok []) by (unfold spec_grids; rewrite HSp; reflexivity).
  rewrite EG. cbn [bind]. rewrite Hpts. cbn [bind]. rewrite HB. cbn [String.eqb Ascii.eqb Bool.eqb].
  pose proof (spec_grids_length u q specs [] EG) as Hgs.
  pose proof (uk_exec_vector_spec (e_la E) u (l_npt l) (UM u) (query_distances (u_obj u) pts)
      (query_array (o_dim (u_obj u)) pts) (l_at l) [] Hgs) as HV. cbv zeta in HV.
  change (o_n (u_obj u) + List.length (data_cols u) + 1)%nat with (uk_size u) in HV.
  rewrite Hpi in HV.
  destruct (uk_inverts E u q specs (o_pinv_type (u_obj u)) HE HI (call_specs_fit _ _ _ _ EG) HP HD HF) as [b Hb].
  rewrite Hb in HV. unfold ext_values in HV. rewrite HX in HV.
  destruct HV as (z & s & -> & _). cbn [bind]. eauto.
Qed.

(** succeeds exactly when the drift functions are independent on the data *)
Theorem uk_succeeds_iff E u q specs : env_ok E -> ureachable E u -> proper (u_obj u) -> solvable_data (u_obj u) ->
  o_pinv (u_obj u) = false -> dr_ext (u_drift u) = None -> dr_spec (u_drift u) = None -> good_query (u_obj u) q ->
  q_backend q = "vectorized"%string \/ (q_backend q = "loop"%string /\ off_wells u q) ->
  ((exists r w, execute_uk E u q specs = Ok (r, w)) <-> drift_independent u q specs).
Proof.
  intros HE HR HP HD Hpi HX HSp HQ HB. split.
  - intros (r & w & H). apply (uk_regular_iff u q specs HP HD). apply (uk_regular E u q specs r); [|exact Hpi].
    split; [exact HE|]. split; [exact HR|]. exists w. exact H.
  - intros HF. destruct HB as [HB|[HB HO]]; [apply uk_succeeds_vectorized; assumption|].
    assert (HQ' : good_query (u_obj u) (with_backend q "vectorized")) by exact HQ.
    destruct (uk_succeeds_vectorized E u (with_backend q "vectorized") specs HE HR HP HD Hpi HF eq_refl HX HSp HQ') as (r & w & H).
    pose proof (uk_backends_agree E u q specs HR HSp HO (or_introl HX)) as HA. rewrite H in HA. cbn [arrays bind same_outcome] in HA.
    assert (Eq : with_backend q "loop" = q) by (destruct q; cbn in *; subst; reflexivity).
    rewrite Eq in HA. destruct (execute_uk E u q specs) as [[r' w']|e]; cbn [arrays bind same_outcome] in HA; [eauto|contradiction].
Qed.

Lemma uk_proper_variance E u q specs r p pos : urun E u q specs r -> shown (u_obj u) q p pos ->
  uwell_posed u q specs p pos -> faithful_specs u q -> proper (u_obj u) ->
  (o_exact (u_obj u) = true -> distinct_data (u_obj u)) -> clear_of_data (u_obj u) pos ->
  exists s, r_variance r p = Some s /\ 0 <= s.
Proof. intros HR HS HW HF HP HD HC. apply (uk_variance_nonneg E u q specs r p pos HR HS HW HF). apply proper_cnd_with; assumption. Qed.

Lemma uk_proper_optimal E u q specs r p pos : urun E u q specs r -> shown (u_obj u) q p pos ->
  uwell_posed u q specs p pos -> faithful_specs u q -> proper (u_obj u) ->
  let o := u_obj u in let ts := drift_terms u q specs in let n := o_n o in
  exists w s, bsum n w = 1 /\
    (forall t, In t ts -> bsum n (fun i => w i * t_data t i) = t_query t p pos) /\
    r_value r p = Some (bsum n (fun i => w i * o_values o i)) /\ r_variance r p = Some s /\
    s = est_variance n (G_of o) (g_of o pos) w /\
    (forall w', bsum n w' = 1 -> (forall t, In t ts -> bsum n (fun i => w' i * t_data t i) = t_query t p pos) ->
       s <= est_variance n (G_of o) (g_of o pos) w').
Proof.
  intros HR HS HW HF HP o ts n. destruct (uk_variance_minimal E u q specs r p pos HR HS HW HF) as (w & s & H1 & H2 & Hv & Hs & He & HC).
  exists w, s. repeat (split; [assumption|]). apply HC. apply (proper_cnd o n (fun i => i) HP). auto.
Qed.

Lemma uk_proper_bounds E u q specs r p pos : urun E u q specs r -> shown (u_obj u) q p pos ->
  uwell_posed u q specs p pos -> faithful_specs u q -> proper (u_obj u) -> solvable_data (u_obj u) -> off_data (u_obj u) pos ->
  exists s, r_variance r p = Some s /\ 0 < s /\ o_vg (u_obj u) 0 <= s.
Proof.
  intros HR HS HW HF HP HD HO. destruct (uk_variance_minimal E u q specs r p pos HR HS HW HF) as (w & s & H1 & _ & _ & Hs & He & _).
  set (o := u_obj u) in *.
  assert (Hq : forall i, (i < o_n o)%nat -> g_of o pos i = o_vg o (separation o pos (datum o i))).
  { intros i Hi. apply plain_g; [exact (proj1 HP)|]. apply (HO i Hi). }
  exists s. split; [exact Hs|]. rewrite He. split.
  - apply (strict_bound o (o_n o) (fun i => i) pos w HP); auto. destruct HD as [HD|HD]; [left; exact HD|right]. split; [exact HD|].
    intros i Hi. pose proof (proj1 (HO i Hi)). lra.
  - pose proof (nugget_bound o (o_n o) (fun i => i) pos w HP (fun i j _ _ e => e) Hq H1) as HB. pose proof (sum_sq_nonneg (o_n o) w).
    assert (0 <= o_vg o 0). { destruct HP as [HE HP']. destruct (proper_shape _ _ HP') as (a & nug & gam & Ha & Hn & Hpos & Hs' & Hv'). rewrite (proper_nugget o a nug gam Hv' (proj1 Hs')). exact Hn. }
    cbv beta in HB. change (fun i j => G_of o i j) with (G_of o) in HB. change (fun i => g_of o pos i) with (g_of o pos) in HB. nra.
Qed.
(** adding drift terms never lowers the kriging variance *)
