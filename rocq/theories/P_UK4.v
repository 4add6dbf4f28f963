(** Proofs: cells of a universal kriging result are universal kriging estimates. *)
From Coq Require Import String FunctionalExtensionality.
From Verif Require Import Base Sums Matrix M_Variogram P_Variogram M_Geometry S_Geometry P_Geometry M_Kriging S_Kriging
  P_Kriging P_OKSpec M_Init M_Object M_Execute S_Execute P_Object P_Execute P_Cells P_Window P_WindowExec P_Master P_Det
  M_UK S_UK P_UK P_UK2 P_UK3.

Lemma nth_t_data ts k i : t_data (nth k ts no_term) i = nth k (map (fun t => t_data t i) ts) 0.
Proof. revert k. induction ts as [|t ts IH]; intros [|k]; cbn; try reflexivity. apply IH. Qed.
Lemma nth_t_query ts k p pos : t_query (nth k ts no_term) p pos = nth k (map (fun t => t_query t p pos) ts) 0.
Proof. revert k. induction ts as [|t ts IH]; intros [|k]; cbn; try reflexivity. apply IH. Qed.

Lemma call_specs_fit u q specs gs : spec_grids u (q_style q) (q_pts q) specs = Ok gs -> specs_fit u specs.
Proof.
  intros H Hne. destruct (spec_grids_ok u q specs gs H) as [(HN & _)|(ds & -> & HL & _)]; [congruence|exact HL].
Qed.

Lemma data_vals_terms u q specs i : uinv u -> specs_fit u specs -> (i < o_n (u_obj u))%nat ->
  map (fun v : vec => v i) (data_cols u) = map (fun t => t_data t i) (drift_terms u q specs).
Proof.
  intros HI HS Hi. rewrite terms_data by exact HS. rewrite data_cols_vals.
  pose proof (ui_coords u HI) as HC. unfold coords_inv in HC. rewrite (ui_ct u HI) in HC.
  destruct (frame_coord (u_obj u) (o_orig (u_obj u)) (o_adj (u_obj u)) (ui_ct u HI) HC i) as [F1 F2].
  rewrite <- datum_loc in F1, F2. apply at_vals_pos; [exact F1|exact F2|].
  intros arr ex ey zs HE. rewrite HE. apply (ui_ext u HI _ _ _ _ HE i Hi).
Qed.
Lemma mu_count_terms u q specs : specs_fit u specs -> mu_count u = List.length (drift_terms u q specs).
Proof.
  intros HS. unfold mu_count. rewrite <- (map_length (fun t => t_data t 0%nat) (drift_terms u q specs)).
  rewrite terms_data by exact HS. rewrite <- (map_length (fun v : vec => v 0%nat) (data_cols u)), data_cols_vals.
  unfold at_vals, pos_terms. rewrite !app_length, !map_length. destruct (dr_linear (u_drift u)), (dr_ext (u_drift u)) as [[[[? ?] ?] ?]|];
    rewrite ?map_length, ?axes_seq; reflexivity.
Qed.

(** the matrix in terms of the specification *)
Definition UA_spec (u : uobj) (ts : list term) : mat := UA (o_n (u_obj u)) (List.length ts) (G_of (u_obj u)) (F_of ts).
Lemma UA_ext n m G G' F F' : (forall i j, (i < n)%nat -> (j < n)%nat -> G i j = G' i j) ->
  (forall k i, (k < m)%nat -> (i < n)%nat -> F k i = F' k i) -> meq (n + m + 1) (UA n m G F) (UA n m G' F').
Proof.
  intros HG HF i j Hi Hj. unfold UA.
  destruct (Nat.ltb_spec i n), (Nat.ltb_spec j n); try reflexivity.
  - rewrite HG by assumption. reflexivity.
  - destruct (Nat.ltb_spec j (n + m)); [apply HF; lia|reflexivity].
  - destruct (Nat.ltb_spec i (n + m)); [apply HF; lia|reflexivity].
Qed.
Lemma UM_spec u q specs : uinv u -> specs_fit u specs ->
  let ts := drift_terms u q specs in meq (uk_size u) (UM u) (UA_spec u ts).
Proof.
  intros HI HS ts. unfold UA_spec, uk_size. unfold ts. rewrite <- (mu_count_terms u q specs HS).
  apply (meq_trans _ _ _ _ (UM_meq u)). apply UA_ext.
  - intros i j Hi Hj. apply G_of_matrix, (ui_coords u HI).
  - intros k i Hk Hi. unfold cols_F, F_of. rewrite nth_map_apply, nth_t_data.
    rewrite (data_vals_terms u q specs i HI HS Hi). reflexivity.
Qed.

Lemma urhs_spec u q specs gs p pos : specs_fit u specs -> faithful_specs u q ->
  let ts := drift_terms u q specs in
  veq (uk_size u) (urhs u q specs gs p pos) (Ub (o_n (u_obj u)) (List.length ts) (g_of (u_obj u) pos) (f_of ts p pos)).
Proof.
  intros HS HF ts. unfold ts at 1. rewrite <- (mu_count_terms u q specs HS). unfold urhs, uk_size. apply Ub_ext; [intros i _; reflexivity|].
  intros k _. unfold f_of, ts. rewrite nth_t_query, terms_query. unfold pos_terms, used_specs.
  destruct HF as [EV|EN].
  - rewrite EV. cbn [String.eqb Ascii.eqb Bool.eqb].
    destruct (dr_spec (u_drift u)) as [ds|] eqn:ED; [|reflexivity]. cbn [opt_list].
    rewrite <- (map_map snd (fun s => spec_at q s p)). rewrite map_snd_combine; [reflexivity|].
    rewrite (HS ltac:(rewrite ED; discriminate)), ED. reflexivity.
  - rewrite EN. reflexivity.
Qed.

(** consistency of the linear system *)
Lemma usolves E u q specs r l gs a_inv p pos : linalg_ok (e_la E) -> uinv u -> ucall E u q specs r l gs a_inv ->
  uwell_posed u q specs p pos ->
  let ts := drift_terms u q specs in let n := o_n (u_obj u) in let m := List.length ts in
  veq (n + m + 1) (mulv (n + m + 1) (UA_spec u ts) (mulv (n + m + 1) a_inv (Ub n m (g_of (u_obj u) pos) (f_of ts p pos))))
     (Ub n m (g_of (u_obj u) pos) (f_of ts p pos)).
Proof.
  intros HL HI HC HW ts n m. pose proof (call_specs_fit _ _ _ _ (uc_specs _ _ _ _ _ _ _ _ HC)) as HS.
  pose proof (UM_spec u q specs HI HS) as HM. cbv zeta in HM. fold ts in HM.
  pose proof (uc_inv _ _ _ _ _ _ _ _ HC) as HInv.
  assert (Hsz : uk_size u = (n + m + 1)%nat) by (unfold uk_size, m, ts; rewrite (mu_count_terms u q specs HS); reflexivity).
  rewrite Hsz in *.
  destruct (o_pinv (u_obj u)) eqn:EP.
  - destruct HW as [HW|(w & mu & nu & HSys)]; [congruence|].
    pose proof (is_pinv_ext _ _ _ _ HM (invert_pinv _ _ _ _ _ HL HInv)) as HP.
    apply (pinv_solves _ _ _ _ (pack n m w mu nu) HP). apply usystem_iff. apply pack_system. exact HSys.
  - pose proof (invert_ok _ _ _ _ _ HL HInv) as HB.
    apply (inverse_solves (n + m + 1)). apply (is_inverse_ext _ (UM u) _ a_inv a_inv HM (meq_refl _ _) HB).
Qed.

Theorem uk_cells E u q specs r p pos : urun E u q specs r -> shown (u_obj u) q p pos -> uwell_posed u q specs p pos ->
  faithful_specs u q ->
  let ts := drift_terms u q specs in
  exists v s, r_value r p = Some v /\ r_variance r p = Some s /\
    UK_estimate (o_n (u_obj u)) (List.length ts) (G_of (u_obj u)) (F_of ts) (g_of (u_obj u) pos) (f_of ts p pos)
      (o_values (u_obj u)) v s.
Proof.
  intros (HE & HR & w & HX) [C NH] HW HF ts. destruct HE as [HL _]. pose proof (ureachable_inv E u HR) as HI.
  destruct (execute_uk_call E u q specs r w HI HX) as (_ & l & gs & a_inv & HC).
  destruct (uc_cell _ _ _ _ _ _ _ _ HC p pos C NH) as (_ & Hv & Hs).
  pose proof (call_specs_fit _ _ _ _ (uc_specs _ _ _ _ _ _ _ _ HC)) as HSf.
  pose proof (urhs_spec u q specs gs p pos HSf HF) as HB. cbv zeta in HB. fold ts in HB.
  destruct (upoint_ext (o_n (u_obj u)) _ a_inv _ _ (o_values (u_obj u)) HB) as [E1 E2]. rewrite E1 in Hv. rewrite E2 in Hs.
  pose proof (usolves E u q specs r l gs a_inv p pos HL HI HC HW) as HSol. cbv zeta in HSol. fold ts in HSol.
  assert (Hsz : uk_size u = (o_n (u_obj u) + List.length ts + 1)%nat) by (unfold uk_size, ts; rewrite (mu_count_terms u q specs HSf); reflexivity).
  rewrite Hsz in *.
  destruct (upoint_estimate _ _ _ _ _ _ (o_values (u_obj u)) a_inv HSol) as (S1 & S2 & S3).
  eexists _, _. split; [exact Hv|]. split; [exact Hs|]. eexists _, _, _. split; [exact S1|]. split; [exact S2|]. rewrite S3. ring.
Qed.

(** without pseudo_inv the system is uniquely solvable *)
Lemma UK_regular_of_inverse n m G F B : is_inverse (n + m + 1) (UA n m G F) B -> UK_regular n m G F.
Proof.
  intros HB g f. set (b := Ub n m g f).
  pose proof (inverse_solves _ _ _ b HB) as HS. apply usystem_iff in HS.
  eexists _, _, _. split; [exact HS|]. intros w' mu' nu' H'.
  apply pack_system in H'. apply usystem_iff in H'.
  pose proof (inverse_unique_solution _ _ _ _ _ HB H') as HU. fold b in HU.
  split; [|split].
  - intros i Hi. rewrite <- (HU i ltac:(lia)). unfold pack. rewrite (proj2 (Nat.ltb_lt i n) Hi). reflexivity.
  - rewrite <- (HU (n + m)%nat ltac:(lia)). unfold pack. rewrite (proj2 (Nat.ltb_ge (n + m) n)), Nat.ltb_irrefl by lia. ring.
  - intros k Hk. rewrite <- (HU (n + k)%nat ltac:(lia)). unfold pack. rewrite (proj2 (Nat.ltb_ge (n + k) n)) by lia.
    rewrite (proj2 (Nat.ltb_lt (n + k) (n + m))) by lia. replace (n + k - n)%nat with k by lia. ring.
Qed.
Lemma uk_regular E u q specs r : urun E u q specs r -> o_pinv (u_obj u) = false ->
  UK_regular (o_n (u_obj u)) (List.length (drift_terms u q specs)) (G_of (u_obj u)) (F_of (drift_terms u q specs)).
Proof.
  intros (HE & HR & w & HX) HP. destruct HE as [HL _]. pose proof (ureachable_inv E u HR) as HI.
  destruct (execute_uk_call E u q specs r w HI HX) as (_ & l & gs & a_inv & HC).
  pose proof (call_specs_fit _ _ _ _ (uc_specs _ _ _ _ _ _ _ _ HC)) as HSf.
  pose proof (UM_spec u q specs HI HSf) as HM. cbv zeta in HM. pose proof (uc_inv _ _ _ _ _ _ _ _ HC) as HInv.
  assert (Hsz : uk_size u = (o_n (u_obj u) + List.length (drift_terms u q specs) + 1)%nat)
    by (unfold uk_size; rewrite (mu_count_terms u q specs HSf); reflexivity).
  rewrite Hsz, HP in *. apply (UK_regular_of_inverse _ _ _ _ a_inv).
  apply (is_inverse_ext _ (UM u) _ a_inv a_inv HM (meq_refl _ _) (invert_ok _ _ _ _ _ HL HInv)).
Qed.

(** *** consequences *)
Lemma UK_estimate_unique n m G F g f z v s v' s' : UK_regular n m G F ->
  UK_estimate n m G F g f z v s -> UK_estimate n m G F g f z v' s' -> v = v' /\ s = s'.
Proof.
  intros HR (w & mu & nu & HS & -> & ->) (w' & mu' & nu' & HS' & -> & ->).
  destruct (HR g f) as (w0 & mu0 & nu0 & _ & U).
  destruct (U w mu nu HS) as (Uw & Um & Un), (U w' mu' nu' HS') as (Uw' & Um' & Un'). split.
  - apply bsum_ext; intros i Hi. rewrite Uw, Uw' by exact Hi. reflexivity.
  - f_equal; [f_equal|congruence].
    + apply bsum_ext; intros i Hi. rewrite Uw, Uw' by exact Hi. reflexivity.
    + apply bsum_ext; intros k Hk. rewrite Un, Un' by exact Hk. reflexivity.
Qed.

(** linear combinations of the drift functions are reproduced *)
Lemma combination_nth cs vs : combination cs vs = bsum (List.length vs) (fun k => nth k cs 0 * nth k vs 0).
Proof.
  revert vs. induction cs as [|c cs IH]; intros vs.
  - cbn [combination]. rewrite bsum_0; [reflexivity|]. intros [|i] _; cbn; ring.
  - destruct vs as [|v vs]; cbn [combination List.length]; [reflexivity|]. rewrite bsum_S_l. cbn [nth]. rewrite IH. reflexivity.
Qed.
Lemma UK_reproduces n m G F g f z v s c cs : UK_estimate n m G F g f z v s ->
  (forall i, (i < n)%nat -> z i = c + bsum m (fun k => cs k * F k i)) -> v = c + bsum m (fun k => cs k * f k).
Proof.
  intros (w & mu & nu & (H1 & H2 & H3) & -> & _) Hz.
  rewrite (bsum_ext n _ (fun i => w i * c + bsum m (fun k => cs k * (w i * F k i)))).
  2:{ intros i Hi. rewrite Hz by exact Hi. rewrite Rmult_plus_distr_l, <- bsum_scal. f_equal. apply bsum_ext; intros; ring. }
  rewrite bsum_plus, bsum_scal_r, H2, bsum_swap. f_equal; [ring|].
  apply bsum_ext; intros k Hk. rewrite bsum_scal, H3 by exact Hk. reflexivity.
Qed.
