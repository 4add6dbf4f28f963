(** Exceptions of the universal execute once shapes are right; coinciding data. *)
From Coq Require Import String.
From Verif Require Import Base Sums Matrix M_Variogram M_Geometry S_Geometry M_Kriging S_Kriging M_Init M_Object M_Execute S_Execute M_UK S_UK S_UK2 S_Valid S_Bilinear S_Drift
  P_Object P_Kriging P_Psd P_Psd2 P_Valid P_Valid2 P_Dup P_OKSpec P_OK P_Det P_Exec2 P_Cells P_Execute P_Master P_Options P_Data
  P_Geometry P_Bilinear P_UK P_UK2 P_UK3 P_UK4 P_UK5 P_UK6 P_Valid3 P_UK18 P_UK8 P_UK19 P_UK11 P_UK13 P_State2 S_State P_Data2 P_Linear Witness Witness3 P_UK9 P_UK17 P_Valid5 P_Valid6 P_Valid7.

Lemma singular_invert E u q specs pit : env_ok E -> uinv u -> specs_fit u specs -> ~ drift_regular u q specs ->
  invert (e_la E) false pit (uk_size u) (UM u) = Err LinAlgError.
Proof.
  intros HE HI HS HF. destruct (invert (e_la E) false pit (uk_size u) (UM u)) as [a|e] eqn:EI.
  2:{ destruct (invert_err _ _ _ _ _ (proj1 HE) EI) as [-> _]. reflexivity. }
  exfalso. apply HF. pose proof (UM_spec u q specs HI HS) as HM. cbv zeta in HM.
  assert (Hsz : uk_size u = (o_n (u_obj u) + List.length (drift_terms u q specs) + 1)%nat)
    by (unfold uk_size; rewrite (mu_count_terms u q specs HS); reflexivity).
  rewrite Hsz in *. unfold drift_regular. apply (UK_regular_of_inverse _ _ _ _ a).
  apply (is_inverse_ext _ (UM u) _ a a HM (meq_refl _ _)). apply (invert_ok _ _ _ _ _ (proj1 HE) EI).
Qed.

Theorem singular_raises E u q specs : env_ok E -> ureachable E u -> o_pinv (u_obj u) = false ->
  q_backend q = "vectorized"%string \/ q_backend q = "loop"%string ->
  good_query (u_obj u) q -> good_specs u q specs -> ~ drift_regular u q specs ->
  execute_uk E u q specs = Err LinAlgError.
Proof.
  intros HE HR Hpi HB HQ HS HF. pose proof (ureachable_inv E u HR) as HI.
  destruct (good_locate (u_obj u) q HQ) as [l HL]. destruct (good_adjust (u_obj u) q l HQ) as [pts Hpts].
  pose proof (good_style (u_obj u) q HQ) as ES. destruct (proj2 (spec_grids_iff E u q specs HR ES) HS) as [gs EG].
  apply in_names_In in ES. unfold style_names in ES. unfold execute_uk. cbv zeta. rewrite ES, UM_eq. cbn [negb bind].
  change (match o_dim (u_obj u) with 2%nat => locate2 | _ => locate3 end) with (locate (o_dim (u_obj u))).
  rewrite HL. cbn [bind]. rewrite EG. cbn [bind]. rewrite Hpts. cbn [bind].
  pose proof (singular_invert E u q specs (o_pinv_type (u_obj u)) HE HI (call_specs_fit _ _ _ _ EG) HF) as HV.
  destruct HB as [HB|HB]; rewrite HB; cbn [String.eqb Ascii.eqb Bool.eqb].
  - pose proof (uk_exec_vector_spec (e_la E) u (l_npt l) (UM u) (query_distances (u_obj u) pts)
      (query_array (o_dim (u_obj u)) pts) (l_at l) gs (spec_grids_length u q specs gs EG)) as HX. cbv zeta in HX.
    change (o_n (u_obj u) + List.length (data_cols u) + 1)%nat with (uk_size u) in HX. rewrite Hpi, HV in HX. rewrite HX. reflexivity.
  - unfold uk_exec_loop. cbv zeta. replace (n_withdrifts u + 1)%nat with (uk_size u) by (rewrite n_withdrifts_cols; reflexivity).
    rewrite Hpi, HV. reflexivity.
Qed.

Theorem outside_raises E u q specs : env_ok E -> ureachable E u -> o_pinv (u_obj u) = false ->
  q_backend q = "vectorized"%string -> good_query (u_obj u) q -> good_specs u q specs -> drift_regular u q specs ->
  ~ (forall p pos, cell (o_dim (u_obj u)) q p pos -> in_grid u pos) ->
  execute_uk E u q specs = Err ValueError.
Proof.
  intros HE HR Hpi HB HQ HS HF HX. pose proof (ureachable_inv E u HR) as HI.
  destruct (good_locate (u_obj u) q HQ) as [l HL]. destruct (good_adjust (u_obj u) q l HQ) as [pts Hpts].
  pose proof (good_style (u_obj u) q HQ) as ES. destruct (proj2 (spec_grids_iff E u q specs HR ES) HS) as [gs EG].
  apply in_names_In in ES. unfold style_names in ES. unfold execute_uk. cbv zeta. rewrite ES, UM_eq. cbn [negb bind].
  change (match o_dim (u_obj u) with 2%nat => locate2 | _ => locate3 end) with (locate (o_dim (u_obj u))).
  rewrite HL. cbn [bind]. rewrite EG. cbn [bind]. rewrite Hpts. cbn [bind]. rewrite HB. cbn [String.eqb Ascii.eqb Bool.eqb].
  pose proof (uk_exec_vector_spec (e_la E) u (l_npt l) (UM u) (query_distances (u_obj u) pts)
    (query_array (o_dim (u_obj u)) pts) (l_at l) gs (spec_grids_length u q specs gs EG)) as HV. cbv zeta in HV.
  change (o_n (u_obj u) + List.length (data_cols u) + 1)%nat with (uk_size u) in HV. rewrite Hpi in HV.
  destruct (uk_inverts_regular E u q specs (o_pinv_type (u_obj u)) HE HI (call_specs_fit _ _ _ _ EG) HF) as [b Hb].
  rewrite Hb in HV. destruct (ext_values _ _ _) as [zv|e] eqn:EZ.
  { exfalso. apply HX. apply (ext_values_iff u q l HL). eauto. }
  rewrite HV. cbn [bind]. unfold ext_values in EZ. destruct (dr_ext (u_drift u)) as [[[[? ?] ?] ?]|]; [|discriminate].
  destruct (zscalars_err _ _ _ _ _ _ _ EZ) as [-> _]. reflexivity.
Qed.

(** what the loop raises: the exception of some shown cell *)
Theorem loop_raises E u q specs e : env_ok E -> ureachable E u -> o_pinv (u_obj u) = false -> q_backend q = "loop"%string ->
  good_query (u_obj u) q -> good_specs u q specs -> drift_regular u q specs ->
  execute_uk E u q specs = Err e -> exists p pos, shown (u_obj u) q p pos /\ cell_problem u q pos e.
Proof.
  intros HE HR Hpi HB HQ HS HF H. pose proof (ureachable_inv E u HR) as HI.
  destruct (good_locate (u_obj u) q HQ) as [l HL]. destruct (good_adjust (u_obj u) q l HQ) as [pts Hpts].
  pose proof (good_style (u_obj u) q HQ) as ES. destruct (proj2 (spec_grids_iff E u q specs HR ES) HS) as [gs EG].
  apply in_names_In in ES. unfold style_names in ES. unfold execute_uk in H. cbv zeta in H. rewrite ES, UM_eq in H. cbn [negb bind] in H.
  change (match o_dim (u_obj u) with 2%nat => locate2 | _ => locate3 end) with (locate (o_dim (u_obj u))) in H.
  rewrite HL in H. cbn [bind] in H. rewrite EG in H. cbn [bind] in H. rewrite Hpts in H. cbn [bind] in H. rewrite HB in H. cbn [String.eqb Ascii.eqb Bool.eqb] in H.
  unfold uk_exec_loop in H. cbv zeta in H. replace (n_withdrifts u + 1)%nat with (uk_size u) in H by (rewrite n_withdrifts_cols; reflexivity). rewrite Hpi in H.
  destruct (uk_inverts_regular E u q specs (o_pinv_type (u_obj u)) HE HI (call_specs_fit _ _ _ _ EG) HF) as [a_inv Hb].
  rewrite Hb in H. cbn [bind] in H.
  pose proof (uloop_gen (fun j => uk_rhs_loop u (l_npt l) (query_distances (u_obj u) pts j)
       (query_array (o_dim (u_obj u)) pts) (l_at l) gs j) (o_n (u_obj u)) (uk_size u) a_inv (o_values (u_obj u))
       (unmasked (l_npt l) (l_mask l)) (unmasked_NoDup _ _) (fun _ => 0) (fun _ => 0) false) as HG.
  destruct (foldM _ _ _) as [[[z s] w1]|e''] in HG, H; [discriminate|]. cbn [bind] in H. injection H as ->.
  destruct HG as (j & Hj & HRhs). unfold unmasked in Hj. apply filter_In in Hj as [Hj Hm]. apply in_seq in Hj.
  destruct (locate_all_cells _ q l j (o_dim_cases _) HL ltac:(lia)) as (pos & HC).
  exists j, pos. split.
  { split; [exact HC|]. rewrite (cell_hidden_mask _ q l j pos (o_dim_cases _) HL HC). destruct (l_mask l j); [discriminate|].
    rewrite andb_false_r. discriminate. }
  pose proof (uk_rhs_loop_spec u (l_npt l) (query_distances (u_obj u) pts j) (query_array (o_dim (u_obj u)) pts) (l_at l) gs j
    (spec_grids_length u q specs gs EG)) as HSp. cbv zeta in HSp. cbv beta in HRhs.
  pose proof (at_well_iff u q l pts j pos HI HL Hpts HC) as HW. pose proof (ext_value_iff u q l j pos HL HC) as HX.
  destruct (at_well (u_drift u) _) eqn:EW.
  - left. rewrite HSp in HRhs. injection HRhs as <-. split; [|reflexivity]. intros Hn. apply HW in Hn. discriminate.
  - right. pose proof (proj1 HW eq_refl) as Hw. destruct (ext_value (u_drift u) (l_at l) j) as [zz|e1] eqn:EZ.
    + right. destruct HSp as [HSp1 HSp2]. split; [exact Hw|]. split; [apply HX; eauto|].
      pose proof (spec_grids_length u q specs gs EG) as Hgs.
      destruct (Nat.le_gt_cases (spec_row u + List.length gs) (l_npt l)) as [Hle|Hgt].
      { exfalso. destruct HSp2 as (b & Hb' & _); [right; exact Hle|congruence]. }
      destruct gs as [|g0 gs']; [exfalso; destruct HSp2 as (b & Hb' & _); [left; reflexivity|congruence]|].
      destruct (dr_spec (u_drift u)) as [ds|] eqn:ED; [|discriminate].
      split; [discriminate|]. split.
      * rewrite rows_through, ED, <- (locate_npt _ q l (o_dim_cases _) HL), <- Hgs. exact Hgt.
      * rewrite HSp1 in HRhs; [congruence|]. split; [discriminate|exact Hgt].
    + left. rewrite HSp in HRhs. injection HRhs as <-. split; [exact Hw|]. split.
      * intros Hn. apply HX in Hn as [zz Hzz]. discriminate.
      * unfold ext_value in EZ. destruct (dr_ext (u_drift u)) as [[[[? ?] ?] ?]|]; [|discriminate]. apply (zscalar_err _ _ _ _ _ _ EZ).
Qed.

(** *** coinciding data *)
Lemma same_place_coincident u i j : same_place u i j -> coincident (u_obj u) i j.
Proof.
  intros (Hi & Hj & Hne & Hd & _). split; [exact Hi|]. split; [exact Hj|]. split; [exact Hne|]. rewrite Hd. apply separation_refl'.
Qed.
Lemma in_combine_data (ds : list (nat -> R)) specs q t i j : (forall d, In d ds -> d i = d j) ->
  In t (map (fun '(d, s) => {| t_data := d; t_query := fun p _ => spec_at q s p |}) (combine ds specs)) -> t_data t i = t_data t j.
Proof.
  intros H Hin. apply in_map_iff in Hin as ([d s] & <- & Hin). cbn. apply H. apply (in_combine_l _ _ _ _ Hin).
Qed.
Lemma same_place_terms u q specs i j : same_place u i j -> forall t, In t (drift_terms u q specs) -> t_data t i = t_data t j.
Proof.
  intros (Hi & Hj & Hne & Hd & Hs) t Hin.
  assert (HSp : forall f, t_data (spatial (u_obj u) f) i = t_data (spatial (u_obj u) f) j) by (intros f; cbn; rewrite Hd; reflexivity).
  unfold drift_terms in Hin. rewrite !in_app_iff in Hin. destruct Hin as [H|[H|[H|[H|H]]]].
  - unfold linear_terms in H. destruct (dr_linear _); [|destruct H]. apply in_map_iff in H as (k & <- & _). apply HSp.
  - unfold well_terms in H. apply in_map_iff in H as ([[wx wy] s] & <- & _). apply HSp.
  - unfold ext_terms in H. destruct (dr_ext _) as [[[[? ?] ?] ?]|]; [|destruct H]. destruct H as [<-|[]]. apply HSp.
  - unfold spec_terms in H. destruct (dr_spec (u_drift u)) as [ds|] eqn:ED; [|destruct H].
    apply (in_combine_data ds specs q t i j); [|exact H]. intros d Hin. apply (Hs ds d eq_refl Hin).
  - unfold fun_terms in H. apply in_map_iff in H as (f & <- & _). apply HSp.
Qed.
Lemma same_place_F u q specs i j k : same_place u i j -> F_of (drift_terms u q specs) k i = F_of (drift_terms u q specs) k j.
Proof.
  intros HS. unfold F_of. destruct (nth_in_or_default k (drift_terms u q specs) no_term) as [H|H]; [|rewrite H; reflexivity].
  apply (same_place_terms u q specs i j HS _ H).
Qed.

Theorem universal_duplicates_raise E u q specs i j : env_ok E -> ureachable E u -> o_pinv (u_obj u) = false ->
  q_backend q = "vectorized"%string \/ q_backend q = "loop"%string -> good_query (u_obj u) q -> good_specs u q specs ->
  same_place u i j -> o_vg (u_obj u) 0 = 0 -> execute_uk E u q specs = Err LinAlgError.
Proof.
  intros HE HR Hpi HB HQ HS HD H0. apply singular_raises; try assumption. intros HF.
  pose proof (same_place_coincident u i j HD) as HC. pose proof HD as (Hi & Hj & Hne & _).
  destruct (HF (fun c => if Nat.eqb c i then 1 else 0) (fun _ => 0)) as (w & mu & nu & (H1 & _) & _).
  pose proof (H1 i Hi) as Ei. pose proof (H1 j Hj) as Ej. cbv beta in Ei, Ej. rewrite Nat.eqb_refl in Ei.
  destruct (Nat.eqb_spec j i) as [He|_]; [congruence|].
  rewrite (bsum_ext _ (fun a => w a * G_of (u_obj u) i a) (fun a => w a * G_of (u_obj u) j a)) in Ei
    by (intros a _; rewrite (coincident_G (u_obj u) i j a HC H0); reflexivity).
  rewrite (bsum_ext _ (fun k => nu k * F_of (drift_terms u q specs) k i) (fun k => nu k * F_of (drift_terms u q specs) k j)) in Ei
    by (intros k _; rewrite (same_place_F u q specs i j k HD); reflexivity).
  lra.
Qed.

Lemma swap_lt n i j a : (i < n)%nat -> (j < n)%nat -> (a < n <-> swap i j a < n)%nat.
Proof. intros Hi Hj. unfold swap. destruct (Nat.eqb_spec a i), (Nat.eqb_spec a j); lia. Qed.
Lemma swap_above n i j a : (i < n)%nat -> (j < n)%nat -> (n <= a)%nat -> swap i j a = a.
Proof. intros Hi Hj Ha. unfold swap. destruct (Nat.eqb_spec a i), (Nat.eqb_spec a j); lia. Qed.
Lemma swap_val (f : nat -> R) i j a : f i = f j -> f (swap i j a) = f a.
Proof. intros H. unfold swap. destruct (Nat.eqb_spec a i) as [->|]; [congruence|]. destruct (Nat.eqb_spec a j) as [->|]; congruence. Qed.

Lemma upinv_equal_weights u q specs P g f i j : same_place u i j ->
  let ts := drift_terms u q specs in let n := o_n (u_obj u) in let m := List.length ts in
  g i = g j -> is_pinv (n + m + 1) (UA n m (G_of (u_obj u)) (F_of ts)) P ->
  mulv (n + m + 1) P (Ub n m g f) i = mulv (n + m + 1) P (Ub n m g f) j.
Proof.
  intros HD ts n m Hg HP. pose proof (same_place_coincident u i j HD) as HC. pose proof HD as (Hi & Hj & Hne & _). fold n in Hi, Hj.
  set (s := swap i j). set (A := UA n m (G_of (u_obj u)) (F_of ts)) in *.
  assert (Hsp : perm_on (n + m + 1) s) by (apply swap_perm; lia).
  assert (Hl : forall a, Nat.ltb (s a) n = Nat.ltb a n).
  { intros a. pose proof (swap_lt n i j a Hi Hj). unfold s. destruct (Nat.ltb_spec (swap i j a) n), (Nat.ltb_spec a n); lia || reflexivity. }
  assert (Hab : forall a, (n <= a)%nat -> s a = a) by (intros a; apply swap_above; assumption).
  assert (Hm : meq (n + m + 1) (permm s A) A).
  { intros a b Ha Hb. unfold permm, A, UA. rewrite !Hl.
    destruct (Nat.ltb_spec a n) as [La|La], (Nat.ltb_spec b n) as [Lb|Lb].
    - unfold s. rewrite (coincident_swap_G (u_obj u) i j a b HC). reflexivity.
    - rewrite (Hab b Lb). destruct (Nat.ltb b (n + m)); [|reflexivity]. apply (swap_val (fun x => F_of ts (b - n)%nat x)). apply same_place_F, HD.
    - rewrite (Hab a La). destruct (Nat.ltb a (n + m)); [|reflexivity]. apply (swap_val (fun x => F_of ts (a - n)%nat x)). apply same_place_F, HD.
    - reflexivity. }
  assert (HPP : meq (n + m + 1) (permm s P) P).
  { apply (pinv_unique (n + m + 1) A); [|exact HP]. apply (is_pinv_ext _ (permm s A)); [exact Hm|]. apply is_pinv_perm; assumption. }
  set (b := Ub n m g f).
  assert (Hb : forall a, b (s a) = b a).
  { intros a. unfold b, Ub. rewrite Hl. destruct (Nat.ltb_spec a n) as [La|La].
    - f_equal. apply (swap_val g), Hg.
    - rewrite (Hab a La). reflexivity. }
  assert (Hsi : s i = j) by (unfold s, swap; rewrite Nat.eqb_refl; reflexivity).
  unfold mulv. rewrite <- (bsum_perm (n + m + 1) s (fun k => P j k * b k) Hsp).
  apply bsum_ext; intros k Hk. rewrite Hb. rewrite <- Hsi. rewrite <- (HPP i k) by lia. reflexivity.
Qed.

Theorem universal_equal_weights E c A D us u q specs r p pos i j :
  ubuilt E c A D us u -> (forall v, In v (c_v A :: us) -> explicit_params v) ->
  urun E u q specs r -> faithful_specs u q -> shown (u_obj u) q p pos -> same_place u i j ->
  exists w, w i = w j /\
    forall z u' r', ubuilt E c (with_values A z) D us u' -> urun E u' q specs r' ->
      r_value r' p = Some (bsum (o_n (u_obj u)) (fun a => w a * rnth z a)).
Proof.
  intros HB Hex HR HF HS HD. destruct (ucell_pinv E u q specs r p pos HR HS HF) as (P & HP & _). cbv zeta in HP.
  set (n := o_n (u_obj u)) in *. set (ts := drift_terms u q specs) in *. set (m := List.length ts) in *.
  exists (mulv (n + m + 1) P (Ub n m (g_of (u_obj u) pos) (f_of ts p pos))). split.
  { apply (upinv_equal_weights u q specs); [exact HD| |exact HP]. apply coincident_g, same_place_coincident, HD. }
  intros z u' r' HB' HR'.
  destruct (ubuilt_geo E c A (with_values A z) D us u u' HB HB' Hex eq_refl eq_refl eq_refl) as [G HDr].
  pose proof (built_exact _ _ _ _ _ (proj1 (ubuilt_obj _ _ _ _ _ _ HB))) as X. pose proof (built_exact _ _ _ _ _ (proj1 (ubuilt_obj _ _ _ _ _ _ HB'))) as X'.
  assert (Xe : o_exact (u_obj u') = o_exact (u_obj u)) by (cbn in X'; congruence).
  assert (HF' : faithful_specs u' q) by (unfold faithful_specs in *; rewrite HDr; exact HF).
  destruct (ucell_pinv E u' q specs r' p pos HR' (geo_shown _ _ _ _ _ G HS) HF') as (P' & HP' & Hv' & _).
  rewrite (geo_terms u u' q specs G HDr), (geo_G _ _ G), (geo_g _ _ pos G Xe) in *.
  replace (o_n (u_obj u')) with n in * by (symmetry; apply (ag_n _ _ G)). fold ts in HP', Hv'. fold m in HP', Hv'.
  pose proof (pinv_unique _ _ _ _ HP' HP) as HPP. rewrite Hv'. f_equal. apply bsum_ext; intros a Ha.
  destruct (built_values _ _ _ _ _ (proj1 (ubuilt_obj _ _ _ _ _ _ HB'))) as (-> & _). cbn [c_values with_values]. f_equal.
  unfold mulv. apply bsum_ext; intros k Hk. rewrite HPP by lia. reflexivity.
Qed.


(** *** examples *)
Lemma ex_universal_duplicates : exists E u q, env_ok E /\ ureachable E u /\ o_pinv (u_obj u) = false /\
  q_backend q = "vectorized"%string /\ good_query (u_obj u) q /\ good_specs u q [] /\ same_place u 0 1 /\ o_vg (u_obj u) 0 = 0 /\
  dr_fun (u_drift u) = Some [fx].
Proof.
  destruct (pair_construct 3 4 3 4 1 0 0 3) as [o Ho]. set (A := pair_args 3 4 3 4 1 0 0 3) in *.
  set (u := {| u_obj := o; u_drift := one_drift fx |}).
  assert (HC : construct_uk WE UK2 A (fun_args fx) = Ok u) by (unfold construct_uk; rewrite Ho; reflexivity).
  destruct (pair_fields _ _ _ _ _ _ _ _ _ Ho) as (Hc & Hn & Hpi & H0 & H1 & Hs & Ha).
  destruct (construct_inv WE UK2 _ o Ho) as (ex & name & prm & fn & sc & an & f & vp & lags & sv & params & Hall).
  destruct Hall as (_&_&Hgs&Hf&Hmp&_&Hini&_&_&_&_&_&_&Hfo&Hpo&Hn'&_&_&_&_&_&_&Hct).
  cbn in Hgs. injection Hgs as <- <- <- <- <-. cbn in Hf. injection Hf as <-. cbn in Hmp. injection Hmp as <-.
  destruct Hct as [(_ & Hct & _)|(Hg & _)]; [|discriminate].
  assert (Hpar : params = [1; 0]).
  { unfold initialize_variogram_model in Hini. rewrite Hct in Hini. cbn [cdim Nat.eqb] in Hini. rewrite Hn in Hini. cbn [List.length A pair_args c_values Nat.eqb negb] in Hini.
    bindok Hini. cbn in Hini. injection Hini as _ _ <-. reflexivity. }
  exists WE, u, (one_point 1 1 "vectorized"). split; [apply wit_env_ok|].
  split; [exact (ur_new WE UK2 A (fun_args fx) u (or_introl eq_refl) eq_refl HC)|]. split; [exact Hpi|]. split; [reflexivity|].
  split. { split; [|intros _; left; reflexivity]. right; left. split; [reflexivity|]. split; [reflexivity|]. unfold o_dim. cbn [u u_obj]. rewrite Hc. discriminate. }
  split; [intros ds Hds; discriminate|]. split.
  - unfold same_place. cbn [u u_obj]. rewrite Hn. split; [lia|]. split; [lia|]. split; [lia|]. split; [congruence|]. intros ds d Hds. discriminate.
  - split; [|reflexivity]. cbn [u u_obj]. unfold o_vg. rewrite Hfo, Hpo, Hpar. cbn. unfold linear_variogram_model, rnth. cbn [nth]. ring.
Qed.

Definition quad_args : cargs :=
  {| c_coords := [[0; 1; 0; 0]; [0; 0; 1; 0]]; c_values := [1; 3; 4; 6];
     c_v := {| a_model := VName "linear"; a_params := PList [1; 1]; a_fun := FNone;
               a_nlags := 6; a_weight := false; a_scaling := (fun _ => 1); a_angle := (fun _ => 0) |};
     c_verbose := false; c_plotting := false; c_stat := false; c_ct := "euclidean";
     c_exact := Some true; c_pinv := false; c_pinv_type := "pinv" |}.
Lemma quad_call z : List.length z = 4%nat -> proper_call UK2 (with_values quad_args z) /\ proper_variogram UK2 (c_v (with_values quad_args z)) "linear" [1; 1] /\
  proper_drifts UK2 lin_args (List.length z).
Proof.
  intros Hz. split.
  { split; cbn; try reflexivity; try lia; auto; try discriminate. intros y [<-|[<-|[]]]; rewrite Hz; reflexivity. }
  split.
  { split; cbn; try reflexivity; [|intros; lra]. apply request_linear; [reflexivity|lra..]. }
  split; cbn; discriminate.
Qed.
Lemma ex_universal_equal : exists E u q r, ubuilt E UK2 quad_args lin_args [] u /\
  (forall v, In v [c_v quad_args] -> explicit_params v) /\ urun E u q [] r /\ faithful_specs u q /\ shown (u_obj u) q 0 (1, 1, 0) /\
  same_place u 0 3 /\ dr_linear (u_drift u) = true.
Proof.
  destruct (quad_call [1; 3; 4; 6] eq_refl) as (H1 & H2 & H3).
  destruct (construct_execute_uk WE UK2 quad_args lin_args "linear" [1; 1] (wit_env_ok true None) H1 H2 (or_introl eq_refl) H3) as (u & Hu & HP & HX).
  { left. cbn. lra. }
  assert (HB : ubuilt WE UK2 quad_args lin_args [] u) by (split; [reflexivity|]; exists u; split; [exact Hu|reflexivity]).
  pose proof Hu as HC. unfold construct_uk in HC. bindok HC. bindok HC. injection HC as HC. rename a into o. rename a0 into dr.
  destruct (construct_inv WE UK2 _ o E) as (ex & name & prm & fn & sc & an & f & vp & lags & sv & params & Hall).
  destruct Hall as (_&_&Hgs&_&_&_&_&_&Hc&Hpi&_&_&_&_&_&Hn&Horig&_&_&_&_&_&Hct).
  cbn in Hgs, Horig, Hn. injection Hgs as <- <- <- <- <-. destruct Hct as [(_ & _ & _ & Hsc & Han & _)|(Hg & _)]; [|discriminate].
  assert (Hdim : o_dim o = 2%nat) by (unfold o_dim; rewrite Hc; reflexivity).
  assert (Hd : forall i, datum o i = (rnth [0; 1; 0; 0] i, rnth [0; 0; 1; 0] i, 0)) by (intros i; unfold datum, loc; rewrite Hdim, Horig; reflexivity).
  assert (HDr : u_drift u = {| dr_linear := true; dr_wells := None; dr_ext := None; dr_spec := None; dr_fun := None |}).
  { rewrite <- HC. cbn [u_drift]. cbn in E0. injection E0 as <-. reflexivity. }
  set (q := one_point 1 1 "vectorized"). assert (Hu_o : u_obj u = o) by (rewrite <- HC; reflexivity).
  destruct (HX q []) as (r & w & Hr).
  - rewrite Hu_o. split; [|intros _; left; reflexivity]. right; left. split; [reflexivity|]. split; [reflexivity|]. rewrite Hdim. discriminate.
  - reflexivity.
  - reflexivity.
  - intros c cs H.
    assert (HT2 : drift_terms u q [] = [spatial o (fun p => coord 0 (frame o p)); spatial o (fun p => coord 1 (frame o p))]).
    { unfold drift_terms, linear_terms, well_terms, ext_terms, spec_terms, fun_terms. rewrite HDr, Hu_o, Hdim. reflexivity. }
    cbv zeta in H |- *. rewrite HT2, Hu_o in H. rewrite HT2. cbn [List.length] in H |- *. rewrite Hn in H.
    pose proof (H 0%nat ltac:(lia)) as Q0. pose proof (H 1%nat ltac:(lia)) as Q1. pose proof (H 2%nat ltac:(lia)) as Q2.
    cbn [bsum nth spatial t_data] in Q0, Q1, Q2. rewrite !frame_id in Q0, Q1, Q2 by (assumption || (intros; rewrite ?Hsc, ?Han; reflexivity) || (rewrite Hd; reflexivity)).
    rewrite !Hd in Q0, Q1, Q2. unfold rnth in Q0, Q1, Q2. cbn in Q0, Q1, Q2. split; [lra|]. intros k Hk. destruct k as [|[|k]]; [lra|lra|lia].
  - exists WE, u, q, r. split; [exact HB|]. split; [intros v [<-|[]]; left; cbn; discriminate|].
    split; [split; [apply wit_env_ok|]; split; [exact (ur_new WE UK2 quad_args lin_args u (or_introl eq_refl) eq_refl Hu)|]; exists w; exact Hr|].
    split; [left; reflexivity|]. rewrite Hu_o. split; [apply (one_point_shown_u o 1 1 "vectorized" Hc)|].
    split; [|rewrite HDr; reflexivity]. unfold same_place. rewrite Hu_o, Hn, HDr. split; [lia|]. split; [lia|]. split; [lia|]. split; [rewrite !Hd; reflexivity|discriminate].
Qed.
