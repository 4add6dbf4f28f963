(** Which calls of the universal execute return. *)
From Coq Require Import String.
From Verif Require Import Base Sums Matrix M_Variogram M_Geometry S_Geometry M_Kriging S_Kriging M_Init M_Object M_Execute S_Execute M_UK S_UK S_Valid S_Bilinear S_Drift
  P_Object P_Kriging P_Psd P_Psd2 P_Valid P_Valid2 P_Dup P_OKSpec P_OK P_Det P_Exec2 P_Cells P_Execute P_Master P_Options
  P_Geometry P_Bilinear P_UK P_UK2 P_UK3 P_UK4 P_UK5 P_UK6 P_Valid3 P_UK18 P_UK8.

(** ---- regularity and inversion ---- *)
Lemma UK_regular_nonsingular n m G F : UK_regular n m G F -> nonsingular (n + m + 1) (UA n m G F).
Proof.
  intros HR.
  assert (HK : forall x, veq (n + m + 1) (mulv (n + m + 1) (UA n m G F) x) (fun _ => 0) -> veq (n + m + 1) x (fun _ => 0)).
  { intros x Hx. destruct (HR (fun _ => 0) (fun _ => 0)) as (w & mu & nu & (S1 & S2 & S3) & U).
    assert (H1 : forall i, (i < n)%nat -> - bsum n (fun j => x j * G i j) + bsum m (fun k => x (n + k)%nat * F k i) + x (n + m)%nat = 0).
    { intros i Hi. rewrite <- UA_row by exact Hi. apply Hx. lia. }
    assert (H2 : bsum n x = 0) by (rewrite <- (UA_row_last n m G F x); apply Hx; lia).
    assert (H3 : forall k, (k < m)%nat -> bsum n (fun j => x j * F k j) = 0).
    { intros k Hk. rewrite <- (UA_row_drift n m G F x k Hk). apply Hx. lia. }
    destruct (U (fun i => w i + x i) (mu - x (n + m)%nat) (fun k => nu k - x (n + k)%nat)) as (U1 & U2 & U3).
    - split; [|split].
      + intros i Hi. specialize (S1 i Hi). specialize (H1 i Hi).
        rewrite (bsum_ext n (fun j => (w j + x j) * G i j) (fun j => w j * G i j + x j * G i j)) by (intros; ring).
        rewrite (bsum_ext m (fun k => (nu k - x (n + k)%nat) * F k i) (fun k => nu k * F k i + (-1) * (x (n + k)%nat * F k i))) by (intros; ring).
        rewrite !bsum_plus, bsum_scal. lra.
      + rewrite bsum_plus, S2, H2. ring.
      + intros k Hk. specialize (S3 k Hk). specialize (H3 k Hk).
        rewrite (bsum_ext n (fun j => (w j + x j) * F k j) (fun j => w j * F k j + x j * F k j)) by (intros; ring).
        rewrite bsum_plus. lra.
    - intros i Hi. destruct (Nat.lt_ge_cases i n) as [L|L]; [specialize (U1 i L); cbv beta in U1; lra|].
      destruct (Nat.eq_dec i (n + m)) as [->|Hne]; [lra|].
      specialize (U3 (i - n)%nat ltac:(lia)). cbv beta in U3. replace (n + (i - n))%nat with i in U3 by lia. lra. }
  apply solvable_nonsingular; [|exact HK]. intros b.
  destruct (injective_surjective (n + m + 1) (UA n m G F) HK b) as [x Hx]. exists x. exact Hx.
Qed.

Lemma uk_inverts_regular E u q specs pit : env_ok E -> uinv u -> specs_fit u specs -> drift_regular u q specs ->
  exists b, invert (e_la E) false pit (uk_size u) (UM u) = Ok b.
Proof.
  intros HE HI HS HF. apply invert_regular_ok; [exact (proj1 HE)| |reflexivity].
  pose proof (UM_spec u q specs HI HS) as HM. cbv zeta in HM.
  destruct (UK_regular_nonsingular _ _ _ _ HF) as [B HB].
  exists B. assert (Hsz : uk_size u = (o_n (u_obj u) + List.length (drift_terms u q specs) + 1)%nat)
    by (unfold uk_size; rewrite (mu_count_terms u q specs HS); reflexivity).
  rewrite Hsz in *. apply (is_inverse_ext _ (UA_spec u (drift_terms u q specs)) _ B B); [|apply meq_refl|exact HB].
  intros i j Hi Hj. symmetry. apply HM; assumption.
Qed.

(** ---- specified drift arrays ---- *)
Lemma ureachable_specs E u ds : ureachable E u -> dr_spec (u_drift u) = Some ds -> ds <> [].
Proof.
  intros H. revert ds. induction H as [c A D u Hc Hl H|u v _ IH|u _ IH|u _ IH]; intros ds Hd.
  - unfold construct_uk in H. bindok H. bindok H. injection H as <-. cbn [u_drift] in Hd.
    unfold init_drift in E1. cbv zeta in E1. bindok E1. bindok E1. bindok E1. bindok E1. injection E1 as <-. cbn [dr_spec] in Hd. subst.
    match goal with H : opt_drift _ (init_specified _ _) = Ok _ |- _ => rename H into HS end.
    unfold opt_drift in HS. destruct (in_names "specified" (d_terms D)); [|discriminate HS]. bindok HS. injection HS as ->.
    match goal with H : init_specified _ _ = Ok _ |- _ => unfold init_specified in H; rename H into HI end.
    destruct (d_spec D) as [[|t ts]|]; try discriminate. apply P_UK2.mapM_ok in HI. inversion HI. discriminate.
  - destruct (update_uk_obj E u v) as [_ EU]. rewrite EU in Hd. apply IH, Hd.
  - apply IH, Hd.
  - apply IH, Hd.
Qed.

Lemma spec_grid_iff dim q s : dim = 2%nat \/ dim = 3%nat -> In (q_style q) style_names ->
  ((exists g, spec_grid dim (q_style q) (q_pts q) s = Ok g) <-> shape_fits dim q s).
Proof.
  intros Hd Hs. unfold spec_grid. cbv zeta.
  change (size_of (q_pts q) 0) with (List.length (xs q)). change (size_of (q_pts q) 1) with (List.length (ys q)).
  change (size_of (q_pts q) 2) with (List.length (zs q)).
  destruct (String.eqb_spec (q_style q) "points") as [E1|E1].
  - unfold shape_fits. cbv zeta. destruct s as [len f|r c f|d0 d1 d2 f].
    + destruct (Nat.eqb_spec len (List.length (xs q))); split; [auto|eauto|intros [g H]; discriminate|intros [_ H]; contradiction].
    + split; [intros [g H]; discriminate|intros [H _]; contradiction].
    + split; [intros [g H]; discriminate|intros [H _]; contradiction].
  - destruct Hd as [-> | ->]; unfold shape_fits; cbv zeta; destruct s as [len f|r c f|d0 d1 d2 f];
      try (split; [intros [g H]; discriminate|]; try (intros [H _]; contradiction); intros (_ & H & _); discriminate).
    + destruct (Nat.eqb_spec r (List.length (ys q))), (Nat.eqb_spec c (List.length (xs q))); cbn [negb orb];
        destruct (Nat.eqb_spec r (List.length (xs q))), (Nat.eqb_spec c (List.length (ys q))); cbn [andb];
        (split; [intros [g H]; try discriminate H; auto 8|intros (_ & _ & [[H1 H2]|[H1 H2]]); eauto; contradiction]).
    + destruct (Nat.eqb_spec d0 (List.length (zs q))), (Nat.eqb_spec d1 (List.length (ys q))), (Nat.eqb_spec d2 (List.length (xs q))); cbn [negb orb];
        destruct (Nat.eqb_spec d0 (List.length (xs q))), (Nat.eqb_spec d2 (List.length (zs q))); cbn [andb];
        (split; [intros [g H]; try discriminate H; auto 8|intros (_ & _ & [(H1 & H2 & H3)|(H1 & H2 & H3)]); eauto; contradiction]).
Qed.

Lemma spec_grids_iff E u q specs : ureachable E u -> In (q_style q) style_names ->
  ((exists gs, spec_grids u (q_style q) (q_pts q) specs = Ok gs) <-> good_specs u q specs).
Proof.
  intros HR Hs. unfold good_specs, spec_grids. destruct (dr_spec (u_drift u)) as [ds|] eqn:ED.
  2:{ split; [discriminate|eauto]. }
  pose proof (ureachable_specs E u ds HR ED) as Hne. split.
  - intros [gs H] ds' [= <-]. destruct specs as [|s0 specs']; [discriminate|]. revert H. generalize (s0 :: specs'). intros l H. bindok H.
    destruct (Nat.eqb_spec (List.length a) (List.length ds)) as [EL|]; [|discriminate].
    pose proof (P_UK2.mapM_ok _ _ _ E0) as HF. rewrite (Forall2_len _ _ _ HF). split; [exact EL|].
    intros s Hin. apply (spec_grid_iff _ q s (o_dim_cases _) Hs). clear - HF Hin.
    induction HF as [|x y l l' Hxy _ IH]; [destruct Hin|]. destruct Hin as [<-|Hin]; [eauto|apply IH, Hin].
  - intros H. destruct (H ds eq_refl) as [HL HF]. destruct specs as [|s0 specs']; [destruct ds; [congruence|discriminate]|].
    assert (HM : exists gs, mapM (spec_grid (o_dim (u_obj u)) (q_style q) (q_pts q)) (s0 :: specs') = Ok gs /\ List.length gs = List.length (s0 :: specs')).
    { clear HL H. revert HF. generalize (s0 :: specs'). intros l. induction l as [|x l IH]; intros HF; cbn [mapM]; [exists []; auto|].
      destruct (proj2 (spec_grid_iff _ q x (o_dim_cases (u_obj u)) Hs) (HF x (or_introl eq_refl))) as [g ->]. cbn [bind].
      destruct IH as (gs & -> & HL); [intros y Hy; apply HF; right; exact Hy|]. cbn [bind]. exists (g :: gs). split; [reflexivity|]. cbn. lia. }
    destruct HM as (gs & -> & HG). cbn [bind]. rewrite HG, HL, Nat.eqb_refl. cbn [negb]. eauto.
Qed.

(** ---- external drift ---- *)
Lemma ext_value_iff u q l p pos : locate (o_dim (u_obj u)) (q_style q) (q_pts q) (q_mask q) = Ok l ->
  cell (o_dim (u_obj u)) q p pos ->
  ((exists z, ext_value (u_drift u) (l_at l) p = Ok z) <-> in_grid u pos).
Proof.
  intros HL C. destruct (locate_coords _ q l p pos (o_dim_cases _) HL C) as [G1 G2]. unfold ext_value, in_grid.
  destruct (dr_ext (u_drift u)) as [[[[arr ex] ey] zs]|]; [|split; [discriminate|eauto]].
  rewrite G1, G2. destruct (zscalar_accepts arr ex ey (coord 0 pos) (coord 1 pos)) as [Z1 Z2]. split.
  - intros [z H] ? ? ? ? [= <- <- <- <-]. apply Classical_Prop.NNPP. intros Hn. rewrite (Z2 Hn) in H. discriminate.
  - intros H. apply Z1. apply (H _ _ _ _ eq_refl).
Qed.
Lemma ext_values_iff u q l : locate (o_dim (u_obj u)) (q_style q) (q_pts q) (q_mask q) = Ok l ->
  ((exists zs, ext_values (u_drift u) (l_npt l) (l_at l) = Ok zs) <->
   (forall p pos, cell (o_dim (u_obj u)) q p pos -> in_grid u pos)).
Proof.
  intros HL. split.
  - intros [zv H] p pos C. apply (ext_value_iff u q l p pos HL C). unfold ext_values in H. unfold ext_value.
    destruct (dr_ext (u_drift u)) as [[[[arr ex] ey] zs]|]; [|eauto].
    destruct (locate_cell _ q l p pos (o_dim_cases _) HL C) as [Hp _]. exists (zv p). apply (zscalars_ok _ _ _ _ _ _ _ H p Hp).
  - intros H. unfold ext_values. destruct (dr_ext (u_drift u)) as [[[[arr ex] ey] zs]|] eqn:ED; [|eauto].
    apply zscalars_total. intros p Hp. destruct (locate_all_cells _ q l p (o_dim_cases _) HL Hp) as (pos & C).
    destruct (locate_coords _ q l p pos (o_dim_cases _) HL C) as [-> ->]. apply (H p pos C _ _ _ _ ED).
Qed.
Lemma at_well_iff u q l pts p pos : uinv u -> locate (o_dim (u_obj u)) (q_style q) (q_pts q) (q_mask q) = Ok l ->
  adjust_query (u_obj u) (q_int q) (l_at l) = Ok pts -> cell (o_dim (u_obj u)) q p pos ->
  (at_well (u_drift u) (query_coords (o_dim (u_obj u)) (query_array (o_dim (u_obj u)) pts) p) = false <-> not_at_well u pos).
Proof.
  intros HI HL HQ C. destruct (query_frame u l pts q p pos HI HL HQ C) as [F _].
  assert (D2 : (1 < o_dim (u_obj u))%nat) by (destruct (o_dim_cases (u_obj u)) as [E0|E0]; rewrite E0; lia).
  unfold at_well, not_at_well. rewrite <- Bool.not_true_iff_false, existsb_exists. split.
  - intros H wx wy s Hin Hd. apply H. exists (wx, wy, s). split; [exact Hin|]. unfold well_dist. rewrite !F by lia.
    unfold plane_dist, Rsqr in Hd. rewrite Hd. apply Reqb_refl.
  - intros H ([[wx wy] s] & Hin & Hw). apply (H wx wy s Hin). apply Reqb_true in Hw. unfold well_dist in Hw. rewrite !F in Hw by lia.
    unfold plane_dist, Rsqr. exact Hw.
Qed.
Lemma locate_npt dim q l : dim = 2%nat \/ dim = 3%nat -> locate dim (q_style q) (q_pts q) (q_mask q) = Ok l -> l_npt l = cells dim q.
Proof.
  intros Hd H. unfold cells. destruct Hd as [-> | ->]; cbn [locate] in H; [unfold locate2 in H|unfold locate3 in H]; cbv zeta in H.
  - destruct (String.eqb_spec (q_style q) "masked") as [EM|_].
    + rewrite EM. cbn [String.eqb Ascii.eqb Bool.eqb]. destruct (q_mask q) as [[r c f|? ? ? ?]|]; try discriminate.
      destruct (Nat.eqb r _ && _); [injection H as <-; reflexivity|]. destruct (Nat.eqb r _ && _); [injection H as <-; reflexivity|discriminate].
    + destruct (String.eqb_spec (q_style q) "grid") as [EG|_]; [rewrite EG; injection H as <-; reflexivity|].
      destruct (String.eqb_spec (q_style q) "points"); [|discriminate]. destruct (negb _); [discriminate|]. injection H as <-. reflexivity.
  - destruct (String.eqb_spec (q_style q) "masked") as [EM|_].
    + rewrite EM. cbn [String.eqb Ascii.eqb Bool.eqb]. destruct (q_mask q) as [[r c f|d0 d1 d2 f]|]; try discriminate.
      repeat match type of H with context [if ?b then _ else _] => destruct b end; try discriminate; injection H as <-; reflexivity.
    + destruct (String.eqb_spec (q_style q) "grid") as [EG|_]; [rewrite EG; injection H as <-; reflexivity|].
      destruct (String.eqb_spec (q_style q) "points"); [|discriminate]. repeat match type of H with context [if ?b then _ else _] => destruct b end; try discriminate; injection H as <-; reflexivity.
Qed.
Lemma rows_through u : (rows_through_specified u = spec_row u + olen (dr_spec (u_drift u)))%nat.
Proof.
  unfold rows_through_specified, spec_row, linear_terms, well_terms, ext_terms. rewrite map_length. f_equal. f_equal.
  - f_equal; [f_equal|]; [destruct (dr_linear _); rewrite ?map_length, ?seq_length; reflexivity|destruct (dr_wells _); reflexivity].
  - destruct (dr_ext _) as [[[[? ?] ?] ?]|]; reflexivity.
Qed.

(** ---- execute, vectorized ---- *)
Theorem vectorized_iff E u q specs : env_ok E -> ureachable E u -> o_pinv (u_obj u) = false -> q_backend q = "vectorized"%string ->
  ((exists r w, execute_uk E u q specs = Ok (r, w)) <->
   good_query (u_obj u) q /\ good_specs u q specs /\ (forall p pos, cell (o_dim (u_obj u)) q p pos -> in_grid u pos) /\
   drift_regular u q specs).
Proof.
  intros HE HR Hpi HB. pose proof (ureachable_inv E u HR) as HI. split.
  - intros (r & w & H). pose proof H as HX. unfold execute_uk in H. cbv zeta in H.
    destruct (in_names (q_style q) ["grid"; "masked"; "points"]%string) eqn:ES; cbn [negb] in H; [|discriminate].
    apply in_names_In in ES. rewrite UM_eq in H. cbn [bind] in H.
    change (match o_dim (u_obj u) with 2%nat => locate2 | _ => locate3 end) with (locate (o_dim (u_obj u))) in H.
    destruct (locate _ _ _ _) as [l|] eqn:HL; cbn [bind] in H; [|discriminate].
    destruct (spec_grids u (q_style q) (q_pts q) specs) as [gs|] eqn:EG; cbn [bind] in H; [|discriminate].
    destruct (adjust_query (u_obj u) (q_int q) (l_at l)) as [pts|] eqn:EQ; cbn [bind] in H; [|discriminate].
    split; [apply (locate_good (u_obj u) q l HL); intros Hct; apply (adjust_query_ints _ _ _ _ EQ Hct)|].
    split; [apply (spec_grids_iff E u q specs HR ES); eauto|]. split.
    + apply (ext_values_iff u q l HL). rewrite HB in H. cbn [String.eqb Ascii.eqb Bool.eqb] in H.
      pose proof (uk_exec_vector_spec (e_la E) u (l_npt l) (UM u) (query_distances (u_obj u) pts)
        (query_array (o_dim (u_obj u)) pts) (l_at l) gs (spec_grids_length u q specs gs EG)) as HV. cbv zeta in HV.
      destruct (invert _ _ _ _ _) as [a_inv|]; [|rewrite HV in H; discriminate].
      destruct (ext_values _ _ _) as [zv|]; [eauto|rewrite HV in H; discriminate].
    + apply (uk_regular E u q specs r); [|exact Hpi]. split; [exact HE|]. split; [exact HR|]. exists w. exact HX.
  - intros (HQ & HS & HX & HF). destruct (good_locate (u_obj u) q HQ) as [l HL]. destruct (good_adjust (u_obj u) q l HQ) as [pts Hpts].
    pose proof (good_style (u_obj u) q HQ) as ES. destruct (proj2 (spec_grids_iff E u q specs HR ES) HS) as [gs EG].
    destruct (proj2 (ext_values_iff u q l HL) HX) as [zv EZ].
    apply in_names_In in ES. unfold style_names in ES. unfold execute_uk. cbv zeta. rewrite ES, UM_eq. cbn [negb bind].
    change (match o_dim (u_obj u) with 2%nat => locate2 | _ => locate3 end) with (locate (o_dim (u_obj u))).
    rewrite HL. cbn [bind]. rewrite EG. cbn [bind]. rewrite Hpts. cbn [bind]. rewrite HB. cbn [String.eqb Ascii.eqb Bool.eqb].
    pose proof (uk_exec_vector_spec (e_la E) u (l_npt l) (UM u) (query_distances (u_obj u) pts)
      (query_array (o_dim (u_obj u)) pts) (l_at l) gs (spec_grids_length u q specs gs EG)) as HV. cbv zeta in HV.
    change (o_n (u_obj u) + List.length (data_cols u) + 1)%nat with (uk_size u) in HV. rewrite Hpi in HV.
    destruct (uk_inverts_regular E u q specs (o_pinv_type (u_obj u)) HE HI (call_specs_fit _ _ _ _ EG) HF) as [b Hb].
    rewrite Hb, EZ in HV. destruct HV as (z & s & -> & _). cbn [bind]. eauto.
Qed.

(** ---- execute, loop ---- *)
Theorem loop_iff E u q specs : env_ok E -> ureachable E u -> o_pinv (u_obj u) = false -> q_backend q = "loop"%string ->
  ((exists r w, execute_uk E u q specs = Ok (r, w)) <->
   good_query (u_obj u) q /\ good_specs u q specs /\ drift_regular u q specs /\
   (forall p pos, shown (u_obj u) q p pos ->
      in_grid u pos /\ not_at_well u pos /\
      (dr_spec (u_drift u) <> None -> (rows_through_specified u <= cells (o_dim (u_obj u)) q)%nat))).
Proof.
  intros HE HR Hpi HB. pose proof (ureachable_inv E u HR) as HI. split.
  - intros (r & w & H). pose proof H as HX. unfold execute_uk in H. cbv zeta in H.
    destruct (in_names (q_style q) ["grid"; "masked"; "points"]%string) eqn:ES; cbn [negb] in H; [|discriminate].
    apply in_names_In in ES. rewrite UM_eq in H. cbn [bind] in H.
    change (match o_dim (u_obj u) with 2%nat => locate2 | _ => locate3 end) with (locate (o_dim (u_obj u))) in H.
    destruct (locate _ _ _ _) as [l|] eqn:HL; cbn [bind] in H; [|discriminate].
    destruct (spec_grids u (q_style q) (q_pts q) specs) as [gs|] eqn:EG; cbn [bind] in H; [|discriminate].
    destruct (adjust_query (u_obj u) (q_int q) (l_at l)) as [pts|] eqn:EQ; cbn [bind] in H; [|discriminate].
    split; [apply (locate_good (u_obj u) q l HL); intros Hct; apply (adjust_query_ints _ _ _ _ EQ Hct)|].
    split; [apply (spec_grids_iff E u q specs HR ES); eauto|]. split.
    { apply (uk_regular E u q specs r); [|exact Hpi]. split; [exact HE|]. split; [exact HR|]. exists w. exact HX. }
    intros p pos [C NH].
    rewrite HB in H. cbn [String.eqb Ascii.eqb Bool.eqb] in H. unfold uk_exec_loop in H. cbv zeta in H.
    destruct (invert _ _ _ _ _) as [a_inv|]; cbn [bind] in H; [|discriminate].
    match type of H with context [mulv ?sz a_inv _] =>
      pose proof (uloop_gen (fun j => uk_rhs_loop u (l_npt l) (query_distances (u_obj u) pts j)
         (query_array (o_dim (u_obj u)) pts) (l_at l) gs j) (o_n (u_obj u)) sz a_inv (o_values (u_obj u))
         (unmasked (l_npt l) (l_mask l)) (unmasked_NoDup _ _) (fun _ => 0) (fun _ => 0) false) as HG end.
    destruct (foldM _ _ _) as [[[z s] w1]|e''] in HG, H; [|discriminate]. clear H. destruct HG as (G1 & _).
    destruct (finish_shown _ q l (fun _ => 0) (fun _ => 0) p pos (o_dim_cases _) HL C NH) as (Hp & Hm & _).
    destruct (G1 p) as (b & wj & HRhs & _).
    { unfold unmasked. apply filter_In. split; [apply in_seq; lia|]. rewrite Hm. reflexivity. }
    pose proof (uk_rhs_loop_spec u (l_npt l) (query_distances (u_obj u) pts p) (query_array (o_dim (u_obj u)) pts) (l_at l) gs p
      (spec_grids_length u q specs gs EG)) as HS. cbv zeta in HS. cbv beta in HRhs.
    destruct (at_well (u_drift u) _) eqn:EW; [congruence|].
    destruct (ext_value (u_drift u) (l_at l) p) as [zz|] eqn:EZ; [|congruence]. destruct HS as [HS _].
    split; [apply (ext_value_iff u q l p pos HL C); eauto|]. split; [apply (at_well_iff u q l pts p pos HI HL EQ C); exact EW|].
    intros Hsp. rewrite rows_through, <- (locate_npt _ q l (o_dim_cases _) HL).
    pose proof (spec_grids_length u q specs gs EG) as Hgs. rewrite <- Hgs.
    destruct (Nat.le_gt_cases (spec_row u + List.length gs) (l_npt l)) as [Hle|Hgt]; [exact Hle|]. exfalso.
    rewrite HS in HRhs; [discriminate|]. split; [|exact Hgt].
    intros ->. cbn in Hgs. destruct (dr_spec (u_drift u)) as [ds|] eqn:ED; [|congruence].
    apply (ureachable_specs E u ds HR ED). destruct ds; [reflexivity|discriminate].
  - intros (HQ & HS & HF & HX). destruct (good_locate (u_obj u) q HQ) as [l HL]. destruct (good_adjust (u_obj u) q l HQ) as [pts Hpts].
    pose proof (good_style (u_obj u) q HQ) as ES. destruct (proj2 (spec_grids_iff E u q specs HR ES) HS) as [gs EG].
    apply in_names_In in ES. unfold style_names in ES. unfold execute_uk. cbv zeta. rewrite ES, UM_eq. cbn [negb bind].
    change (match o_dim (u_obj u) with 2%nat => locate2 | _ => locate3 end) with (locate (o_dim (u_obj u))).
    rewrite HL. cbn [bind]. rewrite EG. cbn [bind]. rewrite Hpts. cbn [bind]. rewrite HB. cbn [String.eqb Ascii.eqb Bool.eqb].
    unfold uk_exec_loop. cbv zeta. replace (n_withdrifts u + 1)%nat with (uk_size u) by (rewrite n_withdrifts_cols; reflexivity). rewrite Hpi.
    destruct (uk_inverts_regular E u q specs (o_pinv_type (u_obj u)) HE HI (call_specs_fit _ _ _ _ EG) HF) as [a_inv Hb].
    rewrite Hb. cbn [bind].
    pose proof (uloop_gen (fun j => uk_rhs_loop u (l_npt l) (query_distances (u_obj u) pts j)
         (query_array (o_dim (u_obj u)) pts) (l_at l) gs j) (o_n (u_obj u)) (uk_size u) a_inv (o_values (u_obj u))
         (unmasked (l_npt l) (l_mask l)) (unmasked_NoDup _ _) (fun _ => 0) (fun _ => 0) false) as HG.
    destruct (foldM _ _ _) as [[[z s] w1]|e''] in HG |- *; [cbn [bind]; eauto|]. exfalso.
    destruct HG as (j & Hj & HRhs). unfold unmasked in Hj. apply filter_In in Hj as [Hj Hm]. apply in_seq in Hj.
    destruct (locate_all_cells _ q l j (o_dim_cases _) HL ltac:(lia)) as (pos & HC).
    assert (HSh : shown (u_obj u) q j pos).
    { split; [exact HC|]. rewrite (cell_hidden_mask _ q l j pos (o_dim_cases _) HL HC). destruct (l_mask l j); [discriminate|].
      rewrite andb_false_r. discriminate. }
    destruct (HX j pos HSh) as (X1 & X2 & X3).
    pose proof (uk_rhs_loop_spec u (l_npt l) (query_distances (u_obj u) pts j) (query_array (o_dim (u_obj u)) pts) (l_at l) gs j
      (spec_grids_length u q specs gs EG)) as HSp. cbv zeta in HSp. cbv beta in HRhs.
    rewrite (proj2 (at_well_iff u q l pts j pos HI HL Hpts HC) X2) in HSp.
    destruct (proj2 (ext_value_iff u q l j pos HL HC) X1) as [zz EZ]. rewrite EZ in HSp. destruct HSp as [_ HSp].
    destruct HSp as (b & Hb' & _); [|congruence].
    pose proof (spec_grids_length u q specs gs EG) as Hgs.
    destruct (dr_spec (u_drift u)) as [ds|] eqn:ED; [right|left; destruct gs; [reflexivity|discriminate]].
    specialize (X3 ltac:(discriminate)). rewrite rows_through, ED, <- (locate_npt _ q l (o_dim_cases _) HL), <- Hgs in X3. exact X3.
Qed.

(** other backends and styles *)
Theorem uk_rejects E u q specs : ureachable E u ->
  (~ In (q_style q) style_names -> execute_uk E u q specs = Err ValueError) /\
  (good_query (u_obj u) q -> q_backend q <> "vectorized"%string -> q_backend q <> "loop"%string -> execute_uk E u q specs = Err ValueError) /\
  (In (q_style q) style_names -> q_style q <> "masked"%string ->
     ~ good_specs u q specs -> execute_uk E u q specs = Err ValueError) /\
  (q_style q = "points"%string ->
     (List.length (ys q) <> List.length (xs q) \/ (o_dim (u_obj u) = 3%nat /\ List.length (zs q) <> List.length (xs q))) ->
     execute_uk E u q specs = Err ValueError).
Proof.
  intros HR. assert (HP : q_style q = "points"%string ->
     (List.length (ys q) <> List.length (xs q) \/ (o_dim (u_obj u) = 3%nat /\ List.length (zs q) <> List.length (xs q))) ->
     locate (o_dim (u_obj u)) (q_style q) (q_pts q) (q_mask q) = Err ValueError).
  { intros HS HN. rewrite HS. destruct (o_dim_cases (u_obj u)) as [ED|ED]; rewrite ED in *; cbn [locate]; [unfold locate2|unfold locate3];
      cbv zeta; cbn [String.eqb Ascii.eqb Bool.eqb];
      change (size_of (q_pts q) 0) with (List.length (xs q)); change (size_of (q_pts q) 1) with (List.length (ys q));
      try change (size_of (q_pts q) 2) with (List.length (zs q)).
    - destruct HN as [HN|[HN _]]; [|discriminate]. destruct (Nat.eqb_spec (List.length (xs q)) (List.length (ys q))); [congruence|reflexivity].
    - destruct (Nat.eqb_spec (List.length (xs q)) (List.length (ys q))), (Nat.eqb_spec (List.length (ys q)) (List.length (zs q))), (Nat.eqb_spec (List.length (xs q)) (List.length (zs q))); cbn [negb orb andb]; try reflexivity;
      exfalso; destruct HN as [HN|[_ HN]]; congruence. }
  split; [|split; [|split]].
  - intros H. apply in_names_not in H. unfold style_names in H. unfold execute_uk. rewrite H. reflexivity.
  - intros HQ H1 H2. pose proof (good_style (u_obj u) q HQ) as ES. destruct (good_locate (u_obj u) q HQ) as [l HL]. destruct (good_adjust (u_obj u) q l HQ) as [pts Hpts].
    apply in_names_In in ES. unfold style_names in ES. unfold execute_uk. cbv zeta. rewrite ES, UM_eq. cbn [negb bind].
    change (match o_dim (u_obj u) with 2%nat => locate2 | _ => locate3 end) with (locate (o_dim (u_obj u))).
    rewrite HL. cbn [bind]. destruct (spec_grids u (q_style q) (q_pts q) specs) as [gs|e] eqn:EG; cbn [bind]; [|rewrite (spec_grids_err _ _ _ _ _ EG); reflexivity].
    rewrite Hpts. cbn [bind]. destruct (String.eqb_spec (q_backend q) "vectorized"); [contradiction|].
    destruct (String.eqb_spec (q_backend q) "loop"); [contradiction|]. reflexivity.
  - intros ES HM HS. unfold execute_uk. cbv zeta. pose proof ES as ES'. apply in_names_In in ES'. unfold style_names in ES'. rewrite ES', UM_eq. cbn [negb bind].
    change (match o_dim (u_obj u) with 2%nat => locate2 | _ => locate3 end) with (locate (o_dim (u_obj u))).
    destruct (locate _ _ _ _) as [l|e] eqn:HL; cbn [bind].
    + destruct (spec_grids u (q_style q) (q_pts q) specs) as [gs|e] eqn:EG; cbn [bind]; [|rewrite (spec_grids_err _ _ _ _ _ EG); reflexivity].
      exfalso. apply HS. apply (spec_grids_iff E u q specs HR ES). eauto.
    + destruct (locate_err _ _ _ _ _ HL) as [->| ->]; [reflexivity|]. exfalso. apply HM. revert HL.
      destruct (o_dim_cases (u_obj u)) as [ED|ED]; rewrite ED; cbn [locate]; [unfold locate2|unfold locate3]; cbv zeta;
        (destruct (String.eqb_spec (q_style q) "masked") as [EM|_]; [intros _; exact EM|]);
        repeat match goal with |- context [if ?b then _ else _] => destruct b end; discriminate.
  - intros HS HN. specialize (HP HS HN). rewrite HS in HP. unfold execute_uk. cbv zeta. rewrite UM_eq, HS. cbn [negb bind in_names existsb String.eqb Ascii.eqb Bool.eqb orb].
    change (match o_dim (u_obj u) with 2%nat => locate2 | _ => locate3 end) with (locate (o_dim (u_obj u))). rewrite HP. reflexivity.
Qed.

Lemma forallb_false_In (l : list bool) : forallb (fun b => b) l = false -> In false l.
Proof. induction l as [|[] l IH]; cbn; [discriminate|intros H; right; auto|auto]. Qed.
Lemma ureachable_two E u : ureachable E u -> (2 <= o_n (u_obj u))%nat.
Proof.
  intros H. induction H as [c A D u Hc Hl H|u v _ IH|u _ IH|u _ IH].
  - unfold construct_uk in H. bindok H. bindok H. injection H as <-. cbn [u_obj].
    destruct (construct_given E c A a Hl E0) as [-> _]. apply (construct_accepts E c A a Hl E0).
  - destruct (update_uk_obj E u v) as [-> _]. destruct (update_preserves E (u_obj u) v) as (_&_&_&_&_&Pn&_). rewrite Pn. exact IH.
  - exact IH.
  - exact IH.
Qed.

Theorem uk_accepts E u q specs r w : ureachable E u -> execute_uk E u q specs = Ok (r, w) ->
  good_query (u_obj u) q /\ good_specs u q specs /\ (q_backend q = "vectorized"%string \/ q_backend q = "loop"%string) /\
  (forall p pos, shown (u_obj u) q p pos -> in_grid u pos).
Proof.
  intros HR H. pose proof (ureachable_inv E u HR) as HI.
  destruct (execute_uk_call E u q specs r w HI H) as (_ & l & gs & a_inv & HC).
  pose proof (uc_locate _ _ _ _ _ _ _ _ HC) as HL. pose proof (uc_specs _ _ _ _ _ _ _ _ HC) as EG.
  assert (ES : In (q_style q) style_names).
  { unfold execute_uk in H. destruct (in_names (q_style q) ["grid"; "masked"; "points"]%string) eqn:ES; cbn [negb] in H; [|discriminate].
    apply in_names_In in ES. exact ES. }
  split; [|split; [|split]].
  - apply (locate_good (u_obj u) q l HL). intros _. pose proof (uc_int _ _ _ _ _ _ _ _ HC) as Hint.
    exact (forallb_false_In _ Hint).
  - apply (spec_grids_iff E u q specs HR ES). eauto.
  - exact (uc_backend _ _ _ _ _ _ _ _ HC).
  - intros p pos [C NH]. destruct (uc_cell _ _ _ _ _ _ _ _ HC p pos C NH) as (HX & _). intros arr ex ey zs HE.
    destruct (HX arr ex ey zs HE) as [z Hz]. destruct (zscalar_accepts arr ex ey (coord 0 pos) (coord 1 pos)) as [_ Z2].
    apply Classical_Prop.NNPP. intros Hn. rewrite (Z2 Hn) in Hz. discriminate.
Qed.

(** ---- examples ---- *)
Lemma ex_drift_iff : exists E u specs, env_ok E /\ ureachable E u /\ o_pinv (u_obj u) = false /\
  dr_spec (u_drift u) <> None /\
  (exists r w, execute_uk E u (three_points "vectorized") specs = Ok (r, w)) /\
  (exists r w, execute_uk E u (three_points "loop") specs = Ok (r, w)).
Proof.
  destruct ex_specified_disagree as (E & u & specs & r & r' & H1 & H2 & H3 & H4 & H5 & _ & _ & _ & Hp).
  exists E, u, specs. split; [exact H1|]. split; [exact H2|]. split; [exact Hp|]. split; [|split; eauto].
  pose proof (ureachable_two E u H2) as L2. destruct (H5 0%nat ltac:(lia)) as (ds & -> & _). discriminate.
Qed.
Lemma ex_external_iff : exists E u, env_ok E /\ ureachable E u /\ o_pinv (u_obj u) = false /\ dr_ext (u_drift u) <> None /\
  execute_uk E u (masked_query "vectorized") [] = Err ValueError /\
  (exists r w, execute_uk E u (masked_query "loop") [] = Ok (r, w)).
Proof.
  destruct ex_masked_external as (E & u & r & H1 & H2 & H3 & H4 & _ & _ & Hp).
  exists E, u. split; [exact H1|]. split; [exact H2|]. split; [exact Hp|]. split; [|eauto].
  intros HX. pose proof (proj1 (loop_iff E u (masked_query "loop") [] H1 H2 Hp eq_refl)) as G1. destruct G1 as (G1 & G2 & G3 & _); [eauto|].
  pose proof (proj2 (vectorized_iff E u (masked_query "vectorized") [] H1 H2 Hp eq_refl)) as G4. destruct G4 as (r0 & w0 & H0); [|congruence].
  split; [exact G1|]. split; [exact G2|]. split; [|exact G3]. intros p pos _ arr ex ey zs HE. congruence.
Qed.
