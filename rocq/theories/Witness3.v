(** Concrete universal kriging objects: two data (0,0), (3,4), one drift term. *)
From Coq Require Import String ClassicalEpsilon.
From Verif Require Import Base Sums Matrix M_Variogram P_Variogram M_Geometry S_Geometry P_Geometry M_Kriging S_Kriging
  P_Kriging P_OKSpec M_Init M_Object M_Execute S_Execute P_Object P_Execute P_Cells P_Window P_WindowExec P_Master P_Det P_OK
  P_Similar P_Data Witness M_UK S_UK P_UK P_UK2 P_UK3 P_UK4 P_UK5 P_UK6 P_UK7.

Definition two_inv1 : mat := fun i j => match i, j with 0%nat, 1%nat | 1%nat, 0%nat => 1 | _, _ => 0 end.
Lemma krige1_one cython gs vg d bd y : exists v, krige1 (e_la (wit_env cython gs)) 1 vg d bd y false = Ok v.
Proof.
  unfold krige1. cbv zeta. cbn [wit_env e_la wit_la la_solve].
  destruct (choose (is_inverse (1 + 1) (kriging_matrix 1 vg d))) as [B|] eqn:EB; [cbn; eauto|].
  exfalso. apply (choose_none _ EB). exists two_inv1.
  assert (K : forall i j, (i < 2)%nat -> (j < 2)%nat -> kriging_matrix 1 vg d i j = two_inv1 i j).
  { intros i j Hi Hj. destruct i as [|[|i]]; [| |lia]; (destruct j as [|[|j]]; [| |lia]);
      unfold kriging_matrix, set_entry, set_col, set_row, fill_diagonal, set_block, zeros2, two_inv1; cbn; reflexivity. }
  change (1 + 1)%nat with 2%nat.
  split; intros i j Hi Hj; unfold mulm; cbn [bsum];
    (destruct i as [|[|i]]; [| |lia]); (destruct j as [|[|j]]; [| |lia]); rewrite !K by lia; unfold two_inv1, idm; cbn; ring.
Qed.

Lemma stats_two cython gs ct ndim X y vg : exists s, all_statistics (e_la (wit_env cython gs)) ct ndim 2 X y vg false = Ok s.
Proof.
  unfold all_statistics, find_statistics. cbn [seq mapM]. unfold stat_entry at 1. cbn [Nat.eqb bind].
  unfold stat_entry. cbn [Nat.eqb]. unfold krige_first.
  match goal with |- context [krige1 _ 1 ?a ?b ?c ?d false] => destruct (krige1_one cython gs a b c d) as [[k ss] ->] end.
  cbn [bind]. destruct (Rltb (Rabs ss) eps); cbn [bind]; eauto.
Qed.

Lemma two_construct_u cython gs slope nugget z0 z1 exact : exists o,
  construct (wit_env cython gs) UK2 (two_args slope nugget z0 z1 exact false) = Ok o.
Proof.
  unfold construct. cbn -[adjust_for_anisotropy all_statistics initialize_variogram_model].
  match goal with |- context [adjust_for_anisotropy false 2 ?X ?c ?s ?a] =>
    destruct (adjust_supported 2 X c s a (or_introl eq_refl)) as [Y HY]; rewrite HY end.
  cbn [bind].
  destruct (initialize_explicit (e_fit (wit_env cython gs)) Euclidean 2 2 Y (rnth [z0; z1]) "linear" f_linear [slope; nugget] 6 false)
    as (lags & sv & Hi); try reflexivity.
  cbn [wit_env e_fit] in Hi. rewrite Hi. cbn [bind].
  match goal with |- context [all_statistics _ ?a ?b 2 ?X ?y ?v false] => destruct (stats_two cython gs a b X y v) as [s Hs] end.
  cbn [wit_env e_la] in Hs. rewrite Hs. cbn [bind]. eauto.
Qed.

(** fields of such an object *)
Lemma two_fields_u cython gs slope nugget z0 z1 exact o :
  construct (wit_env cython gs) UK2 (two_args slope nugget z0 z1 exact false) = Ok o ->
  o_class o = UK2 /\ o_n o = 2%nat /\ o_ct o = Euclidean /\ o_exact o = exact /\ o_pinv o = false /\
  (forall d, o_vg o d = slope * d + nugget) /\ o_values o = rnth [z0; z1] /\
  o_orig o = columns [[0; 3]; [0; 4]] /\
  datum o 0%nat = (0, 0, 0) /\ datum o 1%nat = (3, 4, 0) /\
  o_scaling o = (fun _ => 1) /\ o_angle o = (fun _ => 0) /\
  (forall p q, separation o p q = sqrt ((lon p - lon q)² + (lat p - lat q)²)) /\
  G_of o 0%nat 1%nat = slope * 5 + nugget.
Proof.
  intros H. set (E := wit_env cython gs) in *.
  destruct (construct_inv E UK2 _ o H) as (ex & name & prm & fn & sc & an & f & vp & lags & sv & params & Hall).
  destruct Hall as (_&Hex&Hgs&Hf&Hmp&_&Hini&_&Hc&Hpi&_&Hexo&_&Hfo&Hpo&Hn&Horig&Hval&_&_&_&_&Hct).
  cbn in Hex, Hgs, Hn, Horig, Hval, Hpi. injection Hex as <-. injection Hgs as <- <- <- <- <-.
  cbn in Hf. injection Hf as <-. cbn in Hmp. injection Hmp as <-.
  destruct Hct as [(_ & Hct & _ & Hs & Ha & _)|(Hg & _)]; [|discriminate].
  assert (Hpar : params = [slope; nugget]).
  { unfold initialize_variogram_model in Hini. rewrite Hct in Hini. cbn [cdim Nat.eqb] in Hini. rewrite Hn in Hini. cbn [List.length two_args c_values Nat.eqb negb] in Hini.
    bindok Hini. cbn in Hini. injection Hini as _ _ <-. reflexivity. }
  rewrite Hpar in Hpo.
  assert (Hdim : o_dim o = 2%nat) by (unfold o_dim; rewrite Hc; reflexivity).
  assert (Hvg : forall d, o_vg o d = slope * d + nugget).
  { intros d. unfold o_vg. rewrite Hfo, Hpo. reflexivity. }
  assert (Hd0 : datum o 0%nat = (0, 0, 0)) by (unfold datum, loc; rewrite Hdim, Horig; reflexivity).
  assert (Hd1 : datum o 1%nat = (3, 4, 0)) by (unfold datum, loc; rewrite Hdim, Horig; reflexivity).
  assert (HS : forall p q, separation o p q = sqrt ((lon p - lon q)² + (lat p - lat q)²)).
  { intros [[x y] z] [[u v] w]. unfold separation, lon, lat. rewrite Hct, Hdim, Hs, Ha. cbn [Nat.eqb fst snd].
    unfold aniso2, rad, dot3, sub3. cbv zeta. replace (0 * PI / 180) with 0 by (field). rewrite cos_0, sin_0. f_equal. unfold Rsqr. ring. }
  repeat (split; [first [assumption|reflexivity]|]).
  unfold G_of, data_semivariance. cbn [Nat.eqb]. rewrite Hvg, HS, Hd0, Hd1. unfold lon, lat. cbn [fst snd]. rewrite sqrt_25. reflexivity.
Qed.

(** no anisotropy: the frame is the identity *)
Lemma frame_id o p : o_dim o = 2%nat -> o_scaling o = (fun _ => 1) -> o_angle o = (fun _ => 0) -> snd p = 0 -> frame o p = p.
Proof.
  intros Hd Hs Ha Hp. destruct p as [[x y] z]. cbn in Hp. subst z. unfold frame, center3, loc. rewrite Hd, Hs, Ha. cbn [Nat.eqb].
  unfold rad. replace (0 * PI / 180) with 0 by field. rewrite cos_0, sin_0. unfold add3, sub3, dot3. f_equal; [f_equal|]; ring.
Qed.

(** the 4 x 4 system with one drift function, different at the two data *)
Definition inv21 (c f0 f1 : R) : mat := fun i j =>
  let d := f1 - f0 in
  match i, j with
  | 0%nat, 2%nat | 2%nat, 0%nat => - / d
  | 0%nat, 3%nat | 3%nat, 0%nat => f1 / d
  | 1%nat, 2%nat | 2%nat, 1%nat => / d
  | 1%nat, 3%nat | 3%nat, 1%nat => - f0 / d
  | 2%nat, 2%nat => - 2 * c / (d * d)
  | 2%nat, 3%nat | 3%nat, 2%nat => c * (f1 + f0) / (d * d)
  | 3%nat, 3%nat => - 2 * c * f0 * f1 / (d * d)
  | _, _ => 0
  end.
Lemma inv21_ok (G F : mat) : G 0%nat 0%nat = 0 -> G 1%nat 1%nat = 0 -> G 1%nat 0%nat = G 0%nat 1%nat -> F 0%nat 0%nat <> F 0%nat 1%nat ->
  is_inverse 4 (UA 2 1 G F) (inv21 (G 0%nat 1%nat) (F 0%nat 0%nat) (F 0%nat 1%nat)).
Proof.
  intros G0 G1 GS HF. assert (F 0%nat 1%nat - F 0%nat 0%nat <> 0) by lra.
  split; intros i j Hi Hj; unfold mulm; cbn [bsum];
    (destruct i as [|[|[|[|i]]]]; [| | | |lia]); (destruct j as [|[|[|[|j]]]]; [| | | |lia]);
    unfold UA, inv21, idm; cbn [Nat.ltb Nat.leb Nat.add Nat.sub Nat.eqb]; rewrite ?G0, ?G1, ?GS; field; assumption.
Qed.

(** execute succeeds when the system is regular *)
Lemma u_succeeds cython gs u q specs l gsv : ureachable (wit_env cython gs) u -> o_pinv (u_obj u) = false ->
  specs_fit u specs ->
  nonsingular (o_n (u_obj u) + List.length (drift_terms u q specs) + 1) (UA_spec u (drift_terms u q specs)) ->
  bad_style (q_style q) = false ->
  locate (o_dim (u_obj u)) (q_style q) (q_pts q) (q_mask q) = Ok l ->
  spec_grids u (q_style q) (q_pts q) specs = Ok gsv -> forallb (fun b => b) (q_int q) = false ->
  (exists b, invert wit_la false (o_pinv_type (u_obj u)) (uk_size u) (UM u) = Ok b) /\
  (q_backend q = "vectorized"%string -> dr_ext (u_drift u) = None -> exists r, execute_uk (wit_env cython gs) u q specs = Ok (r, false)).
Proof.
  intros HR Hp HSF HF HB HL HG HQ. pose proof (ureachable_inv _ u HR) as HI.
  set (ts := drift_terms u q specs) in *.
  pose proof (mu_count_terms u q specs HSF) as Hm. fold ts in Hm.
  pose proof (UM_spec u q specs HI HSF) as HM. cbv zeta in HM. fold ts in HM. unfold uk_size in HM. rewrite Hm in HM.
  assert (HInv : exists b, choose (is_inverse (uk_size u) (UM u)) = Some b).
  { destruct (choose (is_inverse (uk_size u) (UM u))) as [b|] eqn:EB; [eauto|]. exfalso. apply (choose_none _ EB).
    unfold uk_size. rewrite Hm. destruct HF as [B HF]. exists B.
    refine (is_inverse_ext _ (UA_spec u ts) (UM u) _ _ _ (meq_refl _ _) HF).
    intros i j Hi Hj. symmetry. apply HM; assumption. }
  destruct HInv as [b Hb]. split.
  - unfold invert. cbn. rewrite Hb. eauto.
  - intros HV HX. unfold execute_uk. cbv zeta. unfold bad_style in HB. rewrite HB, UM_eq. cbn [bind].
    change (match o_dim (u_obj u) with 2%nat => locate2 | _ => locate3 end) with (locate (o_dim (u_obj u))).
    rewrite HL. cbn [bind]. rewrite HG. cbn [bind].
    assert (HA : exists pts, adjust_query (u_obj u) (q_int q) (l_at l) = Ok pts).
    { unfold adjust_query. rewrite (ui_ct u HI), HQ. apply adjust_supported, o_dim_cases. }
    destruct HA as [pts HA]. rewrite HA. cbn [bind]. rewrite HV. cbn [String.eqb Ascii.eqb Bool.eqb].
    pose proof (spec_grids_length u q specs gsv HG) as Hgs.
    pose proof (uk_exec_vector_spec (e_la (wit_env cython gs)) u (l_npt l) (UM u) (query_distances (u_obj u) pts)
      (query_array (o_dim (u_obj u)) pts) (l_at l) gsv Hgs) as HVE. cbv zeta in HVE.
    change (o_n (u_obj u) + List.length (data_cols u) + 1)%nat with (uk_size u) in HVE.
    unfold invert in HVE. rewrite Hp in HVE. cbn [e_la wit_env wit_la la_inv] in HVE. rewrite Hb in HVE.
    unfold ext_values in HVE. rewrite HX in HVE. destruct HVE as (z & s & E1 & _).
    cbn [e_la wit_env wit_la]. cbn [e_la wit_env wit_la] in E1. rewrite E1. cbn [bind]. eauto.
Qed.

(** two data, one drift function different at them *)
Lemma u21_nonsingular u ts : o_n (u_obj u) = 2%nat -> List.length ts = 1%nat ->
  F_of ts 0%nat 0%nat <> F_of ts 0%nat 1%nat -> nonsingular (o_n (u_obj u) + List.length ts + 1) (UA_spec u ts).
Proof.
  intros Hn Ht HF. unfold UA_spec. rewrite Hn, Ht. eexists. apply inv21_ok; try apply G_of_diag; [apply G_of_sym|exact HF].
Qed.

(** the loop backend: with an invertible matrix it succeeds when all shown cells
    are off the wells, in the external grid, and the specified arrays are long
    enough; at a well it raises *)
Lemma u_loop E u q specs l gsv b : uinv u -> bad_style (q_style q) = false -> q_backend q = "loop"%string ->
  locate (o_dim (u_obj u)) (q_style q) (q_pts q) (q_mask q) = Ok l ->
  spec_grids u (q_style q) (q_pts q) specs = Ok gsv -> forallb (fun b => b) (q_int q) = false ->
  invert (e_la E) (o_pinv (u_obj u)) (o_pinv_type (u_obj u)) (uk_size u) (UM u) = Ok b ->
  (off_wells u q -> (forall p pos, shown (u_obj u) q p pos -> ext_ok u pos) ->
   (gsv = [] \/ (spec_row u + List.length gsv <= l_npt l)%nat) ->
   exists r, execute_uk E u q specs = Ok (r, false)) /\
  (forall p pos wx wy s, dr_ext (u_drift u) = None -> gsv = [] -> shown (u_obj u) q p pos ->
     In (wx, wy, s) (opt_list (dr_wells (u_drift u))) -> plane_dist (frame (u_obj u) pos) wx wy = 0 ->
     execute_uk E u q specs = Err TypeError).
Proof.
  intros HI HB HV HL HG HQ Hinv. unfold execute_uk. cbv zeta. unfold bad_style in HB. rewrite HB, UM_eq. cbn [bind].
  change (match o_dim (u_obj u) with 2%nat => locate2 | _ => locate3 end) with (locate (o_dim (u_obj u))).
  rewrite HL. cbn [bind]. rewrite HG. cbn [bind].
  assert (HA : exists pts, adjust_query (u_obj u) (q_int q) (l_at l) = Ok pts).
  { unfold adjust_query. rewrite (ui_ct u HI), HQ. apply adjust_supported, o_dim_cases. }
  destruct HA as [pts HA]. rewrite HA. cbn [bind]. rewrite HV. cbn [String.eqb Ascii.eqb Bool.eqb].
  pose proof (spec_grids_length u q specs gsv HG) as Hgs.
  unfold uk_exec_loop. cbv zeta. replace (n_withdrifts u + 1)%nat with (uk_size u) by (rewrite n_withdrifts_cols; reflexivity).
  rewrite Hinv. cbn [bind].
  pose proof (uloop_gen (fun j => uk_rhs_loop u (l_npt l) (query_distances (u_obj u) pts j)
         (query_array (o_dim (u_obj u)) pts) (l_at l) gsv j) (o_n (u_obj u)) (uk_size u) b (o_values (u_obj u))
         (unmasked (l_npt l) (l_mask l)) (unmasked_NoDup _ _) (fun _ => 0) (fun _ => 0) false) as HF.
  assert (HC : forall j, In j (unmasked (l_npt l) (l_mask l)) -> exists pos, cell (o_dim (u_obj u)) q j pos /\ shown (u_obj u) q j pos).
  { intros j Hj. unfold unmasked in Hj. apply filter_In in Hj as [Hj Hm]. apply in_seq in Hj.
    destruct (locate_all_cells _ q l j (o_dim_cases _) HL ltac:(lia)) as (pos & HC). exists pos. split; [exact HC|]. split; [exact HC|].
    rewrite (cell_hidden_mask _ q l j pos (o_dim_cases _) HL HC). destruct (l_mask l j); [discriminate|]. rewrite andb_false_r. discriminate. }
  assert (D2 : (1 < o_dim (u_obj u))%nat) by (destruct (o_dim_cases (u_obj u)) as [E0|E0]; rewrite E0; lia).
  assert (HSp := fun j => uk_rhs_loop_spec u (l_npt l) (query_distances (u_obj u) pts j) (query_array (o_dim (u_obj u)) pts) (l_at l) gsv j Hgs).
  cbv zeta in HSp. split.
  - intros HO HX HN. destruct (foldM _ _ _) as [[[z s] w]|e] in HF |- *.
    + destruct HF as (G1 & _ & G3).
      assert (w = false) as ->; [|cbn [bind]; eauto].
      apply G3. split; [reflexivity|]. intros j bj wj Hj HR. specialize (HSp j). cbv beta in HR.
      destruct (at_well _ _); [congruence|]. destruct (ext_value (u_drift u) (l_at l) j); [|congruence].
      destruct HSp as [_ S2]. destruct (S2 HN) as (b' & S3 & _). congruence.
    + exfalso. destruct HF as (j & Hj & HR). cbv beta in HR. destruct (HC j Hj) as (pos & HCj & HSj). specialize (HSp j).
      destruct (at_well (u_drift u) _) eqn:EW.
      * unfold at_well in EW. apply existsb_exists in EW as ([[wx wy] s] & Hin & Hw). apply Reqb_true in Hw.
        destruct (query_frame u l pts q j pos HI HL HA HCj) as [F _].
        apply (HO j pos wx wy s HSj Hin). unfold well_dist in Hw. rewrite !F in Hw by lia. unfold plane_dist, Rsqr. exact Hw.
      * unfold ext_value in HSp. destruct (dr_ext (u_drift u)) as [[[[arr ex] ey] zs]|] eqn:ED.
        -- destruct (HX j pos HSj arr ex ey zs ED) as [z Hz].
           destruct (locate_coords _ q l j pos (o_dim_cases _) HL HCj) as [G1 G2]. rewrite G1, G2, Hz in HSp.
           destruct HSp as [_ S2]. destruct (S2 HN) as (b' & S3 & _). congruence.
        -- destruct HSp as [_ S2]. destruct (S2 HN) as (b' & S3 & _). congruence.
  - intros p pos wx wy s HX HN [HSh HNH] Hin HW.
    destruct (locate_cell _ q l p pos (o_dim_cases _) HL HSh) as [Hp _].
    assert (Hin' : In p (unmasked (l_npt l) (l_mask l))).
    { unfold unmasked. apply filter_In. split; [apply in_seq; lia|].
      rewrite (cell_hidden_mask _ q l p pos (o_dim_cases _) HL HSh) in HNH.
      destruct (String.eqb_spec (q_style q) "masked") as [ES|NS].
      - destruct (l_mask l p); [exfalso; apply HNH; reflexivity|reflexivity].
      - destruct (locate_facts _ _ _ _ l (o_dim_cases _) HL) as [_ [HM|HM]]; [contradiction|]. rewrite HM. reflexivity. }
    assert (HE : uk_rhs_loop u (l_npt l) (query_distances (u_obj u) pts p) (query_array (o_dim (u_obj u)) pts) (l_at l) gsv p = Err TypeError).
    { specialize (HSp p). destruct (at_well (u_drift u) _) eqn:EW; [exact HSp|]. exfalso.
      unfold at_well in EW. apply Bool.not_true_iff_false in EW. apply EW. apply existsb_exists. exists (wx, wy, s). split; [exact Hin|].
      apply Reqb_true. destruct (query_frame u l pts q p pos HI HL HA HSh) as [F _]. unfold well_dist. rewrite !F by lia.
      unfold plane_dist, Rsqr in HW. exact HW. }
    destruct (foldM _ _ _) as [[[z s0] w]|e] in HF |- *.
    + exfalso. destruct HF as (G1 & _). destruct (G1 p Hin') as (bj & wj & HR & _). cbv beta in HR. congruence.
    + cbn [bind]. f_equal. destruct HF as (j & Hj & HR). cbv beta in HR. specialize (HSp j).
      destruct (at_well (u_drift u) _); [congruence|]. unfold ext_value in HSp. rewrite HX in HSp.
      destruct HSp as [_ S2]. destruct (S2 (or_introl HN)) as (b' & S3 & _). congruence.
Qed.
