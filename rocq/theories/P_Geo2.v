(** OrdinaryKriging(coordinates_type='geographic') with a proper model: the constructor. *)
From Coq Require Import String.
From Verif Require Import Base Sums Matrix M_Variogram P_Variogram M_Geometry S_Geometry P_Geometry M_Kriging S_Kriging
  P_Kriging P_OKSpec M_Init M_Object M_Execute S_Execute S_Valid S_Geo P_Psd P_Psd2 P_Sphere P_Valid P_Valid2 P_Valid4 P_Object P_Execute P_Cells P_OK P_Dup P_Fit4
  P_Det P_Exec2 P_WindowExec P_Master P_Options P_Sound P_Geo P_Valid6 Witness.

Lemma sound_stats L o y m : linalg_ok L -> coords_inv o -> strict o -> solvable_data o -> (m <= S (o_n o))%nat ->
  exists s, all_statistics L (o_ct o) (o_dim o) m (o_adj o) y (o_vg o) false = Ok s.
Proof.
  intros HL HI HP HS Hm. unfold all_statistics, find_statistics.
  assert (HM : exists l, mapM (stat_entry L (o_ct o) (o_dim o) (o_adj o) y (o_vg o) false) (seq 0 m) = Ok l).
  { apply mapM_ok. intros i Hi. apply in_seq in Hi. unfold stat_entry. destruct (Nat.eqb_spec i 0) as [->|Hi0]; [eauto|].
    assert (HR : local_regular o i (fun a => a)) by (apply sound_local_regular; try assumption; intros; lia).
    unfold krige_first. rewrite stat_dist.
    destruct (krige1_nonsingular L i (o_vg o) (data_distances o)
                (fun a => distance (o_ct o) (o_dim o) (o_adj o a) (o_adj o i)) y HL) as [[k ss] ->].
    { apply regular_nonsingular. unfold local_regular in HR.
      intros g. destruct (HR g) as (w & mu & (S1 & S2) & U). exists w, mu. split.
      - split; [|exact S2]. intros a Ha. rewrite <- (S1 a Ha). f_equal. apply bsum_ext. intros b Hb. rewrite (G_of_matrix o HI). reflexivity.
      - intros w' mu' (T1 & T2). apply U. split; [|exact T2]. intros a Ha. rewrite <- (T1 a Ha). f_equal. apply bsum_ext. intros b Hb. rewrite (G_of_matrix o HI). reflexivity. }
    cbn [bind]. destruct (Rltb (Rabs ss) eps); eauto. }
  destruct HM as [l ->]. cbn [bind]. eauto.
Qed.

Lemma geo_request_list name l : geographic_request name l -> exists f p, dict_get variogram_dict name = Some f /\
  make_parameter_list name (PList l) = Ok (Some p) /\ sphere_model f p /\
  List.length p = (if String.eqb name "linear" then 2%nat else 3%nat) /\ fcall f p 0 = last l 0 /\
  (0 < last l 0 \/ (f = f_exponential /\ 0 < rnth p 0) \/ (f = f_power /\ 0 < rnth p 0 /\ rnth p 1 < 1)).
Proof.
  intros [slope nugget -> H1 H2|scale ex nugget -> H1 H2 H3 H4|sill range nugget -> H1 H2 H3].
  - exists f_linear, [slope; nugget]. repeat split; try reflexivity.
    + apply sphere_linear; [reflexivity|cbn; lra..].
    + cbn. unfold linear_variogram_model, rnth. cbn. ring.
    + left. cbn. lra.
  - exists f_power, [scale; ex; nugget]. repeat split; try reflexivity.
    + apply sphere_power; [reflexivity|cbn; lra..].
    + unfold f_power. cbn. unfold power_variogram_model, rnth. cbn. unfold npow. rewrite Reqb_refl. destruct (Reqb_spec ex 0); [lra|]. ring.
    + destruct H4 as [H4|[H4 H5]]; [left; cbn; lra|right; right]. split; [reflexivity|]. cbn. lra.
  - exists f_exponential, [sill - nugget; range; nugget]. repeat split; try reflexivity.
    + apply sphere_exponential; [reflexivity|cbn; lra..].
    + unfold f_exponential. cbn. unfold exponential_variogram_model, rnth. cbn.
      unfold Rdiv. rewrite Ropp_0, Rmult_0_l, exp_0. ring.
    + destruct (Rle_lt_or_eq_dec nugget sill (proj2 H3)) as [L|L]; [|left; cbn; lra].
      right; left. split; [reflexivity|]. cbn. lra.
Qed.

Lemma geo_calls E A name l : geographic_call A name l ->
  exists mk : option stats -> nat -> obj,
    construct E OK2 A = (do st <- (if c_stat A then
                        let o := mk None (List.length (c_values A)) in
                        do s <- all_statistics (e_la E) (o_ct o) (o_dim o) (o_n o) (o_adj o) (rnth (c_values A)) (o_vg o) false ;; Ok (Some s)
              else Ok None) ;; Ok (mk st (List.length (c_values A)))) /\
    forall st n, let o := mk st n in
      coords_inv o /\ proper_geographic o /\ strict_geographic o /\ o_class o = OK2 /\ o_ct o = Geographic /\ o_n o = n /\ o_pinv o = false /\
      o_vg o 0 = last l 0 /\ o_orig o = columns (c_coords A) /\
      o_adj o = o_adj (mk None 0%nat) /\ o_vg o = o_vg (mk None 0%nat).
Proof.
  intros HC. pose proof (gc_dim _ _ _ HC) as Hdim. pose proof (gc_len _ _ _ HC) as Hlen. pose proof (gc_two _ _ _ HC) as H2.
  destruct (geo_request_list name l (gc_request _ _ _ HC)) as (f & p & Hf & Hp & HM & Hpl & H0 & HSt).
  assert (Hpt : in_names (c_pinv_type A) pinv_types = true) by (destruct (gc_type _ _ _ HC) as [-> | ->]; reflexivity).
  destruct (c_exact A) as [exact|] eqn:EX; [|destruct (gc_exact _ _ _ HC EX)].
  assert (Hn : List.length (nth 0 (c_coords A) []) = List.length (c_values A)) by (apply Hlen; apply nth_In; rewrite Hdim; lia).
  destruct (initialize_explicit (e_fit E) Geographic 2 (List.length (c_values A)) (columns (c_coords A)) (rnth (c_values A)) name f p (a_nlags (c_v A)) (a_weight (c_v A)))
    as (lags & sv & Hi); try assumption; [reflexivity|].
  exists (fun st n => {| o_class := OK2; o_pinv := c_pinv A; o_pinv_type := c_pinv_type A; o_exact := exact;
          o_ct := Geographic; o_model := VName name; o_fun := f; o_params := p;
          o_n := n; o_orig := columns (c_coords A); o_values := rnth (c_values A);
          o_center := (fun _ => 0); o_scaling := (fun _ => 1); o_angle := (fun _ => 0); o_adj := columns (c_coords A);
          o_lags := lags; o_semivariance := sv; o_stats := st;
          o_verbose := c_verbose A; o_plotting := c_plotting A |}).
  split.
  - unfold construct. rewrite Hpt, EX. cbn [negb class_ct]. rewrite (gc_ct _ _ _ HC). unfold resolve_gs. rewrite (gc_model _ _ _ HC). cbn [bind].
    unfold resolve_fun. rewrite Hf. cbn [bind String.eqb Ascii.eqb Bool.eqb].
    rewrite (gc_params _ _ _ HC), Hp. cbn [bind].
    rewrite (same_length_ok _ _ Hlen). cbn [negb cdim]. rewrite Hn, Hi. cbn [bind]. rewrite (gc_pinv _ _ _ HC). unfold o_dim, o_vg. cbn [o_ct o_class o_n o_adj o_fun o_params cdim].
    destruct (c_stat A); reflexivity.
  - intros st n o. split; [repeat split|]. split; [split; [reflexivity|exact HM]|]. split.
    + unfold strict_geographic. change (o_vg o 0) with (fcall f p 0). rewrite H0. exact HSt.
    + repeat (split; [first [reflexivity|exact (gc_pinv _ _ _ HC)|exact H0]|]). reflexivity.
Qed.

Lemma sphere_distinct o A : o_ct o = Geographic -> o_class o = OK2 -> o_orig o = columns (c_coords A) ->
  distinct_on_sphere (nth 0 (c_coords A) []) (nth 1 (c_coords A) []) (o_n o) -> distinct_data o.
Proof.
  intros HE HC HO HD i j Hi Hj Hij H. apply (HD i j Hi Hj Hij). unfold separation in H. rewrite HE in H. apply gc_zero in H.
  unfold datum, loc, o_dim in H. rewrite HC, HO in H. exact H.
Qed.
Lemma geo_solvable o A l : o_ct o = Geographic -> o_class o = OK2 -> o_orig o = columns (c_coords A) -> o_vg o 0 = last l 0 ->
  0 < last l 0 \/ distinct_on_sphere (nth 0 (c_coords A) []) (nth 1 (c_coords A) []) (o_n o) -> solvable_data o.
Proof. intros H1 H2 H3 H4 [H|H]; [left; rewrite H4; exact H|right; apply (sphere_distinct o A); assumption]. Qed.

Theorem geo_construct_ok E A name l : env_ok E -> geographic_call A name l ->
  let n := List.length (c_values A) in let lons := nth 0 (c_coords A) [] in let lats := nth 1 (c_coords A) [] in
  (c_stat A = true -> 0 < last l 0 \/ distinct_on_sphere lons lats (n - 1)) ->
  exists o, construct E OK2 A = Ok o /\ proper_geographic o /\ strict_geographic o /\ o_class o = OK2 /\ o_n o = n /\ o_pinv o = false /\
    (0 < last l 0 \/ distinct_on_sphere lons lats n -> solvable_data o).
Proof.
  intros HE HC n lons lats HD. destruct (geo_calls E A name l HC) as (mk & HK & HM). pose proof (gc_two _ _ _ HC) as H2. fold n in HK, H2.
  assert (HX : exists st, construct E OK2 A = Ok (mk st n)).
  { rewrite HK. destruct (c_stat A); [|cbn [bind]; eauto]. specialize (HD eq_refl).
    destruct (HM None (n - 1)%nat) as (I & P & S' & C & T & N & _ & V & O & AJ & VG).
    destruct (HM None n) as (_ & _ & _ & C' & T' & N' & _ & _ & _ & AJ' & VG').
    destruct (sound_stats (e_la E) (mk None (n - 1)%nat) (rnth (c_values A)) n (proj1 HE) I (proper_geo_strict _ P S')) as [s Hs].
    { apply (geo_solvable _ A l); try assumption. rewrite N. exact HD. }
    { rewrite N. lia. }
    unfold o_dim in *. rewrite T, C, AJ, VG in Hs. cbv zeta. rewrite T', C', AJ', VG', N', Hs. cbn [bind]. eauto. }
  destruct HX as [st HX]. exists (mk st n). destruct (HM st n) as (I & P & S' & C & T & N & PI & V & O & _).
  repeat (split; [assumption|]). intros HS. apply (geo_solvable _ A l); try assumption. rewrite N. exact HS.
Qed.
Theorem geo_construct_duplicate E A name l i j : env_ok E -> geographic_call A name l -> c_stat A = true -> last l 0 = 0 ->
  let n := List.length (c_values A) in let lons := nth 0 (c_coords A) [] in let lats := nth 1 (c_coords A) [] in
  (i < n - 1)%nat -> (j < n - 1)%nat -> i <> j -> sphere (rnth lons i) (rnth lats i) = sphere (rnth lons j) (rnth lats j) ->
  construct E OK2 A = Err LinAlgError.
Proof.
  intros HE HC HW H0 n lons lats Hi Hj Hij Heq. destruct (geo_calls E A name l HC) as (mk & HK & HM). fold n in HK.
  destruct (HM None (n - 1)%nat) as (I & P & S' & C & T & N & _ & V & O & AJ & VG).
  destruct (HM None n) as (_ & _ & _ & C' & T' & N' & _ & _ & _ & AJ' & VG').
  assert (HCo : coincident (mk None (n - 1)%nat) i j).
  { unfold coincident. rewrite N. repeat (split; [assumption|]). unfold separation. rewrite T. apply gc_zero.
    unfold datum, loc, o_dim. rewrite C, O. exact Heq. }
  pose proof (stats_duplicate (e_la E) _ (rnth (c_values A)) i j (proj1 HE) I HCo ltac:(rewrite V; exact H0)) as HS.
  rewrite N in HS. replace (Datatypes.S (n - 1)) with n in HS by (pose proof (gc_two _ _ _ HC); unfold n in *; lia). unfold o_dim in *. rewrite T, C, AJ, VG in HS.
  rewrite HK, HW. cbv zeta. rewrite T', C', AJ', VG', N', HS. reflexivity.
Qed.
Theorem geo_construct_iff E A name l : env_ok E -> geographic_call A name l ->
  ((exists o, construct E OK2 A = Ok o) <->
   (c_stat A = true -> 0 < last l 0 \/
      distinct_on_sphere (nth 0 (c_coords A) []) (nth 1 (c_coords A) []) (List.length (c_values A) - 1))).
Proof.
  intros HE HC. split; [|intros H; destruct (geo_construct_ok E A name l HE HC H) as (o & Ho & _); eauto].
  intros [o Ho] HW. destruct (Rlt_dec 0 (last l 0)) as [L|L]; [left; exact L|right].
  assert (H0 : last l 0 = 0). { destruct (gc_request _ _ _ HC); cbn in *; lra. }
  intros i j Hi Hj Hij Heq. pose proof (geo_construct_duplicate E A name l i j HE HC HW H0 Hi Hj Hij Heq). congruence.
Qed.
Theorem geo_construct_execute E A name l : env_ok E -> geographic_call A name l ->
  0 < last l 0 \/ distinct_on_sphere (nth 0 (c_coords A) []) (nth 1 (c_coords A) []) (List.length (c_values A)) ->
  exists o, construct E OK2 A = Ok o /\ proper_geographic o /\ strict_geographic o /\ solvable_data o /\
    forall q, good_query o q -> has_backend o q -> exists r, execute E o q = Ok r.
Proof.
  intros HE HC HD. destruct (geo_construct_ok E A name l HE HC) as (o & Ho & P & S' & C & N & PI & HS).
  { intros _. destruct HD as [HD|HD]; [left; exact HD|right]. intros i j Hi Hj. apply HD; lia. }
  specialize (HS HD). exists o. split; [exact Ho|]. split; [exact P|]. split; [exact S'|]. split; [exact HS|]. intros q HQ HB.
  assert (Hre : reachable E o) by (refine (reach_new E OK2 A o _ Ho); exact (gc_dim _ _ _ HC)).
  destruct (geo_execute E o q HE Hre (or_introl C) P S' HS ltac:(rewrite N; pose proof (gc_two _ _ _ HC); lia) PI HQ HB) as [r HR].
  exists r. apply HR.
Qed.
