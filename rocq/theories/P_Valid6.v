(** Proofs: constructors and update_variogram_model succeed with a proper model. *)
From Coq Require Import String.
From Verif Require Import Base Sums Matrix M_Variogram P_Variogram M_Geometry S_Geometry P_Geometry M_Kriging S_Kriging
  P_Kriging P_OKSpec M_Init M_Object M_Execute S_Execute P_Object P_Execute P_Cells P_OK P_Dup P_Fit4
  M_UK S_UK S_Valid P_Valid P_Valid2 Witness.

(** ** Leave-one-out statistics exist *)
Lemma krige1_nonsingular L n vg d bd y : linalg_ok L -> nonsingular (n + 1) (kriging_matrix n vg d) ->
  exists v, krige1 L n vg d bd y false = Ok v.
Proof.
  intros HL HN. unfold krige1. cbv zeta. destruct (la_solve _ _ _ _) eqn:ES; [eauto|]. exfalso. exact (solve_none _ HL _ _ _ ES HN).
Qed.

Lemma stat_dist o : (fun a b => distance (o_ct o) (o_dim o) (o_adj o b) (o_adj o a)) = data_distances o.
Proof.
  apply FunctionalExtensionality.functional_extensionality. intros x. apply FunctionalExtensionality.functional_extensionality. intros y.
  unfold data_distances. apply distance_sym.
Qed.

(** data n - 1 is never part of a system: the first n - 1 must be solvable *)
Lemma stats_exist L o y m : linalg_ok L -> coords_inv o -> proper o -> solvable_data o -> (m <= S (o_n o))%nat ->
  exists s, all_statistics L (o_ct o) (o_dim o) m (o_adj o) y (o_vg o) false = Ok s.
Proof.
  intros HL HI HP HS Hm. unfold all_statistics, find_statistics.
  assert (HM : exists l, mapM (stat_entry L (o_ct o) (o_dim o) (o_adj o) y (o_vg o) false) (seq 0 m) = Ok l).
  { apply mapM_ok. intros i Hi. apply in_seq in Hi. unfold stat_entry. destruct (Nat.eqb_spec i 0) as [->|Hi0]; [eauto|].
    assert (HR : local_regular o i (fun a => a)) by (apply proper_local_regular; try assumption; intros; lia).
    unfold krige_first. rewrite stat_dist.
    destruct (krige1_nonsingular L i (o_vg o) (data_distances o)
                (fun a => distance (o_ct o) (o_dim o) (o_adj o a) (o_adj o i)) y HL) as [[k ss] ->].
    { apply regular_nonsingular. unfold local_regular in HR.
      intros g. destruct (HR g) as (w & mu & (S1 & S2) & U). exists w, mu. split.
      - split; [|exact S2]. intros a Ha. rewrite <- (S1 a Ha). f_equal. apply bsum_ext. intros b Hb. rewrite (G_of_matrix o HI). reflexivity.
      - intros w' mu' (T1 & T2). apply U. split; [|exact T2]. intros a Ha. rewrite <- (T1 a Ha). f_equal. apply bsum_ext. intros b Hb. rewrite (G_of_matrix o HI). reflexivity. }
    cbn [bind]. destruct (Rltb (Rabs ss) eps); eauto. }
  destruct HM as [l ->]. cbn [bind]. eauto.
Qed.

Lemma mapM_err {A B} (f : A -> res B) l e : (forall x e', In x l -> f x = Err e' -> e' = e) -> (exists x e', In x l /\ f x = Err e') -> mapM f l = Err e.
Proof.
  induction l as [|x l IH]; intros H (z & e' & Hz & Hf); [destruct Hz|]. cbn.
  destruct (f x) as [y|e0] eqn:Ex; cbn [bind]; [|rewrite (H x e0 (or_introl eq_refl) Ex); reflexivity].
  rewrite IH; [reflexivity|intros; eapply H; [right|]; eassumption|]. exists z, e'. split; [|exact Hf].
  destruct Hz as [<-|Hz]; [congruence|exact Hz].
Qed.
Lemma krige1_err L n vg d bd y e : krige1 L n vg d bd y false = Err e -> e = LinAlgError.
Proof. unfold krige1. cbv zeta. destruct (la_solve _ _ _ _); congruence. Qed.

(** two of the first n - 1 data at the same place, no nugget: LinAlgError *)
Lemma stats_duplicate L o y i j : linalg_ok L -> coords_inv o -> coincident o i j -> o_vg o 0 = 0 ->
  all_statistics L (o_ct o) (o_dim o) (S (o_n o)) (o_adj o) y (o_vg o) false = Err LinAlgError.
Proof.
  intros HL HI HC H0. unfold all_statistics, find_statistics. rewrite (mapM_err _ _ LinAlgError); [reflexivity| |].
  - intros x e' Hx. unfold stat_entry. destruct (Nat.eqb x 0); [discriminate|]. unfold krige_first.
    destruct (krige1 _ _ _ _ _ _ _) as [[k ss]|e0] eqn:EK; cbn [bind]; [destruct (Rltb (Rabs ss) eps); discriminate|].
    intros E. rewrite (krige1_err _ _ _ _ _ _ _ EK) in E. congruence.
  - pose proof HC as (Hi & Hj & _). exists (o_n o), LinAlgError. split; [apply in_seq; lia|]. unfold stat_entry, krige_first. destruct (Nat.eqb_spec (o_n o) 0) as [E|_]; [lia|].
    rewrite stat_dist. unfold krige1. cbv zeta. destruct (la_solve _ _ _ _) eqn:ES; [|reflexivity]. exfalso.
    apply (coincident_singular o i j HI HC H0). exact (proj1 (solve_some _ HL _ _ _ _ ES)).
Qed.

(** ** Parameters *)
Lemma request_list name l : proper_request name l -> exists f p, dict_get variogram_dict name = Some f /\
  make_parameter_list name (PList l) = Ok (Some p) /\ proper_model f p /\
  List.length p = (if String.eqb name "linear" then 2%nat else 3%nat) /\ fcall f p 0 = last l 0.
Proof.
  intros [slope nugget -> H1 H2 H3|scale ex nugget -> H1 H2 H3 H4|sill range nugget H H1 H2 H3].
  - exists f_linear, [slope; nugget]. repeat split; try reflexivity.
    + apply proper_linear; [reflexivity|cbn; lra..].
    + cbn. unfold linear_variogram_model, rnth. cbn. ring.
  - exists f_power, [scale; ex; nugget]. repeat split; try reflexivity.
    + apply proper_power; [reflexivity|cbn; lra..].
    + unfold f_power. cbn. unfold power_variogram_model, rnth. cbn. unfold npow. rewrite Reqb_refl. destruct (Reqb_spec ex 0); [lra|]. ring.
  - destruct H as [->|[->| ->]].
    + exists f_gaussian, [sill - nugget; range; nugget]. repeat split; try reflexivity.
      * apply proper_gaussian; [reflexivity|cbn; lra..].
      * unfold f_gaussian. cbn. unfold gaussian_variogram_model, rnth. cbn. rewrite Rmult_0_l, Ropp_0.
        unfold Rdiv. rewrite Rmult_0_l, exp_0. ring.
    + exists f_exponential, [sill - nugget; range; nugget]. repeat split; try reflexivity.
      * apply proper_exponential; [reflexivity|cbn; lra..].
      * unfold f_exponential. cbn. unfold exponential_variogram_model, rnth. cbn. 
        unfold Rdiv. rewrite Ropp_0, Rmult_0_l, exp_0. ring.
    + exists f_spherical, [sill - nugget; range; nugget]. repeat split; try reflexivity.
      * apply proper_spherical; [reflexivity|cbn; lra..].
      * unfold f_spherical. cbn. unfold spherical_variogram_model, rnth. cbn. destruct (Rleb_spec 0 range); [|lra].
        unfold Rdiv. ring.
Qed.

(** ** Separation 0 *)
Lemma aniso2_zero s a d : s <> 0 -> aniso2 s a d = 0 -> fst (fst d) = 0 /\ snd (fst d) = 0.
Proof.
  intros Hs. destruct d as [[x y] z]. unfold aniso2, dot3. cbv zeta. cbn [fst snd]. set (t := rad a). intros H.
  apply sqrt_eq_0 in H; [|pose proof (Rle_0_sqr (cos t * x + sin t * y + 0 * z)); pose proof (Rle_0_sqr s);
    pose proof (Rle_0_sqr (- sin t * x + cos t * y + 0 * z)); pose proof (Rmult_le_pos _ _ H1 H2); lra].
  pose proof (Rle_0_sqr (cos t * x + sin t * y + 0 * z)) as P1. pose proof (Rle_0_sqr s) as P2.
  pose proof (Rle_0_sqr (- sin t * x + cos t * y + 0 * z)) as P3. pose proof (Rmult_le_pos _ _ P2 P3) as P4.
  assert (U : cos t * x + sin t * y + 0 * z = 0) by (apply Rsqr_0_uniq; lra).
  assert (V : - sin t * x + cos t * y + 0 * z = 0).
  { apply Rsqr_0_uniq. apply (Rmult_eq_reg_l (s²)); [lra|]. intros Z. apply Hs. apply Rsqr_0_uniq. exact Z. }
  pose proof (sc1 t) as HT.
  assert (X : x * (sin t * sin t + cos t * cos t) = cos t * (cos t * x + sin t * y + 0 * z) - sin t * (- sin t * x + cos t * y + 0 * z)) by ring.
  assert (Y : y * (sin t * sin t + cos t * cos t) = sin t * (cos t * x + sin t * y + 0 * z) + cos t * (- sin t * x + cos t * y + 0 * z)) by ring.
  rewrite U, V in X, Y. unfold Rsqr in HT. split; nra.
Qed.
Lemma aniso3_zero sy sz ax ay az d : sy <> 0 -> sz <> 0 -> aniso3 sy sz ax ay az d = 0 -> d = (0, 0, 0).
Proof.
  intros Hy Hz. unfold aniso3. cbv beta zeta.
  pose proof (parseval3 (rad ax) (rad ay) (rad az) d) as P. cbv beta zeta in P. revert P.
  generalize (dot3 (rotated_axis (rad ax) (rad ay) (rad az) (1, 0, 0)) d) (dot3 (rotated_axis (rad ax) (rad ay) (rad az) (0, 1, 0)) d)
    (dot3 (rotated_axis (rad ax) (rad ay) (rad az) (0, 0, 1)) d). intros u v w P H.
  assert (Q : 0 <= sy² * v² /\ 0 <= sz² * w² /\ 0 <= u²) by (repeat split; [apply Rmult_le_pos; apply Rle_0_sqr..|apply Rle_0_sqr]).
  apply sqrt_eq_0 in H; [|lra].
  assert (U : u = 0) by (apply Rsqr_0_uniq; lra).
  assert (V : v = 0).
  { apply Rsqr_0_uniq. apply (Rmult_eq_reg_l (sy²)); [lra|]. intros Z. apply Hy. apply Rsqr_0_uniq. exact Z. }
  assert (W : w = 0).
  { apply Rsqr_0_uniq. apply (Rmult_eq_reg_l (sz²)); [lra|]. intros Z. apply Hz. apply Rsqr_0_uniq. exact Z. }
  subst. destruct d as [[x y] z]. unfold dot3 in P. rewrite !Rmult_0_l in P.
  pose proof (Rle_0_sqr x). pose proof (Rle_0_sqr y). pose proof (Rle_0_sqr z). unfold Rsqr in *.
  assert (Ex : x = 0) by (apply Rsqr_0_uniq; unfold Rsqr; lra). assert (Ey : y = 0) by (apply Rsqr_0_uniq; unfold Rsqr; lra).
  assert (Ez : z = 0) by (apply Rsqr_0_uniq; unfold Rsqr; lra). subst. reflexivity.
Qed.

Lemma sep_zero o i j : o_ct o = Euclidean -> (forall k, (k < o_dim o - 1)%nat -> o_scaling o k <> 0) ->
  separation o (datum o i) (datum o j) = 0 -> forall k, (k < o_dim o)%nat -> o_orig o i k = o_orig o j k.
Proof.
  intros HE HS H k Hk. unfold separation in H. rewrite HE in H. unfold datum, loc in H. unfold o_dim in *.
  destruct (cdim_cases (o_class o)) as [D|D]; rewrite D in *; cbn [Nat.eqb] in H.
  - apply aniso2_zero in H; [|apply HS; lia]. cbn in H. destruct k as [|[|k]]; [lra|lra|lia].
  - apply aniso3_zero in H; [|apply HS; lia..]. cbn in H. injection H as H1 H2 H3. destruct k as [|[|[|k]]]; [lra|lra|lra|lia].
Qed.

Lemma inputs_distinct o coords : o_ct o = Euclidean -> (forall k, (k < o_dim o - 1)%nat -> o_scaling o k <> 0) ->
  o_orig o = columns coords -> List.length coords = o_dim o -> distinct_inputs coords (o_n o) -> distinct_data o.
Proof.
  intros HE HS HO HL HD i j Hi Hj Hij H. destruct (HD i j Hi Hj Hij) as (x & Hx & Hne).
  destruct (In_nth _ _ [] Hx) as (k & Hk & <-). apply Hne.
  pose proof (sep_zero o i j HE HS H k ltac:(lia)) as S. rewrite HO in S. exact S.
Qed.

(** ** The constructor *)
Lemma same_length_ok coords n : (forall x, In x coords -> List.length x = n) -> same_length coords = true.
Proof.
  intros H. destruct coords as [|l r]; [reflexivity|]. cbn. apply forallb_forall. intros x Hx.
  rewrite (H x) by (right; exact Hx). rewrite (H l) by (left; reflexivity). apply Nat.eqb_refl.
Qed.

(** everything but the statistics *)
Lemma construct_calls E c A name l : proper_call c A -> proper_variogram c (c_v A) name l ->
  exists mk : option stats -> nat -> obj,
    construct E c A = (do st <- (match c, c_stat A with
              | OK2, false => Ok None
              | _, _ => let o := mk None (List.length (c_values A)) in
                        do s <- all_statistics (e_la E) (o_ct o) (o_dim o) (o_n o) (o_adj o) (rnth (c_values A)) (o_vg o) false ;; Ok (Some s)
              end) ;; Ok (mk st (List.length (c_values A)))) /\
    forall st n, let o := mk st n in
      coords_inv o /\ proper o /\ o_class o = c /\ o_ct o = Euclidean /\ o_n o = n /\ o_pinv o = false /\ o_vg o 0 = last l 0 /\ o_orig o = columns (c_coords A) /\
      o_adj o = o_adj (mk None 0%nat) /\ o_vg o = o_vg (mk None 0%nat) /\
      (forall k, (k < cdim c - 1)%nat -> o_scaling o k <> 0) /\ o_stats o = st.
Proof.
  intros HC HV. pose proof (pc_dim _ _ HC) as Hdim. pose proof (pc_len _ _ HC) as Hlen. pose proof (pc_two _ _ HC) as H2.
  destruct (request_list name l (pv_request _ _ _ _ HV)) as (f & p & Hf & Hp & HM & Hpl & H0).
  assert (Hct : class_ct c (c_ct A) = "euclidean"%string) by (destruct c; cbn; try reflexivity; exact (pc_ct _ _ HC eq_refl)).
  assert (Hpt : in_names (c_pinv_type A) pinv_types = true) by (destruct (pc_type _ _ HC) as [-> | ->]; reflexivity).
  destruct (c_exact A) as [exact|] eqn:EX; [|destruct (pc_exact _ _ HC EX)].
  assert (Hn : List.length (nth 0 (c_coords A) []) = List.length (c_values A)).
  { apply Hlen. apply nth_In. rewrite Hdim. destruct c; cbn; lia. }
  destruct (mapM_ok center_of (c_coords A)) as [cs Hcs].
  { intros x Hx. apply center_ok. rewrite (Hlen x Hx). lia. }
  destruct (adjust_supported (cdim c) (columns (c_coords A)) (rnth cs) (a_scaling (c_v A)) (a_angle (c_v A)) (cdim_cases c)) as [Y HY].
  destruct (initialize_explicit (e_fit E) Euclidean (cdim c) (List.length (c_values A)) Y (rnth (c_values A)) name f p (a_nlags (c_v A)) (a_weight (c_v A)))
    as (lags & sv & Hi); try assumption; [intros; discriminate|].
  exists (fun st n => {| o_class := c; o_pinv := c_pinv A; o_pinv_type := c_pinv_type A; o_exact := exact;
          o_ct := Euclidean; o_model := VName name; o_fun := f; o_params := p;
          o_n := n; o_orig := columns (c_coords A); o_values := rnth (c_values A);
          o_center := rnth cs; o_scaling := a_scaling (c_v A); o_angle := a_angle (c_v A); o_adj := Y;
          o_lags := lags; o_semivariance := sv; o_stats := st;
          o_verbose := c_verbose A; o_plotting := c_plotting A |}).
  split.
  - unfold construct. rewrite Hpt, EX, Hct. cbn [negb]. unfold resolve_gs. rewrite (pv_model _ _ _ _ HV). cbn [bind].
    unfold resolve_fun. rewrite Hf. cbn [bind String.eqb Ascii.eqb Bool.eqb]. rewrite Hcs. cbn [bind].
    rewrite (same_length_ok _ _ Hlen). cbn [negb]. rewrite HY. cbn [bind]. rewrite (pv_params _ _ _ _ HV), Hp. cbn [bind].
    rewrite Hn, Hi. cbn [bind]. rewrite (pc_pinv _ _ HC). unfold o_dim, o_vg. cbn [o_ct o_class o_n o_adj o_fun o_params]. reflexivity.
  - intros st n o. split; [exact HY|]. split; [split; [reflexivity|exact HM]|]. repeat (split; [first [reflexivity|exact (pc_pinv _ _ HC)|exact H0]|]).
    split; [exact (pv_scaling _ _ _ _ HV)|reflexivity].
Qed.

Lemma distinct_le coords n m : distinct_inputs coords n -> (m <= n)%nat -> distinct_inputs coords m.
Proof. intros H Hm i j Hi Hj. apply H; lia. Qed.

Theorem construct_ok E c A name l : env_ok E -> proper_call c A -> proper_variogram c (c_v A) name l ->
  (with_stats c A -> 0 < last l 0 \/ distinct_inputs (c_coords A) (List.length (c_values A) - 1)) ->
  exists o, construct E c A = Ok o /\ proper o /\ o_n o = List.length (c_values A) /\ o_pinv o = false /\
    (0 < last l 0 \/ distinct_inputs (c_coords A) (List.length (c_values A)) -> solvable_data o).
Proof.
  intros HE HC HV HD. destruct (construct_calls E c A name l HC HV) as (mk & HK & HM).
  set (n := List.length (c_values A)) in *. pose proof (pc_two _ _ HC) as H2. fold n in H2.
  assert (HS : forall st m, 0 < last l 0 \/ distinct_inputs (c_coords A) m -> solvable_data (mk st m)).
  { intros st m. destruct (HM st m) as (I & P & C & T & N & _ & V & O & _ & _ & S & _). intros [HX|HX]; [left; rewrite V; exact HX|right].
    assert (DM : o_dim (mk st m) = cdim c) by (unfold o_dim; rewrite C; reflexivity).
    apply (inputs_distinct (mk st m) (c_coords A)); try assumption; [rewrite DM; exact S|rewrite DM; exact (pc_dim _ _ HC)|rewrite N; exact HX]. }
  assert (HX : exists st, construct E c A = Ok (mk st n)).
  { destruct (HM None (n - 1)%nat) as (I & P & C & T & N & _ & V & O & AJ & VG & S & _).
    destruct (HM None n) as (_ & _ & C' & T' & N' & _ & _ & _ & AJ' & VG' & _ & _).
    assert (HY : with_stats c A -> exists st, construct E c A = Ok (mk st n)).
    { intros HW. destruct (stats_exist (e_la E) (mk None (n - 1)%nat) (rnth (c_values A)) n (proj1 HE) I P (HS _ _ (HD HW)) ltac:(lia)) as [s Hs].
      rewrite HK. unfold with_stats in HW. unfold o_dim in *. rewrite T, C, AJ, VG in Hs.
      cbv zeta. rewrite T', C', AJ', VG', N', Hs. destruct c, (c_stat A); cbn [bind]; eauto; destruct HW; congruence. }
    unfold with_stats in HY. destruct c; try (apply HY; left; discriminate). destruct (c_stat A) eqn:ES; [apply HY; right; reflexivity|].
    rewrite HK. cbn [bind]. eauto. }
  destruct HX as [st HX]. exists (mk st n). destruct (HM st n) as (I & P & C & T & N & PI & _).
  repeat (split; [assumption|]). apply HS.
Qed.

Theorem construct_duplicate E c A name l i j : env_ok E -> proper_call c A -> proper_variogram c (c_v A) name l -> with_stats c A ->
  last l 0 = 0 -> (i < j)%nat -> (j < List.length (c_values A) - 1)%nat -> (forall x, In x (c_coords A) -> rnth x i = rnth x j) ->
  construct E c A = Err LinAlgError.
Proof.
  intros HE HC HV HW H0 Hij Hj Heq. destruct (construct_calls E c A name l HC HV) as (mk & HK & HM).
  set (n := List.length (c_values A)) in *.
  destruct (HM None (n - 1)%nat) as (I & P & C & T & N & _ & V & O & AJ & VG & S & _).
  destruct (HM None n) as (_ & _ & C' & T' & N' & _ & _ & _ & AJ' & VG' & _ & _).
  assert (HCo : coincident (mk None (n - 1)%nat) i j).
  { unfold coincident. rewrite N. repeat (split; [lia|]). replace (datum (mk None (n - 1)%nat) j) with (datum (mk None (n - 1)%nat) i); [apply separation_self; exact T|].
    unfold datum, loc, o_dim. rewrite C, O. unfold columns. pose proof (pc_dim _ _ HC) as HD.
    assert (HZ : forall k, rnth (nth k (c_coords A) []) i = rnth (nth k (c_coords A) []) j).
    { intros k. destruct (Nat.lt_ge_cases k (List.length (c_coords A))) as [L|L]; [apply Heq; apply nth_In; exact L|].
      rewrite nth_overflow by lia. unfold rnth. destruct i, j; reflexivity. }
    rewrite !HZ. reflexivity. }
  pose proof (stats_duplicate (e_la E) _ (rnth (c_values A)) i j (proj1 HE) I HCo ltac:(rewrite V; exact H0)) as HS.
  rewrite N in HS. replace (Datatypes.S (n - 1)) with n in HS by lia. unfold o_dim in *. rewrite T, C, AJ, VG in HS.
  rewrite HK. cbv zeta. rewrite T', C', AJ', VG', N', HS. unfold with_stats in HW. destruct c, (c_stat A); cbn [bind]; try reflexivity. destruct HW; congruence.
Qed.

(** the constructor returns iff ... *)
Theorem construct_iff E c A name l : env_ok E -> proper_call c A -> proper_variogram c (c_v A) name l ->
  ((exists o, construct E c A = Ok o) <->
   (with_stats c A -> 0 < last l 0 \/ distinct_inputs (c_coords A) (List.length (c_values A) - 1))).
Proof.
  intros HE HC HV. split; [|intros H; destruct (construct_ok E c A name l HE HC HV H) as (o & Ho & _); eauto].
  intros [o Ho] HW. destruct (Classical_Prop.classic (0 < last l 0)) as [L|L]; [left; exact L|right].
  assert (H0 : last l 0 = 0).
  { destruct (pv_request _ _ _ _ HV); cbn in *; lra. }
  assert (HN : forall i j, (i < j)%nat -> (j < List.length (c_values A) - 1)%nat -> exists x, In x (c_coords A) /\ rnth x i <> rnth x j).
  { intros i j Hij Hj. apply Classical_Prop.NNPP. intros HX.
    assert (Heq : forall x, In x (c_coords A) -> rnth x i = rnth x j).
    { intros x Hx. apply Classical_Prop.NNPP. intros Hne. apply HX. exists x. split; assumption. }
    pose proof (construct_duplicate E c A name l i j HE HC HV HW H0 Hij Hj Heq). congruence. }
  intros i j Hi Hj Hne. destruct (Nat.lt_total i j) as [L1|[L1|L1]]; [apply HN; lia|lia|].
  destruct (HN j i L1 Hi) as (x & Hx & Hd). exists x. split; [exact Hx|congruence].
Qed.

(** ** update_variogram_model *)
Lemma places_distinct o : o_ct o = Euclidean -> (forall k, (k < o_dim o - 1)%nat -> o_scaling o k <> 0) ->
  (forall i j, (i < o_n o)%nat -> (j < o_n o)%nat -> i <> j -> datum o i <> datum o j) -> distinct_data o.
Proof.
  intros HE HS HD i j Hi Hj Hij H. apply (HD i j Hi Hj Hij).
  pose proof (sep_zero o i j HE HS H) as S. unfold datum, loc.
  destruct (cdim_cases (o_class o)) as [D|D]; unfold o_dim in *; rewrite D in *; cbn [Nat.eqb].
  - rewrite (S 0%nat), (S 1%nat) by lia. reflexivity.
  - rewrite (S 0%nat), (S 1%nat), (S 2%nat) by lia. reflexivity.
Qed.

Lemma aniso_same ndim sc sc' an an' : aniso_differs ndim sc sc' an an' = false -> (ndim = 2 \/ ndim = 3)%nat ->
  forall k, (k < ndim - 1)%nat -> sc' k = sc k.
Proof.
  intros H HN k Hk. unfold aniso_differs in H. destruct HN as [-> | ->].
  - apply orb_false_iff in H as [H _]. apply negb_false_iff, Reqb_true in H. assert (k = 0)%nat as -> by lia. lra.
  - repeat (apply orb_false_iff in H as [H ?]). apply negb_false_iff, Reqb_true in H.
    repeat match goal with X : negb _ = false |- _ => apply negb_false_iff, Reqb_true in X end.
    destruct k as [|[|k]]; [lra|lra|lia].
Qed.

Theorem update_proper E o v name l : env_ok E -> reachable E o -> o_ct o = Euclidean -> o_pinv o = false -> (2 <= o_n o)%nat ->
  proper_variogram (o_class o) v name l ->
  (0 < last l 0 \/ forall i j, (i < o_n o)%nat -> (j < o_n o)%nat -> i <> j -> datum o i <> datum o j) ->
  exists o', update_variogram_model E o v = (o', None) /\ proper o' /\ solvable_data o'.
Proof.
  intros HE HRe Hct Hpi Hn HV HD. pose proof (reachable_inv E o HRe) as HI.
  destruct (request_list name l (pv_request _ _ _ _ HV)) as (f & p & Hf & Hp & HM & Hpl & H0).
  unfold update_variogram_model, resolve_gs. rewrite (pv_model _ _ _ _ HV). cbv beta iota zeta. unfold resolve_fun. rewrite Hf. cbv beta iota zeta.
  match goal with |- context [aniso_differs ?d ?a ?b ?x ?y] => set (diff := aniso_differs d a b x y) end.
  assert (HX : exists o1, (if diff then
          match o_ct (set_fun (set_model (set_model o (VName name)) (VName name)) f) with
          | Euclidean =>
              match adjust_for_anisotropy false (o_dim (set_fun (set_model (set_model o (VName name)) (VName name)) f)) (o_orig (set_fun (set_model (set_model o (VName name)) (VName name)) f)) (o_center (set_fun (set_model (set_model o (VName name)) (VName name)) f)) (a_scaling v) (a_angle v) with
              | Ok adj => (set_aniso (set_fun (set_model (set_model o (VName name)) (VName name)) f) (a_scaling v) (a_angle v) adj, None)
              | Err e => (set_aniso (set_fun (set_model (set_model o (VName name)) (VName name)) f) (a_scaling v) (a_angle v) (o_adj (set_fun (set_model (set_model o (VName name)) (VName name)) f)), Some e)
              end
          | Geographic => (set_aniso (set_fun (set_model (set_model o (VName name)) (VName name)) f) (fun _ => 1) (fun _ => 0) (o_orig (set_fun (set_model (set_model o (VName name)) (VName name)) f)), None)
          end
        else (set_fun (set_model (set_model o (VName name)) (VName name)) f, None)) = (o1, None) /\
     o_class o1 = o_class o /\ o_ct o1 = Euclidean /\ o_n o1 = o_n o /\ o_orig o1 = o_orig o /\ o_fun o1 = f /\ o_pinv o1 = false /\
     adjust_for_anisotropy false (o_dim o1) (o_orig o1) (o_center o1) (o_scaling o1) (o_angle o1) = Ok (o_adj o1) /\
     forall k, (k < cdim (o_class o) - 1)%nat -> o_scaling o1 k <> 0).
  { unfold coords_inv in HI. rewrite Hct in HI. unfold diff, o_dim in *. cbn [o_class set_fun set_model o_ct o_orig o_center o_scaling o_angle o_adj] in *. rewrite Hct.
    destruct (aniso_differs (cdim (o_class o)) (a_scaling v) (o_scaling o) (a_angle v) (o_angle o)) eqn:ED.
    - destruct (adjust_supported (cdim (o_class o)) (o_orig o) (o_center o) (a_scaling v) (a_angle v) (cdim_cases _)) as [Y HY].
      rewrite HY. eexists. split; [reflexivity|]. cbn [set_aniso set_fun set_model o_class o_ct o_n o_orig o_fun o_pinv o_center o_scaling o_angle o_adj].
      repeat (split; [first [reflexivity|assumption]|]). exact (pv_scaling _ _ _ _ HV).
    - eexists. split; [reflexivity|]. cbn [set_aniso set_fun set_model o_class o_ct o_n o_orig o_fun o_pinv o_center o_scaling o_angle o_adj].
      repeat (split; [first [reflexivity|assumption]|]). intros k Hk. rewrite (aniso_same _ _ _ _ _ ED (cdim_cases _) k Hk).
      exact (pv_scaling _ _ _ _ HV k Hk). }
  destruct HX as (o1 & -> & C1 & T1 & N1 & O1 & F1 & P1 & A1 & S1).
  rewrite (pv_params _ _ _ _ HV), Hp.
  assert (Hdim : o_dim (set_fun (set_model (set_model o (VName name)) (VName name)) f) = o_dim o1) by (unfold o_dim; rewrite C1; reflexivity).
  rewrite Hdim, T1, N1, F1.
  destruct (initialize_explicit (e_fit E) Euclidean (o_dim o1) (o_n o) (o_adj o1) (o_values o1) name f p (a_nlags v) (a_weight v))
    as (lags & sv & ->); try assumption; [intros; discriminate|].
  set (o2 := set_variogram o1 lags sv p).
  assert (HI2 : coords_inv o2) by (unfold coords_inv; change (o_ct o2) with (o_ct o1); rewrite T1; exact A1).
  assert (HP2 : forall st, proper (set_stats o2 st)).
  { intros st. split; [exact T1|]. change (o_fun (set_stats o2 st)) with (o_fun o1). change (o_params (set_stats o2 st)) with p. rewrite F1. exact HM. }
  assert (HS2 : forall st, solvable_data (set_stats o2 st)).
  { intros st. destruct HD as [HD|HD].
    - left. unfold o_vg. change (o_fun (set_stats o2 st)) with (o_fun o1). change (o_params (set_stats o2 st)) with p. rewrite F1, H0. exact HD.
    - right. apply places_distinct; [exact T1|unfold o_dim; change (o_class (set_stats o2 st)) with (o_class o1); rewrite C1; exact S1|].
      change (o_n (set_stats o2 st)) with (o_n o1). rewrite N1. intros i j Hi Hj Hij. pose proof (HD i j Hi Hj Hij) as H.
      unfold datum, o_dim in *. change (o_class (set_stats o2 st)) with (o_class o1). change (o_orig (set_stats o2 st)) with (o_orig o1).
      rewrite C1, O1. exact H. }
  destruct (stats_exist (e_la E) o2 (o_values o2) (o_n o2) (proj1 HE) HI2) as [s Hs].
  { split; [exact T1|]. change (o_fun o2) with (o_fun o1). change (o_params o2) with p. rewrite F1. exact HM. }
  { destruct (HS2 None) as [H|H]; [left; exact H|right; exact H]. }
  { lia. }
  change (o_ct o2) with (o_ct o1) in *. change (o_n o2) with (o_n o1) in *. change (o_dim o2) with (o_dim o1) in *. change (o_pinv o2) with (o_pinv o1).
  rewrite T1, N1 in Hs. rewrite T1, P1, N1, Hs. eexists. split; [reflexivity|]. split; [apply HP2|apply HS2].
Qed.

(** ** Universal kriging *)
Theorem construct_uk_ok E c A D o : construct E c A = Ok o -> List.length (c_values A) = o_n o -> proper_drifts c D (List.length (c_values A)) ->
  exists u, construct_uk E c A D = Ok u /\ u_obj u = o.
Proof.
  intros HO Hn HD. unfold construct_uk. rewrite HO. cbn [bind]. unfold init_drift. cbv zeta.
  assert (H1 : opt_drift ((match c with UK2 => true | _ => false end) && in_names "external_Z" (d_terms D)) (init_external D o) = Ok None).
  { destruct (in_names "external_Z" (d_terms D)) eqn:E1; [|rewrite andb_false_r; reflexivity].
    pose proof (pd_external _ _ _ HD E1). destruct c; try reflexivity. congruence. }
  rewrite H1. cbn [bind].
  assert (H2 : exists w, opt_drift ((match c with UK2 => true | _ => false end) && in_names "point_log" (d_terms D)) (init_wells D o) = Ok w).
  { destruct (in_names "point_log" (d_terms D)) eqn:E2; [|rewrite andb_false_r; cbn; eauto].
    destruct c; cbn [andb]; cbn; eauto. destruct (pd_wells _ _ _ HD E2 eq_refl) as (w & rows & Hw). unfold init_wells. rewrite Hw.
    destruct (adjust_supported 2 (fun i j => match nth i (w :: rows) (0, 0, 0) with (x, y, _) => match j with 0%nat => x | _ => y end end)
                (o_center o) (o_scaling o) (o_angle o) (or_introl eq_refl)) as [Q HQ].
    cbv zeta. rewrite HQ. cbn [bind]. eauto. }
  destruct H2 as [w ->]. cbn [bind].
  assert (H3 : exists s, opt_drift (in_names "specified" (d_terms D)) (init_specified D o) = Ok s).
  { destruct (in_names "specified" (d_terms D)) eqn:E3; [|cbn; eauto]. destruct (pd_specified _ _ _ HD E3) as (t & ts & Ht & HL).
    unfold opt_drift, init_specified. rewrite Ht.
    destruct (mapM_ok (fun t => if negb (Nat.eqb (List.length t) (o_n o)) then Err ValueError else Ok (rnth t)) (t :: ts)) as [ys ->]; [|cbn [bind]; eauto].
    intros x Hx. rewrite (HL x Hx), Hn, Nat.eqb_refl. cbn. eauto. }
  destruct H3 as [s ->]. cbn [bind].
  assert (H4 : exists f, opt_drift (in_names "functional" (d_terms D)) (init_functional D) = Ok f).
  { destruct (in_names "functional" (d_terms D)) eqn:E4; [|cbn; eauto]. destruct (pd_functional _ _ _ HD E4) as (f & fs & Hf).
    unfold opt_drift, init_functional. rewrite Hf. cbn [bind]. eauto. }
  destruct H4 as [f ->]. cbn [bind]. eexists. split; reflexivity.
Qed.
