(** Proofs: execute without moving window refines one reference function, for
    every backend; its cells are ordinary kriging estimates. *)
From Coq Require Import String.
From Verif Require Import Base Sums Matrix M_Variogram P_Variogram M_Geometry S_Geometry P_Geometry M_Kriging S_Kriging
  P_Kriging P_OKSpec M_Init M_Object M_Execute S_Execute P_Object.

Definition locate (dim : nat) := match dim with 2%nat => locate2 | _ => locate3 end.
Lemma result_eq_refl r : result_eq r r.
Proof. split; auto. Qed.
Lemma result_eq_sym r r' : result_eq r r' -> result_eq r' r.
Proof. intros [H1 H2]. split; [auto|]. intros p Hp. rewrite <- H1 in Hp. destruct (H2 p Hp); auto. Qed.
Lemma result_eq_trans r1 r2 r3 : result_eq r1 r2 -> result_eq r2 r3 -> result_eq r1 r3.
Proof.
  intros [H1 H2] [H3 H4]. split; [congruence|]. intros p Hp. destruct (H2 p Hp) as [-> ->].
  apply H4. rewrite <- H1. exact Hp.
Qed.

(** *** Cells *)
Ltac style_case H s :=
  let E := fresh "ES" in destruct (String.eqb s _) eqn:E in H; [apply String.eqb_eq in E|].

Lemma div_mod_cell i j n : (j < n)%nat -> ((i * n + j) / n = i /\ (i * n + j) mod n = j)%nat.
Proof.
  intros H. split.
  - rewrite Nat.add_comm, Nat.div_add by lia. rewrite Nat.div_small by lia. lia.
  - rewrite Nat.add_comm, Nat.mod_add by lia. apply Nat.mod_small; lia.
Qed.

Lemma locate2_facts style pts mask l : locate2 style pts mask = Ok l ->
  l_npt l = shape_size (l_shape l) /\
  (style = "masked"%string \/ forall p, l_mask l p = false).
Proof.
  unfold locate2. intros H.
  destruct (String.eqb style "masked") eqn:EM.
  - apply String.eqb_eq in EM. split; [|auto].
    destruct mask as [[r c f|? ? ? ?]|]; try discriminate.
    destruct (Nat.eqb r _ && _); [injection H as <-; cbn; lia|].
    destruct (Nat.eqb r _ && _); [injection H as <-; cbn; lia|discriminate].
  - destruct (String.eqb style "grid"); [injection H as <-; cbn; split; [lia|auto]|].
    destruct (String.eqb style "points"); [|discriminate].
    destruct (negb _); [discriminate|]. injection H as <-. cbn. split; [lia|auto].
Qed.
Lemma locate3_facts style pts mask l : locate3 style pts mask = Ok l ->
  l_npt l = shape_size (l_shape l) /\
  (style = "masked"%string \/ forall p, l_mask l p = false).
Proof.
  unfold locate3. intros H.
  destruct (String.eqb style "masked") eqn:EM.
  - apply String.eqb_eq in EM. split; [|auto].
    destruct mask as [[? ? ?|d0 d1 d2 f]|]; try discriminate.
    destruct (Nat.eqb d0 _ && _ && _); [injection H as <-; cbn; lia|].
    destruct (Nat.eqb d0 _ && _ && _); [injection H as <-; cbn; lia|discriminate].
  - destruct (String.eqb style "grid"); [injection H as <-; cbn; split; [lia|auto]|].
    destruct (String.eqb style "points"); [|discriminate].
    destruct (_ && _); [discriminate|]. destruct (_ || _); [discriminate|].
    injection H as <-. cbn. split; [lia|auto].
Qed.

Lemma locate2_cell q l p pos : locate2 (q_style q) (q_pts q) (q_mask q) = Ok l ->
  cell 2 q p pos -> (p < l_npt l)%nat /\ loc_of 2 (l_at l) p = pos.
Proof.
  intros H C. unfold locate2 in H.
  destruct C as [p Hs Hp|i j Hs _ Hi Hj|? ? ? ? D]; [| |discriminate].
  - rewrite Hs in H. cbn [String.eqb] in H. cbn in H.
    destruct (Nat.eqb_spec (size_of (q_pts q) 0) (size_of (q_pts q) 1)) as [Hn|]; [|discriminate].
    injection H as <-. cbn. split; [exact Hp|reflexivity].
  - assert (Hl : l_npt l = (List.length (ys q) * List.length (xs q))%nat /\
                 forall p, loc_of 2 (l_at l) p =
                   loc 2 (rnth (xs q) (p mod List.length (xs q))) (rnth (ys q) (p / List.length (xs q))) 0).
    { destruct Hs as [Hs|Hs]; rewrite Hs in H; cbn in H.
      - injection H as <-. cbn. split; [reflexivity|intros; reflexivity].
      - destruct (q_mask q) as [[r c f|? ? ? ?]|]; try discriminate.
        destruct (Nat.eqb r _ && _); [injection H as <-; cbn; split; [reflexivity|intros; reflexivity]|].
        destruct (Nat.eqb r _ && _); [injection H as <-; cbn; split; [reflexivity|intros; reflexivity]|discriminate]. }
    destruct Hl as [-> Hl]. split; [nia|].
    rewrite Hl. destruct (div_mod_cell i j (List.length (xs q)) Hj) as [-> ->]. reflexivity.
Qed.

Lemma flat3 k i j ny nx : (i < ny)%nat -> (j < nx)%nat ->
  (((k * ny + i) * nx + j) / nx / ny = k /\ ((k * ny + i) * nx + j) / nx mod ny = i /\
   ((k * ny + i) * nx + j) mod nx = j)%nat.
Proof.
  intros Hi Hj. destruct (div_mod_cell (k * ny + i) j nx Hj) as [-> ->].
  destruct (div_mod_cell k i ny Hi) as [-> ->]. auto.
Qed.

Lemma locate3_cell q l p pos : locate3 (q_style q) (q_pts q) (q_mask q) = Ok l ->
  cell 3 q p pos -> (p < l_npt l)%nat /\ loc_of 3 (l_at l) p = pos.
Proof.
  intros H C. unfold locate3 in H.
  destruct C as [p Hs Hp|? ? ? D|k i j Hs _ Hk Hi Hj]; [|discriminate|].
  - rewrite Hs in H. cbn in H.
    destruct (Nat.eqb_spec (size_of (q_pts q) 0) (size_of (q_pts q) 1)) as [Hn|];
      destruct (Nat.eqb_spec (size_of (q_pts q) 1) (size_of (q_pts q) 2)); cbn in H; try discriminate.
    all: destruct (Nat.eqb_spec (size_of (q_pts q) 0) (size_of (q_pts q) 2)); cbn in H; try discriminate.
    all: injection H as <-; cbn; split; [exact Hp|reflexivity].
  - assert (Hl : l_npt l = (List.length (zs q) * List.length (ys q) * List.length (xs q))%nat /\
                 forall p, loc_of 3 (l_at l) p =
                   loc 3 (rnth (xs q) (p mod List.length (xs q)))
                     (rnth (ys q) (p / List.length (xs q) mod List.length (ys q)))
                     (rnth (zs q) (p / List.length (xs q) / List.length (ys q)))).
    { destruct Hs as [Hs|Hs]; rewrite Hs in H; cbn in H.
      - injection H as <-. cbn. split; [reflexivity|intros; reflexivity].
      - destruct (q_mask q) as [[? ? ?|d0 d1 d2 f]|]; try discriminate.
        destruct (Nat.eqb d0 _ && _ && _); [injection H as <-; cbn; split; [reflexivity|intros; reflexivity]|].
        destruct (Nat.eqb d0 _ && _ && _); [injection H as <-; cbn; split; [reflexivity|intros; reflexivity]|discriminate]. }
    destruct Hl as [-> Hl]. split.
    { assert (k * List.length (ys q) + i < List.length (zs q) * List.length (ys q))%nat by nia. nia. }
    rewrite Hl. destruct (flat3 k i j _ _ Hi Hj) as (-> & -> & ->). reflexivity.
Qed.

Lemma locate_cell dim q l p pos : dim = 2%nat \/ dim = 3%nat ->
  locate dim (q_style q) (q_pts q) (q_mask q) = Ok l -> cell dim q p pos ->
  (p < l_npt l)%nat /\ loc_of dim (l_at l) p = pos.
Proof. intros [-> | ->]; [apply locate2_cell|apply locate3_cell]. Qed.
Lemma locate_facts dim style pts mask l : dim = 2%nat \/ dim = 3%nat ->
  locate dim style pts mask = Ok l ->
  l_npt l = shape_size (l_shape l) /\ (style = "masked"%string \/ forall p, l_mask l p = false).
Proof. intros [-> | ->]; [apply locate2_facts|apply locate3_facts]. Qed.

Lemma locate_style dim style pts mask l : dim = 2%nat \/ dim = 3%nat ->
  locate dim style pts mask = Ok l -> in_names style ["grid"; "masked"; "points"]%string = true.
Proof.
  intros Hd H. unfold in_names. cbn.
  destruct (String.eqb style "grid") eqn:E1; [reflexivity|].
  destruct (String.eqb style "masked") eqn:E2; [reflexivity|].
  destruct (String.eqb style "points") eqn:E3; [reflexivity|].
  destruct Hd as [-> | ->]; cbn in H; unfold locate2, locate3 in H; rewrite E1, E2, E3 in H; discriminate.
Qed.

(** Every flat index below the size of the result is a cell. *)
Lemma locate_all_cells dim q l p : dim = 2%nat \/ dim = 3%nat ->
  locate dim (q_style q) (q_pts q) (q_mask q) = Ok l -> (p < l_npt l)%nat ->
  exists pos, cell dim q p pos.
Proof.
  intros Hd H Hp.
  assert (Hst := locate_style _ _ _ _ _ Hd H). unfold in_names in Hst. cbn in Hst.
  destruct (String.eqb (q_style q) "points") eqn:EP.
  - apply String.eqb_eq in EP. eexists. apply cell_point; [exact EP|].
    destruct Hd as [-> | ->]; cbn [locate] in H; unfold locate2, locate3 in H; rewrite EP in H; cbn in H.
    + destruct (negb _); [discriminate|]. injection H as <-. exact Hp.
    + destruct (_ && _); [discriminate|]. destruct (_ || _); [discriminate|]. injection H as <-. exact Hp.
  - assert (Hs : q_style q = "grid"%string \/ q_style q = "masked"%string).
    { destruct (String.eqb_spec (q_style q) "grid"); [auto|].
      destruct (String.eqb_spec (q_style q) "masked"); [auto|]. discriminate. }
    destruct Hd as [-> | ->]; cbn [locate] in H.
    + assert (Hn : l_npt l = (List.length (ys q) * List.length (xs q))%nat).
      { unfold locate2 in H. destruct Hs as [Hs|Hs]; rewrite Hs in H; cbn in H.
        - injection H as <-. reflexivity.
        - destruct (q_mask q) as [[r c f|? ? ? ?]|]; try discriminate.
          destruct (Nat.eqb r _ && _); [injection H as <-; reflexivity|].
          destruct (Nat.eqb r _ && _); [injection H as <-; reflexivity|discriminate]. }
      rewrite Hn in Hp. assert (0 < List.length (xs q))%nat by nia.
      set (nx := List.length (xs q)) in *.
      rewrite (Nat.div_mod p nx) by lia. rewrite (Nat.mul_comm nx).
      eexists. apply cell_grid2; [exact Hs|reflexivity| |apply Nat.mod_upper_bound; lia].
      apply Nat.div_lt_upper_bound; [lia|]. fold nx. lia.
    + assert (Hn : l_npt l = (List.length (zs q) * List.length (ys q) * List.length (xs q))%nat).
      { unfold locate3 in H. destruct Hs as [Hs|Hs]; rewrite Hs in H; cbn in H.
        - injection H as <-. reflexivity.
        - destruct (q_mask q) as [[? ? ?|d0 d1 d2 f]|]; try discriminate.
          destruct (Nat.eqb d0 _ && _ && _); [injection H as <-; reflexivity|].
          destruct (Nat.eqb d0 _ && _ && _); [injection H as <-; reflexivity|discriminate]. }
      rewrite Hn in Hp. assert (0 < List.length (xs q))%nat by nia. assert (0 < List.length (ys q))%nat by nia.
      set (nx := List.length (xs q)) in *. set (ny := List.length (ys q)) in *.
      rewrite (Nat.div_mod p nx) by lia. rewrite (Nat.mul_comm nx).
      rewrite (Nat.div_mod (p / nx) ny) by lia. rewrite (Nat.mul_comm ny).
      eexists. apply cell_grid3; [exact Hs|reflexivity| |apply Nat.mod_upper_bound; lia|apply Nat.mod_upper_bound; lia].
      apply Nat.div_lt_upper_bound; [lia|]. apply Nat.div_lt_upper_bound; [lia|]. fold nx ny. nia.
Qed.

(** *** The reference function for execute without moving window *)
Definition bad_style (s : string) : bool := negb (in_names s ["grid"; "masked"; "points"]%string).

Definition ref (E : env) (o : obj) (q : query) : res result :=
  do l <- locate (o_dim o) (q_style q) (q_pts q) (q_mask q) ;;
  do pts <- adjust_query o (q_int q) (l_at l) ;;
  do a_inv <- invert (e_la E) (o_pinv o) (o_pinv_type o) (o_n o + 1) (get_kriging_matrix o) ;;
  let b p := rhs_spec (o_n o) (g_of o (loc_of (o_dim o) (l_at l) p)) in
  Ok (finish (q_style q) l ((fun p => point_value (o_n o) a_inv (b p) (o_values o)),
                            (fun p => point_variance (o_n o) a_inv (b p)))).


Definition backend_ok (E : env) (o : obj) (b : string) : Prop :=
  b = "vectorized"%string \/ b = "loop"%string \/
  (o_class o = OK2 /\ b = "C"%string /\ (e_cython E = true -> c_supported o)).

Lemma rhs_spec_ext n g g' : veq n g g' -> veq (n + 1) (rhs_spec n g) (rhs_spec n g').
Proof.
  intros H k _. unfold rhs_spec. destruct (Nat.eqb_spec k n); [reflexivity|].
  destruct (Nat.ltb_spec k n); [rewrite H by assumption; reflexivity|reflexivity].
Qed.

Lemma finish_eq style l z s z' s' :
  l_npt l = shape_size (l_shape l) -> (style = "masked"%string \/ forall p, l_mask l p = false) ->
  (forall p, (p < l_npt l)%nat -> l_mask l p = false -> z p = z' p /\ s p = s' p) ->
  result_eq (finish style l (z, s)) (finish style l (z', s')).
Proof.
  intros Hn Hm H. split; [reflexivity|]. cbn [r_shape finish]. intros p Hp. rewrite <- Hn in Hp.
  cbn [r_value r_variance finish fst snd].
  destruct (String.eqb_spec style "masked") as [->|NE].
  - destruct (l_mask l p) eqn:EM; [auto|]. destruct (H p Hp EM) as [-> ->]. auto.
  - destruct Hm as [Hm|Hm]; [contradiction|]. destruct (H p Hp (Hm p)) as [-> ->]. auto.
Qed.

Lemma c_supported_computes o : c_supported o -> exists cf,
  get_variogram_model (fname (o_fun o)) = Ok cf /\ cvg_computes (cf (o_params o)) (o_vg o).
Proof.
  intros (key & Hk & Hh & Hr). pose proof (cython_dispatch_agrees key (o_fun o) Hk) as H.
  destruct (get_variogram_model (fname (o_fun o))) as [cf|e]; [|destruct H; contradiction].
  exists cf. split; [reflexivity|]. destruct H as [_ H]. intros n dist out Hd i. apply H; assumption.
Qed.

Lemma finish_ref o q l pts a_inv z s (bd : mat) :
  coords_inv o -> adjust_query o (q_int q) (l_at l) = Ok pts -> bd = query_distances o pts ->
  l_npt l = shape_size (l_shape l) -> (q_style q = "masked"%string \/ forall p, l_mask l p = false) ->
  (forall j, (j < l_npt l)%nat -> l_mask l j = false ->
        z j = point_value (o_n o) a_inv (rhs_spec (o_n o) (query_semivariance (o_vg o) eps (o_exact o) (bd j))) (o_values o) /\
        s j = point_variance (o_n o) a_inv (rhs_spec (o_n o) (query_semivariance (o_vg o) eps (o_exact o) (bd j)))) ->
  result_eq (finish (q_style q) l (z, s))
    (let b p := rhs_spec (o_n o) (g_of o (loc_of (o_dim o) (l_at l) p)) in
     finish (q_style q) l ((fun p => point_value (o_n o) a_inv (b p) (o_values o)),
                            (fun p => point_variance (o_n o) a_inv (b p)))).
Proof.
  intros Hinv HQ -> Hn Hm H. cbv zeta. apply finish_eq; [exact Hn|exact Hm|].
  intros p Hp HM. destruct (H p Hp HM) as [-> ->].
  assert (Hb : veq (o_n o + 1) (rhs_spec (o_n o) (query_semivariance (o_vg o) eps (o_exact o) (query_distances o pts p)))
                 (rhs_spec (o_n o) (g_of o (loc_of (o_dim o) (l_at l) p)))).
  { apply rhs_spec_ext. intros i _. unfold g_of, query_semivariance.
    rewrite (query_distances_sep o (q_int q) (l_at l) pts p i Hinv HQ). reflexivity. }
  split; [apply point_value_ext, Hb|apply point_variance_ext, Hb].
Qed.

Lemma o_dim_cases o : o_dim o = 2%nat \/ o_dim o = 3%nat.
Proof. apply cdim_cases. Qed.

Lemma query_distances_nonneg o pts p i : 0 <= query_distances o pts p i.
Proof. unfold query_distances. destruct (o_class o); first [apply distance_nonneg|apply euclid_nonneg]. Qed.

Theorem execute_ref E o q : coords_inv o -> ordinary o -> q_window q = None ->
  backend_ok E o (q_backend q) ->
  match ref E o q with
  | Err e => execute E o q = Err e
  | Ok r => exists r', execute E o q = Ok r' /\ result_eq r' r
  end.
Proof.
  intros Hinv Hord HW HB. unfold ref.
  destruct Hord as [Hc|Hc].
  - unfold execute. rewrite Hc. unfold execute2. rewrite HW.
    assert (Hd : o_dim o = 2%nat) by (unfold o_dim; rewrite Hc; reflexivity).
    replace (locate (o_dim o)) with locate2 by (rewrite Hd; reflexivity).
    destruct (locate2 (q_style q) (q_pts q) (q_mask q)) as [l|e] eqn:EL; cbn [bind].
    2:{ destruct (negb (in_names (q_style q) ["grid"; "masked"; "points"]%string)) eqn:ES; [|reflexivity].
        unfold in_names in ES. cbn in ES. unfold locate2 in EL.
        destruct (String.eqb (q_style q) "grid"); [discriminate|].
        destruct (String.eqb (q_style q) "masked"); [discriminate|].
        destruct (String.eqb (q_style q) "points"); [discriminate|]. congruence. }
    pose proof (locate_style 2 _ _ _ l (or_introl eq_refl) EL) as HS. rewrite HS. cbn [negb].
    destruct (locate2_facts _ _ _ l EL) as [Hn Hm].
    destruct (adjust_query o (q_int q) (l_at l)) as [pts|e] eqn:EA; cbn [bind]; [|reflexivity].
    unfold effective_backend.
    set (bd := query_distances o pts).
    pose proof (exec_vector_spec (e_la E) (o_pinv o) (o_pinv_type o) (o_n o) (l_npt l) (o_vg o) eps (o_exact o)
                  (o_values o) (get_kriging_matrix o) bd) as HV.
    pose proof (exec_loop_spec (e_la E) (o_pinv o) (o_pinv_type o) (o_n o) (l_npt l) (o_vg o) eps (o_exact o)
                  (o_values o) (get_kriging_matrix o) bd (l_mask l)) as HLp.
    destruct HB as [HB|[HB|(_ & HB & HCy)]]; rewrite HB; cbn [String.eqb andb negb Ascii.eqb Bool.eqb].
    + destruct (invert _ _ _ _ _) as [a_inv|e]; cbn [bind]; [|rewrite HV; reflexivity].
      destruct HV as (z & s & HV1 & HVs). rewrite HV1. cbn [bind]. eexists. split; [reflexivity|].
      apply (finish_ref o q l pts a_inv z s bd Hinv EA eq_refl Hn Hm).
      intros j Hj _. apply HVs, Hj.
    + destruct (invert _ _ _ _ _) as [a_inv|e]; cbn [bind]; [|rewrite HLp; reflexivity].
      destruct HLp as (z & s & HV1 & HVs). rewrite HV1. cbn [bind]. eexists. split; [reflexivity|].
      apply (finish_ref o q l pts a_inv z s bd Hinv EA eq_refl Hn Hm). exact HVs.
    + destruct (e_cython E); cbn [String.eqb andb negb Ascii.eqb Bool.eqb].
      * destruct (c_supported_computes o (HCy eq_refl)) as (cf & Hcf & Hcv).
        pose proof (c_exec_loop_spec (e_la E) (o_pinv o) (o_pinv_type o) (o_n o) (l_npt l) (o_fun o) cf (o_params o)
           (o_vg o) eps (o_exact o) (o_values o) (get_kriging_matrix o) bd (l_mask l) Hcf Hcv) as HC.
        specialize (HC (fun j i _ => query_distances_nonneg o pts j i)).
        destruct (invert _ _ _ _ _) as [a_inv|e]; cbn [bind]; [|rewrite HC; reflexivity].
        destruct HC as (z & s & HV' & HVs). rewrite HV'. cbn [bind]. eexists. split; [reflexivity|].
        apply (finish_ref o q l pts a_inv z s bd Hinv EA eq_refl Hn Hm). exact HVs.
      * destruct (invert _ _ _ _ _) as [a_inv|e]; cbn [bind]; [|rewrite HLp; reflexivity].
        destruct HLp as (z & s & HV' & HVs). rewrite HV'. cbn [bind]. eexists. split; [reflexivity|].
        apply (finish_ref o q l pts a_inv z s bd Hinv EA eq_refl Hn Hm). exact HVs.
  - unfold execute. rewrite Hc. unfold execute3. rewrite HW.
    assert (Hd : o_dim o = 3%nat) by (unfold o_dim; rewrite Hc; reflexivity).
    replace (locate (o_dim o)) with locate3 by (rewrite Hd; reflexivity).
    destruct (locate3 (q_style q) (q_pts q) (q_mask q)) as [l|e] eqn:EL; cbn [bind].
    2:{ destruct (negb (in_names (q_style q) ["grid"; "masked"; "points"]%string)) eqn:ES; [|reflexivity].
        unfold in_names in ES. cbn in ES. unfold locate3 in EL.
        destruct (String.eqb (q_style q) "grid"); [discriminate|].
        destruct (String.eqb (q_style q) "masked"); [discriminate|].
        destruct (String.eqb (q_style q) "points"); [discriminate|]. congruence. }
    pose proof (locate_style 3 _ _ _ l (or_intror eq_refl) EL) as HS. rewrite HS. cbn [negb].
    destruct (locate3_facts _ _ _ l EL) as [Hn Hm].
    destruct (adjust_query o (q_int q) (l_at l)) as [pts|e] eqn:EA; cbn [bind]; [|reflexivity].
    set (bd := query_distances o pts).
    pose proof (exec_vector_spec (e_la E) (o_pinv o) (o_pinv_type o) (o_n o) (l_npt l) (o_vg o) eps (o_exact o)
                  (o_values o) (get_kriging_matrix o) bd) as HV.
    pose proof (exec_loop_spec (e_la E) (o_pinv o) (o_pinv_type o) (o_n o) (l_npt l) (o_vg o) eps (o_exact o)
                  (o_values o) (get_kriging_matrix o) bd (l_mask l)) as HLp.
    destruct HB as [HB|[HB|(HB & _)]]; [| |congruence]; rewrite HB; cbn [String.eqb andb negb Ascii.eqb Bool.eqb].
    + destruct (invert _ _ _ _ _) as [a_inv|e]; cbn [bind]; [|rewrite HV; reflexivity].
      destruct HV as (z & s & HV1 & HVs). rewrite HV1. cbn [bind]. eexists. split; [reflexivity|].
      apply (finish_ref o q l pts a_inv z s bd Hinv EA eq_refl Hn Hm).
      intros j Hj _. apply HVs, Hj.
    + destruct (invert _ _ _ _ _) as [a_inv|e]; cbn [bind]; [|rewrite HLp; reflexivity].
      destruct HLp as (z & s & HV1 & HVs). rewrite HV1. cbn [bind]. eexists. split; [reflexivity|].
      apply (finish_ref o q l pts a_inv z s bd Hinv EA eq_refl Hn Hm). exact HVs.
Qed.
