(** Proofs: backends of universal kriging, and the size of its system. *)
From Coq Require Import String.
From Verif Require Import Base Sums Matrix M_Variogram P_Variogram M_Geometry S_Geometry P_Geometry M_Kriging S_Kriging
  P_Kriging P_OKSpec M_Init M_Object M_Execute S_Execute P_Object P_Execute P_Cells P_Window P_WindowExec P_Master P_Det P_OK
  M_UK S_UK P_UK P_UK2 P_UK3 P_UK4 P_UK5.


Lemma cell_with_backend d q b p pos : cell d (with_backend q b) p pos -> cell d q p pos.
Proof.
  intros H. inversion H; subst.
  - apply (cell_point d q); assumption.
  - apply (cell_grid2 2 q); auto.
  - apply (cell_grid3 3 q); auto.
Qed.
Lemma cell_with_backend' d q b p pos : cell d q p pos -> cell d (with_backend q b) p pos.
Proof.
  intros H. inversion H; subst.
  - apply (cell_point d (with_backend q b)); assumption.
  - apply (cell_grid2 2 (with_backend q b)); auto.
  - apply (cell_grid3 3 (with_backend q b)); auto.
Qed.
Lemma hidden_with_backend d q b p : hidden d (with_backend q b) p <-> hidden d q p.
Proof.
  split; intros H; inversion H; subst.
  - apply (hidden2 2 q i j m); auto. - apply (hidden3 3 q k i j m); auto.
  - apply (hidden2 2 (with_backend q b) i j m); auto. - apply (hidden3 3 (with_backend q b) k i j m); auto.
Qed.
Lemma shown_with_backend o q b p pos : shown o (with_backend q b) p pos <-> shown o q p pos.
Proof.
  unfold shown. rewrite hidden_with_backend. split; intros [H N]; (split; [|exact N]);
    [eapply cell_with_backend; eassumption|apply cell_with_backend'; assumption].
Qed.

Lemma urhs_backend u q specs gs gs' b b' p pos : dr_spec (u_drift u) = None ->
  urhs u (with_backend q b) specs gs p pos = urhs u (with_backend q b') specs gs' p pos.
Proof. intros H. unfold urhs, pos_terms. rewrite H. reflexivity. Qed.

Lemma uk_both_equal E u q specs b b' r w r' w' : uinv u -> dr_spec (u_drift u) = None ->
  execute_uk E u (with_backend q b) specs = Ok (r, w) -> execute_uk E u (with_backend q b') specs = Ok (r', w') ->
  result_eq r r'.
Proof.
  intros HI HN H H'. destruct (execute_uk_call E u _ specs r w HI H) as (_ & l & gs & a & C).
  destruct (execute_uk_call E u _ specs r' w' HI H') as (_ & l' & gs' & a' & C').
  destruct C as [C1 C2 C3 C4 C5 C6 C7 C8 C9], C' as [C1' C2' C3' C4' C5' C6' C7' C8' C9'].
  cbn [with_backend q_style q_pts q_mask] in *.
  assert (l' = l) as -> by congruence. assert (a' = a) as -> by congruence.
  split; [congruence|]. intros p Hp. rewrite C7 in Hp.
  destruct (locate_facts _ _ _ _ l (o_dim_cases _) C2) as [EN _]. rewrite <- EN in Hp.
  destruct (locate_all_cells _ q l p (o_dim_cases _) C2 Hp) as (pos & HC).
  pose proof (cell_hidden_mask _ q l p pos (o_dim_cases _) C2 HC) as HH.
  destruct (String.eqb_spec (q_style q) "masked") as [ES|NS]; [destruct (l_mask l p) eqn:EM|]; cbn [andb] in HH.
  - destruct (C8 ES p EM) as [-> ->], (C8' ES p EM) as [-> ->]. auto.
  - assert (NH : ~ hidden (o_dim (u_obj u)) q p) by (rewrite HH; discriminate).
    destruct (C9 p pos (cell_with_backend' _ _ _ _ _ HC)) as (_ & -> & ->); [rewrite hidden_with_backend; exact NH|].
    destruct (C9' p pos (cell_with_backend' _ _ _ _ _ HC)) as (_ & -> & ->); [rewrite hidden_with_backend; exact NH|].
    rewrite (urhs_backend u q specs gs gs' b b' p pos HN). auto.
  - assert (NH : ~ hidden (o_dim (u_obj u)) q p) by (rewrite HH; discriminate).
    destruct (C9 p pos (cell_with_backend' _ _ _ _ _ HC)) as (_ & -> & ->); [rewrite hidden_with_backend; exact NH|].
    destruct (C9' p pos (cell_with_backend' _ _ _ _ _ HC)) as (_ & -> & ->); [rewrite hidden_with_backend; exact NH|].
    rewrite (urhs_backend u q specs gs gs' b b' p pos HN). auto.
Qed.

Theorem uk_backends_agree E u q specs : ureachable E u -> dr_spec (u_drift u) = None -> off_wells u q ->
  (dr_ext (u_drift u) = None \/ q_style q <> "masked"%string) ->
  same_outcome (arrays (execute_uk E u (with_backend q "vectorized") specs)) (arrays (execute_uk E u (with_backend q "loop") specs)).
Proof.
  intros HR HN HO HX. pose proof (ureachable_inv E u HR) as HI.
  destruct (execute_uk E u (with_backend q "vectorized") specs) as [[r w]|e] eqn:EV;
  destruct (execute_uk E u (with_backend q "loop") specs) as [[r' w']|e'] eqn:EL; cbn [arrays bind same_outcome].
  - exact (uk_both_equal E u q specs _ _ _ _ _ _ HI HN EV EL).
  - exfalso. revert EV EL. unfold execute_uk. cbv zeta. cbn [with_backend q_style q_pts q_mask q_int q_backend].
    destruct (negb _); [discriminate|]. rewrite UM_eq. cbn [bind].
    change (match o_dim (u_obj u) with 2%nat => locate2 | _ => locate3 end) with (locate (o_dim (u_obj u))).
    destruct (locate (o_dim (u_obj u)) (q_style q) (q_pts q) (q_mask q)) as [l|] eqn:EL; cbn [bind]; [|discriminate].
    destruct (spec_grids u (q_style q) (q_pts q) specs) as [gs|] eqn:EG; cbn [bind]; [|discriminate].
    destruct (adjust_query (u_obj u) (q_int q) (l_at l)) as [pts|] eqn:EQ; cbn [bind]; [|discriminate].
    cbn [String.eqb Ascii.eqb Bool.eqb].
    pose proof (spec_grids_length u q specs gs EG) as Hgs.
    pose proof (uk_exec_vector_spec (e_la E) u (l_npt l) (UM u) (query_distances (u_obj u) pts)
      (query_array (o_dim (u_obj u)) pts) (l_at l) gs Hgs) as HV. cbv zeta in HV.
    change (o_n (u_obj u) + List.length (data_cols u) + 1)%nat with (uk_size u) in HV.
    unfold uk_exec_loop. cbv zeta. replace (n_withdrifts u + 1)%nat with (uk_size u) by (rewrite n_withdrifts_cols; reflexivity).
    destruct (invert (e_la E) (o_pinv (u_obj u)) (o_pinv_type (u_obj u)) (uk_size u) (UM u)) as [a_inv|] eqn:EI;
      [|rewrite HV; discriminate]. cbn [bind].
    destruct (ext_values (u_drift u) (l_npt l) (l_at l)) as [zv|] eqn:EZ; [|rewrite HV; discriminate]. intros _.
    pose proof (uloop_gen (fun j => uk_rhs_loop u (l_npt l) (query_distances (u_obj u) pts j)
         (query_array (o_dim (u_obj u)) pts) (l_at l) gs j) (o_n (u_obj u)) (uk_size u) a_inv (o_values (u_obj u))
         (unmasked (l_npt l) (l_mask l)) (unmasked_NoDup _ _) (fun _ => 0) (fun _ => 0) false) as HG.
    destruct (foldM _ _ _) as [[[z s] w']|e''] in HG |- *; [discriminate|]. intros _.
    destruct HG as (j & Hj & HRhs). unfold unmasked in Hj. apply filter_In in Hj as [Hj Hm]. apply in_seq in Hj.
    destruct (locate_all_cells _ q l j (o_dim_cases _) EL ltac:(lia)) as (pos & HC).
    pose proof (uk_rhs_loop_spec u (l_npt l) (query_distances (u_obj u) pts j) (query_array (o_dim (u_obj u)) pts) (l_at l) gs j Hgs) as HS.
    cbv zeta in HS. destruct (at_well (u_drift u) _) eqn:EW.
    + unfold at_well in EW. apply existsb_exists in EW as ([[wx wy] s] & Hin & Hw). apply Reqb_true in Hw.
      destruct (query_frame u l pts q j pos HI EL EQ HC) as [F _].
      assert (D2 : (1 < o_dim (u_obj u))%nat) by (destruct (o_dim_cases (u_obj u)) as [E0|E0]; rewrite E0; lia).
      apply (HO j pos wx wy s); [|exact Hin|].
      * split; [exact HC|]. rewrite (cell_hidden_mask _ q l j pos (o_dim_cases _) EL HC). destruct (l_mask l j); [discriminate|].
        rewrite andb_false_r. discriminate.
      * unfold well_dist in Hw. rewrite !F in Hw by lia. unfold plane_dist, Rsqr. exact Hw.
    + assert (exists zj, ext_value (u_drift u) (l_at l) j = Ok zj) as (zj & EZj).
      { unfold ext_value. unfold ext_values in EZ. destruct (dr_ext (u_drift u)) as [[[[arr ex] ey] zs]|]; [|eauto].
        eexists. apply (zscalars_ok _ _ _ _ _ _ _ EZ j). lia. }
      rewrite EZj in HS. destruct HS as [_ HS]. destruct HS as (b & HR' & _); [|cbv beta in HRhs; congruence].
      left. destruct (spec_grids_ok u q specs gs EG) as [(_ & ->)|(ds & ED & _)]; [reflexivity|congruence].
  - exfalso. revert EV EL. unfold execute_uk. cbv zeta. cbn [with_backend q_style q_pts q_mask q_int q_backend].
    destruct (negb _); [discriminate|]. rewrite UM_eq. cbn [bind].
    change (match o_dim (u_obj u) with 2%nat => locate2 | _ => locate3 end) with (locate (o_dim (u_obj u))).
    destruct (locate (o_dim (u_obj u)) (q_style q) (q_pts q) (q_mask q)) as [l|] eqn:EL; cbn [bind]; [|discriminate].
    destruct (spec_grids u (q_style q) (q_pts q) specs) as [gs|] eqn:EG; cbn [bind]; [|discriminate].
    destruct (adjust_query (u_obj u) (q_int q) (l_at l)) as [pts|] eqn:EQ; cbn [bind]; [|discriminate].
    cbn [String.eqb Ascii.eqb Bool.eqb].
    pose proof (spec_grids_length u q specs gs EG) as Hgs.
    pose proof (uk_exec_vector_spec (e_la E) u (l_npt l) (UM u) (query_distances (u_obj u) pts)
      (query_array (o_dim (u_obj u)) pts) (l_at l) gs Hgs) as HV. cbv zeta in HV.
    change (o_n (u_obj u) + List.length (data_cols u) + 1)%nat with (uk_size u) in HV.
    unfold uk_exec_loop. cbv zeta. replace (n_withdrifts u + 1)%nat with (uk_size u) by (rewrite n_withdrifts_cols; reflexivity).
    destruct (invert (e_la E) (o_pinv (u_obj u)) (o_pinv_type (u_obj u)) (uk_size u) (UM u)) as [a_inv|] eqn:EI;
      cbn [bind]; [|discriminate].
    destruct (ext_values (u_drift u) (l_npt l) (l_at l)) as [zv|e1] eqn:EZ.
    { destruct HV as (z & s & -> & _). discriminate. }
    intros _. unfold ext_values in EZ. destruct (dr_ext (u_drift u)) as [[[[arr ex] ey] zs]|] eqn:ED; [|discriminate].
    destruct (zscalars_err _ _ _ _ _ _ _ EZ) as (-> & j & Hj & HZ).
    pose proof (uloop_gen (fun j => uk_rhs_loop u (l_npt l) (query_distances (u_obj u) pts j)
         (query_array (o_dim (u_obj u)) pts) (l_at l) gs j) (o_n (u_obj u)) (uk_size u) a_inv (o_values (u_obj u))
         (unmasked (l_npt l) (l_mask l)) (unmasked_NoDup _ _) (fun _ => 0) (fun _ => 0) false) as HG.
    destruct (foldM _ _ _) as [[[z s] w1]|e''] in HG |- *; [|discriminate]. intros _.
    destruct HG as (G1 & _). destruct (G1 j) as (b & wj & HRhs & _).
    { unfold unmasked. apply filter_In. split; [apply in_seq; lia|].
      destruct (locate_facts _ _ _ _ l (o_dim_cases _) EL) as [_ [HM|HM]]; [destruct HX; [discriminate|contradiction]|]. rewrite HM. reflexivity. }
    pose proof (uk_rhs_loop_spec u (l_npt l) (query_distances (u_obj u) pts j) (query_array (o_dim (u_obj u)) pts) (l_at l) gs j Hgs) as HS.
    cbv zeta in HS. destruct (at_well (u_drift u) _); [cbv beta in HRhs; congruence|].
    unfold ext_value in HS. rewrite ED, HZ in HS. cbv beta in HRhs; congruence.
  - (* both raise: the same exception *)
    revert EV EL. unfold execute_uk. cbv zeta. cbn [with_backend q_style q_pts q_mask q_int q_backend].
    destruct (negb _); [congruence|]. rewrite UM_eq. cbn [bind].
    change (match o_dim (u_obj u) with 2%nat => locate2 | _ => locate3 end) with (locate (o_dim (u_obj u))).
    destruct (locate (o_dim (u_obj u)) (q_style q) (q_pts q) (q_mask q)) as [l|] eqn:EL; cbn [bind]; [|congruence].
    destruct (spec_grids u (q_style q) (q_pts q) specs) as [gs|] eqn:EG; cbn [bind]; [|congruence].
    destruct (adjust_query (u_obj u) (q_int q) (l_at l)) as [pts|] eqn:EQ; cbn [bind]; [|congruence].
    cbn [String.eqb Ascii.eqb Bool.eqb].
    pose proof (spec_grids_length u q specs gs EG) as Hgs.
    pose proof (uk_exec_vector_spec (e_la E) u (l_npt l) (UM u) (query_distances (u_obj u) pts)
      (query_array (o_dim (u_obj u)) pts) (l_at l) gs Hgs) as HV. cbv zeta in HV.
    change (o_n (u_obj u) + List.length (data_cols u) + 1)%nat with (uk_size u) in HV.
    unfold uk_exec_loop. cbv zeta. replace (n_withdrifts u + 1)%nat with (uk_size u) by (rewrite n_withdrifts_cols; reflexivity).
    destruct (invert (e_la E) (o_pinv (u_obj u)) (o_pinv_type (u_obj u)) (uk_size u) (UM u)) as [a_inv|] eqn:EI;
      cbn [bind]; [|rewrite HV; cbn [bind]; congruence].
    destruct (ext_values (u_drift u) (l_npt l) (l_at l)) as [zv|e1] eqn:EZ.
    { destruct HV as (z & s & -> & _). discriminate. }
    rewrite HV. cbn [bind]. intros [= <-]. unfold ext_values in EZ. destruct (dr_ext (u_drift u)) as [[[[arr ex] ey] zs]|] eqn:ED; [|discriminate].
    destruct (zscalars_err _ _ _ _ _ _ _ EZ) as (-> & _).
    pose proof (uloop_gen (fun j => uk_rhs_loop u (l_npt l) (query_distances (u_obj u) pts j)
         (query_array (o_dim (u_obj u)) pts) (l_at l) gs j) (o_n (u_obj u)) (uk_size u) a_inv (o_values (u_obj u))
         (unmasked (l_npt l) (l_mask l)) (unmasked_NoDup _ _) (fun _ => 0) (fun _ => 0) false) as HG.
    destruct (foldM _ _ _) as [[[z s] w1]|e''] in HG |- *; [discriminate|]. cbn [bind]. intros [= <-].
    destruct HG as (j & Hj & HRhs). unfold unmasked in Hj. apply filter_In in Hj as [Hj Hm]. apply in_seq in Hj.
    destruct (locate_all_cells _ q l j (o_dim_cases _) EL ltac:(lia)) as (pos & HC).
    pose proof (uk_rhs_loop_spec u (l_npt l) (query_distances (u_obj u) pts j) (query_array (o_dim (u_obj u)) pts) (l_at l) gs j Hgs) as HS.
    cbv zeta in HS. destruct (at_well (u_drift u) _) eqn:EW.
    + exfalso. unfold at_well in EW. apply existsb_exists in EW as ([[wx wy] s] & Hin & Hw). apply Reqb_true in Hw.
      destruct (query_frame u l pts q j pos HI EL EQ HC) as [F _].
      assert (D2 : (1 < o_dim (u_obj u))%nat) by (destruct (o_dim_cases (u_obj u)) as [E0|E0]; rewrite E0; lia).
      apply (HO j pos wx wy s); [|exact Hin|].
      * split; [exact HC|]. rewrite (cell_hidden_mask _ q l j pos (o_dim_cases _) EL HC). destruct (l_mask l j); [discriminate|].
        rewrite andb_false_r. discriminate.
      * unfold well_dist in Hw. rewrite !F in Hw by lia. unfold plane_dist, Rsqr. exact Hw.
    + unfold ext_value in HS. rewrite ED in HS. destruct (zscalar arr ex ey (l_at l j 0%nat) (l_at l j 1%nat)) as [zj|e0] eqn:EZj.
      * destruct HS as [_ HS]. destruct HS as (b & HR' & _); [|cbv beta in HRhs; congruence].
        left. destruct (spec_grids_ok u q specs gs EG) as [(_ & ->)|(ds & ED' & _)]; [reflexivity|congruence].
      * rewrite (zscalar_err _ _ _ _ _ _ EZj) in HS. cbv beta in HRhs. congruence.
Qed.

(** *** C27 *)
Theorem uk_no_warning E u q specs r w : ureachable E u -> execute_uk E u q specs = Ok (r, w) -> w = false.
Proof. intros HR H. exact (proj1 (execute_uk_call E u q specs r w (ureachable_inv E u HR) H)). Qed.

Lemma locate_err dim style pts mask e : locate dim style pts mask = Err e -> e = ValueError \/ e = OSErr.
Proof.
  unfold locate. destruct dim as [|[|[|d]]]; unfold locate2, locate3;
    repeat match goal with
    | |- context [if ?b then _ else _] => destruct b
    | |- context [match ?m with Some _ => _ | None => _ end] => destruct m
    | |- context [match ?m with Mask2 _ _ _ => _ | Mask3 _ _ _ _ => _ end] => destruct m
    end; intros H; try discriminate; injection H as <-; auto.
Qed.
Lemma spec_grid_err dim style pts x e : spec_grid dim style pts x = Err e -> e = ValueError.
Proof.
  unfold spec_grid. cbv zeta. destruct dim as [|[|[|d]]], (String.eqb style "points"), x;
    repeat match goal with |- context [if ?b then _ else _] => destruct b end; congruence.
Qed.
Lemma mapM_err {A B} (f : A -> res B) e0 l e : (forall x e, f x = Err e -> e = e0) -> mapM f l = Err e -> e = e0.
Proof.
  intros Hf. induction l as [|x l IH]; cbn [mapM]; [discriminate|].
  destruct (f x) eqn:E; cbn [bind]; [|intros [= <-]; exact (Hf x _ E)].
  destruct (mapM f l); cbn [bind]; [discriminate|]. intros [= <-]. apply IH. reflexivity.
Qed.
Lemma spec_grids_err u style pts specs e : spec_grids u style pts specs = Err e -> e = ValueError.
Proof.
  unfold spec_grids. destruct (dr_spec (u_drift u)); [|discriminate]. destruct specs as [|s0 specs]; [congruence|].
  destruct (mapM _ _) eqn:EM; cbn [bind].
  - destruct (negb _); congruence.
  - intros [= <-]. apply (mapM_err _ ValueError _ _ (fun x e => spec_grid_err _ _ _ x e) EM).
Qed.

(** exceptions of the vectorized backend *)
Theorem uk_vectorized_exceptions E u q specs e : ureachable E u -> q_backend q = "vectorized"%string ->
  execute_uk E u q specs = Err e -> In e [ValueError; OSErr; TypeError; LinAlgError].
Proof.
  intros HR HB. pose proof (ureachable_inv E u HR) as HI. unfold execute_uk. cbv zeta.
  destruct (negb _); [intros [= <-]; cbn; auto|]. rewrite UM_eq. cbn [bind].
  change (match o_dim (u_obj u) with 2%nat => locate2 | _ => locate3 end) with (locate (o_dim (u_obj u))).
  destruct (locate (o_dim (u_obj u)) (q_style q) (q_pts q) (q_mask q)) as [l|e1] eqn:EL; cbn [bind].
  2:{ intros [= <-]. destruct (locate_err _ _ _ _ _ EL) as [->| ->]; cbn; auto. }
  destruct (spec_grids u (q_style q) (q_pts q) specs) as [gs|e1] eqn:EG; cbn [bind].
  2:{ intros [= <-]. rewrite (spec_grids_err _ _ _ _ _ EG). cbn; auto. }
  destruct (adjust_query (u_obj u) (q_int q) (l_at l)) as [pts|e1] eqn:EQ; cbn [bind].
  2:{ intros [= <-]. unfold adjust_query in EQ. rewrite (ui_ct u HI) in EQ. unfold adjust_for_anisotropy in EQ.
      destruct (o_dim_cases (u_obj u)) as [ED|ED]; rewrite ED in EQ; cbn in EQ;
      destruct (forallb (fun b => b) (q_int q)); try discriminate; injection EQ as <-; cbn; auto. }
  rewrite HB. cbn [String.eqb Ascii.eqb Bool.eqb].
  pose proof (spec_grids_length u q specs gs EG) as Hgs.
  pose proof (uk_exec_vector_spec (e_la E) u (l_npt l) (UM u) (query_distances (u_obj u) pts)
      (query_array (o_dim (u_obj u)) pts) (l_at l) gs Hgs) as HV. cbv zeta in HV.
  destruct (invert _ _ _ _ _) as [a_inv|e1] eqn:EI.
  2:{ rewrite HV. cbn [bind]. intros [= <-]. unfold invert in EI.
      destruct (if o_pinv (u_obj u) then _ else _); [discriminate|injection EI as <-]. cbn; auto. }
  destruct (ext_values _ _ _) as [zv|e1] eqn:EZ.
  2:{ rewrite HV. cbn [bind]. intros [= <-]. unfold ext_values in EZ. destruct (dr_ext (u_drift u)) as [[[[? ?] ?] ?]|]; [|discriminate].
      destruct (zscalars_err _ _ _ _ _ _ _ EZ) as [-> _]. cbn; auto. }
  destruct HV as (z & s & -> & _). discriminate.
Qed.

(** entries of the kriging matrix *)
Theorem uk_matrix_entries E u q specs : ureachable E u -> specs_fit u specs ->
  let o := u_obj u in let ts := drift_terms u q specs in let n := o_n o in let m := List.length ts in
  n_withdrifts u = (n + m)%nat /\
  exists a, uk_matrix u = Ok (a, false) /\
    (forall i j, (i < n)%nat -> (j < n)%nat -> a i j = - G_of o i j) /\
    (forall i k, (i < n)%nat -> (k < m)%nat ->
       a i (n + k)%nat = t_data (nth k ts no_term) i /\ a (n + k)%nat i = t_data (nth k ts no_term) i) /\
    (forall i, (i < n)%nat -> a i (n + m)%nat = 1 /\ a (n + m)%nat i = 1) /\
    (forall k l, (n <= k <= n + m)%nat -> (n <= l <= n + m)%nat -> a k l = 0).
Proof.
  intros HR HS o ts n m. pose proof (ureachable_inv E u HR) as HI.
  assert (Hm : mu_count u = m) by apply (mu_count_terms u q specs HS).
  split; [rewrite n_withdrifts_cols; unfold n, o; rewrite <- Hm; reflexivity|].
  exists (UM u). split; [apply UM_eq|].
  pose proof (UM_spec u q specs HI HS) as HM. cbv zeta in HM. fold ts in HM. unfold uk_size in HM. rewrite Hm in HM. fold o n in HM.
  unfold UA_spec in HM. fold o n m in HM.
  assert (K : forall i j, (i < n + m + 1)%nat -> (j < n + m + 1)%nat -> UM u i j = UA n m (G_of o) (F_of ts) i j) by exact HM.
  split; [|split; [|split]].
  - intros i j Hi Hj. rewrite K by lia. unfold UA. rewrite (proj2 (Nat.ltb_lt i n) Hi), (proj2 (Nat.ltb_lt j n) Hj). ring.
  - intros i k Hi Hk. rewrite !K by lia. unfold UA, F_of.
    rewrite (proj2 (Nat.ltb_lt i n) Hi), (proj2 (Nat.ltb_ge (n + k) n)), (proj2 (Nat.ltb_lt (n + k) (n + m))) by lia.
    replace (n + k - n)%nat with k by lia. auto.
  - intros i Hi. rewrite !K by lia. unfold UA.
    rewrite (proj2 (Nat.ltb_lt i n) Hi), (proj2 (Nat.ltb_ge (n + m) n)), (proj2 (Nat.ltb_ge (n + m) (n + m))) by lia. auto.
  - intros k l Hk Hl. rewrite K by lia. unfold UA. rewrite (proj2 (Nat.ltb_ge k n)), (proj2 (Nat.ltb_ge l n)) by lia. reflexivity.
Qed.
