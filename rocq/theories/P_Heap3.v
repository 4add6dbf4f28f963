(** C32: update_variogram_model and execute on the heap; histories. *)
From Coq Require Import String.
From Verif Require Import Base Sums Matrix M_Variogram M_Geometry P_Geometry M_Kriging M_Init M_Object M_Execute S_Execute P_Object P_Execute P_State M_Heap S_Heap P_Heap P_Heap2.

Lemma exists_parts h x : object_exists h x -> (x_params x < h_next h)%nat /\ (x_values x < h_next h)%nat /\
  Forall (fun r => (r < h_next h)%nat) (x_orig x) /\ Forall (fun r => (r < h_next h)%nat) (adj_refs (x_adj x)).
Proof.
  unfold object_exists, refs. intros H. inversion H as [|? ? H1 H2]; subst. inversion H2 as [|? ? H3 H4]; subst.
  apply Forall_app in H4. tauto.
Qed.
Lemma exists_make h x : (x_params x < h_next h)%nat -> (x_values x < h_next h)%nat ->
  Forall (fun r => (r < h_next h)%nat) (x_orig x) -> Forall (fun r => (r < h_next h)%nat) (adj_refs (x_adj x)) -> object_exists h x.
Proof. intros. unfold object_exists, refs. constructor; [assumption|]. constructor; [assumption|]. apply Forall_app. split; assumption. Qed.

(** reading the attributes depends only on the contents of the arrays referred to *)
Lemma view_ext h h' x : (forall r, In r (refs x) -> h_at h' r = h_at h r) -> view h' x = view h x.
Proof.
  intros H. unfold refs in H.
  assert (H1 : rd h' (x_params x) = rd h (x_params x)) by (unfold rd; rewrite H by (left; reflexivity); reflexivity).
  assert (H2 : rd h' (x_values x) = rd h (x_values x)) by (unfold rd; rewrite H by (right; left; reflexivity); reflexivity).
  assert (H3 : map (rd h') (x_orig x) = map (rd h) (x_orig x)).
  { apply map_ext_in. intros r Hr. unfold rd. rewrite H by (right; right; apply in_or_app; left; exact Hr). reflexivity. }
  assert (H4 : adj_at h' (x_adj x) = adj_at h (x_adj x)).
  { assert (K : forall r, In r (adj_refs (x_adj x)) -> h_at h' r = h_at h r) by (intros r Hr; apply H; right; right; apply in_or_app; right; exact Hr).
    destruct (x_adj x) as [r|rs]; cbn in *; [unfold tab; rewrite K by (left; reflexivity); reflexivity|].
    f_equal. apply map_ext_in. intros r Hr. unfold rd. rewrite K by exact Hr. reflexivity. }
  unfold view. cbv zeta. rewrite H1, H2, H3, H4. reflexivity.
Qed.
Lemma view_adds h h' x : only_adds h h' -> object_exists h x -> view h' x = view h x.
Proof. intros (_ & A & _) H. apply view_ext. intros r Hr. apply A. revert r Hr. apply Forall_forall, H. Qed.
Lemma exists_adds h h' x : only_adds h h' -> object_exists h x -> object_exists h' x.
Proof. intros A H. apply (Forall_lt_mono h h' _ (adds_next _ _ A) H). Qed.

Theorem update_h_spec E x v h : object_exists h x -> params_exist h (v_params v) ->
  match update_h E x v h with
  | (h', x', e) => only_adds h h' /\ object_exists h' x' /\ update_variogram_model E (view h x) (deref_v h v) = (view h' x', e) /\
      (forall r, In r (refs x') -> In r (refs x) \/ fresh h h' r \/ keeps_list v r)
  end.
Proof.
  intros HX HP. destruct (exists_parts h x HX) as (X1 & X2 & X3 & X4).
  unfold update_h, update_variogram_model. cbv zeta.
  change (o_class (view h x)) with (o_class (x_rest x)).
  change (a_model (deref_v h v)) with (v_model v).
  change (o_ct (set_model (view h x) (v_model v))) with (o_ct (x_rest x)).
  change (o_ct (x_rest (with_rest x (set_model (x_rest x) (v_model v))))) with (o_ct (x_rest x)).
  set (c := o_class (x_rest x)).
  destruct (resolve_h_spec E c (ct_name (o_ct (x_rest x))) v h HP) as (h1 & [[[[[name prm] fn] scaling] angle]|e] & R & A1 & RR); rewrite R.
  2: { rewrite RR. split; [exact A1|]. split; [exact (exists_adds h h1 x A1 HX)|].
       split; [|intros r Hr; left; exact Hr]. f_equal. rewrite <- (view_adds h h1 x A1 HX). reflexivity. }
  destruct RR as (RR & PE & PK & _). rewrite RR.
  assert (V1 : view h1 x = view h x) by exact (view_adds h h1 x A1 HX). rewrite <- V1.
  pose proof (exists_adds h h1 x A1 HX) as HX1.
  destruct (resolve_fun name fn) as [f|e].
  2: { split; [exact A1|]. split; [exact HX1|]. split; [reflexivity|]. intros r Hr; left; exact Hr. }
  set (x1 := with_rest (with_rest (with_rest x (set_model (x_rest x) (v_model v))) _) _).
  match goal with |- context [set_fun (set_model (set_model (view h1 x) (v_model v)) (VName name)) f] =>
    change (set_fun (set_model (set_model (view h1 x) (v_model v)) (VName name)) f) with (view h1 x1) end.
  change (o_dim (view h1 x1)) with (cdim c). change (o_scaling (view h1 x1)) with (o_scaling (x_rest x)). change (o_angle (view h1 x1)) with (o_angle (x_rest x)).
  change (o_ct (view h1 x1)) with (o_ct (x_rest x)). change (o_center (view h1 x1)) with (o_center (x_rest x)).
  change (o_scaling (x_rest x1)) with (o_scaling (x_rest x)). change (o_angle (x_rest x1)) with (o_angle (x_rest x)).
  change (o_ct (x_rest x1)) with (o_ct (x_rest x)). change (o_center (x_rest (with_rest x1 _))) with (o_center (x_rest x)).
  change (o_orig (view h1 x1)) with (columns (map (rd h1) (x_orig x))).
  pose proof (adds_next _ _ A1) as L1.
  assert (X3' : Forall (fun r => (r < h_next h1)%nat) (x_orig x)) by exact (Forall_lt_mono h h1 _ L1 X3).
  (* anisotropy *)
  set (hx2 := if aniso_differs (cdim c) scaling (o_scaling (x_rest x)) angle (o_angle (x_rest x)) then _ else _) at 1.
  set (oe := if aniso_differs (cdim c) scaling (o_scaling (x_rest x)) angle (o_angle (x_rest x)) then _ else _) at 1.
  assert (HA : match hx2 with (h2, x2, e2) => only_adds h1 h2 /\ oe = (view h2 x2, e2) /\ object_exists h2 x2 /\
      x_params x2 = x_params x /\ x_values x2 = x_values x /\ x_orig x2 = x_orig x /\
      (forall r, In r (adj_refs (x_adj x2)) -> In r (refs x) \/ fresh h1 h2 r) end).
  { assert (KEEP : forall (ob : outcome) h2 y e, only_adds h1 h2 -> x_params y = x_params x -> x_values y = x_values x -> x_orig y = x_orig x -> x_adj y = x_adj x -> ob = (view h1 y, e) ->
       only_adds h1 h2 /\ ob = (view h2 y, e) /\ object_exists h2 y /\ x_params y = x_params x /\ x_values y = x_values x /\ x_orig y = x_orig x /\
       (forall r, In r (adj_refs (x_adj y)) -> In r (refs x) \/ fresh h1 h2 r)).
    { intros ob h2 y e A Q1 Q2 Q3 Q4 Q5. assert (EY : object_exists h1 y).
      { unfold object_exists, refs. rewrite Q1, Q2, Q3, Q4. exact HX1. }
      split; [exact A|]. split; [rewrite Q5; f_equal; symmetry; apply view_adds; assumption|].
      split; [exact (exists_adds _ _ _ A EY)|]. split; [exact Q1|]. split; [exact Q2|]. split; [exact Q3|].
      intros r Hr. left. unfold refs. right. right. apply in_or_app. right. rewrite <- Q4. exact Hr. }
    unfold hx2, oe. destruct (aniso_differs (cdim c) scaling (o_scaling (x_rest x)) angle (o_angle (x_rest x))) eqn:EA.
    2: { apply KEEP; try reflexivity; try apply adds_refl. }
    destruct (o_ct (x_rest x)) eqn:ECT.
    - unfold hbind at 1. destruct (vstackT_spec (x_orig (with_rest x1 (set_aniso (x_rest x1) scaling angle (fun _ _ => 0)))) h1) as (h2 & -> & A2 & F2 & T2).
      destruct (adjust_h_spec h1 false (cdim c) (h_next h1) (o_center (x_rest x)) scaling angle h2 A2 F2) as (h3 & y & -> & A3 & Y3). rewrite T2 in Y3.
      change (map (rd h1) (x_orig (with_rest x1 (set_aniso (x_rest x1) scaling angle (fun _ _ => 0))))) with (map (rd h1) (x_orig x)) in Y3.
      destruct y as [Y|e].
      + destruct Y3 as [FY Y3]. rewrite Y3.
        assert (EX : object_exists h3 (with_adj (with_rest x1 (set_aniso (x_rest x1) scaling angle (fun _ _ => 0))) (Own Y))).
        { pose proof (adds_next _ _ A3). apply exists_make; cbn; [lia|lia|exact (Forall_lt_mono h1 h3 _ (adds_next _ _ A3) X3')|]. constructor; [apply FY|constructor]. }
        split; [exact A3|]. split; [|split; [exact EX|]].
        * f_equal. unfold view. cbn [x_rest x_orig x_adj x_values x_params with_adj with_rest set_aniso adj_at].
          cbn [x1 with_rest x_orig x_values x_params x_rest].
          rewrite (adds_rd h1 h3 (x_params x) A3) by lia. rewrite (adds_rd h1 h3 (x_values x) A3) by lia. rewrite (adds_map h1 h3 (x_orig x) A3 X3'). reflexivity.
        * split; [reflexivity|]. split; [reflexivity|]. split; [reflexivity|]. cbn. intros r [<-|[]]. right. exact FY.
      + rewrite Y3. apply KEEP; try reflexivity; try exact A3.
    - split; [apply adds_refl|]. split; [reflexivity|]. split; [apply exists_make; cbn; try assumption; lia|].
      split; [reflexivity|]. split; [reflexivity|]. split; [reflexivity|]. intros r Hr. left. unfold refs. right. right. apply in_or_app. left. exact Hr. }
  clearbody hx2 oe. destruct hx2 as [[h2 x2] e2]. destruct HA as (A2 & -> & HX2 & P1 & P2 & P3 & P4).
  assert (REFS2 : forall r, In r (refs x2) -> In r (refs x) \/ fresh h h2 r \/ keeps_list v r).
  { intros r Hr. unfold refs in Hr. rewrite P1, P2, P3 in Hr. destruct Hr as [<-|[<-|Hr]]; [left; left; reflexivity|left; right; left; reflexivity|].
    apply in_app_or in Hr. destruct Hr as [Hr|Hr]; [left; right; right; apply in_or_app; left; exact Hr|].
    destruct (P4 r Hr) as [K|K]; [left; exact K|right; left; exact (fresh_weaken h h1 h2 h2 r A1 (adds_refl h2) K)]. }
  pose proof (adds_trans _ _ _ A1 A2) as A02.
  destruct e2 as [e2|].
  { split; [exact A02|]. split; [exact HX2|]. split; [reflexivity|exact REFS2]. }
  (* parameters *)
  assert (PE2 : params_exist h2 prm). { destruct prm; cbn in *; try exact I. pose proof (adds_next _ _ A2). lia. }
  assert (HD : deref_params h2 prm = deref_params h1 prm).
  { destruct prm; try reflexivity. cbn in *. rewrite (adds_rd h1 h2 _ A2 PE). reflexivity. }
  destruct (params_h_spec name prm h2 PE2) as (h3 & y & -> & A3 & Y3). rewrite HD in Y3.
  pose proof (adds_trans _ _ _ A02 A3) as A03.
  assert (MONO : forall h', only_adds h2 h' -> forall r, In r (refs x2) -> In r (refs x) \/ fresh h h' r \/ keeps_list v r).
  { intros h' Ah r Hr. destruct (REFS2 r Hr) as [K|[K|K]]; [left; exact K|right; left|right; right; exact K].
    exact (fresh_weaken h h h2 h' r (adds_refl h) Ah K). }
  destruct y as [vp|e].
  2: { rewrite Y3. split; [exact A03|]. split; [exact (exists_adds _ _ _ A3 HX2)|]. split; [f_equal; symmetry; apply view_adds; assumption|exact (MONO h3 A3)]. }
  assert (HVP : make_parameter_list name (deref_params h1 prm) = Ok (option_map (rd h3) vp) /\
     forall r, vp = Some r -> (r < h_next h3)%nat /\ (fresh h h3 r \/ keeps_list v r)).
  { destruct vp as [r|]; [|split; [exact Y3|discriminate]]. destruct Y3 as (X5 & X6 & X7 & _). split; [exact X5|].
    intros r' Hr. injection Hr as <-. split; [exact X6|]. destruct X7 as [X7|[X7 X8]].
    - left. exact (fresh_weaken h h2 h3 h3 r A02 (adds_refl h3) X7).
    - destruct (PK r X7) as [K|[K1 K2]].
      + left. exact (fresh_weaken h h h1 h3 r (adds_refl h) (adds_trans _ _ _ A2 A3) K).
      + right. exists name. split; [exact K1|]. split; [exact K2|exact X8]. }
  destruct HVP as [HVP HVR]. rewrite HVP. clear Y3.
  rewrite (view_adds h2 h3 x2 A3 HX2). set (o2 := view h2 x2).
  destruct (initialize_h_spec E (o_ct o2) (cdim c) (o_n o2) (o_adj o2) (o_n o2) (o_values o2) name vp (o_fun o2) (v_nlags v) (v_weight v) h3
    (fun r Hr => proj1 (HVR r Hr))) as (h4 & y & -> & A4 & Y4).
  change (a_nlags (deref_v h v)) with (v_nlags v). change (a_weight (deref_v h v)) with (v_weight v).
  pose proof (adds_trans _ _ _ A03 A4) as A04. pose proof (adds_trans _ _ _ A3 A4) as A24.
  destruct y as [[[lags sv] params]|e].
  2: { rewrite Y4. split; [exact A04|]. split; [exact (exists_adds _ _ _ A24 HX2)|]. split; [f_equal; symmetry; apply view_adds; assumption|exact (MONO h4 A24)]. }
  destruct Y4 as (Y4 & YL & YF & _). rewrite Y4.
  set (x4 := with_params (with_rest x2 (set_variogram (x_rest x2) lags sv [])) params).
  assert (V4 : set_variogram o2 lags sv (rd h4 params) = view h4 x4).
  { unfold o2. rewrite <- (view_adds h2 h4 x2 A24 HX2). reflexivity. }
  rewrite V4. change (cdim c) with (cdim c).
  assert (HX4 : object_exists h4 x4).
  { destruct (exists_parts h4 x2 (exists_adds _ _ _ A24 HX2)) as (Z1 & Z2 & Z3 & Z4). apply exists_make; cbn; assumption. }
  assert (REFS4 : forall r, In r (refs x4) -> In r (refs x) \/ fresh h h4 r \/ keeps_list v r).
  { intros r Hr. unfold refs in Hr. cbn [x4 with_params with_rest x_params x_values x_orig x_adj] in Hr. destruct Hr as [<-|Hr].
    - destruct YF as [K|K]; [right; left; exact (fresh_weaken h h3 h4 h4 params A03 (adds_refl h4) K)|].
      destruct (proj2 (HVR params K)) as [K'|K']; [right; left; exact (fresh_weaken h h h3 h4 params (adds_refl h) A4 K')|right; right; exact K'].
    - apply (MONO h4 A24). unfold refs. right. exact Hr. }
  destruct (all_statistics (e_la E) (o_ct (view h4 x4)) (cdim c) (o_n (view h4 x4)) (o_adj (view h4 x4)) (o_values (view h4 x4)) (o_vg (view h4 x4)) (o_pinv (view h4 x4))) as [s|e].
  - split; [exact A04|]. split; [exact HX4|]. split; [reflexivity|exact REFS4].
  - split; [exact A04|]. split; [exact HX4|]. split; [reflexivity|exact REFS4].
Qed.

Theorem execute_h_spec E x q h : object_exists h x -> Forall (fun r => (r < h_next h)%nat) (k_pts q) ->
  match execute_h E x q h with
  | (h', r) => only_adds h h' /\ r = execute E (view h x) (deref_q h q)
  end.
Proof.
  intros HX HQ. unfold execute_h. bind1. unfold look at 1. bind1. unfold look at 1. bind1.
  destruct (copies_spec (k_pts q) h HQ) as (h1 & pts & -> & A1 & F1 & E1). bind1. unfold look at 1. bind1.
  destruct ((match o_dim (view h x) with 2%nat => locate2 | _ => locate3 end) (k_style q) (map (rd h1) pts) (k_mask q)) as [l|e].
  - destruct (o_ct (view h x)); [|split; [exact A1|reflexivity]].
    bind1. destruct (alloc_spec (Tab (l_at l)) h1) as (h2 & -> & A2 & T2 & N2).
    assert (F2 : fresh h h2 (h_next h1)) by (pose proof (adds_next _ _ A1); unfold fresh; lia).
    destruct (adjust_h_spec h (forallb (fun b => b) (k_int q)) (o_dim (view h x)) (h_next h1) (o_center (view h x)) (o_scaling (view h x)) (o_angle (view h x)) h2
      (adds_trans _ _ _ A1 A2) F2) as (h3 & y & -> & A3 & _). split; [exact A3|reflexivity].
  - split; [exact A1|reflexivity].
Qed.
