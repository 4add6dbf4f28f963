(** Proofs: the right-hand sides and drift columns of the code are the drift
    functions of the specification. *)
From Coq Require Import String FunctionalExtensionality.
From Verif Require Import Base Sums Matrix M_Variogram P_Variogram M_Geometry S_Geometry P_Geometry M_Kriging S_Kriging
  P_Kriging P_OKSpec M_Init M_Object M_Execute S_Execute P_Object P_Execute P_Cells P_Window P_WindowExec P_Master P_Det
  M_UK S_UK P_UK.

(** *** external drift values on arrays of locations *)
Lemma zscalars_gen arr ex ey x y ps : forall s0 : vec,
  match foldM (fun zs p => do z <- zscalar arr ex ey (x p) (y p) ;; Ok (upd zs p z)) ps s0 with
  | Ok zs => (forall p, In p ps -> zscalar arr ex ey (x p) (y p) = Ok (zs p)) /\ (forall p, ~ In p ps -> zs p = s0 p)
  | Err e => exists p, In p ps /\ zscalar arr ex ey (x p) (y p) = Err e
  end.
Proof.
  induction ps as [|p ps IH]; intros s0; cbn [foldM].
  - split; [intros p []|reflexivity].
  - destruct (zscalar arr ex ey (x p) (y p)) as [z|e] eqn:EZ; cbn [bind].
    2:{ exists p. split; [left; reflexivity|exact EZ]. }
    specialize (IH (upd s0 p z)). destruct (foldM _ ps (upd s0 p z)) as [zs|e].
    + destruct IH as [I1 I2]. split.
      * intros p' [<-|H]; [|apply I1, H]. destruct (in_dec Nat.eq_dec p ps) as [Hi|Hi]; [apply I1, Hi|].
        rewrite I2 by exact Hi. rewrite upd_same. exact EZ.
      * intros p' H. rewrite I2 by (intros H'; apply H; right; exact H'). apply upd_other. intros ->. apply H. left. reflexivity.
    + destruct IH as (p' & H1 & H2). exists p'. split; [right; exact H1|exact H2].
Qed.
Lemma zscalars_ok arr ex ey npt x y zs : zscalars arr ex ey npt x y = Ok zs ->
  forall p, (p < npt)%nat -> zscalar arr ex ey (x p) (y p) = Ok (zs p).
Proof.
  intros H p Hp. pose proof (zscalars_gen arr ex ey x y (seq 0 npt) (fun _ => 0)) as G. unfold zscalars in H. rewrite H in G.
  apply G. apply in_seq. lia.
Qed.
Lemma zscalar_err arr ex ey x y e : zscalar arr ex ey x y = Err e -> e = ValueError.
Proof.
  unfold zscalar, first_where, last_where.
  destruct (amax_gen Rops ex), (amin_gen Rops ex), (amax_gen Rops ey), (amin_gen Rops ey); try (intros H; congruence).
  destruct (_ || _); [intros H; congruence|].
  repeat match goal with |- context [where_ ?p ?l] => destruct (where_ p l); cbn [bind]; try (intros H; congruence) end.
  destruct (Nat.eqb _ _), (Nat.eqb _ _); intros H; discriminate H.
Qed.
Lemma zscalars_err arr ex ey npt x y e : zscalars arr ex ey npt x y = Err e ->
  e = ValueError /\ exists p, (p < npt)%nat /\ zscalar arr ex ey (x p) (y p) = Err ValueError.
Proof.
  intros H. pose proof (zscalars_gen arr ex ey x y (seq 0 npt) (fun _ => 0)) as G. unfold zscalars in H. rewrite H in G.
  destruct G as (p & Hp & HZ). pose proof (zscalar_err _ _ _ _ _ _ HZ) as ->. split; [reflexivity|].
  exists p. split; [apply in_seq in Hp; lia|exact HZ].
Qed.

(** *** adjusted coordinates are the frame coordinates *)
Lemma frame_coord o X Y : o_ct o = Euclidean ->
  adjust_for_anisotropy false (o_dim o) X (o_center o) (o_scaling o) (o_angle o) = Ok Y ->
  forall i, (forall k, (k < o_dim o)%nat -> Y i k = coord k (frame o (loc_of (o_dim o) X i))) /\
            third (o_dim o) (Y i 2%nat) = coord 2 (frame o (loc_of (o_dim o) X i)).
Proof.
  intros _ H i. unfold frame, center3, loc_of, loc. destruct (o_dim_cases o) as [E|E]; rewrite E in *; cbn [Nat.eqb].
  - pose proof (adjust2_explicit _ _ _ _ _ H) as A. cbv zeta in A. destruct (A i) as [A0 A1].
    split; [|cbn; ring]. intros k Hk. destruct k as [|[|k]]; [rewrite A0|rewrite A1|lia]; cbn; ring.
  - pose proof (adjust3_explicit _ _ _ _ _ H) as A. cbv zeta in A. destruct (A i) as (A0 & A1 & A2).
    split.
    + intros k Hk. destruct k as [|[|[|k]]]; [rewrite A0|rewrite A1|rewrite A2|lia];
        cbn [coord fst snd sub3 add3]; ring.
    + cbn [third]. rewrite A2. cbn [coord fst snd sub3 add3]. ring.
Qed.

Lemma query_coords_array dim pts p k : (k < 3)%nat -> query_coords dim (query_array dim pts) p k = pts p k.
Proof.
  intros Hk. unfold query_coords, query_array, query_axis. destruct dim as [|[|[|d]]]; try reflexivity; unfold zyx;
    replace (2 - (2 - k))%nat with k by lia; reflexivity.
Qed.

(** *** invariants of universal kriging objects *)
Record uinv (u : uobj) : Prop := {
  ui_coords : coords_inv (u_obj u);
  ui_ct : o_ct (u_obj u) = Euclidean;
  ui_class : o_class (u_obj u) = UK2 \/ o_class (u_obj u) = UK3;
  ui_ext : forall arr ex ey zs, dr_ext (u_drift u) = Some (arr, ex, ey, zs) ->
    forall i, (i < o_n (u_obj u))%nat -> zscalar arr ex ey (o_orig (u_obj u) i 0%nat) (o_orig (u_obj u) i 1%nat) = Ok (zs i) }.

Lemma ureachable_reachable E u : ureachable E u -> reachable E (u_obj u).
Proof.
  induction 1 as [c A D u Hc Hl H|u v _ IH|u _ IH|u _ IH].
  - unfold construct_uk in H. bindok H. bindok H. injection H as <-. cbn [u_obj]. exact (reach_new E c A a Hl E0).
  - unfold update_uk. pose proof (reach_update E (u_obj u) v IH) as R. destruct (update_variogram_model E (u_obj u) v). exact R.
  - apply reach_verbose, IH.
  - apply reach_plotting, IH.
Qed.

Lemma update_uk_obj E u v : u_obj (fst (update_uk E u v)) = fst (update_variogram_model E (u_obj u) v) /\
  u_drift (fst (update_uk E u v)) = u_drift u.
Proof. unfold update_uk. destruct (update_variogram_model E (u_obj u) v). split; reflexivity. Qed.

Lemma ureachable_inv E u : ureachable E u -> uinv u.
Proof.
  intros H. pose proof (reachable_inv E _ (ureachable_reachable E u H)) as HC.
  assert (G : o_ct (u_obj u) = Euclidean /\ (o_class (u_obj u) = UK2 \/ o_class (u_obj u) = UK3) /\
    (forall arr ex ey zs, dr_ext (u_drift u) = Some (arr, ex, ey, zs) ->
    forall i, (i < o_n (u_obj u))%nat -> zscalar arr ex ey (o_orig (u_obj u) i 0%nat) (o_orig (u_obj u) i 1%nat) = Ok (zs i))).
  2:{ destruct G as (G1 & G2 & G3). constructor; assumption. }
  clear HC. induction H as [c A D u Hc Hl H|u v _ IH|u _ IH|u _ IH].
  - unfold construct_uk in H. bindok H. bindok H. injection H as <-. cbn [u_obj u_drift].
    destruct (construct_inv E c A a E0) as (ex & name & prm & fn & sc & an & f & vp & lags & sv & params & Hall).
    destruct Hall as (_&_&_&_&_&_&_&_&Hcl&_&_&_&_&_&_&_&_&_&_&_&_&_&Hct).
    split; [|split].
    + destruct Hct as [(_ & Ht & _)|(_ & Ht & Ho & Hx & _)]; [exact Ht|].
      destruct Hc; congruence.
    + rewrite Hcl. exact Hc.
    + intros arr ex' ey' zs Hd. unfold init_drift in E1. cbv zeta in E1. bindok E1. bindok E1. bindok E1. bindok E1.
      injection E1 as <-. cbn [dr_ext] in Hd. unfold opt_drift in E2.
      destruct (_ && _); [|injection E2 as <-; discriminate Hd]. bindok E2. injection E2 as <-. injection Hd as ->.
      match goal with H : init_external _ _ = Ok _ |- _ => rename H into HI end. unfold init_external in HI.
      destruct (d_ext D) as [[[rows cols] F]|]; [|discriminate].
      destruct (d_ext_x D) as [ex1|]; [|discriminate]. destruct (d_ext_y D) as [ey1|]; [|discriminate].
      bindok HI. bindok HI. injection HI as <- <- <- <-.
      match goal with H : zscalars _ _ _ _ _ _ = Ok _ |- _ => apply (zscalars_ok _ _ _ _ _ _ _ H) end.
  - destruct (update_uk_obj E u v) as [-> ->].
    destruct (update_preserves E (u_obj u) v) as (Pc&_&_&_&Pt&Pn&Po&_). rewrite Pt, Pc, Pn, Po. exact IH.
  - exact IH.
  - exact IH.
Qed.

(** *** columns = drift functions *)
Lemma axes_seq o : axes (o_dim o) = seq 0 (o_dim o).
Proof. destruct (o_dim_cases o) as [-> | ->]; reflexivity. Qed.

Lemma well_term_eq w x y p : coord 0 p = x -> coord 1 p = y ->
  well_term w x y = (let '(wx, wy, s) := w in - s * logd (plane_dist p wx wy)).
Proof. intros <- <-. destruct w as [[wx wy] s]. reflexivity. Qed.

(** drift values at one adjusted location *)
Definition at_vals (u : uobj) (v : vec) (z : R) (sp : list R) : list R :=
  let o := u_obj u in let d := u_drift u in
  (if dr_linear d then map v (axes (o_dim o)) else []) ++
  map (fun w => well_term w (v 0%nat) (v 1%nat)) (opt_list (dr_wells d)) ++
  (match dr_ext d with Some _ => [z] | None => [] end) ++
  (match dr_spec d with Some _ => sp | None => [] end) ++
  map (fun f => call_drift (o_dim o) f v) (opt_list (dr_fun d)).

Definition pos_terms (u : uobj) (pos : vec3) (sp : list R) : list R :=
  let o := u_obj u in let d := u_drift u in
  (if dr_linear d then map (fun k => coord k (frame o pos)) (seq 0 (o_dim o)) else []) ++
  map (fun w => let '(wx, wy, s) := w in - s * logd (plane_dist (frame o pos) wx wy)) (opt_list (dr_wells d)) ++
  (match dr_ext d with Some (arr, ex, ey, _) => [ext_at arr ex ey pos] | None => [] end) ++
  (match dr_spec d with Some _ => sp | None => [] end) ++
  map (fun f => f (coord 0 (frame o pos)) (coord 1 (frame o pos)) (coord 2 (frame o pos))) (opt_list (dr_fun d)).

Lemma at_vals_pos u (v : vec) z sp pos :
  (forall k, (k < o_dim (u_obj u))%nat -> v k = coord k (frame (u_obj u) pos)) ->
  third (o_dim (u_obj u)) (v 2%nat) = coord 2 (frame (u_obj u) pos) ->
  (forall arr ex ey zs, dr_ext (u_drift u) = Some (arr, ex, ey, zs) -> zscalar arr ex ey (coord 0 pos) (coord 1 pos) = Ok z) ->
  at_vals u v z sp = pos_terms u pos sp.
Proof.
  intros Hv H3 Hz. unfold at_vals, pos_terms.
  assert (H0 : v 0%nat = coord 0 (frame (u_obj u) pos)) by (apply Hv; destruct (o_dim_cases (u_obj u)) as [-> | ->]; lia).
  assert (H1 : v 1%nat = coord 1 (frame (u_obj u) pos)) by (apply Hv; destruct (o_dim_cases (u_obj u)) as [-> | ->]; lia).
  f_equal; [|f_equal; [|f_equal; [|f_equal]]].
  - destruct (dr_linear (u_drift u)); [|reflexivity]. rewrite axes_seq. apply map_ext_in. intros k Hk. apply in_seq in Hk.
    apply Hv. lia.
  - apply map_ext. intros w. apply well_term_eq; symmetry; assumption.
  - destruct (dr_ext (u_drift u)) as [[[[arr ex] ey] zs]|]; [|reflexivity].
    unfold ext_at. rewrite (Hz _ _ _ _ eq_refl). reflexivity.
  - apply map_ext. intros f. unfold call_drift. rewrite H0, H1, H3. reflexivity.
Qed.

Lemma data_cols_vals u i : map (fun v : vec => v i) (data_cols u) =
  at_vals u (o_adj (u_obj u) i) (match dr_ext (u_drift u) with Some (_, _, _, zs) => zs i | None => 0 end)
    (map (fun v : vec => v i) (opt_list (dr_spec (u_drift u)))).
Proof.
  unfold data_cols, at_vals. rewrite !map_app.
  f_equal; [|f_equal; [|f_equal; [|f_equal]]].
  - destruct (dr_linear (u_drift u)); [|reflexivity]. rewrite map_map. reflexivity.
  - rewrite map_map. reflexivity.
  - destruct (dr_ext (u_drift u)) as [[[[arr ex] ey] zs]|]; reflexivity.
  - destruct (dr_spec (u_drift u)); reflexivity.
  - rewrite map_map. reflexivity.
Qed.
Lemma query_cols_vals u at_ zs gs p : map (fun v : vec => v p) (query_cols u at_ zs gs) =
  at_vals u (at_ p) (zs p) (map (fun v : vec => v p) gs).
Proof.
  unfold query_cols, at_vals. rewrite !map_app.
  f_equal; [|f_equal; [|f_equal; [|f_equal]]].
  - destruct (dr_linear (u_drift u)); [|reflexivity]. rewrite map_map. reflexivity.
  - rewrite map_map. reflexivity.
  - destruct (dr_ext (u_drift u)) as [[[[arr ex] ey] z]|]; reflexivity.
  - destruct (dr_spec (u_drift u)); reflexivity.
  - rewrite map_map. reflexivity.
Qed.
Lemma loop_vals_vals u at_ z gs : loop_vals u at_ z gs = at_vals u at_ z (loop_specs (spec_row u) gs).
Proof. reflexivity. Qed.

Lemma terms_query u q specs p pos :
  map (fun t => t_query t p pos) (drift_terms u q specs) =
  pos_terms u pos (map (fun ds : vec * spec_arr => spec_at q (snd ds) p) (combine (opt_list (dr_spec (u_drift u))) specs)).
Proof.
  unfold drift_terms, pos_terms. rewrite !map_app.
  f_equal; [|f_equal; [|f_equal; [|f_equal]]].
  - unfold linear_terms. destruct (dr_linear (u_drift u)); [|reflexivity]. rewrite map_map. reflexivity.
  - unfold well_terms. rewrite map_map. apply map_ext. intros [[wx wy] s]. reflexivity.
  - unfold ext_terms. destruct (dr_ext (u_drift u)) as [[[[arr ex] ey] zs]|]; reflexivity.
  - unfold spec_terms. destruct (dr_spec (u_drift u)) as [ds|]; [|reflexivity]. rewrite map_map. apply map_ext. intros [d s]. reflexivity.
  - unfold fun_terms. rewrite map_map. reflexivity.
Qed.
Lemma map_fst_combine {A B} (l : list A) (r : list B) : List.length l = List.length r -> map fst (combine l r) = l.
Proof.
  revert r. induction l as [|x l IH]; intros [|y r] H; cbn in *; try reflexivity; try discriminate.
  f_equal. apply IH. lia.
Qed.
Lemma map_snd_combine {A B} (l : list A) (r : list B) : List.length l = List.length r -> map snd (combine l r) = r.
Proof.
  revert r. induction l as [|x l IH]; intros [|y r] H; cbn in *; try reflexivity; try discriminate.
  f_equal. apply IH. lia.
Qed.
Lemma terms_data u q specs i : (dr_spec (u_drift u) <> None -> List.length specs = olen (dr_spec (u_drift u))) ->
  map (fun t => t_data t i) (drift_terms u q specs) =
  pos_terms u (datum (u_obj u) i) (map (fun v : vec => v i) (opt_list (dr_spec (u_drift u)))).
Proof.
  intros HS. unfold drift_terms, pos_terms. rewrite !map_app.
  f_equal; [|f_equal; [|f_equal; [|f_equal]]].
  - unfold linear_terms. destruct (dr_linear (u_drift u)); [|reflexivity]. rewrite map_map. reflexivity.
  - unfold well_terms. rewrite map_map. apply map_ext. intros [[wx wy] s]. reflexivity.
  - unfold ext_terms. destruct (dr_ext (u_drift u)) as [[[[arr ex] ey] zs]|]; reflexivity.
  - unfold spec_terms. destruct (dr_spec (u_drift u)) as [ds|]; [|reflexivity]. rewrite map_map. cbn [opt_list olen] in *.
    rewrite <- (map_fst_combine ds specs) at 2 by (symmetry; apply HS; discriminate).
    rewrite map_map. apply map_ext. intros [d s]. reflexivity.
  - unfold fun_terms. rewrite map_map. reflexivity.
Qed.

(** *** specified drift arrays *)
Lemma mapM_ok {A B} (f : A -> res B) l r : mapM f l = Ok r -> Forall2 (fun a b => f a = Ok b) l r.
Proof.
  revert r. induction l as [|a l IH]; intros r H; cbn [mapM] in H; [injection H as <-; constructor|].
  bindok H. bindok H. injection H as <-. constructor; [exact E|apply IH; reflexivity].
Qed.
Lemma Forall2_len {A B} (R : A -> B -> Prop) l r : Forall2 R l r -> List.length l = List.length r.
Proof. induction 1; cbn; [reflexivity|f_equal; assumption]. Qed.
Lemma spec_grid_at dim q s g : (dim = 2%nat \/ dim = 3%nat) -> spec_grid dim (q_style q) (q_pts q) s = Ok g ->
  forall p, g p = spec_at q s p.
Proof.
  intros Hd H p. unfold spec_grid in H. cbv zeta in H.
  destruct (String.eqb (q_style q) "points").
  - destruct s as [len f| |]; try discriminate. destruct (Nat.eqb len _); [|discriminate]. injection H as <-. reflexivity.
  - destruct Hd as [-> | ->].
    + destruct s as [|r c f|]; try discriminate. unfold spec_at. fold (xs q) in H. unfold size_of in H. fold (xs q) (ys q) in H.
      destruct (Nat.eqb r (List.length (ys q))), (Nat.eqb c (List.length (xs q))); cbn [negb orb andb] in *;
        try (injection H as <-; reflexivity);
        (destruct (Nat.eqb r _ && Nat.eqb c _); [injection H as <-; reflexivity|discriminate]).
    + destruct s as [| |d0 d1 d2 f]; try discriminate. unfold spec_at. unfold size_of in H. fold (xs q) (ys q) (zs q) in H.
      destruct (Nat.eqb d0 (List.length (zs q))), (Nat.eqb d1 (List.length (ys q))), (Nat.eqb d2 (List.length (xs q)));
        cbn [negb orb andb] in *;
        try (injection H as <-; reflexivity);
        (destruct (Nat.eqb d0 _ && _ && _); [injection H as <-; reflexivity|discriminate]).
Qed.
Lemma spec_grids_ok u q specs gs : spec_grids u (q_style q) (q_pts q) specs = Ok gs ->
  (dr_spec (u_drift u) = None /\ gs = []) \/
  (exists ds, dr_spec (u_drift u) = Some ds /\ List.length specs = List.length ds /\ List.length gs = List.length ds /\
     forall p, map (fun g : vec => g p) gs = map (fun s => spec_at q s p) specs).
Proof.
  intros H. unfold spec_grids in H. destruct (dr_spec (u_drift u)) as [ds|]; [|left; injection H as <-; auto].
  right. exists ds. split; [reflexivity|]. destruct specs as [|s0 specs']; [discriminate|]. set (specs := s0 :: specs') in *.
  bindok H. pose proof (mapM_ok _ _ _ E) as HF.
  destruct (Nat.eqb_spec (List.length a) (List.length ds)) as [Hl|]; cbn [negb] in H; [|discriminate]. injection H as <-.
  pose proof (Forall2_len _ _ _ HF) as HL. split; [lia|]. split; [exact Hl|].
  intros p. clear - HF. induction HF as [|s g ss gg Hs _ IH]; [reflexivity|]. cbn [map]. f_equal; [|exact IH].
  apply (spec_grid_at _ q s g (o_dim_cases _) Hs).
Qed.
Lemma spec_grids_length u q specs gs : spec_grids u (q_style q) (q_pts q) specs = Ok gs ->
  List.length gs = olen (dr_spec (u_drift u)).
Proof. intros H. destruct (spec_grids_ok u q specs gs H) as [(-> & ->)|(ds & -> & _ & H3 & _)]; [reflexivity|exact H3]. Qed.
