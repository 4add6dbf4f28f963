(** Proofs: invariants of reachable objects; distances of adjusted coordinates
    are the separations of the specification. *)
From Coq Require Import String.
From Verif Require Import Base Sums Matrix M_Variogram M_Geometry S_Geometry P_Geometry M_Kriging S_Kriging
  P_Kriging M_Init M_Object M_Execute S_Execute.

Definition coords_inv (o : obj) : Prop :=
  match o_ct o with
  | Euclidean => adjust_for_anisotropy false (o_dim o) (o_orig o) (o_center o) (o_scaling o) (o_angle o) = Ok (o_adj o)
  | Geographic => o_adj o = o_orig o /\ o_class o = OK2 /\ o_center o = (fun _ => 0) /\
                  o_scaling o = (fun _ => 1) /\ o_angle o = (fun _ => 0)
  end.

Lemma cdim_cases c : cdim c = 2%nat \/ cdim c = 3%nat.
Proof. destruct c; cbn; auto. Qed.

Ltac bindok H :=
  match type of H with
  | bind ?e _ = Ok _ => let E := fresh "E" in destruct e eqn:E; cbn [bind] in H; [|discriminate H]
  end.

(** The fields of a freshly constructed object. *)
Lemma construct_inv E c A o : construct E c A = Ok o ->
  exists exact name prm fn scaling angle f vp lags semivar params,
    in_names (c_pinv_type A) pinv_types = true /\
    c_exact A = Some exact /\
    resolve_gs E c (class_ct c (c_ct A)) (c_v A) = Ok (name, prm, fn, scaling, angle) /\
    resolve_fun name fn = Ok f /\
    make_parameter_list name prm = Ok vp /\
    same_length (c_coords A) = true /\
    initialize_variogram_model (e_fit E) (o_ct o) (cdim c) (o_n o) (o_adj o)
       (List.length (c_values A)) (rnth (c_values A)) name vp f (a_nlags (c_v A)) (a_weight (c_v A))
       = Ok (lags, semivar, params) /\
    (match c, c_stat A with
     | OK2, false => o_stats o = None
     | _, _ => exists s, all_statistics (e_la E) (o_ct o) (cdim c) (o_n o) (o_adj o) (rnth (c_values A))
                 (fcall f params) (c_pinv A) = Ok s /\ o_stats o = Some s
     end) /\
    o_class o = c /\ o_pinv o = c_pinv A /\ o_pinv_type o = c_pinv_type A /\ o_exact o = exact /\
    o_model o = VName name /\ o_fun o = f /\ o_params o = params /\
    o_n o = List.length (nth 0 (c_coords A) []) /\ o_orig o = columns (c_coords A) /\
    o_values o = rnth (c_values A) /\
    o_lags o = lags /\ o_semivariance o = semivar /\
    o_verbose o = c_verbose A /\ o_plotting o = c_plotting A /\
    ((class_ct c (c_ct A) = "euclidean"%string /\ o_ct o = Euclidean /\
      (exists cs, mapM center_of (c_coords A) = Ok cs /\ o_center o = rnth cs) /\
      o_scaling o = scaling /\ o_angle o = angle /\
      adjust_for_anisotropy false (cdim c) (o_orig o) (o_center o) scaling angle = Ok (o_adj o))
     \/ (class_ct c (c_ct A) = "geographic"%string /\ c = OK2 /\ o_ct o = Geographic /\
         o_center o = (fun _ => 0) /\ o_scaling o = (fun _ => 1) /\ o_angle o = (fun _ => 0) /\
         o_adj o = o_orig o)).
Proof.
  intros H. unfold construct in H.
  destruct (in_names (c_pinv_type A) pinv_types) eqn:EP; cbn [negb] in H; [|discriminate].
  destruct (c_exact A) as [exact|] eqn:EX; [|discriminate].
  bindok H. destruct a as [[[[name prm] fn] scaling] angle].
  bindok H. rename a into f.
  bindok H. destruct a as [[[[ct' center] sc] an] Xadj].
  bindok H. rename a into vp.
  destruct (same_length (c_coords A)) eqn:ES; cbn [negb] in H; [|discriminate].
  bindok H. destruct a as [[lags semivar] params].
  bindok H. rename a into st. injection H as <-. cbn.
  exists exact, name, prm, fn, scaling, angle, f, vp, lags, semivar, params.
  split; [reflexivity|]. split; [reflexivity|]. split; [first [exact E0|reflexivity]|].
  split; [first [exact E1|reflexivity]|].
  split; [first [exact E3|reflexivity]|]. split; [reflexivity|]. split; [first [exact E4|reflexivity]|]. split.
  { destruct c, (c_stat A); cbn [bind] in E5;
      try (bindok E5; injection E5 as <-; eexists; split; [first [exact E6|reflexivity]|reflexivity]).
    injection E5 as <-; reflexivity. }
  repeat (split; [reflexivity|]).
  destruct (String.eqb (class_ct c (c_ct A)) "euclidean") eqn:EE.
  - left. apply String.eqb_eq in EE. bindok E2. rename a into cs.
    rewrite ?ES in E2. cbn [negb] in E2.
    bindok E2. injection E2 as <- <- <- <- <-.
    repeat split; [exact EE|exists cs; auto|exact E7].
  - right. destruct (String.eqb (class_ct c (c_ct A)) "geographic") eqn:EG; [|discriminate].
    apply String.eqb_eq in EG. injection E2 as <- <- <- <- <-.
    repeat split; try exact EG. destruct c; cbn in EG; try discriminate; reflexivity.
Qed.

(** What an update can and cannot change. *)
Lemma update_preserves E o v :
  let o' := fst (update_variogram_model E o v) in
  o_class o' = o_class o /\ o_pinv o' = o_pinv o /\ o_pinv_type o' = o_pinv_type o /\
  o_exact o' = o_exact o /\ o_ct o' = o_ct o /\ o_n o' = o_n o /\ o_orig o' = o_orig o /\
  o_values o' = o_values o /\ o_center o' = o_center o /\
  o_verbose o' = o_verbose o /\ o_plotting o' = o_plotting o.
Proof.
  cbv zeta. unfold update_variogram_model.
  destruct (resolve_gs _ _ _ v) as [[[[[name prm] fn] scaling] angle]|e]; [|repeat split].
  destruct (resolve_fun name fn) as [f|e]; [|repeat split].
  destruct (aniso_differs _ _ _ _ _).
  - cbn [o_ct set_fun set_model]. destruct (o_ct o) eqn:ECT.
    + destruct (adjust_for_anisotropy _ _ _ _ _ _); [|cbn; rewrite ?ECT; repeat split].
      destruct (make_parameter_list name prm); [|cbn; rewrite ?ECT; repeat split].
      destruct (initialize_variogram_model _ _ _ _ _ _ _ _ _ _ _ _) as [[[? ?] ?]|]; [|cbn; rewrite ?ECT; repeat split].
      destruct (all_statistics _ _ _ _ _ _ _ _); cbn; rewrite ?ECT; repeat split.
    + destruct (make_parameter_list name prm); [|cbn; rewrite ?ECT; repeat split].
      destruct (initialize_variogram_model _ _ _ _ _ _ _ _ _ _ _ _) as [[[? ?] ?]|]; [|cbn; rewrite ?ECT; repeat split].
      destruct (all_statistics _ _ _ _ _ _ _ _); cbn; rewrite ?ECT; repeat split.
  - destruct (make_parameter_list name prm); [|repeat split].
    destruct (initialize_variogram_model _ _ _ _ _ _ _ _ _ _ _ _) as [[[? ?] ?]|]; [|repeat split].
    destruct (all_statistics _ _ _ _ _ _ _ _); repeat split.
Qed.

(** The anisotropy part of an update: unchanged, or re-adjusted. *)
Lemma update_aniso E o v :
  let o' := fst (update_variogram_model E o v) in
  (o_scaling o' = o_scaling o /\ o_angle o' = o_angle o /\ o_adj o' = o_adj o) \/
  (o_ct o = Euclidean /\
   match adjust_for_anisotropy false (o_dim o) (o_orig o) (o_center o) (o_scaling o') (o_angle o') with
   | Ok adj => o_adj o' = adj | Err _ => o_adj o' = o_adj o end) \/
  (o_ct o = Geographic /\ o_scaling o' = (fun _ => 1) /\ o_angle o' = (fun _ => 0) /\ o_adj o' = o_orig o).
Proof.
  cbv zeta. unfold update_variogram_model.
  destruct (resolve_gs _ _ _ v) as [[[[[name prm] fn] scaling] angle]|e]; [|left; repeat split].
  destruct (resolve_fun name fn) as [f|e]; [|left; repeat split].
  destruct (aniso_differs _ _ _ _ _).
  - cbn [o_ct set_fun set_model]. destruct (o_ct o) eqn:ECT.
    + right; left. split; [reflexivity|].
      change (o_dim (set_fun (set_model (set_model o (a_model v)) (VName name)) f)) with (o_dim o).
      change (o_orig (set_fun (set_model (set_model o (a_model v)) (VName name)) f)) with (o_orig o).
      change (o_center (set_fun (set_model (set_model o (a_model v)) (VName name)) f)) with (o_center o).
      destruct (adjust_for_anisotropy false (o_dim o) (o_orig o) (o_center o) scaling angle) as [adj|] eqn:EA;
        [|cbn -[adjust_for_anisotropy]; rewrite ?EA; reflexivity].
      destruct (make_parameter_list name prm); [|cbn -[adjust_for_anisotropy]; rewrite ?EA; reflexivity].
      destruct (initialize_variogram_model _ _ _ _ _ _ _ _ _ _ _ _) as [[[? ?] ?]|]; [|cbn -[adjust_for_anisotropy]; rewrite ?EA; reflexivity].
      destruct (all_statistics _ _ _ _ _ _ _ _); cbn -[adjust_for_anisotropy]; rewrite ?EA; reflexivity.
    + right; right.
      destruct (make_parameter_list name prm); [|cbn; repeat split].
      destruct (initialize_variogram_model _ _ _ _ _ _ _ _ _ _ _ _) as [[[? ?] ?]|]; [|cbn; repeat split].
      destruct (all_statistics _ _ _ _ _ _ _ _); cbn; repeat split.
  - left. destruct (make_parameter_list name prm); [|repeat split].
    destruct (initialize_variogram_model _ _ _ _ _ _ _ _ _ _ _ _) as [[[? ?] ?]|]; [|repeat split].
    destruct (all_statistics _ _ _ _ _ _ _ _); repeat split.
Qed.

Lemma reachable_inv E o : reachable E o -> coords_inv o.
Proof.
  induction 1 as [c A o Hlen H|o v _ IH|o _ IH|o _ IH].
  - destruct (construct_inv E c A o H) as (ex & name & prm & fn & sc & an & f & vp & lags & sv & params & Hall).
    destruct Hall as (_&_&_&_&_&_&_&_&Hc&_&_&_&_&_&_&_&_&_&_&_&_&_&Hct).
    unfold coords_inv. destruct Hct as [(_ & -> & _ & -> & -> & Ha)|(_ & -> & -> & H1 & H2 & H3 & H4)].
    + unfold o_dim. rewrite Hc. exact Ha.
    + auto.
  - pose proof (update_preserves E o v) as P. pose proof (update_aniso E o v) as Q. cbv zeta in P, Q.
    set (o' := fst (update_variogram_model E o v)) in *.
    destruct P as (Pc&_&_&_&Pt&_&Po&_&Pe&_).
    unfold coords_inv in *. unfold o_dim in *. rewrite Pt, Pc, Po, Pe.
    destruct Q as [(-> & -> & ->)|[(Ht & Hm)|(Ht & -> & -> & ->)]].
    + exact IH.
    + rewrite Ht in *. destruct (adjust_supported (cdim (o_class o)) (o_orig o) (o_center o) (o_scaling o') (o_angle o')
        (cdim_cases _)) as [Y HY].
      rewrite HY in *. rewrite Hm. reflexivity.
    + rewrite Ht in *. destruct IH as (H1 & H2 & H3 & H4 & H5). auto.
  - exact IH.
  - exact IH.
Qed.

(** *** Separations *)
Lemma euclid_sym n p q : euclid n p q = euclid n q p.
Proof. unfold euclid. f_equal. apply bsum_ext; intros; ring. Qed.
Lemma euclid_nonneg n p q : 0 <= euclid n p q.
Proof. apply sqrt_pos. Qed.
Lemma distance_nonneg ct n p q : 0 <= distance ct n p q.
Proof. destruct ct; cbn; [apply euclid_nonneg|apply gc_range]. Qed.
Lemma distance_sym ct n p q : distance ct n p q = distance ct n q p.
Proof. destruct ct; cbn; [apply euclid_sym|apply gc_sym]. Qed.

Lemma datum_loc o i : datum o i = loc_of (o_dim o) (o_orig o) i.
Proof. reflexivity. Qed.

(** 2D: two sets of points adjusted with the same settings *)
Lemma adj_dist2 X Y c s a X' Y' p i :
  adjust_for_anisotropy false 2 X c s a = Ok X' ->
  adjust_for_anisotropy false 2 Y c s a = Ok Y' ->
  euclid 2 (X' p) (Y' i) = aniso2 (s 0%nat) (a 0%nat) (sub3 (loc_of 2 X p) (loc_of 2 Y i)).
Proof.
  intros HX HY. pose proof (adjust2_explicit _ _ _ _ _ HX) as EX. pose proof (adjust2_explicit _ _ _ _ _ HY) as EY.
  cbv zeta in EX, EY. destruct (EX p) as [X0 X1], (EY i) as [Y0 Y1].
  unfold euclid, aniso2, loc_of, loc, sub3, dot3. cbn [bsum Nat.eqb]. rewrite X0, X1, Y0, Y1.
  f_equal. unfold Rsqr. ring.
Qed.

Lemma adj_dist3 X Y c s a X' Y' p i :
  adjust_for_anisotropy false 3 X c s a = Ok X' ->
  adjust_for_anisotropy false 3 Y c s a = Ok Y' ->
  euclid 3 (X' p) (Y' i) =
  aniso3 (s 0%nat) (s 1%nat) (a 0%nat) (a 1%nat) (a 2%nat) (sub3 (loc_of 3 X p) (loc_of 3 Y i)).
Proof.
  intros HX HY. pose proof (adjust3_explicit _ _ _ _ _ HX) as EX. pose proof (adjust3_explicit _ _ _ _ _ HY) as EY.
  cbv zeta in EX, EY. destruct (EX p) as (X0 & X1 & X2), (EY i) as (Y0 & Y1 & Y2).
  unfold euclid, aniso3, loc_of, loc, sub3. cbn [bsum Nat.eqb]. rewrite X0, X1, X2, Y0, Y1, Y2.
  destruct (rotated_axis (rad (a 0%nat)) (rad (a 1%nat)) (rad (a 2%nat)) (1,0,0)) as [[a1 a2] a3].
  destruct (rotated_axis (rad (a 0%nat)) (rad (a 1%nat)) (rad (a 2%nat)) (0,1,0)) as [[b1 b2] b3].
  destruct (rotated_axis (rad (a 0%nat)) (rad (a 1%nat)) (rad (a 2%nat)) (0,0,1)) as [[c1 c2] c3].
  unfold dot3. f_equal. unfold Rsqr. ring.
Qed.

Lemma adjust_int_float b n X c s a Y : adjust_for_anisotropy b n X c s a = Ok Y ->
  b = false /\ adjust_for_anisotropy false n X c s a = Ok Y.
Proof. destruct b; [discriminate|auto]. Qed.

Lemma data_distances_sep o i j : coords_inv o ->
  data_distances o i j = separation o (datum o i) (datum o j).
Proof.
  intros H. unfold data_distances, separation, coords_inv in *. rewrite !datum_loc.
  destruct (o_ct o); cbn [distance].
  - unfold o_dim in *. destruct (o_class o); cbn [cdim Nat.eqb] in *;
      first [apply (adj_dist2 _ _ _ _ _ _ _ _ _ H H)|apply (adj_dist3 _ _ _ _ _ _ _ _ _ H H)].
  - destruct H as (-> & _). reflexivity.
Qed.

Lemma euclid_zyx p q i j : euclid 3 (zyx p i) (zyx q j) = euclid 3 (p i) (q j).
Proof. unfold euclid, zyx. cbn [bsum Nat.sub]. f_equal. ring. Qed.

Lemma query_distances_sep o ints at_ pts p i : coords_inv o -> adjust_query o ints at_ = Ok pts ->
  query_distances o pts p i = separation o (loc_of (o_dim o) at_ p) (datum o i).
Proof.
  intros H HQ. unfold query_distances, separation, coords_inv, adjust_query in *. rewrite !datum_loc.
  destruct (o_ct o); cbn [distance].
  - apply adjust_int_float in HQ. destruct HQ as [_ HQ]. unfold o_dim in *.
    destruct (o_class o); cbn [cdim Nat.eqb] in *; rewrite ?euclid_zyx;
      first [apply (adj_dist2 _ _ _ _ _ _ _ _ _ HQ H)|apply (adj_dist3 _ _ _ _ _ _ _ _ _ HQ H)].
  - injection HQ as <-. destruct H as (-> & Hc & _). rewrite Hc. reflexivity.
Qed.

Lemma separation_nonneg o p q : 0 <= separation o p q.
Proof. unfold separation. destruct (o_ct o); [destruct (Nat.eqb (o_dim o) 3); apply sqrt_pos|apply gc_range]. Qed.

Lemma separation_refl o p : o_ct o = Euclidean -> separation o p p = 0.
Proof.
  intros H. unfold separation. rewrite H. unfold aniso2, aniso3.
  destruct p as [[x y] z]. unfold sub3. replace (x - x) with 0 by ring. replace (y - y) with 0 by ring.
  replace (z - z) with 0 by ring.
  assert (Hd : forall v, dot3 v (0, 0, 0) = 0) by (intros [[u v] w]; unfold dot3; ring).
  destruct (Nat.eqb (o_dim o) 3); cbv zeta; rewrite !Hd; unfold Rsqr;
    rewrite ?Rmult_0_r, ?Rplus_0_l; apply sqrt_0.
Qed.

Lemma sphere_gc_refl lo la : great_circle_distance lo la lo la = 0.
Proof. apply gc_zero. reflexivity. Qed.
Lemma separation_refl' o p : separation o p p = 0.
Proof.
  destruct (o_ct o) eqn:H; [apply separation_refl, H|].
  unfold separation. rewrite H. apply sphere_gc_refl.
Qed.

Lemma dot3_sub_sym v p q : (dot3 v (sub3 p q))² = (dot3 v (sub3 q p))².
Proof. destruct v as [[? ?] ?], p as [[? ?] ?], q as [[? ?] ?]. unfold dot3, sub3, Rsqr. ring. Qed.
Lemma separation_sym o p q : separation o p q = separation o q p.
Proof.
  unfold separation. destruct (o_ct o); [|apply gc_sym].
  destruct (Nat.eqb (o_dim o) 3); unfold aniso2, aniso3; cbv zeta; f_equal.
  - rewrite (dot3_sub_sym _ p q), (dot3_sub_sym (rotated_axis _ _ _ (0,1,0)) p q),
      (dot3_sub_sym (rotated_axis _ _ _ (0,0,1)) p q). reflexivity.
  - rewrite (dot3_sub_sym _ p q), (dot3_sub_sym (- _, _, _) p q). reflexivity.
Qed.
