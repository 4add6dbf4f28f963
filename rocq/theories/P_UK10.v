(** The drift terms of a freshly constructed object are those the user asked for. *)
From Coq Require Import String.
From Verif Require Import Base Sums Matrix M_Variogram M_Geometry S_Geometry P_Geometry M_Kriging S_Kriging
  M_Init M_Object M_Execute S_Execute P_Object P_Execute P_Det M_UK S_UK P_UK P_UK2 P_UK3 P_UK4 P_UK5.

Lemma opt_drift_inv {A} (on : bool) (x : res A) y : opt_drift on x = Ok y ->
  (on = true /\ exists a, x = Ok a /\ y = Some a) \/ (on = false /\ y = None).
Proof. unfold opt_drift. destruct on; intros H; [left; bindok H; split; [reflexivity|]; injection H as <-; eauto|right; split; [reflexivity|congruence]]. Qed.

Lemma mapM_spec_lists n ts ds : mapM (fun t : list R => if negb (Nat.eqb (List.length t) n) then Err ValueError else Ok (rnth t)) ts = Ok ds ->
  ds = map rnth ts.
Proof.
  revert ds; induction ts as [|t ts IH]; intros ds; cbn; [congruence|].
  destruct (negb (Nat.eqb (List.length t) n)); cbn; [discriminate|]. intros H. bindok H. injection H as <-. rewrite (IH _ eq_refl). reflexivity.
Qed.

Lemma map_seq_nth {A B} (f : A -> B) d l : map (fun i => f (nth i l d)) (seq 0 (List.length l)) = map f l.
Proof.
  induction l as [|x l IH]; [reflexivity|]. cbn [List.length seq map nth]. f_equal.
  rewrite <- seq_shift, map_map. exact IH.
Qed.

Theorem uk_configuration E c A D u q specs : construct_uk E c A D = Ok u -> c = UK2 \/ c = UK3 ->
  List.length (c_coords A) = cdim c ->
  drift_terms u q specs = user_terms c D (u_obj u) q specs.
Proof.
  intros H Hc HA. pose proof (ur_new E c A D u Hc HA H) as HR. unfold construct_uk in H.
  destruct (construct E c A) as [o|] eqn:EC; [|discriminate H]. cbn [bind] in H.
  destruct (init_drift c D o) as [d|] eqn:ED; [|discriminate H]. cbn [bind] in H. injection H as <-.
  assert (Hcl : o_class o = c).
  { destruct (construct_inv E c A o EC) as (ex & name & prm & fn & sc & an & f & vp & lags & sv & params & Hall). apply Hall. }
  assert (Hct : o_ct o = Euclidean).
  { pose proof (ureachable_inv E _ HR) as HI. exact (ui_ct _ HI). }
  unfold init_drift in ED. cbv zeta in ED.
  destruct (opt_drift _ (init_external D o)) as [e|] eqn:E1; [|discriminate ED]. cbn [bind] in ED.
  destruct (opt_drift _ (init_wells D o)) as [w|] eqn:E2; [|discriminate ED]. cbn [bind] in ED.
  destruct (opt_drift _ (init_specified D o)) as [s|] eqn:E3; [|discriminate ED]. cbn [bind] in ED.
  destruct (opt_drift _ (init_functional D)) as [f|] eqn:E4; [|discriminate ED]. cbn [bind] in ED. injection ED as <-.
  unfold drift_terms, user_terms. cbn [u_obj u_drift].
  f_equal; [|f_equal; [|f_equal; [|f_equal]]].
  - unfold linear_terms. cbn [u_obj u_drift dr_linear]. unfold o_dim. rewrite Hcl. reflexivity.
  - unfold well_terms. cbn [u_obj u_drift dr_wells]. change (asked D "point_log") with (in_names "point_log" (d_terms D)).
    apply opt_drift_inv in E2. destruct E2 as [(EA & a & Ha & ->)|(EA & ->)]; [|rewrite EA; reflexivity].
    apply andb_true_iff in EA. destruct EA as [EA EB]. rewrite EB. destruct c; try discriminate EA. cbn [andb].
    unfold init_wells in Ha. destruct (d_point D) as [[it rows]|]; [|discriminate Ha].
    destruct rows as [|r0 rows]; [discriminate Ha|].
    remember (r0 :: rows) as rs eqn:Ers. cbv zeta in Ha. bindok Ha. injection Ha as <-. cbn [opt_list]. rewrite map_map.
    match goal with HQ : adjust_for_anisotropy _ _ _ _ _ _ = Ok ?Q |- _ =>
      assert (HF : forall i, Q i 0%nat = coord 0 (frame o (fst (fst (nth i rs (0, 0, 0))), snd (fst (nth i rs (0, 0, 0))), 0)) /\
                             Q i 1%nat = coord 1 (frame o (fst (fst (nth i rs (0, 0, 0))), snd (fst (nth i rs (0, 0, 0))), 0)));
      [intros i;
       destruct it; [unfold adjust_for_anisotropy in HQ; cbn in HQ; discriminate HQ|];
       assert (Hd : o_dim o = 2%nat) by (unfold o_dim; rewrite Hcl; reflexivity);
       rewrite <- Hd in HQ;
       destruct (frame_coord o _ _ Hct HQ i) as [F1 _]; rewrite Hd in F1;
       rewrite (F1 0%nat) by lia; rewrite (F1 1%nat) by lia; unfold loc_of, loc; cbn [Nat.eqb]; destruct (nth i rs (0, 0, 0)) as [[x y] z]; split; reflexivity|] end.
    transitivity (map (fun i => let '(x, y, strength) := nth i rs (0, 0, 0) in
       spatial o (fun p => let a := frame o p in let b := frame o (x, y, 0) in
                           - strength * logd (plane_dist a (coord 0 b) (coord 1 b)))) (seq 0 (List.length rs))).
    { apply map_ext. intros i. destruct (HF i) as [-> ->]. destruct (nth i rs (0, 0, 0)) as [[x y] z]. reflexivity. }
    exact (map_seq_nth (fun w : R * R * R => let '(x, y, strength) := w in
       spatial o (fun p => let a := frame o p in let b := frame o (x, y, 0) in
                           - strength * logd (plane_dist a (coord 0 b) (coord 1 b)))) (0, 0, 0) rs).
  - unfold ext_terms. cbn [u_obj u_drift dr_ext]. change (asked D "external_Z") with (in_names "external_Z" (d_terms D)).
    apply opt_drift_inv in E1. destruct E1 as [(-> & a & Ha & ->)|(-> & ->)]; [|reflexivity].
    unfold init_external in Ha. unfold drift_grid. destruct (d_ext D) as [[[rows cols] g]|]; [|discriminate Ha].
    destruct (d_ext_x D) as [ex|]; [|discriminate Ha]. destruct (d_ext_y D) as [ey|]; [|discriminate Ha].
    rewrite <- negb_andb in Ha. destruct (Nat.eqb rows (List.length ey) && Nat.eqb cols (List.length ex)); cbn [negb] in Ha.
    + cbn [bind] in Ha. bindok Ha. injection Ha as <-. reflexivity.
    + destruct (Nat.eqb rows (List.length ex) && Nat.eqb cols (List.length ey)); [|discriminate Ha].
      cbn [bind] in Ha. bindok Ha. injection Ha as <-. reflexivity.
  - unfold spec_terms. cbn [u_obj u_drift dr_spec]. change (asked D "specified") with (in_names "specified" (d_terms D)).
    apply opt_drift_inv in E3. destruct E3 as [(-> & a & Ha & ->)|(-> & ->)]; [|reflexivity].
    unfold init_specified in Ha. destruct (d_spec D) as [[|t ts]|]; [discriminate Ha| |discriminate Ha].
    apply mapM_spec_lists in Ha. subst a. cbn [opt_list]. generalize (t :: ts) as l. clear. intros l. revert specs.
    induction l as [|x l IH]; intros specs; [reflexivity|]. destruct specs as [|sp specs]; [reflexivity|]. cbn. f_equal. apply IH.
  - unfold fun_terms. cbn [u_obj u_drift dr_fun]. change (asked D "functional") with (in_names "functional" (d_terms D)).
    apply opt_drift_inv in E4. destruct E4 as [(-> & a & Ha & ->)|(-> & ->)]; [|reflexivity].
    unfold init_functional in Ha. destruct (d_fun D) as [[|t ts]|]; [discriminate Ha| |discriminate Ha]. injection Ha as <-. reflexivity.
Qed.
