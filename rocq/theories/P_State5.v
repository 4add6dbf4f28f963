(** C30, C31, C33. *)
From Coq Require Import String.
From Verif Require Import Base Sums Matrix M_Variogram P_Variogram M_Geometry S_Geometry P_Geometry M_Kriging S_Kriging
  M_Init M_Object M_Execute S_Execute P_Object P_Execute P_Cells P_Det P_Data M_UK S_UK P_UK2 P_UK7 P_UK10 S_State P_State P_State2.

Lemma update_flags E o v a b :
  update_variogram_model E (set_flags o a b) v =
  (set_flags (fst (update_variogram_model E o v)) a b, snd (update_variogram_model E o v)).
Proof.
  unfold update_variogram_model. cbv zeta.
  change (o_class (set_flags o a b)) with (o_class o).
  change (o_ct (set_model (set_flags o a b) (a_model v))) with (o_ct (set_model o (a_model v))).
  destruct (resolve_gs E (o_class o) (ct_name (o_ct (set_model o (a_model v)))) v) as [[[[[name prm] fn] sc] an]|e]; [|reflexivity].
  destruct (resolve_fun name fn) as [f|e]; [|reflexivity].
  set (o1 := set_fun (set_model (set_model o (a_model v)) (VName name)) f).
  change (set_fun (set_model (set_model (set_flags o a b) (a_model v)) (VName name)) f) with (set_flags o1 a b).
  change (o_dim (set_flags o1 a b)) with (o_dim o1). change (o_scaling (set_flags o1 a b)) with (o_scaling o1). change (o_angle (set_flags o1 a b)) with (o_angle o1).
  change (o_ct (set_flags o1 a b)) with (o_ct o1). change (o_orig (set_flags o1 a b)) with (o_orig o1). change (o_center (set_flags o1 a b)) with (o_center o1).
  change (o_adj (set_flags o1 a b)) with (o_adj o1).
  assert (H : forall oe : outcome,
    match (set_flags (fst oe) a b, snd oe) with
    | (o, Some e) => (o, Some e)
    | (o, None) =>
        match make_parameter_list name prm with
        | Err e => (o, Some e)
        | Ok vp =>
          match initialize_variogram_model (e_fit E) (o_ct o) (o_dim o1) (o_n o) (o_adj o)
                  (o_n o) (o_values o) name vp (o_fun o) (a_nlags v) (a_weight v) with
          | Err e => (o, Some e)
          | Ok (lags, semivariance, params) =>
            match all_statistics (e_la E) (o_ct (set_variogram o lags semivariance params)) (o_dim o1) (o_n (set_variogram o lags semivariance params)) (o_adj (set_variogram o lags semivariance params)) (o_values (set_variogram o lags semivariance params))
                    (o_vg (set_variogram o lags semivariance params)) (o_pinv (set_variogram o lags semivariance params)) with
            | Err e => (set_variogram o lags semivariance params, Some e)
            | Ok s => (set_stats (set_variogram o lags semivariance params) (Some s), None)
            end
          end
        end
    end = (set_flags (fst (match oe with
    | (o, Some e) => (o, Some e)
    | (o, None) =>
        match make_parameter_list name prm with
        | Err e => (o, Some e)
        | Ok vp =>
          match initialize_variogram_model (e_fit E) (o_ct o) (o_dim o1) (o_n o) (o_adj o)
                  (o_n o) (o_values o) name vp (o_fun o) (a_nlags v) (a_weight v) with
          | Err e => (o, Some e)
          | Ok (lags, semivariance, params) =>
            match all_statistics (e_la E) (o_ct (set_variogram o lags semivariance params)) (o_dim o1) (o_n (set_variogram o lags semivariance params)) (o_adj (set_variogram o lags semivariance params)) (o_values (set_variogram o lags semivariance params))
                    (o_vg (set_variogram o lags semivariance params)) (o_pinv (set_variogram o lags semivariance params)) with
            | Err e => (set_variogram o lags semivariance params, Some e)
            | Ok s => (set_stats (set_variogram o lags semivariance params) (Some s), None)
            end
          end
        end
    end)) a b, snd (match oe with
    | (o, Some e) => (o, Some e)
    | (o, None) =>
        match make_parameter_list name prm with
        | Err e => (o, Some e)
        | Ok vp =>
          match initialize_variogram_model (e_fit E) (o_ct o) (o_dim o1) (o_n o) (o_adj o)
                  (o_n o) (o_values o) name vp (o_fun o) (a_nlags v) (a_weight v) with
          | Err e => (o, Some e)
          | Ok (lags, semivariance, params) =>
            match all_statistics (e_la E) (o_ct (set_variogram o lags semivariance params)) (o_dim o1) (o_n (set_variogram o lags semivariance params)) (o_adj (set_variogram o lags semivariance params)) (o_values (set_variogram o lags semivariance params))
                    (o_vg (set_variogram o lags semivariance params)) (o_pinv (set_variogram o lags semivariance params)) with
            | Err e => (set_variogram o lags semivariance params, Some e)
            | Ok s => (set_stats (set_variogram o lags semivariance params) (Some s), None)
            end
          end
        end
    end))).
  { intros [o2 [e|]]; [reflexivity|]. cbn [fst snd]. destruct (make_parameter_list name prm) as [vp|e]; [|reflexivity].
    change (o_ct (set_flags o2 a b)) with (o_ct o2). change (o_n (set_flags o2 a b)) with (o_n o2). change (o_adj (set_flags o2 a b)) with (o_adj o2).
    change (o_values (set_flags o2 a b)) with (o_values o2). change (o_fun (set_flags o2 a b)) with (o_fun o2).
    destruct (initialize_variogram_model _ _ _ _ _ _ _ _ _ _ _ _) as [[[lags sv] params]|e]; [|reflexivity].
    set (o3 := set_variogram o2 lags sv params). change (set_variogram (set_flags o2 a b) lags sv params) with (set_flags o3 a b).
    change (o_ct (set_flags o3 a b)) with (o_ct o3). change (o_n (set_flags o3 a b)) with (o_n o3). change (o_adj (set_flags o3 a b)) with (o_adj o3).
    change (o_values (set_flags o3 a b)) with (o_values o3). change (o_vg (set_flags o3 a b)) with (o_vg o3). change (o_pinv (set_flags o3 a b)) with (o_pinv o3).
    destruct (all_statistics _ _ _ _ _ _ _ _); reflexivity. }
  match goal with |- match ?t with _ => _ end = _ => set (oe' := t) end.
  match goal with |- _ = (set_flags (fst (match ?t with _ => _ end)) a b, _) => set (oe := t) end.
  assert (HO : oe' = (set_flags (fst oe) a b, snd oe)).
  { unfold oe', oe. destruct (aniso_differs _ _ _ _ _); [|reflexivity]. destruct (o_ct o1); [|reflexivity]. destruct (adjust_for_anisotropy _ _ _ _ _ _); reflexivity. }
  clearbody oe oe'. rewrite HO. exact (H oe).
Qed.

Lemma after_call_flags E o c a b : exists a' b', after_call E (set_flags o a b) c = set_flags (after_call E o c) a' b'.
Proof.
  destruct c as [v|q|[]| | |]; cbn [after_call].
  - rewrite update_flags. cbn [fst]. eauto.
  - eauto.
  - exists (negb a), b. reflexivity.
  - exists a, (negb b). reflexivity.
  - eauto.
  - eauto.
  - eauto.
Qed.
Lemma answer_flags E o c a b : answer_of E (set_flags o a b) c = answer_of E o c.
Proof. destruct c; try reflexivity. cbn [answer_of]. rewrite update_flags. reflexivity. Qed.
Lemma session_flags E cs : forall o a b, session E (set_flags o a b) cs = session E o cs.
Proof.
  induction cs as [|c cs IH]; intros o a b; [reflexivity|]. cbn [session]. rewrite answer_flags. f_equal.
  destruct (after_call_flags E o c a b) as (a' & b' & ->). apply IH.
Qed.
Lemma flip_flags s o : exists a b, flip s o = set_flags o a b.
Proof. destruct s; eexists _, _; reflexivity. Qed.
Theorem session_no_switch E cs : forall o,
  filter no_switch_answer (session E o cs) = session E o (filter (fun c => negb (is_switch c)) cs).
Proof.
  induction cs as [|c cs IH]; intros o; [reflexivity|]. destruct c as [v|q|s| | |]; cbn [session filter is_switch negb answer_of no_switch_answer after_call];
    try (f_equal; apply IH).
  rewrite IH. destruct (flip_flags s o) as (a & b & ->). apply session_flags.
Qed.
Theorem session_only_updates E cs : forall o, fold_left (after_call E) cs o = 
  fold_left (after_call E) (filter (fun c => is_update c || is_switch c) cs) o.
Proof.
  induction cs as [|c cs IH]; intros o; [reflexivity|]. destruct c; cbn [fold_left filter is_update is_switch orb after_call]; apply IH.
Qed.
Lemma set_flags_id o : set_flags o (o_verbose o) (o_plotting o) = o.
Proof. destruct o; reflexivity. Qed.
Lemma flip_twice s o : flip s (flip s o) = o.
Proof. destruct s, o; unfold flip, switch_verbose, switch_plotting, set_flags; cbn; rewrite negb_involutive; reflexivity. Qed.

(** *** C30: the settings are those of the last accepted call *)
Lemma update_settings E o v : snd (update_variogram_model E o v) = None -> o_ct o = Euclidean ->
  let o' := fst (update_variogram_model E o v) in
  exists name prm fn sc an, resolve_gs E (o_class o) "euclidean" v = Ok (name, prm, fn, sc, an) /\
    same_anisotropy (o_dim o) sc (o_scaling o') an (o_angle o').
Proof.
  intros HN HC. cbv zeta. unfold update_variogram_model in *. cbv zeta in *. cbn [o_ct set_model] in *. rewrite HC in *. cbn [ct_name] in *.
  destruct (resolve_gs E (o_class o) "euclidean" v) as [[[[[name prm] fn] sc] an]|e]; [|discriminate HN].
  exists name, prm, fn, sc, an. split; [reflexivity|].
  destruct (resolve_fun name fn) as [f|e]; [|discriminate HN].
  set (o1 := set_fun (set_model (set_model o (a_model v)) (VName name)) f) in *.
  change (o_ct o1) with (o_ct o) in *. rewrite HC in *. change (o_dim o1) with (o_dim o) in *.
  set (oe := if aniso_differs _ _ _ _ _ then _ else _) in *.
  assert (HO : snd oe = None -> same_anisotropy (o_dim o) sc (o_scaling (fst oe)) an (o_angle (fst oe))).
  { unfold oe. destruct (aniso_differs (o_dim o) sc (o_scaling o1) an (o_angle o1)) eqn:EA.
    - destruct (adjust_for_anisotropy _ _ _ _ _ _); [|discriminate]. intros _. cbn [fst o_scaling o_angle set_aniso]. apply same_refl.
    - intros _. cbn [fst]. apply aniso_differs_false in EA; [exact EA|apply o_dim_cases]. }
  clearbody oe. destruct oe as [o2 [e|]]; [discriminate HN|]. specialize (HO eq_refl). cbn [fst] in HO.
  destruct (make_parameter_list name prm) as [vp|e]; [|discriminate HN].
  destruct (initialize_variogram_model _ _ _ _ _ _ _ _ _ _ _ _) as [[[lags sv] params]|e]; [|discriminate HN].
  destruct (all_statistics _ _ _ _ _ _ _ _); [|discriminate HN]. exact HO.
Qed.

(** *** C31: a call rejected because of its variogram model name *)
Lemma rejected_name E o v e name prm fn sc an : resolve_gs E (o_class o) (ct_name (o_ct o)) v = Ok (name, prm, fn, sc, an) ->
  resolve_fun name fn = Err e ->
  update_variogram_model E o v = (set_model o (VName name), Some e).
Proof.
  intros H1 H2. unfold update_variogram_model. cbv zeta. cbn [o_ct set_model]. rewrite H1, H2. reflexivity.
Qed.
Lemma rejected_gs E o v e : resolve_gs E (o_class o) (ct_name (o_ct o)) v = Err e ->
  update_variogram_model E o v = (set_model o (a_model v), Some e).
Proof. intros H1. unfold update_variogram_model. cbv zeta. cbn [o_ct set_model]. rewrite H1. reflexivity. Qed.
