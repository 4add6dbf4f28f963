(** C32: histories, and the two cases where the user's own list is kept. *)
From Coq Require Import String ClassicalEpsilon.
From Verif Require Import Base Sums Matrix M_Variogram P_Variogram M_Geometry S_Geometry P_Geometry M_Kriging S_Kriging
  P_Kriging P_OKSpec M_Init M_Object M_Execute S_Execute P_Object P_Execute P_Cells P_Master P_Det P_OK
  P_Similar P_Data P_Exec2 Witness Witness2 M_UK S_UK P_UK8 S_State P_State P_State2 P_State3 P_State4 M_Heap S_Heap P_Heap P_Heap2 P_Heap3.

Lemma new_adds u c h : (forall r, (r < h_next h)%nat -> h_at (fst (new u c h)) r = h_at h r /\ h_user (fst (new u c h)) r = h_user h r) /\
  h_next (fst (new u c h)) = S (h_next h).
Proof. split; [|reflexivity]. intros r Hr. cbn. rewrite !put_other by lia. split; reflexivity. Qed.

Theorem history_replay E (K : ref -> Prop) es : forall h x us h' x', history E (h, x) es us (h', x') ->
  object_exists h x -> (forall r, shared h x r -> K r) ->
  (forall r c, In (Overwrites r c) es -> ~ K r) -> (forall v r, In (Updates v) es -> keeps_list v r -> K r) ->
  view h' x' = after_updates E us (view h x) /\ object_exists h' x' /\ forall r, shared h' x' r -> K r.
Proof.
  induction es as [|e es IH]; intros h x us h' x' H HX HS HW HN.
  - inversion H; subst. split; [reflexivity|]. split; assumption.
  - inversion H as [|? ? ? ? us' ? HO HH]; subst.
    assert (HW' : forall r c, In (Overwrites r c) es -> ~ K r) by (intros r c Hv; apply (HW r c); right; exact Hv).
    assert (HN' : forall v r, In (Updates v) es -> keeps_list v r -> K r) by (intros v r Hv; apply (HN v r); right; exact Hv).
    destruct e as [c|r c|v|q].
    + cbn [step] in HH. destruct (new true c h) as [h1 r0] eqn:EN. cbn [fst] in HH.
      pose proof (new_adds true c h) as [NA NN]. rewrite EN in NA, NN. cbn [fst] in NA, NN.
      assert (HX1 : object_exists h1 x) by (apply (Forall_lt_mono h h1); [lia|exact HX]).
      assert (V1 : view h1 x = view h x).
      { apply view_ext. intros r Hr. apply NA. exact (proj1 (Forall_forall _ _) HX r Hr). }
      rewrite <- V1. apply (IH h1 x us' h' x' HH HX1); [|exact HW'|exact HN'].
      intros r [R1 R2]. apply (HS r). split; [exact R1|]. rewrite <- R2. symmetry. apply NA. exact (proj1 (Forall_forall _ _) HX r R1).
    + cbn [step] in HH. cbn in HO.
      assert (V1 : view (write r c h) x = view h x).
      { apply view_ext. intros r' Hr. cbn. apply put_other. intros ->. apply (HW r c (or_introl eq_refl)), HS. split; assumption. }
      rewrite <- V1. apply (IH _ x us' h' x' HH); [exact HX| |exact HW'|exact HN'].
      intros r' [R1 R2]. apply (HS r'). split; [exact R1|exact R2].
    + cbn [step] in HH. cbn in HO. pose proof (update_h_spec E x v h HX HO) as U.
      destruct (update_h E x v h) as [[h1 x1] e1]. cbn [fst] in HH. destruct U as (A1 & EX1 & UU & RR).
      cbn [after_updates fold_left] in *. change (fst (update_variogram_model E (view h x) (deref_v h v))) with (fst (update_variogram_model E (view h x) (deref_v h v))).
      rewrite UU. cbn [fst]. apply (IH h1 x1 us' h' x' HH EX1); [|exact HW'|exact HN'].
      intros r [R1 R2]. destruct (RR r R1) as [K0|[K0|K0]].
      * apply (HS r). split; [exact K0|]. rewrite <- R2. symmetry. apply A1. exact (proj1 (Forall_forall _ _) HX r K0).
      * rewrite (fresh_user h h1 r A1 K0) in R2. discriminate R2.
      * apply (HN v r); [left; reflexivity|exact K0].
    + cbn [step] in HH. cbn in HO. pose proof (execute_h_spec E x q h HX HO) as U.
      destruct (execute_h E x q h) as [h1 r1]. cbn [fst] in HH. destruct U as (A1 & _).
      rewrite <- (view_adds h h1 x A1 HX). apply (IH h1 x us' h' x' HH (exists_adds h h1 x A1 HX)); [|exact HW'|exact HN'].
      intros r [R1 R2]. apply (HS r). split; [exact R1|]. rewrite <- R2. symmetry. apply A1. exact (proj1 (Forall_forall _ _) HX r R1).
Qed.

Lemma construct_private E c A h h' x : args_exist h A -> construct_h E c A h = (h', Ok x) ->
  construct E c (deref h A) = Ok (view h' x) /\ object_exists h' x /\ (forall r, shared h' x r -> (r = x_params x /\ keeps_list (g_v A) r)).
Proof.
  intros HA K. destruct (construct_h_spec E c A h HA) as (h1 & y & K1 & A1 & X1). rewrite K in K1. injection K1 as <- <-.
  destruct X1 as (X1 & X2 & X3 & X4 & _). split; [exact X1|]. split; [exact X2|]. intros r [R1 R2].
  destruct (X3 r R1) as [F|F]; [|split; [symmetry; apply X4, F|exact F]]. rewrite (fresh_user h h' r A1 F) in R2. discriminate R2.
Qed.

(** the linear model keeps the user's list *)
Lemma two_slope E : exists o0, forall s, construct E OK2 (two_args s 0 0 3 true false) = Ok (set_variogram o0 (o_lags o0) (o_semivariance o0) [s; 0]).
Proof.
  unfold construct. cbn [two_args c_pinv_type c_exact c_ct c_coords c_values c_v c_stat c_pinv c_verbose c_plotting a_nlags a_weight class_ct].
  unfold resolve_gs. cbn [a_model a_params a_fun a_scaling a_angle bind].
  change (resolve_fun "linear" FNone) with (Ok f_linear : res pyfun). cbn [bind in_names pinv_types existsb String.eqb Ascii.eqb Bool.eqb orb negb].
  destruct (mapM_ok center_of [[0; 3]; [0; 4]]) as [cs Hcs].
  { intros l [<-|[<-|[]]]; apply center_ok; cbn; lia. }
  rewrite Hcs. cbn [bind same_length forallb List.length Nat.eqb andb negb cdim nth].
  destruct (adjust_supported 2 (columns [[0; 3]; [0; 4]]) (rnth cs) (fun _ => 1) (fun _ => 0) (or_introl eq_refl)) as [Y HY].
  rewrite HY. cbn [bind].
  destruct (experimental_ok Rops 6 (pair_data Euclidean 2 2 Y (rnth [0; 3]))) as [ls Hls].
  { unfold pair_data. intros K. apply map_eq_nil in K. apply (pairs_nonempty Euclidean 2 ltac:(lia) K). }
  assert (HI : exists lags sv, forall s, initialize_variogram_model (e_fit E) Euclidean 2 2 Y 2 (rnth [0; 3]) "linear" (Some [s; 0]) f_linear 6 false = Ok (lags, sv, [s; 0])).
  { unfold initialize_variogram_model, experimental_variogram. rewrite Hls. cbn. eauto. }
  destruct HI as (lags & sv & HI).
  eexists {| o_class := OK2; o_pinv := false; o_pinv_type := "pinv"; o_exact := true;
          o_ct := Euclidean; o_model := VName "linear"; o_fun := f_linear; o_params := [];
          o_n := 2; o_orig := columns [[0; 3]; [0; 4]]; o_values := rnth [0; 3];
          o_center := rnth cs; o_scaling := fun _ => 1; o_angle := fun _ => 0; o_adj := Y;
          o_lags := lags; o_semivariance := sv; o_stats := None; o_verbose := false; o_plotting := false |}.
  intros s. change (make_parameter_list "linear" (PList [s; 0])) with (Ok (Some [s; 0]) : res (option (list R))). cbn [bind].
  rewrite HI. cbn [bind]. reflexivity.
Qed.

Definition demo_heap : heap :=
  {| h_next := 4%nat;
     h_at := fun r => Row (match r with 0%nat => [0; 3] | 1%nat => [0; 4] | 2%nat => [0; 3] | 3%nat => [1; 0] | _ => [] end);
     h_user := fun r => Nat.ltb r 4%nat |}.
Definition demo_args (name : string) : hargs :=
  {| g_coords := [0; 1]%nat; g_values := 2%nat;
     g_v := {| v_model := VName name; v_params := HList 3%nat; v_fun := FNone; v_nlags := 6%nat; v_weight := false;
               v_scaling := (fun _ => 1); v_angle := (fun _ => 0) |};
     g_verbose := false; g_plotting := false; g_stat := false; g_ct := "euclidean"; g_exact := Some true; g_pinv := false; g_pinv_type := "pinv" |}.
Lemma demo_exist name : args_exist demo_heap (demo_args name).
Proof. split; [repeat constructor|]. split; [cbn; lia|cbn; lia]. Qed.

Lemma slope_variance s o : 0 < s -> construct WE OK2 (two_args s 0 0 3 true false) = Ok o ->
  exists r, run WE o (one_point (3 / 2) 2 "vectorized") r /\ r_variance r 0 = Some (5 / 2 * s).
Proof.
  intros Hs Ho. destruct (two_fields _ _ _ _ _ _ _ _ Ho) as (Hre&Hinv&Hc&Hn&Hct&Hex&Hpi&Hf&Hp&Hvg&Hval&H0&H1&Hsep).
  assert (HG : G_of o 0%nat 1%nat = 5 * s) by (rewrite (two_G _ _ _ _ _ _ _ _ Ho); ring).
  destruct (run_two o (3 / 2) 2 Hre Hc Hn Hpi) as [r Hr]; [rewrite HG; lra|]. exists r. split; [exact Hr|].
  assert (HSh : shown o (one_point (3 / 2) 2 "vectorized") 0 (3 / 2, 2, 0)) by (apply one_point_cell, Hc).
  assert (GO : forall i, (i < 2)%nat -> g_of o (3 / 2, 2, 0) i = 5 / 2 * s).
  { intros i Hi. assert (HE : separation o (3 / 2, 2, 0) (datum o i) = 5 / 2).
    { destruct i as [|[|i]]; [rewrite H0|rewrite H1|lia]; rewrite Hsep; cbn [lon lat];
        (replace (5 / 2) with (sqrt (5 / 2 * (5 / 2))) by (apply sqrt_square; lra)); f_equal; unfold Rsqr, lon, lat; cbn; field. }
    assert (eps < 5 / 2) by (unfold eps; lra).
    unfold g_of, query_semivariance. rewrite HE, Hvg, Rabs_right, (proj2 (Rleb_false _ _)) by lra. rewrite andb_false_r. ring. }
  rewrite (midpoint_variance WE o _ r 0%nat _ (5 / 2 * s) Hr HSh Hpi eq_refl Hn (GO 0%nat ltac:(lia)) (GO 1%nat ltac:(lia))) by (rewrite HG; lra).
  f_equal. rewrite HG. field.
Qed.

Lemma ex_linear_list_kept : exists E A h h' x r c q res res',
  env_ok E /\ args_exist h A /\ construct_h E OK2 A h = (h', Ok x) /\ h_user h' r = true /\
  execute E (view h' x) q = Ok res /\ execute E (view (write r c h') x) q = Ok res' /\ r_variance res 0 <> r_variance res' 0.
Proof.
  destruct (two_slope WE) as [o0 HO].
  pose proof (demo_exist "linear") as HA.
  destruct (construct_h_spec WE OK2 (demo_args "linear") demo_heap HA) as (h' & x & K & A1 & X).
  change (deref demo_heap (demo_args "linear")) with (two_args 1 0 0 3 true false) in X. rewrite HO in X.
  destruct x as [x|e]; [|discriminate X]. destruct X as (X1 & X2 & X3 & X4 & X5). apply (f_equal (fun r => match r with Ok a => a | Err _ => o0 end)) in X1.
  set (V := view h' x) in X1. cbv beta iota in X1. subst V.
  assert (HP : x_params x = 3%nat).
  { apply X4. exists "linear"%string. split; [reflexivity|]. split; [reflexivity|]. left. reflexivity. }
  destruct (slope_variance 1 _ ltac:(lra) (HO 1)) as (r1 & R1 & V1).
  destruct (slope_variance 2 _ ltac:(lra) (HO 2)) as (r2 & R2 & V2).
  assert (HV : view (write 3%nat (Row [2; 0]) h') x = set_variogram o0 (o_lags o0) (o_semivariance o0) [2; 0]).
  { assert (HX : forall r, In r (tl (refs x)) -> h_at (write 3%nat (Row [2; 0]) h') r = h_at h' r).
    { intros r Hr. apply put_other. destruct (X5 r Hr) as [F _]. cbn in F. lia. }
    assert (HW : view (write 3%nat (Row [2; 0]) h') x = set_variogram (view h' x) (o_lags (view h' x)) (o_semivariance (view h' x)) [2; 0]).
    { transitivity (view (write 3%nat (Row [2; 0]) h') (with_params x 3%nat)); [rewrite <- HP; destruct x; reflexivity|].
      transitivity (set_variogram (view (write 3%nat (Row [2; 0]) h') (with_params x (x_values x))) (o_lags (view h' x)) (o_semivariance (view h' x)) [2; 0]); [reflexivity|].
      rewrite (view_ext h' (write 3%nat (Row [2; 0]) h') (with_params x (x_values x))); [reflexivity|].
      intros r [<-|Hr]; [apply HX; left; reflexivity|apply HX; exact Hr]. }
    rewrite HW, <- X1. reflexivity. }
  exists WE, (demo_args "linear"), demo_heap, h', x, 3%nat, (Row [2; 0]), (one_point (3 / 2) 2 "vectorized"), r1, r2.
  split; [apply wit_env_ok|]. split; [exact HA|]. split; [exact K|].
  split; [destruct A1 as (_ & A1 & _); destruct (A1 3%nat ltac:(cbn; lia)) as [_ ->]; reflexivity|].
  split; [rewrite <- X1; apply R1|]. split; [rewrite HV; apply R2|].
  rewrite V1, V2. intros Q. injection Q as Q. lra.
Qed.
