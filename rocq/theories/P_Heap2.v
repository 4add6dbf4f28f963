(** C32: the constructor and updates on the heap do what M_Object says, and
    create rather than modify. *)
From Coq Require Import String.
From Verif Require Import Base Sums Matrix M_Variogram M_Geometry P_Geometry M_Kriging M_Init M_Object M_Execute S_Execute P_Object P_State M_Heap S_Heap P_Heap.

Ltac bind1 := cbv beta iota; unfold hbind at 1; cbv beta iota.
Ltac done_err := eexists _, (Err _); split; [reflexivity|]; split; [|reflexivity].

Lemma Forall_fresh_lt h h' l : Forall (fresh h h') l -> Forall (fun r => (r < h_next h')%nat) l.
Proof. intros H. eapply Forall_impl; [|exact H]. intros r [_ Hr]. exact Hr. Qed.
Lemma Forall_lt_mono h h' l : (h_next h <= h_next h')%nat -> Forall (fun r => (r < h_next h)%nat) l -> Forall (fun r => (r < h_next h')%nat) l.
Proof. intros K H. eapply Forall_impl; [|exact H]. intros r Hr. cbn in *. lia. Qed.

Theorem construct_h_spec E c A h : args_exist h A ->
  exists h' x, construct_h E c A h = (h', x) /\ only_adds h h' /\
    match x with
    | Ok x => construct E c (deref h A) = Ok (view h' x) /\ object_exists h' x /\
              (forall r, In r (refs x) -> fresh h h' r \/ keeps_list (g_v A) r) /\
              (forall r, keeps_list (g_v A) r -> x_params x = r) /\ (forall r, In r (tl (refs x)) -> fresh h h' r)
    | Err e => construct E c (deref h A) = Err e
    end.
Proof.
  intros (HC & HV & HP). unfold construct_h, construct.
  cbn [deref c_coords c_values c_v c_verbose c_plotting c_stat c_ct c_exact c_pinv c_pinv_type].
  destruct (in_names (g_pinv_type A) pinv_types); cbn [negb]; [|done_err; apply adds_refl].
  destruct (g_exact A) as [exact|]; [|done_err; apply adds_refl]. cbv zeta.
  destruct (resolve_h_spec E c (class_ct c (g_ct A)) (g_v A) h HP) as (h1 & [[[[[name prm] fn] scaling] angle]|e] & R & A1 & RR).
  2: { bind1. rewrite R, RR. done_err. exact A1. }
  destruct RR as (RR & PE & PK & PN). bind1. rewrite R, RR. cbn [bind].
  bind1. unfold lift at 1. destruct (resolve_fun name fn) as [f|e]; [|done_err; exact A1]. cbn [bind].
  pose proof (adds_next _ _ A1) as L1.
  bind1. destruct (copies_spec (g_coords A) h1 (Forall_lt_mono h h1 _ L1 HC)) as (h2 & orig & -> & A2 & F2 & E2).
  pose proof (adds_next _ _ A2) as L2.
  bind1. destruct (copy_spec (g_values A) h2 ltac:(lia)) as (h3 & values & -> & A3 & F3 & E3).
  pose proof (adds_next _ _ A3) as L3.
  bind1. unfold look at 1. bind1. unfold look at 1.
  assert (HO : map (rd h3) orig = map (rd h) (g_coords A)).
  { rewrite (adds_map h2 h3 orig A3 (Forall_fresh_lt h1 h2 orig F2)), E2. apply (adds_map h h1 _ A1 HC). }
  assert (HY : rd h3 values = rd h (g_values A)).
  { transitivity (rd h2 (g_values A)); [unfold rd; rewrite E3; reflexivity|].
    rewrite (adds_rd h1 h2 _ A2) by lia. apply (adds_rd h h1 _ A1). exact HV. }
  rewrite HO, HY. set (coords := map (rd h) (g_coords A)). set (ys := rd h (g_values A)).
  pose proof (adds_trans _ _ _ A1 (adds_trans _ _ _ A2 A3)) as A03.
  assert (FO : Forall (fresh h h3) orig).
  { eapply Forall_impl; [|exact F2]. intros r Hr. exact (fresh_weaken h h1 h2 h3 r A1 A3 Hr). }
  assert (FV : fresh h h3 values) by exact (fresh_weaken h h2 h3 h3 values (adds_trans _ _ _ A1 A2) (adds_refl h3) F3).
  set (n := List.length (nth 0 coords [])).
  (* adjusted coordinates *)
  match goal with |- context [hbind ?p _ h3] =>
    assert (HADJ : exists h4 x, p h3 = (h4, x) /\ only_adds h3 h4 /\
      match x with
      | Ok (ct', center, sc, an, adj) =>
          (if String.eqb (class_ct c (g_ct A)) "euclidean" then
             do cs <- mapM center_of coords ;;
             if negb (same_length coords) then Err ValueError else
             do Xadj <- adjust_for_anisotropy false (cdim c) (columns coords) (rnth cs) scaling angle ;;
             Ok (Euclidean, rnth cs, scaling, angle, Xadj)
           else if String.eqb (class_ct c (g_ct A)) "geographic" then
             Ok (Geographic, (fun _ => 0), (fun _ => 1), (fun _ => 0), columns coords)
           else Err ValueError) = Ok (ct', center, sc, an, adj_at h4 adj) /\ Forall (fun r => fresh h h4 r) (adj_refs adj)
      | Err e => (if String.eqb (class_ct c (g_ct A)) "euclidean" then
             do cs <- mapM center_of coords ;;
             if negb (same_length coords) then Err ValueError else
             do Xadj <- adjust_for_anisotropy false (cdim c) (columns coords) (rnth cs) scaling angle ;;
             Ok (Euclidean, rnth cs, scaling, angle, Xadj)
           else if String.eqb (class_ct c (g_ct A)) "geographic" then
             Ok (Geographic, (fun _ => 0), (fun _ => 1), (fun _ => 0), columns coords)
           else Err ValueError) = Err e
      end)
  end.
  { destruct (String.eqb (class_ct c (g_ct A)) "euclidean").
    - bind1. unfold lift at 1. destruct (mapM center_of coords) as [cs|e]; [|done_err; apply adds_refl]. cbn [bind].
      destruct (same_length coords); cbn [negb]; [|done_err; apply adds_refl].
      bind1. destruct (vstackT_spec orig h3) as (h4 & -> & A4 & F4 & T4). rewrite HO in T4. fold coords in T4. bind1.
      destruct (adjust_h_spec h3 false (cdim c) (h_next h3) (rnth cs) scaling angle h4 A4 F4) as (h5 & x & -> & A5 & X5). rewrite T4 in X5.
      destruct x as [Y|e]; cbv beta iota in X5.
      + destruct X5 as [FY X5]. rewrite X5. cbn [bind]. exists h5, (Ok (Euclidean, rnth cs, scaling, angle, Own Y)).
        split; [reflexivity|]. split; [exact A5|]. split; [reflexivity|]. cbn. constructor; [|constructor].
        exact (fresh_weaken h h3 h5 h5 Y A03 (adds_refl h5) FY).
      + rewrite X5. done_err. exact A5.
    - destruct (String.eqb (class_ct c (g_ct A)) "geographic"); [|done_err; apply adds_refl].
      exists h3, (Ok (Geographic, (fun _ => 0), (fun _ => 1), (fun _ => 0), Same orig)). split; [reflexivity|]. split; [apply adds_refl|].
      split; [cbn; rewrite HO; reflexivity|exact FO]. }
  destruct HADJ as (h4 & x & HP4 & A4 & X4). bind1. rewrite HP4.
  destruct x as [[[[[ct' center] sc] an] adj]|e]; [|rewrite X4; done_err; exact (adds_trans _ _ _ A03 A4)].
  destruct X4 as [X4 FA]. rewrite X4. cbn [bind]. clear HP4 X4.
  pose proof (adds_trans _ _ _ A03 A4) as A04.
  (* parameters *)
  assert (PE4 : params_exist h4 prm). { destruct prm; cbn in *; try exact I. pose proof (adds_next _ _ A4). lia. }
  assert (HD : deref_params h4 prm = deref_params h1 prm).
  { destruct prm; try reflexivity. cbn in *. rewrite (adds_rd h1 h4) by (try exact (adds_trans _ _ _ A2 (adds_trans _ _ _ A3 A4)); exact PE). reflexivity. }
  destruct (params_h_spec name prm h4 PE4) as (h5 & x & HP5 & A5 & X5). bind1. rewrite HP5. rewrite HD in X5. clear HP5.
  destruct x as [vp|e]; [|rewrite X5; done_err; exact (adds_trans _ _ _ A04 A5)].
  assert (HVP : make_parameter_list name (deref_params h1 prm) = Ok (option_map (rd h5) vp) /\
     forall r, vp = Some r -> (r < h_next h5)%nat /\ (fresh h h5 r \/ keeps_list (g_v A) r) /\ (forall r0, keeps_list (g_v A) r0 -> r = r0)).
  { destruct vp as [r|]; [|split; [exact X5|discriminate]]. destruct X5 as (X5 & X6 & X7 & X9). split; [exact X5|].
    intros r' Hr. injection Hr as <-. split; [exact X6|]. split; [|intros r0 (s & K1 & K2 & K3); destruct (PN s K1) as [<- ->]; apply X9; split; assumption]. destruct X7 as [X7|[X7 X8]].
    - left. exact (fresh_weaken h h4 h5 h5 r A04 (adds_refl h5) X7).
    - destruct (PK r X7) as [K|[K1 K2]].
      + left. exact (fresh_weaken h h h1 h5 r (adds_refl h) (adds_trans _ _ _ A2 (adds_trans _ _ _ A3 (adds_trans _ _ _ A4 A5))) K).
      + right. exists name. split; [exact K1|]. split; [exact K2|exact X8]. }
  destruct HVP as [HVP HVR]. rewrite HVP. cbn [bind]. clear X5.
  destruct (same_length coords); cbn [negb]; [|done_err; exact (adds_trans _ _ _ A04 A5)].
  bind1. unfold look at 1.
  assert (FA5 : Forall (fun r => (r < h_next h4)%nat) (adj_refs adj)) by (eapply Forall_impl; [|exact FA]; intros r [_ Hr]; exact Hr).
  assert (HAT : forall h', only_adds h4 h' -> adj_at h' adj = adj_at h4 adj).
  { intros h' Hh. destruct adj as [r|rs]; cbn in *; [apply adds_tab; [exact Hh|inversion FA5; assumption]|].
    rewrite (adds_map h4 h' rs Hh FA5). reflexivity. }
  rewrite (HAT h5 A5).
  destruct (initialize_h_spec E ct' (cdim c) n (adj_at h4 adj) (List.length ys) (rnth ys) name vp f (v_nlags (g_v A)) (v_weight (g_v A)) h5
    (fun r Hr => proj1 (HVR r Hr))) as (h6 & x & HP6 & A6 & X6). bind1. rewrite HP6. clear HP6.
  change (a_nlags (deref_v h (g_v A))) with (v_nlags (g_v A)). change (a_weight (deref_v h (g_v A))) with (v_weight (g_v A)).
  pose proof (adds_trans _ _ _ A04 (adds_trans _ _ _ A5 A6)) as A06.
  destruct x as [[[lags sv] params]|e]; [|rewrite X6; done_err; exact A06].
  destruct X6 as (X6 & XL & XF & XN). rewrite X6. cbn [bind]. clear X6.
  bind1. unfold look at 1. bind1.
  match goal with |- context [match c with OK2 => _ | _ => _ end h6] => idtac | _ => idtac end.
  set (stp := match c, g_stat A with
              | OK2, false => Ok None
              | _, _ => do s <- all_statistics (e_la E) ct' (cdim c) n (adj_at h4 adj) (rnth ys) (fcall f (rd h6 params)) (g_pinv A) ;; Ok (Some s)
              end).
  assert (HST : (match c, g_stat A with
              | OK2, false => ret None
              | _, _ => hdo s <- lift (all_statistics (e_la E) ct' (cdim c) n (adj_at h4 adj) (rnth ys) (fcall f (rd h6 params)) (g_pinv A)) ;; ret (Some s)
              end) h6 = (h6, stp)).
  { unfold stp, hbind, lift. destruct c, (g_stat A); try reflexivity; destruct (all_statistics _ _ _ _ _ _ _ _); reflexivity. }
  rewrite HST. destruct stp as [st|e]; [|done_err; exact A06]. cbn [bind].
  eexists h6, (Ok _). split; [reflexivity|]. split; [exact A06|].
  assert (HORIG : map (rd h6) orig = coords).
  { rewrite (adds_map h3 h6 orig (adds_trans _ _ _ A4 (adds_trans _ _ _ A5 A6))); [exact HO|]. apply (Forall_fresh_lt h), FO. }
  assert (HVAL : rd h6 values = ys).
  { rewrite (adds_rd h3 h6 values (adds_trans _ _ _ A4 (adds_trans _ _ _ A5 A6))); [exact HY|]. apply FV. }
  assert (HALL : forall r, In r (refs {| x_rest := {| o_class := c; o_pinv := g_pinv A; o_pinv_type := g_pinv_type A; o_exact := exact;
             o_ct := ct'; o_model := VName name; o_fun := f; o_params := [];
             o_n := n; o_orig := (fun _ _ => 0); o_values := (fun _ => 0);
             o_center := center; o_scaling := sc; o_angle := an; o_adj := (fun _ _ => 0);
             o_lags := lags; o_semivariance := sv; o_stats := st;
             o_verbose := g_verbose A; o_plotting := g_plotting A |};
           x_orig := orig; x_adj := adj; x_values := values; x_params := params |}) -> (r < h_next h6)%nat /\ (fresh h h6 r \/ keeps_list (g_v A) r)).
  { intros r Hr. unfold refs in Hr. cbn [x_params x_values x_orig x_adj] in Hr. pose proof (adds_next _ _ A4). pose proof (adds_next _ _ A5). pose proof (adds_next _ _ A6).
    assert (HFR : fresh h h4 r -> (r < h_next h6)%nat /\ (fresh h h6 r \/ keeps_list (g_v A) r)).
    { intros K. assert (fresh h h6 r) by exact (fresh_weaken h h h4 h6 r (adds_refl h) (adds_trans _ _ _ A5 A6) K). split; [apply H2|left; exact H2]. }
    destruct Hr as [<-|[<-|Hr]].
    - split; [exact XL|]. destruct XF as [K|K].
      + left. exact (fresh_weaken h h5 h6 h6 params (adds_trans _ _ _ A04 A5) (adds_refl h6) K).
      + destruct (proj1 (proj2 (HVR params K))) as [K'|K']; [left|right; exact K'].
        exact (fresh_weaken h h h5 h6 params (adds_refl h) A6 K').
    - apply HFR. exact (fresh_weaken h h h3 h4 values (adds_refl h) A4 FV).
    - apply in_app_or in Hr. destruct Hr as [Hr|Hr].
      + apply HFR. apply (fresh_weaken h h h3 h4 r (adds_refl h) A4). exact (proj1 (Forall_forall _ _) FO r Hr).
      + apply HFR. exact (proj1 (Forall_forall _ _) FA r Hr). }
  split; [|split; [|split; [|split]]].
  - f_equal. unfold view. cbn [x_rest x_orig x_adj x_values x_params o_class o_pinv o_pinv_type o_exact o_ct o_model o_fun o_n o_center o_scaling o_angle o_lags o_semivariance o_stats o_verbose o_plotting].
    rewrite HORIG, HVAL, (HAT h6 (adds_trans _ _ _ A5 A6)). reflexivity.
  - apply Forall_forall. intros r Hr. apply HALL, Hr.
  - intros r Hr. apply HALL, Hr.
  - cbn [x_params]. intros r Hr. destruct vp as [r1|]; [rewrite (XN r1 eq_refl); apply (HVR r1 eq_refl), Hr|].
    destruct Hr as (s & K1 & K2 & K3). destruct (PN s K1) as [<- ->]. rewrite K2 in HVP. cbn in HVP.
    exfalso. destruct K3 as [->|[->| ->]]; cbn in HVP; repeat match type of HVP with (if ?b then _ else _) = _ => destruct b end; discriminate HVP.
  - intros r Hr. unfold refs in Hr. cbn [tl x_params x_values x_orig x_adj] in Hr.
    assert (HFR : fresh h h4 r -> fresh h h6 r) by exact (fresh_weaken h h h4 h6 r (adds_refl h) (adds_trans _ _ _ A5 A6)).
    destruct Hr as [<-|Hr].
    + apply HFR. exact (fresh_weaken h h h3 h4 values (adds_refl h) A4 FV).
    + apply in_app_or in Hr. destruct Hr as [Hr|Hr].
      * apply HFR. apply (fresh_weaken h h h3 h4 r (adds_refl h) A4). exact (proj1 (Forall_forall _ _) FO r Hr).
      * apply HFR. exact (proj1 (Forall_forall _ _) FA r Hr).
Qed.
