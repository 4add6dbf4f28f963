(** Proofs for C29-C33. *)
From Coq Require Import String.
From Verif Require Import Base Sums Matrix M_Variogram P_Variogram M_Geometry S_Geometry P_Geometry M_Kriging S_Kriging
  M_Init M_Object M_Execute S_Execute P_Object P_Execute P_Cells P_Det M_UK S_UK P_UK2 S_State.

(** *** anisotropy settings *)
Lemma aniso_differs_false ndim sc sc' an an' : ndim = 2%nat \/ ndim = 3%nat ->
  aniso_differs ndim sc sc' an an' = false -> same_anisotropy ndim sc sc' an an'.
Proof.
  intros [-> | ->]; unfold aniso_differs, same_anisotropy; cbn [Nat.eqb]; intros H;
    repeat match goal with HH : _ || _ = false |- _ => apply orb_false_iff in HH; destruct HH end;
    repeat match goal with HH : negb _ = false |- _ => apply negb_false_iff, Reqb_true in HH end.
  - split; [|assumption]. intros k Hk. replace k with 0%nat by lia. assumption.
  - split; intros k Hk; [destruct k as [|[|k]]; [assumption|assumption|lia]|destruct k as [|[|[|k]]]; [assumption|assumption|assumption|lia]].
Qed.

Lemma adjust_same b ndim X center sc sc' an an' : same_anisotropy ndim sc sc' an an' -> ndim = 2%nat \/ ndim = 3%nat ->
  adjust_for_anisotropy b ndim X center sc an = adjust_for_anisotropy b ndim X center sc' an'.
Proof.
  intros [H1 H2] [-> | ->]; unfold adjust_for_anisotropy, stretch_rot; cbn [Nat.eqb] in H2.
  - rewrite (H1 0%nat), H2 by lia. reflexivity.
  - rewrite (H1 0%nat), (H1 1%nat), (H2 0%nat), (H2 1%nat), (H2 2%nat) by lia. reflexivity.
Qed.

Lemma separation_same o sc an adj p p' : same_anisotropy (o_dim o) (o_scaling o) sc (o_angle o) an ->
  separation (set_aniso o sc an adj) p p' = separation o p p'.
Proof.
  intros [H1 H2]. unfold separation. cbn [o_ct set_aniso]. change (o_dim (set_aniso o sc an adj)) with (o_dim o).
  destruct (o_dim_cases o) as [E|E]; rewrite E in *; cbn [Nat.eqb] in *; cbn [o_scaling o_angle set_aniso].
  - rewrite (H1 0%nat), H2 by lia. reflexivity.
  - rewrite (H1 0%nat), (H1 1%nat), (H2 0%nat), (H2 1%nat), (H2 2%nat) by lia. reflexivity.
Qed.

Lemma execute_set_aniso E o sc an q : same_anisotropy (o_dim o) (o_scaling o) sc (o_angle o) an ->
  execute E (set_aniso o sc an (o_adj o)) q = execute E o q.
Proof.
  intros H. assert (HQ : forall ints at_, adjust_query (set_aniso o sc an (o_adj o)) ints at_ = adjust_query o ints at_).
  { intros. unfold adjust_query. cbn [o_ct set_aniso o_center o_scaling o_angle]. destruct (o_ct o); [|reflexivity].
    change (o_dim (set_aniso o sc an (o_adj o))) with (o_dim o). symmetry. apply adjust_same; [exact H|apply o_dim_cases]. }
  unfold execute. cbn [o_class set_aniso]. destruct (o_class o); try reflexivity.
  - unfold execute2. cbv zeta. destruct (negb _); [reflexivity|]. destruct (match q_window q with Some k => Nat.leb k 1 | None => false end); [reflexivity|].
    destruct (locate2 _ _ _); [|reflexivity]. cbn [bind]. rewrite HQ. reflexivity.
  - unfold execute3. cbv zeta. destruct (negb _); [reflexivity|].
    destruct (locate3 _ _ _); [|reflexivity]. cbn [bind]. rewrite HQ. reflexivity.
Qed.
Lemma execute_set_model E o m q : execute E (set_model o m) q = execute E o q.
Proof. reflexivity. Qed.
Lemma execute_set_stats E o s q : execute E (set_stats o s) q = execute E o q.
Proof. reflexivity. Qed.
Lemma execute_set_flags E o a b q : execute E (set_flags o a b) q = execute E o q.
Proof. reflexivity. Qed.

(** *** what stays the same in an object's life *)
Record based (c : kclass) (A : cargs) (o : obj) : Prop := {
  ba_class : o_class o = c;
  ba_pinv : o_pinv o = c_pinv A; ba_ptype : o_pinv_type o = c_pinv_type A; ba_ptypes : in_names (c_pinv_type A) pinv_types = true;
  ba_exact : c_exact A = Some (o_exact o);
  ba_n : o_n o = List.length (nth 0 (c_coords A) []);
  ba_orig : o_orig o = columns (c_coords A);
  ba_values : o_values o = rnth (c_values A);
  ba_nvalues : List.length (c_values A) = o_n o;
  ba_len : same_length (c_coords A) = true;
  ba_ct : class_ct c (c_ct A) = ct_name (o_ct o);
  ba_center : match o_ct o with
              | Euclidean => exists cs, mapM center_of (c_coords A) = Ok cs /\ o_center o = rnth cs
              | Geographic => o_center o = (fun _ => 0)
              end;
  ba_inv : coords_inv o;
  ba_verbose : o_verbose o = c_verbose A; ba_plotting : o_plotting o = c_plotting A }.

Lemma construct_based E c A o : construct E c A = Ok o -> based c A o.
Proof.
  intros H. destruct (construct_inv E c A o H) as (ex & name & prm & fn & sc & an & f & vp & lags & sv & params & Hall).
  destruct Hall as (Hpt&Hex&Hgs&Hf&Hmp&Hsl&Hini&Hst&Hc&Hpi&Hpty&Hexo&Hm&Hfo&Hpo&Hn&Hor&Hva&Hla&Hse&Hve&Hpl&Hct).
  assert (HN : List.length (c_values A) = o_n o).
  { unfold initialize_variogram_model in Hini. destruct (Nat.eqb (List.length (c_values A)) (o_n o)) eqn:EN; [apply Nat.eqb_eq; exact EN|].
    exfalso. cbn [negb] in Hini. destruct (o_ct o), (Nat.eqb (cdim c) 2); try discriminate Hini;
      destruct (Nat.leb (o_n o) 1); try discriminate Hini; destruct (Nat.eqb (a_nlags (c_v A)) 0); discriminate Hini. }
  constructor; try assumption.
  - rewrite Hexo. exact Hex.
  - destruct Hct as [(-> & -> & _)|(-> & _ & -> & _)]; reflexivity.
  - destruct Hct as [(_ & -> & HC & _)|(_ & _ & -> & HC & _)]; exact HC.
  - unfold coords_inv. destruct Hct as [(_ & -> & _ & -> & -> & Ha)|(_ & -> & -> & H1 & H2 & H3 & H4)].
    + unfold o_dim. rewrite Hc. exact Ha.
    + auto.
Qed.

Lemma update_inv E o v : coords_inv o -> coords_inv (fst (update_variogram_model E o v)).
Proof.
  intros IH. pose proof (update_preserves E o v) as P. pose proof (update_aniso E o v) as Q. cbv zeta in P, Q.
  set (o' := fst (update_variogram_model E o v)) in *.
  destruct P as (Pc&_&_&_&Pt&_&Po&_&Pe&_).
  unfold coords_inv in *. unfold o_dim in *. rewrite Pt, Pc, Po, Pe.
  destruct Q as [(-> & -> & ->)|[(Ht & Hm)|(Ht & -> & -> & ->)]].
  - exact IH.
  - rewrite Ht in *. destruct (adjust_supported (cdim (o_class o)) (o_orig o) (o_center o) (o_scaling o') (o_angle o')
      (cdim_cases _)) as [Y HY].
    rewrite HY in *. rewrite Hm. reflexivity.
  - rewrite Ht in *. destruct IH as (H1 & H2 & H3 & H4 & H5). auto.
Qed.

Lemma update_based E c A o v : based c A o -> based c A (fst (update_variogram_model E o v)).
Proof.
  intros B. pose proof (update_preserves E o v) as P. cbv zeta in P. pose proof (update_inv E o v (ba_inv _ _ _ B)) as HI.
  set (o' := fst (update_variogram_model E o v)) in *.
  destruct P as (P1&P2&P3&P4&P5&P6&P7&P8&P9&P10&P11). destruct B.
  constructor; try congruence; try assumption. rewrite P5, P9. assumption.
Qed.
Lemma updates_based E c A us : forall o, based c A o -> based c A (after_updates E us o).
Proof. induction us as [|v us IH]; intros o B; [exact B|]. cbn. apply IH, update_based, B. Qed.
Lemma built_based E c A us o : built E c A us o -> based c A o.
Proof. intros (_ & o0 & H & ->). apply updates_based, (construct_based E), H. Qed.

(** *** C29 *)
Definition like (E : env) (o o' : obj) : Prop :=
  exists sc an m s a b, o = set_flags (set_stats (set_model (set_aniso o' sc an (o_adj o')) m) s) a b /\
    same_anisotropy (o_dim o') (o_scaling o') sc (o_angle o') an /\ o_model o = o_model o'.
Lemma same_refl d sc an : same_anisotropy d sc sc an an.
Proof. split; [reflexivity|]. destruct (Nat.eqb d 2); reflexivity. Qed.
Lemma like_equivalent E o o' : like E o o' -> equivalent E o o'.
Proof.
  intros (sc & an & m & s & a & b & -> & HS & Hm). constructor; try reflexivity.
  - intros q. rewrite execute_set_flags, execute_set_stats, execute_set_model. apply execute_set_aniso, HS.
  - exact Hm.
  - intros p p'. change (separation (set_aniso o' sc an (o_adj o')) p p' = separation o' p p'). apply separation_same, HS.
Qed.

Lemma update_vs_construct E c A o v : based c A o ->
  match update_variogram_model E o v with
  | (o', None) => exists o'', construct E c (with_v A v) = Ok o'' /\ like E o' o'' /\ (computes_statistics c A -> o_stats o' = o_stats o'')
  | (_, Some e) => computes_statistics c A -> construct E c (with_v A v) = Err e
  end.
Proof.
  intros B. unfold update_variogram_model, construct. cbn [with_v c_coords c_values c_v c_ct c_exact c_pinv c_pinv_type c_stat c_verbose c_plotting].
  rewrite (ba_ptypes _ _ _ B), (ba_exact _ _ _ B), (ba_ct _ _ _ B). cbn [negb].
  rewrite (ba_class _ _ _ B). cbn [o_ct set_model].
  destruct (resolve_gs E c (ct_name (o_ct o)) v) as [[[[[name prm] fn] scaling] angle]|e]; [|reflexivity]. cbn [bind].
  destruct (resolve_fun name fn) as [f|e]; [|reflexivity]. cbn [bind].
  assert (Hdim : o_dim o = cdim c) by (unfold o_dim; rewrite (ba_class _ _ _ B); reflexivity).
  set (o1 := set_fun (set_model (set_model o (a_model v)) (VName name)) f).
  change (o_dim o1) with (o_dim o). change (o_scaling o1) with (o_scaling o). change (o_angle o1) with (o_angle o). change (o_ct o1) with (o_ct o).
  change (o_orig o1) with (o_orig o). change (o_center o1) with (o_center o). rewrite Hdim.
  pose proof (ba_len _ _ _ B) as HSL. pose proof (ba_center _ _ _ B) as HCE. pose proof (ba_inv _ _ _ B) as HIN. unfold coords_inv in HIN.
  pose proof (ba_orig _ _ _ B) as HOR. pose proof (ba_n _ _ _ B) as HN. pose proof (ba_values _ _ _ B) as HV. pose proof (ba_nvalues _ _ _ B) as HNV.
  rewrite HSL. cbn [negb].
  (* both sides reach the same adjusted coordinates *)
  assert (HX : exists o2 ctr sc an adj,
     (if aniso_differs (cdim c) scaling (o_scaling o) angle (o_angle o) then
          match o_ct o with
          | Euclidean =>
              match adjust_for_anisotropy false (cdim c) (o_orig o) (o_center o) scaling angle with
              | Ok adj => (set_aniso o1 scaling angle adj, None)
              | Err e => (set_aniso o1 scaling angle (o_adj o1), Some e)
              end
          | Geographic => (set_aniso o1 (fun _ => 1) (fun _ => 0) (o_orig o), None)
          end
        else (o1, None)) = (o2, None : option exn) /\
     (if String.eqb (ct_name (o_ct o)) "euclidean" then
          do cs <- mapM center_of (c_coords A) ;;
          do Xadj <- adjust_for_anisotropy false (cdim c) (columns (c_coords A)) (rnth cs) scaling angle ;;
          Ok (Euclidean, rnth cs, scaling, angle, Xadj)
        else if String.eqb (ct_name (o_ct o)) "geographic" then
          Ok (Geographic, (fun _ => 0), (fun _ => 1), (fun _ => 0), columns (c_coords A))
        else Err ValueError) = Ok (o_ct o, ctr, sc, an, adj) /\
     ctr = o_center o /\ o2 = set_aniso o1 (o_scaling o2) (o_angle o2) adj /\ same_anisotropy (cdim c) sc (o_scaling o2) an (o_angle o2)).
  { unfold o_dim in *. rewrite Hdim in HIN. destruct (o_ct o) eqn:ECT; cbn [ct_name String.eqb Ascii.eqb Bool.eqb].
    - destruct HCE as (cs & Hcs & Hctr). rewrite Hcs. cbn [bind]. rewrite <- HOR, <- Hctr.
      destruct (adjust_supported (cdim c) (o_orig o) (o_center o) scaling angle (cdim_cases c)) as [Y HY].
      destruct (aniso_differs (cdim c) scaling (o_scaling o) angle (o_angle o)) eqn:ED; rewrite HY; cbn [bind].
      + eexists _, _, _, _, _. split; [reflexivity|]. split; [reflexivity|]. split; [reflexivity|]. split; [reflexivity|apply same_refl].
      + apply aniso_differs_false in ED; [|apply cdim_cases].
        rewrite (adjust_same false (cdim c) (o_orig o) (o_center o) _ _ _ _ ED (cdim_cases c)) in HY.
        rewrite HIN in HY. injection HY as <-.
        eexists _, _, _, _, _. split; [reflexivity|]. split; [reflexivity|]. split; [reflexivity|]. split; [destruct o; reflexivity|exact ED].
    - destruct HIN as (H1 & H2 & H3 & H4 & H5). rewrite <- HOR.
      destruct (aniso_differs (cdim c) scaling (o_scaling o) angle (o_angle o)).
      + eexists _, _, _, _, _. split; [reflexivity|]. split; [reflexivity|]. split; [symmetry; exact H3|]. split; [reflexivity|apply same_refl].
      + eexists _, _, _, _, _. split; [reflexivity|]. split; [reflexivity|]. split; [symmetry; exact H3|].
        split; [rewrite <- H1; destruct o; reflexivity|]. change (o_scaling o1) with (o_scaling o). change (o_angle o1) with (o_angle o).
        rewrite H4, H5. apply same_refl. }
  destruct HX as (o2 & ctr & sc & an & adj & EU & EC & Hctr & Ho2 & HSA). rewrite EU, EC. cbn [bind].
  destruct (make_parameter_list name prm) as [vp|e]; [|reflexivity]. cbn [bind].
  assert (F1 : o_ct o2 = o_ct o) by (rewrite Ho2; reflexivity).
  assert (F2 : o_n o2 = o_n o) by (rewrite Ho2; reflexivity).
  assert (F3 : o_adj o2 = adj) by (rewrite Ho2; reflexivity).
  assert (F4 : o_values o2 = o_values o) by (rewrite Ho2; reflexivity).
  assert (F5 : o_fun o2 = f) by (rewrite Ho2; reflexivity).
  assert (F6 : o_pinv o2 = o_pinv o) by (rewrite Ho2; reflexivity).
  rewrite F1, F2, F3, F4, F5, <- HN, <- HV, HNV.
  destruct (initialize_variogram_model (e_fit E) (o_ct o) (cdim c) (o_n o) adj (o_n o) (o_values o) name vp f (a_nlags v) (a_weight v))
    as [[[lags sv] params]|e]; [|reflexivity]. cbn [bind].
  set (o3 := set_variogram o2 lags sv params).
  change (o_ct o3) with (o_ct o2). change (o_n o3) with (o_n o2). change (o_adj o3) with (o_adj o2). change (o_values o3) with (o_values o2).
  change (o_pinv o3) with (o_pinv o2).
  assert (HVG : o_vg o3 = fcall f params) by (unfold o_vg, o3; cbn [o_fun o_params set_variogram]; rewrite F5; reflexivity).
  rewrite HVG, F1, F2, F3, F4, F6, <- (ba_pinv _ _ _ B).
  assert (HL : forall st st', like E (set_stats o3 st) {| o_class := c; o_pinv := o_pinv o; o_pinv_type := c_pinv_type A; o_exact := o_exact o;
          o_ct := o_ct o; o_model := VName name; o_fun := f; o_params := params;
          o_n := o_n o; o_orig := columns (c_coords A); o_values := o_values o;
          o_center := ctr; o_scaling := sc; o_angle := an; o_adj := adj;
          o_lags := lags; o_semivariance := sv; o_stats := st';
          o_verbose := c_verbose A; o_plotting := c_plotting A |}).
  { intros st st'. exists (o_scaling o2), (o_angle o2), (VName name), st, (o_verbose o), (o_plotting o).
    split; [|split; [|unfold o3; rewrite Ho2; reflexivity]].
    - unfold o3. rewrite Ho2. unfold o1. subst ctr. rewrite <- HOR. generalize (o_scaling o2) (o_angle o2).
      pose proof (ba_class _ _ _ B) as Q1. pose proof (ba_ptype _ _ _ B) as Q2. pose proof (ba_verbose _ _ _ B) as Q3. pose proof (ba_plotting _ _ _ B) as Q4.
      rewrite <- Q1, <- Q2. clear. intros sc2 an2. reflexivity.
    - cbn. exact HSA. }
  destruct (all_statistics (e_la E) (o_ct o) (cdim c) (o_n o) adj (o_values o) (fcall f params) (o_pinv o)) as [s|e].
  - destruct c, (c_stat A) eqn:ES; cbn [bind]; (eexists; split; [reflexivity|]; split; [apply HL|]); try reflexivity.
    intros K. specialize (K eq_refl). rewrite ES in K. discriminate K.
  - intros K. destruct c, (c_stat A) eqn:ES; try reflexivity. specialize (K eq_refl). rewrite ES in K. discriminate K.
Qed.
