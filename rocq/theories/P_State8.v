(** Proofs for C29-C33: sessions and histories of universal kriging objects. *)
From Coq Require Import String.
From Verif Require Import Base Sums Matrix M_Variogram M_Geometry S_Geometry P_Geometry M_Kriging M_Init M_Object M_Execute S_Execute M_UK S_UK S_State
  P_Object P_Data P_State P_State2 P_State3 P_State4 P_State5 P_State6 P_State7
  M_Heap S_Heap M_HeapUK S_HeapUK P_Heap P_Heap2 P_Heap3 P_Heap4 P_HeapUK P_HeapUK2 Witness Witness3 P_UK8.

Definition uset (u : uobj) (a b : bool) : uobj := with_obj u (set_flags (u_obj u) a b).
Lemma uset_id u : uset u (o_verbose (u_obj u)) (o_plotting (u_obj u)) = u.
Proof. unfold uset, with_obj. rewrite set_flags_id. destruct u; reflexivity. Qed.
Lemma update_uk_flags E u v a b :
  update_uk E (uset u a b) v = (uset (fst (update_uk E u v)) a b, snd (update_uk E u v)).
Proof.
  unfold update_uk, uset, with_obj. cbn [u_obj u_drift]. rewrite update_flags.
  destruct (update_variogram_model E (u_obj u) v) as [o e]. reflexivity.
Qed.
Lemma uflip_flags s u : exists a b, with_obj u (flip s (u_obj u)) = uset u a b.
Proof. destruct (flip_flags s (u_obj u)) as (a & b & H). exists a, b. unfold uset. rewrite H. reflexivity. Qed.

Definition uupdates_of (cs : list ucall) : list vargs := flat_map (fun c => match c with UUpdate v => [v] | _ => [] end) cs.
Lemma usession_state E cs : forall u, exists a b,
  fold_left (uafter_call E) cs u = uset (after_uupdates E (uupdates_of cs) u) a b.
Proof.
  induction cs as [|c cs IH]; intros u.
  - eexists _, _. cbn. symmetry. apply uset_id.
  - cbn [fold_left]. destruct c as [v|q specs|s| | |]; try (apply IH).
    cbn [uafter_call]. destruct (uflip_flags s u) as (a & b & ->).
    destruct (IH (uset u a b)) as (a' & b' & ->). change (uupdates_of (USwitch s :: cs)) with (uupdates_of cs).
    assert (K : forall us u, exists a' b', after_uupdates E us (uset u a b) = uset (after_uupdates E us u) a' b').
    { clear. induction us as [|v us IH]; intros u; [exists a, b; reflexivity|]. cbn [after_uupdates fold_left].
      rewrite update_uk_flags. cbn [fst]. apply IH. }
    destruct (K (uupdates_of cs) u) as (a2 & b2 & ->). exists a', b'. reflexivity.
Qed.

Lemma uequivalent_flags E u u' a b : uequivalent E u u' -> uequivalent E (uset u a b) u'.
Proof.
  intros [H1 H2]. split; [|apply equivalent_flags; exact H2]. intros q specs. rewrite <- H1. destruct u. reflexivity.
Qed.

Theorem urebuild_after_session E c A D u0 cs v : c = UK2 \/ c = UK3 -> List.length (c_coords A) = cdim c -> construct_uk E c A D = Ok u0 ->
  let u := fold_left (uafter_call E) cs u0 in
  match update_uk E u v with
  | (u', None) =>
      (c = UK2 -> asked D "point_log" = true ->
         same_anisotropy 2 (o_scaling (u_obj u0)) (o_scaling (u_obj u')) (o_angle (u_obj u0)) (o_angle (u_obj u'))) ->
      exists u'', construct_uk E c (with_v A v) D = Ok u'' /\ uequivalent E u' u'' /\ o_stats (u_obj u') = o_stats (u_obj u'')
  | (_, Some e) => construct_uk E c (with_v A v) D = Err e
  end.
Proof.
  intros Hc HL HC u. subst u. destruct (usession_state E cs u0) as (a & b & ->). rewrite update_uk_flags.
  assert (HB : ubuilt E c A D (uupdates_of cs) (after_uupdates E (uupdates_of cs) u0)) by (split; [exact HL|exists u0; auto]).
  pose proof (uupdate_is_rebuild E c A D _ _ v Hc HB) as H.
  destruct (update_uk E (after_uupdates E (uupdates_of cs) u0) v) as [u' [e|]]; cbn [fst snd]; [exact H|].
  intros HW. destruct H as (u'' & H1 & H2 & H3).
  - intros Q1 Q2 u1 Q3. rewrite HC in Q3. injection Q3 as <-. exact (HW Q1 Q2).
  - exists u''. split; [exact H1|]. split; [apply uequivalent_flags, H2|exact H3].
Qed.

(** *** C30 *)
Lemma uin_step E c A D us u : ubuilt E c A D us u ->
    let o := u_obj u in
    o_orig o = columns (c_coords A) /\ o_values o = rnth (c_values A) /\ o_n o = List.length (nth 0 (c_coords A) []) /\ o_class o = c /\
    (forall i j, data_distances o i j = separation o (datum o i) (datum o j)) /\
    (forall ints at_ pts p i, adjust_query o ints at_ = Ok pts ->
       query_distances o pts p i = separation o (loc_of (o_dim o) at_ p) (datum o i)) /\
    (forall u0, construct_uk E c A D = Ok u0 -> u_drift u = u_drift u0).
Proof.
  intros HB. destruct (ubuilt_obj E c A D us u HB) as (HO & u0 & HC0 & HD & _).
  destruct (in_step E c A us (u_obj u) HO) as (H1 & H2 & H3 & H4 & H5 & H6). cbv zeta.
  split; [exact H1|]. split; [exact H2|]. split; [exact H3|]. split; [exact H4|]. split; [exact H5|]. split; [exact H6|].
  intros u1 Q. rewrite HC0 in Q. injection Q as <-. exact HD.
Qed.

(** *** C31 *)
Lemma execute_uk_model E o d m q specs :
  execute_uk E {| u_obj := set_model o m; u_drift := d |} q specs = execute_uk E {| u_obj := o; u_drift := d |} q specs.
Proof. reflexivity. Qed.
Theorem urejected_model_predictions E u v : model_rejected E (u_obj u) v ->
  exists u' e, update_uk E u v = (u', Some e) /\ forall q specs, execute_uk E u' q specs = execute_uk E u q specs.
Proof.
  intros H. assert (K : exists m e, update_variogram_model E (u_obj u) v = (set_model (u_obj u) m, Some e)).
  { destruct (rejected_model_state E (u_obj u) v H) as (m & e & K). eauto. }
  destruct K as (m & e & K). unfold update_uk. rewrite K. eexists _, _. split; [reflexivity|].
  intros q specs. rewrite execute_uk_model. destruct u; reflexivity.
Qed.
Lemma uupdate_preserves E u v : let u' := fst (update_uk E u v) in
  u_drift u' = u_drift u /\
  o_class (u_obj u') = o_class (u_obj u) /\ o_pinv (u_obj u') = o_pinv (u_obj u) /\ o_pinv_type (u_obj u') = o_pinv_type (u_obj u) /\
  o_exact (u_obj u') = o_exact (u_obj u) /\ o_ct (u_obj u') = o_ct (u_obj u) /\ o_n (u_obj u') = o_n (u_obj u) /\
  o_orig (u_obj u') = o_orig (u_obj u) /\ o_values (u_obj u') = o_values (u_obj u) /\ o_center (u_obj u') = o_center (u_obj u) /\
  o_verbose (u_obj u') = o_verbose (u_obj u) /\ o_plotting (u_obj u') = o_plotting (u_obj u).
Proof.
  pose proof (update_preserves E (u_obj u) v) as H. unfold update_uk. destruct (update_variogram_model E (u_obj u) v) as [o e].
  cbn [fst u_drift u_obj] in *. split; [reflexivity|exact H].
Qed.

(** *** C33 *)
Lemma uafter_call_flags E u c a b : exists a' b', uafter_call E (uset u a b) c = uset (uafter_call E u c) a' b'.
Proof.
  destruct c as [v|q specs|s| | |]; cbn [uafter_call]; eauto.
  - rewrite update_uk_flags. cbn [fst]. eauto.
  - destruct (uflip_flags s (uset u a b)) as (a' & b' & ->). destruct (uflip_flags s u) as (a2 & b2 & ->).
    exists a', b'. reflexivity.
Qed.
Lemma uanswer_flags E u c a b : uanswer_of E (uset u a b) c = uanswer_of E u c.
Proof. destruct c; try reflexivity; try (destruct u; reflexivity). cbn [uanswer_of]. rewrite update_uk_flags. reflexivity. Qed.
Lemma usession_flags E cs : forall u a b, usession E (uset u a b) cs = usession E u cs.
Proof.
  induction cs as [|c cs IH]; intros u a b; [reflexivity|]. cbn [usession]. rewrite uanswer_flags. f_equal.
  destruct (uafter_call_flags E u c a b) as (a' & b' & ->). apply IH.
Qed.
Theorem usession_no_switch E cs : forall u,
  filter no_uswitch_answer (usession E u cs) = usession E u (filter (fun c => negb (is_uswitch c)) cs).
Proof.
  induction cs as [|c cs IH]; intros u; [reflexivity|].
  destruct c as [v|q specs|s| | |]; cbn [usession filter is_uswitch negb uanswer_of no_uswitch_answer uafter_call]; try (f_equal; apply IH).
  destruct (uflip_flags s u) as (a & b & ->). rewrite usession_flags. apply IH.
Qed.
Theorem usession_only_updates E cs : forall u, fold_left (uafter_call E) cs u =
  fold_left (uafter_call E) (filter (fun c => is_uupdate c || is_uswitch c) cs) u.
Proof.
  induction cs as [|c cs IH]; intros u; [reflexivity|]. destruct c; cbn [fold_left filter is_uupdate is_uswitch orb uafter_call]; apply IH.
Qed.

(** *** C32 *)
Lemma uparts x r : In r (urefs x) <-> In r (refs (xu_obj x)) \/ In r (drift_refs (xu_drift x)).
Proof. unfold urefs. apply in_app_iff. Qed.
Lemma uexists_parts h x : uobject_exists h x <-> object_exists h (xu_obj x) /\ Forall (fun r => (r < h_next h)%nat) (drift_refs (xu_drift x)).
Proof. unfold uobject_exists, urefs, object_exists. apply Forall_app. Qed.
Lemma uview_adds h h' x : only_adds h h' -> uobject_exists h x -> uview h' x = uview h x.
Proof. intros A H. apply uview_ext. intros r Hr. apply A. exact (proj1 (Forall_forall _ _) H r Hr). Qed.
Lemma uexists_adds h h' x : only_adds h h' -> uobject_exists h x -> uobject_exists h' x.
Proof. intros A H. exact (Forall_lt_mono h h' _ (adds_next _ _ A) H). Qed.

Lemma uupdate_h_spec E x v h : uobject_exists h x -> params_exist h (v_params v) ->
  match update_uk_h E x v h with
  | (h', x', e) => only_adds h h' /\ uobject_exists h' x' /\ update_uk E (uview h x) (deref_v h v) = (uview h' x', e) /\
      (forall r, In r (urefs x') -> In r (urefs x) \/ fresh h h' r \/ keeps_list v r)
  end.
Proof.
  intros HX HP. apply uexists_parts in HX. destruct HX as [HX HD]. unfold update_uk_h.
  pose proof (update_h_spec E (xu_obj x) v h HX HP) as U. destruct (update_h E (xu_obj x) v h) as [[h' y] e].
  destruct U as (A1 & X1 & U & R). split; [exact A1|]. split; [|split].
  - apply uexists_parts. cbn. split; [exact X1|exact (Forall_lt_mono h h' _ (adds_next _ _ A1) HD)].
  - unfold update_uk, uview at 1. cbn [u_obj]. rewrite U. cbn [u_drift uview]. unfold uview. cbn [xu_obj xu_drift]. f_equal. f_equal.
    change (u_drift (uview h x) = u_drift (uview h' x)). symmetry. f_equal. apply uview_adds; [exact A1|]. apply uexists_parts. auto.
  - intros r Hr. apply uparts in Hr. cbn [xu_obj xu_drift] in Hr. destruct Hr as [Hr|Hr].
    + destruct (R r Hr) as [K|K]; [left; apply uparts; left; exact K|right; exact K].
    + left. apply uparts. right. exact Hr.
Qed.
Lemma uupdate_alone E x v h : uobject_exists h x -> params_exist h (v_params v) ->
  match update_uk_h E x v h with
  | (h', x', e) => only_adds h h' /\ uobject_exists h' x' /\ update_uk E (uview h x) (deref_v h v) = (uview h' x', e) /\
      (forall r, ushared h' x' r -> ushared h x r \/ keeps_list v r)
  end.
Proof.
  intros HX HP. pose proof (uupdate_h_spec E x v h HX HP) as U. destruct (update_uk_h E x v h) as [[h' x'] e].
  destruct U as (A1 & X1 & U & R). split; [exact A1|]. split; [exact X1|]. split; [exact U|]. intros r [R1 R2].
  destruct (R r R1) as [F|[F|F]].
  - left. split; [exact F|]. rewrite <- R2. symmetry. apply A1. exact (proj1 (Forall_forall _ _) HX r F).
  - rewrite (fresh_user h h' r A1 F) in R2. discriminate R2.
  - right. exact F.
Qed.

Theorem uexecute_h_spec E x q specs h : uobject_exists h x -> Forall (fun r => (r < h_next h)%nat) (k_pts q) -> Forall (spec_exists h) specs ->
  match execute_uk_h E x q specs h with
  | (h', r) => only_adds h h' /\ r = execute_uk E (uview h x) (deref_q h q) (map (deref_spec h) specs)
  end.
Proof.
  intros HX HQ HS. unfold execute_uk_h. bind1. unfold look at 1. bind1. unfold look at 1. bind1. unfold look at 1. bind1.
  destruct (copies_spec (k_pts q) h HQ) as (h1 & pts & -> & A1 & F1 & E1). bind1. unfold look at 1. bind1.
  destruct ((match o_dim (u_obj (uview h x)) with 2%nat => locate2 | _ => locate3 end) (k_style q) (map (rd h1) pts) (k_mask q)) as [l|e].
  - bind1. destruct (alloc_spec (Tab (l_at l)) h1) as (h2 & -> & A2 & T2 & N2).
    assert (F2 : fresh h h2 (h_next h1)) by (pose proof (adds_next _ _ A1); unfold fresh; lia).
    destruct (adjust_h_spec h (forallb (fun b => b) (k_int q)) (o_dim (u_obj (uview h x))) (h_next h1) (o_center (u_obj (uview h x))) (o_scaling (u_obj (uview h x))) (o_angle (u_obj (uview h x))) h2
      (adds_trans _ _ _ A1 A2) F2) as (h3 & y & -> & A3 & _). split; [exact A3|reflexivity].
  - split; [exact A1|reflexivity].
Qed.

Theorem uhistory_replay E (K : ref -> Prop) es : forall h x us h' x', uhistory E (h, x) es us (h', x') ->
  uobject_exists h x -> (forall r, ushared h x r -> K r) ->
  (forall r c, In (UOverwrites r c) es -> ~ K r) -> (forall v r, In (UUpdates v) es -> keeps_list v r -> K r) ->
  uview h' x' = after_uupdates E us (uview h x) /\ uobject_exists h' x' /\ forall r, ushared h' x' r -> K r.
Proof.
  induction es as [|e es IH]; intros h x us h' x' H HX HS HW HN.
  - inversion H; subst. split; [reflexivity|]. split; assumption.
  - inversion H as [|? ? ? ? us' ? HO HH]; subst.
    assert (HW' : forall r c, In (UOverwrites r c) es -> ~ K r) by (intros r c Hv; apply (HW r c); right; exact Hv).
    assert (HN' : forall v r, In (UUpdates v) es -> keeps_list v r -> K r) by (intros v r Hv; apply (HN v r); right; exact Hv).
    destruct e as [c|r c|v|q specs].
    + cbn [ustep] in HH. destruct (new true c h) as [h1 r0] eqn:EN. cbn [fst] in HH.
      pose proof (new_adds true c h) as [NA NN]. rewrite EN in NA, NN. cbn [fst] in NA, NN.
      assert (HX1 : uobject_exists h1 x) by (apply (Forall_lt_mono h h1); [lia|exact HX]).
      assert (V1 : uview h1 x = uview h x).
      { apply uview_ext. intros r Hr. apply NA. exact (proj1 (Forall_forall _ _) HX r Hr). }
      rewrite <- V1. apply (IH h1 x us' h' x' HH HX1); [|exact HW'|exact HN'].
      intros r [R1 R2]. apply (HS r). split; [exact R1|]. rewrite <- R2. symmetry. apply NA. exact (proj1 (Forall_forall _ _) HX r R1).
    + cbn [ustep] in HH. cbn in HO.
      assert (V1 : uview (write r c h) x = uview h x).
      { apply uview_ext. intros r' Hr. cbn. apply put_other. intros ->. apply (HW r c (or_introl eq_refl)), HS. split; assumption. }
      rewrite <- V1. apply (IH _ x us' h' x' HH); [exact HX| |exact HW'|exact HN'].
      intros r' [R1 R2]. apply (HS r'). split; [exact R1|exact R2].
    + cbn [ustep] in HH. cbn in HO. pose proof (uupdate_h_spec E x v h HX HO) as U.
      destruct (update_uk_h E x v h) as [[h1 x1] e1]. cbn [fst] in HH. destruct U as (A1 & EX1 & UU & RR).
      cbn [after_uupdates fold_left] in *. rewrite UU. cbn [fst]. apply (IH h1 x1 us' h' x' HH EX1); [|exact HW'|exact HN'].
      intros r [R1 R2]. destruct (RR r R1) as [K0|[K0|K0]].
      * apply (HS r). split; [exact K0|]. rewrite <- R2. symmetry. apply A1. exact (proj1 (Forall_forall _ _) HX r K0).
      * rewrite (fresh_user h h1 r A1 K0) in R2. discriminate R2.
      * apply (HN v r); [left; reflexivity|exact K0].
    + cbn [ustep] in HH. cbn in HO. destruct HO as [HO1 HO2]. pose proof (uexecute_h_spec E x q specs h HX HO1 HO2) as U.
      destruct (execute_uk_h E x q specs h) as [h1 r1]. cbn [fst] in HH. destruct U as (A1 & _).
      rewrite <- (uview_adds h h1 x A1 HX). apply (IH h1 x us' h' x' HH (uexists_adds h h1 x A1 HX)); [|exact HW'|exact HN'].
      intros r [R1 R2]. apply (HS r). split; [exact R1|]. rewrite <- R2. symmetry. apply A1. exact (proj1 (Forall_forall _ _) HX r R1).
Qed.

Lemma ulater_changes E c A D h h1 x es us h' x' :
    args_exist h A -> drift_exists h D -> construct_uk_h E c A D h = (h1, Ok x) ->
    uhistory E (h1, x) es us (h', x') -> (forall r c, In (UOverwrites r c) es -> ~ ukept_list (g_v A) D es r) ->
    exists u, construct_uk E c (deref h A) (deref_d h D) = Ok u /\ uview h' x' = after_uupdates E us u.
Proof.
  intros HA HD HK HH HW. destruct (construct_uk_h_spec E c A D h HA HD) as (h2 & y & K & A1 & X).
  rewrite HK in K. injection K as <- <-. destruct X as (X1 & X2).
  exists (uview h1 x). split; [exact X1|].
  assert (EX : uobject_exists h1 x) by (apply Forall_forall; intros r Hr; apply X2, Hr).
  refine (proj1 (uhistory_replay E (ukept_list (g_v A) D es) es h1 x us h' x' HH EX _ HW _)).
  - intros r [R1 R2]. destruct (X2 r R1) as [_ [F|[F|F]]]; [|left; exact F|right; left; exact F].
    rewrite (fresh_user h h1 r A1 F) in R2. discriminate R2.
  - intros v r H1 H2. right. right. exists v. auto.
Qed.

(** *** examples *)
Lemma ex_uupdate : exists u u',
  construct_uk WE UK2 (two_args 1 0 0 3 true false) (fun_args fx) = Ok u /\
  update_uk WE (uafter_call WE u (USwitch Verbose)) (scaled (PList [1; 0]) 2) = (u', None) /\
  o_scaling (u_obj u) 0%nat = 1 /\ o_scaling (u_obj u') 0%nat = 2 /\ asked (fun_args fx) "point_log" = false.
Proof.
  destruct (ex_functional 0 3 1 1) as (u & r & (_ & u0 & HC & HU) & _ & _ & _ & _ & Ho & _). cbn in HU. subst u0.
  destruct (two_fields_u _ _ _ _ _ _ _ _ Ho) as (Hc & Hn & Hct & Hex & Hpi & Hvg & Hval & Horig & H0 & H1 & Hs & Ha & Hsep & HG).
  destruct (update_scaled (flip Verbose (u_obj u)) 2 Hn Hpi Hct) as (o' & HU & Hf' & Hp' & Hs' & Ha');
    [intros k; cbn; rewrite Hs; reflexivity|lra|].
  exists u, {| u_obj := o'; u_drift := u_drift u |}. split; [exact HC|]. split.
  - unfold update_uk. cbn [uafter_call with_obj u_obj u_drift]. rewrite HU. reflexivity.
  - split; [rewrite Hs; reflexivity|]. split; [cbn; rewrite Hs'; reflexivity|reflexivity].
Qed.

(** built with a list of functional drifts and a parameter list for the linear model,
    both kept; the user overwrites his coordinate and value arrays *)
Lemma ex_uprivate : let es := [UOverwrites 0%nat (Row [7; 7]); UOverwrites 2%nat (Row [5; 5])] in
  exists A D h h1 x, args_exist h A /\ drift_exists h D /\ construct_uk_h WE UK2 A D h = (h1, Ok x) /\
  (forall r c, In (UOverwrites r c) es -> ~ ukept_list (g_v A) D es r) /\ ukept_list (g_v A) D es 4%nat /\
  exists h', uhistory WE (h1, x) es [] (h', x) /\ rd h' 2%nat = [5; 5] /\ o_values (u_obj (uview h' x)) 1%nat = 3.
Proof.
  intros es.
  assert (HA : args_exist demo_heap_u (demo_args "linear")) by (split; [repeat constructor|]; split; cbn; lia).
  assert (HD : drift_exists demo_heap_u demo_drift).
  { unfold drift_exists. cbn. split; [exact I|]. split; [exact I|]. split; [exact I|]. split; [exact I|]. split; [discriminate|lia]. }
  destruct (construct_uk_h_spec WE UK2 (demo_args "linear") demo_drift demo_heap_u HA HD) as (h1 & x & K & A1 & X).
  change (deref demo_heap_u (demo_args "linear")) with (two_args 1 0 0 3 true false) in X.
  change (deref_d demo_heap_u demo_drift) with (fun_args fx) in X.
  destruct (ex_functional 0 3 1 1) as (u & r & (_ & u0 & HC & HU) & _ & _ & _ & _ & Ho & _). cbn in HU. subst u0.
  rewrite HC in X. destruct x as [x|e]; [|discriminate X]. destruct X as (X & RX).
  assert (HW : forall r c, In (UOverwrites r c) es -> ~ ukept_list (g_v (demo_args "linear")) demo_drift es r).
  { assert (R : forall r c, In (UOverwrites r c) es -> r = 0%nat \/ r = 2%nat).
    { intros r0 c [Q|[Q|[]]]; injection Q as <- _; auto. }
    intros r0 c Hr [(s & _ & Q & _)|[Q|(v & [Q|[Q|[]]] & _)]]; try discriminate Q.
    - cbn in Q. injection Q as <-. destruct (R _ _ Hr); discriminate.
    - cbn in Q. injection Q as <-. destruct (R _ _ Hr); discriminate. }
  set (h' := write 2%nat (Row [5; 5]) (write 0%nat (Row [7; 7]) h1)).
  assert (HU : forall r, (r < 5)%nat -> h_user h1 r = true).
  { intros r0 Hr. destruct A1 as (_ & H & _). rewrite (proj2 (H r0 ltac:(cbn; lia))). apply Nat.leb_le. lia. }
  assert (HH : uhistory WE (h1, x) es [] (h', x)).
  { apply (UH_cons WE h1 x (UOverwrites 0%nat (Row [7; 7])) _ [] _); [cbn; apply HU; lia|].
    apply (UH_cons WE (write 0%nat (Row [7; 7]) h1) x (UOverwrites 2%nat (Row [5; 5])) [] [] _); [cbn; apply HU; lia|]. apply UH_nil. }
  exists (demo_args "linear"), demo_drift, demo_heap_u, h1, x.
  split; [exact HA|]. split; [exact HD|]. split; [exact K|]. split; [exact HW|]. split; [right; left; reflexivity|].
  exists h'. split; [exact HH|]. split; [reflexivity|].
  destruct (ulater_changes WE UK2 _ _ _ _ _ _ _ _ _ HA HD K HH HW) as (u1 & C1 & V1).
  rewrite V1. cbn [after_uupdates fold_left].
  change (deref demo_heap_u (demo_args "linear")) with (two_args 1 0 0 3 true false) in C1.
  change (deref_d demo_heap_u demo_drift) with (fun_args fx) in C1. rewrite HC in C1. injection C1 as <-.
  destruct (two_fields_u _ _ _ _ _ _ _ _ Ho) as (Hc & Hn & Hct & Hex & Hpi & Hvg & Hval & _). rewrite Hval. reflexivity.
Qed.
