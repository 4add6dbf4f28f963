(** Proofs of C82, continued: the same trend requested in other ways or other units. *)
From Coq Require Import String.
From Verif Require Import Base Sums Matrix Nz M_Variogram P_Variogram M_Geometry S_Geometry P_Geometry M_Kriging S_Kriging
  P_Kriging P_OKSpec M_Init M_Object M_Execute S_Execute P_Object P_Execute P_Cells P_Window P_WindowExec P_Master P_Det P_OK P_Similar P_Binning P_Data P_Linear P_Exec2 P_Data2
  M_UK S_UK P_UK P_UK2 P_UK3 P_UK4 P_UK5 P_State P_UK7 P_UK10 P_UK11 P_UK13 P_UK14 P_UK15 P_UK18 P_State2 S_Bilinear P_Bilinear S_Drift P_UK19 S_Span P_Span.

(** ---- ways to be expressed ---- *)
Lemma combination_unit k x vs : combination (repeat 0 k ++ [x]) vs = x * nth k vs 0.
Proof.
  revert vs. induction k as [|k IH]; intros [|v vs]; cbn [repeat app].
  - cbn. ring.
  - cbn. ring.
  - cbn. ring.
  - change (0 * v + combination (repeat 0 k ++ [x]) vs = x * nth k vs 0). rewrite IH. ring.
Qed.

Lemma expressed_affine n pos p t p' ts k a b : (k < List.length ts)%nat ->
  (forall i, (i < n)%nat -> t_data t i = a * t_data (nth k ts no_term) i + b) ->
  t_query t p pos = a * t_query (nth k ts no_term) p' pos + b -> expressed n pos p t p' ts.
Proof.
  intros Hk H1 H2. exists b, (repeat 0 k ++ [a]). split.
  - intros i Hi. rewrite (H1 i Hi), combination_unit, nth_t_data. ring.
  - rewrite H2, combination_unit, nth_t_query. ring.
Qed.

Lemma expressed_in n pos p t p' ts t' : In t' ts ->
  (forall i, (i < n)%nat -> t_data t i = t_data t' i) -> t_query t p pos = t_query t' p' pos -> expressed n pos p t p' ts.
Proof.
  intros HI H1 H2. destruct (In_nth ts t' no_term HI) as (k & Hk & HN).
  apply (expressed_affine n pos p t p' ts k 1 0 Hk); rewrite HN; [intros i Hi; rewrite H1 by exact Hi|rewrite H2]; ring.
Qed.

Definition unit_change (n : nat) (pos : vec3) (p p' : nat) (t t' : term) : Prop :=
  exists a b, a <> 0 /\ (forall i, (i < n)%nat -> t_data t' i = a * t_data t i + b) /\ t_query t' p' pos = a * t_query t p pos + b.

Lemma unit_change_sym n pos p p' t t' : unit_change n pos p p' t t' -> unit_change n pos p' p t' t.
Proof.
  intros (a & b & Ha & H1 & H2). exists (/ a), (- b / a). split; [apply Rinv_neq_0_compat, Ha|]. split.
  - intros i Hi. rewrite (H1 i Hi). field. exact Ha.
  - rewrite H2. field. exact Ha.
Qed.

Lemma Forall2_nth_both {X Y} (P : X -> Y -> Prop) d d' l l' : Forall2 P l l' ->
  List.length l = List.length l' /\ forall k, (k < List.length l)%nat -> P (nth k l d) (nth k l' d').
Proof.
  induction 1 as [|x y l l' HP HF [IH1 IH2]]; [split; [reflexivity|cbn; intros; lia]|].
  split; [cbn; lia|]. intros [|k] Hk; cbn in *; [exact HP|apply IH2; lia].
Qed.

Lemma units_half n pos p p' ts ts' : Forall2 (unit_change n pos p p') ts ts' -> forall t, In t ts' -> expressed n pos p' t p ts.
Proof.
  intros HF t HI. destruct (Forall2_nth_both _ no_term no_term _ _ HF) as [HL HN].
  destruct (In_nth ts' t no_term HI) as (k & Hk & <-). destruct (HN k ltac:(lia)) as (a & b & _ & H1 & H2).
  apply (expressed_affine n pos p' _ p ts k a b); [lia|exact H1|exact H2].
Qed.

Lemma units_span n pos p p' ts ts' : Forall2 (unit_change n pos p p') ts ts' -> same_span n pos p ts p' ts'.
Proof.
  intros HF. split; [|apply units_half; exact HF]. apply units_half.
  clear - HF. induction HF; constructor; [apply unit_change_sym; assumption|assumption].
Qed.

Lemma unit_change_eq n pos p p' t t' : (forall i, (i < n)%nat -> t_data t' i = t_data t i) -> t_query t' p' pos = t_query t p pos ->
  unit_change n pos p p' t t'.
Proof. intros H1 H2. exists 1, 0. split; [lra|]. split; [intros i Hi; rewrite H1 by exact Hi|rewrite H2]; ring. Qed.

(** ---- the external grid in other units ---- *)
Lemma zscalar_units arr arr' ex ey x y a b v v' : ascending ex -> ascending ey ->
  (forall i j, arr' i j = a * arr i j + b) -> zscalar arr ex ey x y = Ok v -> zscalar arr' ex ey x y = Ok v' -> v' = a * v + b.
Proof.
  intros HAx HAy HF H H'. unfold zscalar in H, H'.
  destruct (amax_gen Rops ex); [|discriminate]. destruct (amin_gen Rops ex); [|discriminate].
  destruct (amax_gen Rops ey); [|discriminate]. destruct (amin_gen Rops ey); [|discriminate].
  destruct (_ || _ || _ || _); [discriminate|].
  destruct (first_where (fun g => Rleb x g) ex) as [x2|] eqn:E1; cbn [bind] in H, H'; [|discriminate].
  destruct (last_where (fun g => Rleb g x) ex) as [x1|] eqn:E2; cbn [bind] in H, H'; [|discriminate].
  destruct (first_where (fun g => Rleb y g) ey) as [y2|] eqn:E3; cbn [bind] in H, H'; [|discriminate].
  destruct (last_where (fun g => Rleb g y) ey) as [y1|] eqn:E4; cbn [bind] in H, H'; [|discriminate].
  destruct (ascending_bracket ex x x2 x1 HAx E1 E2) as (LX1 & LX2 & BX).
  destruct (ascending_bracket ey y y2 y1 HAy E3 E4) as (LY1 & LY2 & BY).
  rewrite !HF in H'.
  assert (EQ1 : forall k, Nat.eqb k (S k) = false) by (intros k; apply Nat.eqb_neq; lia).
  destruct BX as [(-> & Ex)|(-> & Ex)], BY as [(-> & Ey)|(-> & Ey)]; rewrite ?Nat.eqb_refl, ?EQ1 in H, H';
    injection H as <-; injection H' as <-; try field; try split; lra.
Qed.

Lemma ext_units arr arr' ex ey a b pos : ascending ex -> ascending ey -> within ex (coord 0 pos) -> within ey (coord 1 pos) ->
  (forall i j, arr' i j = a * arr i j + b) -> ext_at arr' ex ey pos = a * ext_at arr ex ey pos + b.
Proof.
  intros HAx HAy Wx Wy HF. unfold ext_at.
  destruct (proj1 (zscalar_accepts arr ex ey (coord 0 pos) (coord 1 pos)) (conj Wx Wy)) as (v & E1).
  destruct (proj1 (zscalar_accepts arr' ex ey (coord 0 pos) (coord 1 pos)) (conj Wx Wy)) as (v' & E2).
  rewrite E1, E2. exact (zscalar_units arr arr' ex ey _ _ a b v v' HAx HAy HF E1 E2).
Qed.

Lemma spatial_units n o pos p p' f f' a b : a <> 0 -> (forall i, (i < n)%nat -> f' (datum o i) = a * f (datum o i) + b) ->
  f' pos = a * f pos + b -> unit_change n pos p p' (spatial o f) (spatial o f').
Proof. intros Ha H1 H2. exists a, b. split; [exact Ha|]. split; [exact H1|exact H2]. Qed.

Lemma data_in_grid E c A D us u i : ubuilt E c A D us u -> (i < o_n (u_obj u))%nat -> in_grid u (datum (u_obj u) i).
Proof.
  intros HU Hi arr ex ey zz HX. pose proof (built_datum _ _ _ _ _ i (proj1 (ubuilt_obj _ _ _ _ _ _ HU))) as HD. rewrite HD.
  destruct (built_values _ _ _ _ _ (proj1 (ubuilt_obj _ _ _ _ _ _ HU))) as (_ & HN & _).
  destruct (ubuilt_obj _ _ _ _ _ _ HU) as (_ & u0 & HC0 & Hd & _ & HI). rewrite Hd in HX.
  destruct (init_drift_fields _ _ _ _ HI) as (_ & E1 & _). rewrite HX in E1.
  apply opt_drift_inv in E1 as [(Hon & x & HE & Hx)|(_ & ?)]; [|discriminate]. injection Hx as <-.
  apply andb_true_iff in Hon as [Hc Ha]. assert (Hc2 : c = UK2) by (destruct c; try discriminate; reflexivity).
  destruct (proj1 (construct_uk_iff E c A D (proj1 HU)) (ex_intro _ u0 HC0)) as [_ HCD].
  destruct (cd_external _ _ _ HCD Hc2 Ha) as (rows & cols & f & ex0 & ey0 & D1 & D2 & D3 & _ & HW).
  unfold init_external in HE. rewrite D1, D2, D3 in HE. bindok HE. bindok HE. injection HE as _ <- <- _.
  rewrite HN in Hi. destruct (HW i Hi) as [W1 W2]. subst c. unfold given in *. split; assumption.
Qed.

Theorem units_irrelevant E c A D D' us u u' q q' specs specs' r r' p p' pos :
  ubuilt E c A D us u -> ubuilt E c A D' us u' -> other_units D D' -> specified_units D D' q q' specs specs' p p' ->
  urun E u q specs r -> urun E u' q' specs' r' -> faithful_specs u q -> faithful_specs u' q' ->
  shown (u_obj u) q p pos -> shown (u_obj u') q' p' pos -> uregular u' q' specs' ->
  r_value r p = r_value r' p' /\ r_variance r p = r_variance r' p'.
Proof.
  intros HU HU' HO HSU HR HR' HF HF' HS HS' Hreg.
  apply (span_only E c A D D' us u u' q q' specs specs' r r' p p' pos); try assumption. apply units_span.
  pose proof (same_history_obj _ _ _ _ _ _ _ _ HU HU') as HOb.
  destruct (proj2 (proj2 HR)) as (wn & HX). pose proof (uk_accepts E u q specs r wn (proj1 (proj2 HR)) HX) as (_ & _ & _ & HGrid).
  specialize (HGrid p pos HS).
  pose proof (fun i => data_in_grid E c A D us u i HU) as HDG.
  destruct (built_values _ _ _ _ _ (proj1 (ubuilt_obj _ _ _ _ _ _ HU))) as (_ & HN & _).
  destruct (ubuilt_obj _ _ _ _ _ _ HU) as (_ & u0 & HC0 & Hd & HC0' & HIn). destruct (ubuilt_obj _ _ _ _ _ _ HU') as (_ & u0' & HD0 & Hd' & HD0' & HIn').
  assert (HO0 : u_obj u0' = u_obj u0) by congruence.
  set (o := u_obj u) in *.
  destruct (init_drift_fields _ _ _ _ HIn) as (L1 & E1 & W1 & S1 & F1). destruct (init_drift_fields _ _ _ _ HIn') as (L2 & E2 & W2 & S2 & F2).
  destruct HO as [OT OP OX OY OA OE OF]. assert (HAs : forall t, asked D' t = asked D t) by (intros t; unfold asked; rewrite OT; reflexivity).
  rewrite !HAs in *. rewrite <- Hd in L1, E1, W1, S1, F1. rewrite <- Hd' in L2, E2, W2, S2, F2. rewrite HO0 in *.
  assert (HUK : c = UK2 \/ c = UK3).
  { pose proof (built_class _ _ _ _ _ (proj1 (ubuilt_obj _ _ _ _ _ _ HU))) as HC. rewrite <- HC. apply (ui_class u (ureachable_inv E u (proj1 (proj2 HR)))). }
  unfold drift_terms. repeat apply Forall2_app.
  - unfold linear_terms. rewrite L1, L2. destruct (asked D "regional_linear"); [|constructor]. rewrite HOb. fold o.
    induction (seq 0 (o_dim o)) as [|k l IHl]; cbn [map]; [constructor|constructor; [|exact IHl]]. apply unit_change_eq; intros; reflexivity.
  - unfold well_terms. rewrite HOb. fold o. unfold opt_drift in W1, W2. destruct (_ && asked D "point_log") eqn:EP; [|injection W1 as <-; injection W2 as <-; constructor].
    destruct (init_wells D (u_obj u0)) as [w1|] eqn:Q1; [|discriminate W1]. destruct (init_wells D' (u_obj u0)) as [w2|] eqn:Q2; [|discriminate W2].
    cbn in W1, W2. injection W1 as <-. injection W2 as <-. cbn [opt_list].
    assert (Hc : c = UK2) by (destruct c; try discriminate EP; reflexivity). 
    assert (HB0 : ubuilt E c A D [] u0) by (split; [apply HU|exists u0; split; [exact HC0|reflexivity]]).
    pose proof (uk_class_euclidean E u0 (ubuilt_reachable E c A D [] u0 HUK HB0)) as Hct0.
    assert (Hdim : o_dim (u_obj u0) = 2%nat).
    { pose proof (built_class _ _ _ _ _ (proj1 (ubuilt_obj _ _ _ _ _ _ HB0))) as X. unfold o_dim. rewrite X, Hc. reflexivity. }
    destruct (wells_frame D (u_obj u0) w1 Hdim Hct0 Q1) as (rows & P1 & ->). destruct (wells_frame D' (u_obj u0) w2 Hdim Hct0 Q2) as (rows' & P2 & ->).
    rewrite P1, P2 in OP. destruct OP as [_ OP]. rewrite !map_map. clear - OP.
    induction OP as [|[[x y] s] [[x' y'] s'] rs rs' (a & Ha & -> & -> & ->) HF2 IH]; cbn [map]; [constructor|constructor; [|exact IH]].
    apply (spatial_units _ o pos p p' _ _ a 0 Ha); intros; ring.
  - unfold ext_terms. rewrite HOb. fold o. unfold opt_drift in E1, E2. destruct (_ && asked D "external_Z") eqn:EP; [|injection E1 as <-; injection E2 as <-; constructor].
    unfold init_external in E1, E2. rewrite OX, OY in E2.
    destruct (d_ext D) as [[[rows cols] f]|], (d_ext D') as [[[rows' cols'] f']|]; try contradiction OE; try discriminate E1.
    destruct OE as (-> & -> & a & b & Ha & HFf).
    destruct (d_ext_x D) as [ex|], (d_ext_y D) as [ey|]; try discriminate E1. destruct OA as [A1 A2]. specialize (A1 ex eq_refl). specialize (A2 ey eq_refl).
    match type of E1 with bind (bind ?x _) _ = _ => destruct x as [arr|] eqn:EA; [|discriminate E1] end.
    match type of E2 with bind (bind ?x _) _ = _ => destruct x as [arr'|] eqn:EA'; [|discriminate E2] end. cbn [bind] in E1, E2.
    assert (HArr : forall i j, arr' i j = a * arr i j + b).
    { destruct (_ || _) in EA, EA'.
      - destruct (_ && _) in EA, EA'; try discriminate. injection EA as <-. injection EA' as <-. intros i j. unfold trm. apply HFf.
      - injection EA as <-. injection EA' as <-. exact HFf. }
    destruct (zscalars arr ex ey (o_n (u_obj u0)) _ _) as [z1|]; [|discriminate E1]. destruct (zscalars arr' ex ey (o_n (u_obj u0)) _ _) as [z2|]; [|discriminate E2].
    cbn [bind] in E1, E2. injection E1 as E1. injection E2 as E2. rewrite <- E1, <- E2. constructor; [|constructor].
    apply (spatial_units _ o pos p p' _ _ a b Ha).
    + intros i Hi. destruct (HDG i Hi arr ex ey z1) as [W W']; [congruence|]. apply ext_units; assumption.
    + destruct (HGrid arr ex ey z1) as [W W']; [congruence|]. apply ext_units; assumption.
  - unfold spec_terms. unfold opt_drift in S1, S2. destruct (asked D "specified"); [|injection S1 as <-; injection S2 as <-; constructor].
    unfold specified_units in HSU. unfold init_specified in S1, S2.
    destruct (d_spec D) as [ds|], (d_spec D') as [ds'|]; try contradiction HSU; try discriminate S1.
    assert (K1 : exists m, dr_spec (u_drift u) = Some m /\ mapM (fun t : list R => if negb (Nat.eqb (List.length t) (o_n (u_obj u0))) then Err ValueError else Ok (rnth t)) ds = Ok m).
    { destruct ds as [|d0 ds]; [discriminate S1|]. match type of S1 with bind ?x _ = _ => destruct x as [m|] eqn:EM; [|discriminate S1] end.
      cbn [bind] in S1. injection S1 as S1. exists m. split; [congruence|first [exact EM|reflexivity]]. }
    assert (K2 : exists m, dr_spec (u_drift u') = Some m /\ mapM (fun t : list R => if negb (Nat.eqb (List.length t) (o_n (u_obj u0))) then Err ValueError else Ok (rnth t)) ds' = Ok m).
    { destruct ds' as [|d0 ds']; [discriminate S2|]. match type of S2 with bind ?x _ = _ => destruct x as [m|] eqn:EM; [|discriminate S2] end.
      cbn [bind] in S2. injection S2 as S2. exists m. split; [congruence|first [exact EM|reflexivity]]. }
    destruct K1 as (m1 & -> & M1), K2 as (m2 & -> & M2).
    assert (HLen : forall d, In d ds -> List.length d = o_n o).
    { destruct (built_values _ _ _ _ _ (proj1 (ubuilt_obj E c A D [] u0 (conj (proj1 HU) (ex_intro _ u0 (conj HC0 eq_refl)))))) as (_ & HN0 & _).
      rewrite HN, <- HN0. clear - M1. revert m1 M1. induction ds as [|d ds IH]; intros m1 M1 d0 []; cbn in M1.
      - subst d0. destruct (Nat.eqb_spec (List.length d) (o_n (u_obj u0))); [assumption|discriminate M1].
      - destruct (negb _); [discriminate|]. cbn in M1. bindok M1. apply (IH _ eq_refl). assumption. }
    rewrite (mapM_spec_lists _ _ _ M1), (mapM_spec_lists _ _ _ M2).
    assert (HC : forall (l : list (list R)) (ss : list spec_arr), combine (map rnth l) ss = map (fun '(d, s) => (rnth d, s)) (combine l ss)).
    { clear. induction l as [|x l IH]; intros [|s ss]; cbn; try reflexivity. rewrite IH. reflexivity. }
    rewrite !HC, !map_map. 
    assert (HIn2 : Forall2 (fun '(d, s) '(d', s') => exists a b, a <> 0 /\
                 (forall i, (i < o_n o)%nat -> rnth d' i = a * rnth d i + b) /\
                 spec_at q' s' p' = a * spec_at q s p + b) (combine ds specs) (combine ds' specs')).
    { assert (HI : forall x, In x (combine ds specs) -> List.length (fst x) = o_n o) by (intros [d s] Hx; apply HLen; eapply in_combine_l; exact Hx).
      clear - HSU HI. induction HSU as [|[d s] [d' s'] l l' (a & b & Ha & Hb & Hc) _ IH]; constructor.
      - exists a, b. split; [exact Ha|]. split; [|exact Hc]. rewrite <- (HI (d, s) (or_introl eq_refl)). exact Hb.
      - apply IH. intros x Hx. apply HI. right; exact Hx. }
    clear - HIn2. induction HIn2 as [|[d s] [d' s'] l l' (a & b & Ha & Hb & Hc) _ IH]; cbn [map]; constructor; [|exact IH].
    exists a, b. split; [exact Ha|]. split; [exact Hb|exact Hc].
  - unfold fun_terms. rewrite HOb. fold o. unfold opt_drift, init_functional in F1, F2. destruct (asked D "functional"); [|injection F1 as <-; injection F2 as <-; constructor].
    destruct (d_fun D) as [fs|], (d_fun D') as [fs'|]; try contradiction OF; try discriminate F1.
    assert (K1 : dr_fun (u_drift u) = Some fs) by (destruct fs; cbn in F1; congruence).
    assert (K2 : dr_fun (u_drift u') = Some fs') by (destruct fs'; cbn in F2; congruence).
    rewrite K1, K2. cbn [opt_list]. clear - OF. induction OF as [|f f' l l' (a & b & Ha & Hb) _ IH]; cbn [map]; constructor; [|exact IH].
    apply (spatial_units _ o pos p p' _ _ a b Ha); intros; cbv zeta; apply Hb.
Qed.
