(** Universal kriging: moving the data and the drift together (C52). *)
From Coq Require Import String Permutation.
From Verif Require Import Base Sums Matrix M_Variogram M_Geometry S_Geometry P_Geometry M_Kriging S_Kriging M_Init M_Object
  M_Execute S_Execute P_Object P_Execute P_Cells P_Master P_Det P_OK P_Similar P_Binning P_Data P_Linear P_Exec2 P_Data2 P_Motion
  M_UK S_UK S_UK2 P_UK P_UK2 P_UK3 P_UK4 P_UK5
  S_State P_State P_State2 P_UK7 P_UK10 P_UK11 P_UK13 P_UK14.

Lemma umoved E c A coords D D' us (f : vec3 -> vec3) (Q : vec -> vec -> Prop) u u' :
  ubuilt E c A D us u -> ubuilt E c (with_data A coords (c_values A)) D' us u' -> ureachable E u ->
  (forall i, (i < List.length (c_values A))%nat -> input c (with_data A coords (c_values A)) i = f (input c A i)) ->
  Q (fun _ => 1) (fun _ => 0) -> (forall v, In v (c_v A :: us) -> update_Q E c Euclidean Q v) ->
  (forall sc an, Q sc an -> forall x y, sep_gen Euclidean (cdim c) sc an (f x) (f y) = sep_gen Euclidean (cdim c) sc an x y) ->
  moved Q (fun i => i) (u_obj u) (u_obj u') /\ (forall i, (i < o_n (u_obj u))%nat -> datum (u_obj u') i = f (datum (u_obj u) i)).
Proof.
  intros HU HU' HRe HI H10 HUQ Hsep.
  destruct (ubuilt_obj _ _ _ _ _ _ HU) as (HB & _). destruct (ubuilt_obj _ _ _ _ _ _ HU') as (HB' & _).
  set (o := u_obj u) in *. set (o' := u_obj u') in *.
  assert (HD := fun i => built_datum _ _ _ _ _ i HB). assert (HD' := fun i => built_datum _ _ _ _ _ i HB').
  pose proof HB as (HL & o0 & H & Ho). pose proof HB' as (HL' & o0' & H' & Ho').
  destruct (construct_orig _ _ _ _ H) as (C1 & O1 & V1 & N1 & M1 & S1).
  destruct (construct_orig _ _ _ _ H') as (C2 & O2 & V2 & N2 & M2 & S2). cbn [c_coords c_values with_data] in *.
  assert (HCT : o_ct o = o_ct o0) by (rewrite Ho; apply (after_updates_fixed E us o0)).
  assert (HNN : o_n o = o_n o0) by (rewrite Ho; apply (after_updates_fixed E us o0)).
  pose proof (uk_class_euclidean E u HRe) as Hct. fold o in Hct.
  assert (Hct0 : o_ct o0 = Euclidean) by congruence.
  assert (Hd0 : o_dim o0 = cdim c) by (unfold o_dim; rewrite C1; reflexivity).
  split.
  - rewrite Ho, Ho'. apply (built_moved E c A (with_data A coords (c_values A)) us); try assumption; try reflexivity; try exact I.
    + congruence.
    + split; auto.
    + intros i Hi. rewrite V1, V2. reflexivity.
    + rewrite Hct0. assumption.
    + intros sc an HQ i j Hi Hj. rewrite !(construct_datum _ _ _ _ _ H), !(construct_datum _ _ _ _ _ H').
      rewrite Hd0, Hct0, !HI by (rewrite <- M1; assumption). apply Hsep, HQ.
  - intros i Hi. rewrite HD, HD'. apply HI. rewrite <- M1, <- HNN. exact Hi.
Qed.

Theorem umotion E c A coords D D' us (f : vec3 -> vec3) (Q : vec -> vec -> Prop) u u' q q' specs specs' r r' p p' pos :
  ubuilt E c A D us u -> ubuilt E c (with_data A coords (c_values A)) D' us u' ->
  (forall i, (i < List.length (c_values A))%nat -> input c (with_data A coords (c_values A)) i = f (input c A i)) ->
  Q (fun _ => 1) (fun _ => 0) -> (forall v, In v (c_v A :: us) -> update_Q E c Euclidean Q v) ->
  (forall sc an, Q sc an -> forall x y, sep_gen Euclidean (cdim c) sc an (f x) (f y) = sep_gen Euclidean (cdim c) sc an x y) ->
  urun E u q specs r -> urun E u' q' specs' r' -> faithful_specs u q -> faithful_specs u' q' ->
  shown (u_obj u) q p pos -> shown (u_obj u') q' p' (f pos) -> uregular u q specs ->
  affine_rel (o_n (u_obj u)) (fun i => i) p p' pos (f pos) (drift_terms u q specs) (drift_terms u' q' specs') ->
  r_value r p = r_value r' p' /\ r_variance r p = r_variance r' p'.
Proof.
  intros HU HU' HI H10 HUQ Hsep HR HR' HF HF' HS HS' Hreg HT.
  destruct (umoved E c A coords D D' us f Q u u' HU HU' (proj1 (proj2 HR)) HI H10 HUQ Hsep) as [HM HD].
  pose proof (built_exact _ _ _ _ _ (proj1 (ubuilt_obj _ _ _ _ _ _ HU))) as X. pose proof (built_exact _ _ _ _ _ (proj1 (ubuilt_obj _ _ _ _ _ _ HU'))) as X'. cbn in X'.
  pose proof (uk_class_euclidean E u (proj1 (proj2 HR))) as Hct.
  pose proof (built_class _ _ _ _ _ (proj1 (ubuilt_obj _ _ _ _ _ _ HU))) as HC.
  destruct (ucompare E E u u' (fun i => i) q q' specs specs' r r' p p' pos (f pos) 1 1 0 (fun _ => 0) HR HR' HF HF' HS HS' Hreg) as (v & s & Hv & Hs & Hv' & Hs').
  - apply (mv_n _ _ _ _ HM).
  - apply perm_id.
  - lra.
  - intros i j Hi Hj. rewrite Rmult_1_l. apply (moved_G _ _ _ _ i j HM); assumption.
  - intros i Hi. rewrite Rmult_1_l. apply (moved_g _ _ _ _ pos (f pos) HM); [congruence| |exact Hi].
    intros k Hk. rewrite HD by exact Hk. rewrite !separation_gen, (moved_dim _ _ _ _ HM), (mv_ct _ _ _ _ HM), (mv_scaling _ _ _ _ HM), (mv_angle _ _ _ _ HM), Hct.
    unfold o_dim. rewrite HC. apply Hsep, (mv_Q _ _ _ _ HM).
  - exact HT.
  - intros i Hi. rewrite (mv_values _ _ _ _ HM) by exact Hi. rewrite bsum_0 by (intros; ring). ring.
  - rewrite Hv, Hs, Hv', Hs'. rewrite bsum_0 by (intros; ring). split; f_equal; ring.
Qed.

(** *** translation *)
Lemma amax_shift l t : amax_gen Rops (map (fun x => x + t) l) = option_map (fun m => m + t) (amax_gen Rops l).
Proof.
  destruct (amax_gen Rops l) as [m|] eqn:E.
  - apply amax_spec in E. apply amax_spec. destruct E as [E1 E2]. split; [apply (in_map (fun x => x + t)), E1|].
    intros v Hv. apply in_map_iff in Hv as (w & <- & Hw). specialize (E2 w Hw). cbn. lra.
  - destruct l; [reflexivity|discriminate].
Qed.
Lemma amin_shift l t : amin_gen Rops (map (fun x => x + t) l) = option_map (fun m => m + t) (amin_gen Rops l).
Proof.
  destruct (amin_gen Rops l) as [m|] eqn:E.
  - apply amin_spec in E. apply amin_spec. destruct E as [E1 E2]. split; [apply (in_map (fun x => x + t)), E1|].
    intros v Hv. apply in_map_iff in Hv as (w & <- & Hw). specialize (E2 w Hw). cbn. lra.
  - destruct l; [reflexivity|discriminate].
Qed.
Lemma center_shift l t c : center_of l = Ok c -> center_of (map (fun x => x + t) l) = Ok (c + t).
Proof.
  unfold center_of. rewrite amax_shift, amin_shift. destruct (amax_gen Rops l), (amin_gen Rops l); try discriminate.
  cbn. intros H. injection H as <-. f_equal. field.
Qed.

Lemma rnth_map_shift l t i : (i < List.length l)%nat -> rnth (map (fun x => x + t) l) i = rnth l i + t.
Proof.
  intros Hi. unfold rnth. rewrite (nth_indep _ 0 (0 + t)) by (rewrite map_length; exact Hi). apply (map_nth (fun x => x + t)).
Qed.

Lemma where_shift pr pr' l t : (forall g, pr' (g + t) = pr g) -> where_ pr' (map (fun x => x + t) l) = where_ pr l.
Proof.
  intros H. unfold where_. rewrite map_length. apply filter_ext_in. intros i Hi. apply in_seq in Hi.
  rewrite rnth_map_shift by lia. apply H.
Qed.
Lemma where_lt pr l i : In i (where_ pr l) -> (i < List.length l)%nat.
Proof. unfold where_. intros H. apply filter_In in H as [H _]. apply in_seq in H. lia. Qed.
Lemma last_in {X} (r : list X) i : In (last r i) (i :: r).
Proof.
  revert i. induction r as [|x r IH]; intros i; [left; reflexivity|]. destruct r as [|y r]; [right; left; reflexivity|].
  right. change (last (x :: y :: r) i) with (last (y :: r) i). replace (last (y :: r) i) with (last (y :: r) x); [apply IH|].
  clear. revert y. induction r as [|z r IH]; intros y; [reflexivity|]. change (last (z :: r) x = last (z :: r) i). apply IH.
Qed.
Lemma first_where_lt pr l i : first_where pr l = Ok i -> (i < List.length l)%nat.
Proof.
  unfold first_where. destruct (where_ pr l) as [|k r] eqn:E; [discriminate|]. intros H. injection H as <-.
  apply (where_lt pr l). rewrite E. left; reflexivity.
Qed.
Lemma last_where_lt pr l i : last_where pr l = Ok i -> (i < List.length l)%nat.
Proof.
  unfold last_where. destruct (where_ pr l) as [|k r] eqn:E; [discriminate|]. intros H. injection H as <-.
  apply (where_lt pr l). rewrite E. apply last_in.
Qed.
Lemma first_where_shift pr pr' l t : (forall g, pr' (g + t) = pr g) -> first_where pr' (map (fun x => x + t) l) = first_where pr l.
Proof. intros H. unfold first_where. rewrite (where_shift pr pr' l t H). reflexivity. Qed.
Lemma last_where_shift pr pr' l t : (forall g, pr' (g + t) = pr g) -> last_where pr' (map (fun x => x + t) l) = last_where pr l.
Proof. intros H. unfold last_where. rewrite (where_shift pr pr' l t H). reflexivity. Qed.

Lemma Rleb_shift a b t : Rleb (a + t) (b + t) = Rleb a b.
Proof. destruct (Rleb_spec a b), (Rleb_spec (a + t) (b + t)); try reflexivity; exfalso; lra. Qed.
Lemma Rltb_shift a b t : Rltb (a + t) (b + t) = Rltb a b.
Proof. destruct (Rltb_spec a b), (Rltb_spec (a + t) (b + t)); try reflexivity; exfalso; lra. Qed.

Lemma zscalar_shift arr ex ey x y a b :
  zscalar arr (map (fun x => x + a) ex) (map (fun y => y + b) ey) (x + a) (y + b) = zscalar arr ex ey x y.
Proof.
  unfold zscalar. rewrite !amax_shift, !amin_shift.
  destruct (amax_gen Rops ex) as [xM|]; [|reflexivity]. destruct (amin_gen Rops ex) as [xm|]; [|reflexivity].
  destruct (amax_gen Rops ey) as [yM|]; [|reflexivity]. destruct (amin_gen Rops ey) as [ym|]; [|reflexivity].
  cbn [option_map]. cbn [Rops num] in *. rewrite !Rltb_shift. destruct (_ || _); [reflexivity|].
  rewrite (first_where_shift (fun g => Rleb x g) (fun g => Rleb (x + a) g)) by (intros; apply Rleb_shift).
  rewrite (last_where_shift (fun g => Rleb g x) (fun g => Rleb g (x + a))) by (intros; apply Rleb_shift).
  rewrite (first_where_shift (fun g => Rleb y g) (fun g => Rleb (y + b) g)) by (intros; apply Rleb_shift).
  rewrite (last_where_shift (fun g => Rleb g y) (fun g => Rleb g (y + b))) by (intros; apply Rleb_shift).
  destruct (first_where (fun g => Rleb x g) ex) as [x2|] eqn:E1; [|reflexivity]. destruct (last_where (fun g => Rleb g x) ex) as [x1|] eqn:E2; [|reflexivity].
  destruct (first_where (fun g => Rleb y g) ey) as [y2|] eqn:E3; [|reflexivity]. destruct (last_where (fun g => Rleb g y) ey) as [y1|] eqn:E4; [|reflexivity].
  cbn [bind]. rewrite !rnth_map_shift by (eauto using first_where_lt, last_where_lt).
  assert (HS : forall u v w, u + w - (v + w) = u - v) by (intros; ring). rewrite !HS. reflexivity.
Qed.
Lemma ext_at_shift arr ex ey pos t : ext_at arr (map (fun x => x + coord 0 t) ex) (map (fun y => y + coord 1 t) ey) (add3 pos t) = ext_at arr ex ey pos.
Proof.
  unfold ext_at. replace (coord 0 (add3 pos t)) with (coord 0 pos + coord 0 t) by (destruct pos as [[? ?] ?], t as [[? ?] ?]; reflexivity).
  replace (coord 1 (add3 pos t)) with (coord 1 pos + coord 1 t) by (destruct pos as [[? ?] ?], t as [[? ?] ?]; reflexivity).
  rewrite zscalar_shift. reflexivity.
Qed.

Lemma coord_add k x t : coord k (add3 x t) = coord k x + coord k t.
Proof. destruct x as [[a b] c], t as [[u v] w]. destruct k as [|[|k]]; reflexivity. Qed.

(** the centre moves along *)
Lemma centers_shift E c A coords D D' us t u u' :
  ubuilt E c A D us u -> ubuilt E c (with_data A coords (c_values A)) D' us u' -> ureachable E u -> ureachable E u' ->
  (forall i, (i < List.length (c_values A))%nat -> input c (with_data A coords (c_values A)) i = add3 (input c A i) t) ->
  forall k, (k < cdim c)%nat -> o_center (u_obj u') k = o_center (u_obj u) k + coord k t.
Proof.
  intros HU HU' HRe HRe' HI k Hk.
  destruct (ubuilt_obj _ _ _ _ _ _ HU) as (HB & _). destruct (ubuilt_obj _ _ _ _ _ _ HU') as (HB' & _).
  pose proof (built_based _ _ _ _ _ HB) as B. pose proof (built_based _ _ _ _ _ HB') as B'.
  pose proof (ba_center _ _ _ B) as K. pose proof (ba_center _ _ _ B') as K'.
  rewrite (uk_class_euclidean E u HRe) in K. rewrite (uk_class_euclidean E u' HRe') in K'.
  destruct K as (cs & K & ->), K' as (cs' & K' & ->). cbn [c_coords with_data] in K'.
  assert (HL := proj1 HB). assert (HL' := proj1 HB'). cbn [c_coords with_data] in HL'.
  pose proof (ba_len _ _ _ B) as S1. pose proof (ba_len _ _ _ B') as S2. cbn [c_coords with_data] in S2.
  pose proof (ba_n _ _ _ B) as N1. pose proof (ba_n _ _ _ B') as N2. cbn [c_coords with_data] in N2.
  pose proof (ba_nvalues _ _ _ B) as V1. pose proof (ba_nvalues _ _ _ B') as V2. cbn [c_values with_data] in V2.
  assert (HCol : nth k coords [] = map (fun x => x + coord k t) (nth k (c_coords A) [])).
  { assert (LK : List.length (nth k (c_coords A) []) = List.length (c_values A)).
    { rewrite (same_length_nth _ k S1) by lia. congruence. }
    assert (LK' : List.length (nth k coords []) = List.length (c_values A)).
    { rewrite (same_length_nth _ k S2) by lia. congruence. }
    apply (nth_ext _ _ 0 0); [rewrite map_length; congruence|]. intros i Hi. change (rnth (nth k coords []) i = rnth (map (fun x => x + coord k t) (nth k (c_coords A) [])) i).
    rewrite LK' in Hi. rewrite rnth_map_shift by lia. specialize (HI i Hi). apply (f_equal (coord k)) in HI. rewrite coord_add in HI.
    unfold input in HI. cbn [c_coords with_data] in HI. clear - HI Hk. destruct (cdim_cases c) as [Hc|Hc]; rewrite Hc in *; unfold loc in HI; cbn [Nat.eqb] in HI.
    - destruct k as [|[|k]]; [exact HI|exact HI|lia].
    - destruct k as [|[|[|k]]]; [exact HI|exact HI|exact HI|lia]. }
  assert (H1 : (k < List.length (c_coords A))%nat) by lia. assert (H2 : (k < List.length coords)%nat) by lia.
  set (tt := coord k t) in *. clearbody tt. clear - K K' HCol H1 H2. revert coords cs cs' k K K' HCol H1 H2. generalize (c_coords A).
  intros l. induction l as [|x l IH]; intros coords cs cs' k K K' HCol H1 H2; [cbn in H1; lia|].
  destruct coords as [|y coords]; [cbn in H2; lia|]. cbn [mapM] in K, K'. bindok K. bindok K. bindok K'. bindok K'. injection K as <-. injection K' as <-.
  destruct k as [|k].
  - cbn [nth] in HCol. subst y. cbn. rewrite (center_shift x tt a ltac:(assumption)) in *. congruence.
  - cbn [nth] in HCol. cbn. cbn in H1, H2. eapply IH; try eassumption; solve [reflexivity|lia].
Qed.

Lemma frame_shift o o' t p : o_class o' = o_class o -> o_scaling o' = o_scaling o -> o_angle o' = o_angle o ->
  (forall k, (k < o_dim o)%nat -> o_center o' k = o_center o k + coord k t) -> (o_dim o = 2%nat -> snd t = 0) ->
  frame o' (add3 p t) = add3 (frame o p) t.
Proof.
  intros Hc Hs Ha Hce H2. unfold frame. replace (o_dim o') with (o_dim o) by (unfold o_dim; rewrite Hc; reflexivity). rewrite Hs, Ha.
  assert (HC : center3 o' = add3 (center3 o) t).
  { unfold center3. replace (o_dim o') with (o_dim o) by (unfold o_dim; rewrite Hc; reflexivity). destruct t as [[t0 t1] t2].
    destruct (o_dim_cases o) as [E|E]; rewrite E in *; unfold loc; cbn [Nat.eqb].
    - rewrite !Hce by lia. cbn in H2 |- *. rewrite (H2 eq_refl). f_equal; ring.
    - rewrite !Hce by lia. reflexivity. }
  rewrite HC, sub3_shift. destruct (center3 o) as [[a b] c], t as [[t0 t1] t2].
  destruct (if Nat.eqb (o_dim o) 3 then _ else _) as [[v0 v1] v2]. cbn. f_equal; [f_equal|]; ring.
Qed.

(** specified drifts: the same values at the data and at the cell *)
Lemma spec_shift n u u' q q' specs specs' p p' pos pos' : dr_spec (u_drift u') = dr_spec (u_drift u) ->
  specs_agree u q q' specs specs' p p' ->
  Forall2 (shift_rel n (fun i => i) p p' pos pos') (spec_terms u q specs) (spec_terms u' q' specs').
Proof.
  intros HE HA. unfold spec_terms. rewrite HE. unfold specs_agree in HA. destruct (dr_spec (u_drift u)) as [ds|]; [|constructor].
  specialize (HA ltac:(discriminate)). clear HE. revert specs specs' HA. induction ds as [|d ds IH]; intros [|s specs] [|s' specs'] HA; try discriminate HA; try constructor.
  - exists 0. cbn [t_data t_query]. cbn in HA. injection HA as HA _. rewrite HA. split; [intros; ring|ring].
  - apply IH. cbn in HA. injection HA as _ HA. exact HA.
Qed.

(** spatial terms *)
Lemma spatial_shift n (f : vec3 -> vec3) o o' p p' pos (h h' : vec3 -> R) d :
  (forall i, (i < n)%nat -> datum o' i = f (datum o i)) -> (forall x, h' (f x) = h x + d) ->
  shift_rel n (fun i => i) p p' pos (f pos) (spatial o h) (spatial o' h').
Proof. intros HD HH. exists d. cbn [spatial t_data t_query]. split; [intros i Hi; rewrite HD by exact Hi; apply HH|apply HH]. Qed.

Lemma plane_dist_shift x t wx wy : plane_dist (add3 x t) (wx + coord 0 t) (wy + coord 1 t) = plane_dist x wx wy.
Proof. unfold plane_dist. rewrite !coord_add. f_equal. unfold Rsqr. f_equal; ring. Qed.

Lemma wells_frame D o ws : o_dim o = 2%nat -> o_ct o = Euclidean -> init_wells D o = Ok ws ->
  exists rows, d_point D = Some (false, rows) /\
    ws = map (fun '(x, y, s) => (coord 0 (frame o (x, y, 0)), coord 1 (frame o (x, y, 0)), s)) rows.
Proof.
  intros Hd Hct Ha. unfold init_wells in Ha. destruct (d_point D) as [[it rows]|]; [|discriminate Ha].
  destruct rows as [|r0 rows]; [discriminate Ha|].
  remember (r0 :: rows) as rs eqn:Ers. cbv zeta in Ha. bindok Ha. injection Ha as <-.
  destruct it; [unfold adjust_for_anisotropy in *; cbn in *; discriminate|]. exists rs. split; [reflexivity|].
  match goal with HQ : adjust_for_anisotropy _ _ _ _ _ _ = Ok ?Q |- _ => rename HQ into HQ0; rename Q into QQ end.
  rewrite <- Hd in HQ0.
  set (g := fun '(x, y, s) => (coord 0 (frame o (x, y, 0)), coord 1 (frame o (x, y, 0)), s)).
  rewrite <- (map_seq_nth g (0, 0, 0) rs). apply map_ext. intros i.
  destruct (frame_coord o _ _ Hct HQ0 i) as [F1 _]. rewrite Hd in F1. rewrite (F1 0%nat), (F1 1%nat) by lia.
  unfold loc_of, loc; cbn [Nat.eqb]. unfold g. destruct (nth i rs (0, 0, 0)) as [[x y] z]. reflexivity.
Qed.

Theorem uk_translation E c A coords D us t u u' q q' specs specs' r r' p p' pos :
  ubuilt E c A D us u -> ubuilt E c (with_data A coords (c_values A)) (translate t D) us u' ->
  (forall i, (i < List.length (c_values A))%nat -> input c (with_data A coords (c_values A)) i = add3 (input c A i) t) ->
  urun E u q specs r -> urun E u' q' specs' r' -> faithful_specs u q -> faithful_specs u' q' ->
  shown (u_obj u) q p pos -> shown (u_obj u') q' p' (add3 pos t) -> uregular u q specs -> specs_agree u q q' specs specs' p p' ->
  r_value r p = r_value r' p' /\ r_variance r p = r_variance r' p'.
Proof.
  intros HU HU' HI HR HR' HF HF' HS HS' Hreg HSA.
  assert (Hsep : forall sc an, True -> forall x y, sep_gen Euclidean (cdim c) sc an (add3 x t) (add3 y t) = sep_gen Euclidean (cdim c) sc an x y).
  { intros sc an _ x y. unfold sep_gen. rewrite !sub3_shift. reflexivity. }
  destruct (umoved E c A coords D (translate t D) us (fun x => add3 x t) (fun _ _ => True) u u' HU HU' (proj1 (proj2 HR)) HI I
             (fun _ _ => update_Q_true _ _ _ _) Hsep) as [HM HD].
  pose proof (centers_shift E c A coords D (translate t D) us t u u' HU HU' (proj1 (proj2 HR)) (proj1 (proj2 HR')) HI) as HCe.
  pose proof (built_class _ _ _ _ _ (proj1 (ubuilt_obj _ _ _ _ _ _ HU))) as HC.
  assert (Hdim : o_dim (u_obj u) = cdim c) by (unfold o_dim; rewrite HC; reflexivity).
  assert (H2 : cdim c = 2%nat -> snd t = 0).
  { intros E2. destruct HS as [C _], HS' as [C' _]. pose proof (moved_dim _ _ _ _ HM) as Hd'. rewrite Hd', Hdim, E2 in C'. rewrite Hdim, E2 in C.
    apply cell_in_dim in C. apply cell_in_dim in C'. destruct pos as [[? ?] z], t as [[? ?] t2]. specialize (C eq_refl). specialize (C' eq_refl). cbn in C, C' |- *. lra. }
  assert (HFr : forall x, frame (u_obj u') (add3 x t) = add3 (frame (u_obj u) x) t).
  { intros x. apply frame_shift; try apply HM; rewrite ?Hdim; assumption. }
  revert HR HR' HF HF' HS HS' Hreg.
  intros HR HR' HF HF' HS HS' Hreg.
  apply (umotion E c A coords D (translate t D) us (fun x => add3 x t) (fun _ _ => True) u u' q q' specs specs' r r' p p' pos); try assumption; try exact I.
  { intros; apply update_Q_true. }
  destruct (ubuilt_obj _ _ _ _ _ _ HU) as (_ & u0 & HC0 & Hd & HC0' & HIn). destruct (ubuilt_obj _ _ _ _ _ _ HU') as (_ & u0' & HD0 & Hd' & HD0' & HIn').
  set (o := u_obj u) in *. set (o' := u_obj u') in *.
  destruct (init_drift_fields _ _ _ _ HIn) as (L1 & E1 & W1 & S1 & F1). destruct (init_drift_fields _ _ _ _ HIn') as (L2 & E2 & W2 & S2 & F2).
  change (asked (translate t D)) with (asked D) in *. rewrite <- Hd in L1, E1, W1, S1, F1. rewrite <- Hd' in L2, E2, W2, S2, F2.
  assert (HB0 : ubuilt E c A D [] u0) by (split; [apply HU|exists u0; split; [exact HC0|reflexivity]]).
  assert (HB0' : ubuilt E c (with_data A coords (c_values A)) (translate t D) [] u0') by (split; [apply HU'|exists u0'; split; [exact HD0|reflexivity]]).
  assert (HUK : c = UK2 \/ c = UK3) by (rewrite <- HC; apply (ui_class u (ureachable_inv E u (proj1 (proj2 HR))))).
  pose proof (ubuilt_reachable E c A D [] u0 HUK HB0) as RE0. pose proof (ubuilt_reachable _ _ _ _ _ _ HUK HB0') as RE0'.
  assert (HM0 : moved (fun _ _ => True) (fun i => i) (u_obj u0) (u_obj u0')).
  { apply (umoved E c A coords D (translate t D) [] (fun x => add3 x t) (fun _ _ => True) u0 u0' HB0 HB0' RE0 HI I
             (fun _ _ => update_Q_true _ _ _ _) Hsep). }
  pose proof (centers_shift E c A coords D (translate t D) [] t u0 u0' HB0 HB0' RE0 RE0' HI) as HCe0.
  pose proof (uk_class_euclidean E u0 RE0) as Hct0. pose proof (uk_class_euclidean E u0' RE0') as Hct0'.
  pose proof (built_class _ _ _ _ _ (proj1 (ubuilt_obj _ _ _ _ _ _ HB0))) as HCl0. pose proof (built_class _ _ _ _ _ (proj1 (ubuilt_obj _ _ _ _ _ _ HB0'))) as HCl0'.
  apply affine_rel_shift. unfold drift_terms. repeat apply Forall2_app.
  - unfold linear_terms. rewrite L1, L2. destruct (asked D "regional_linear"); [|constructor]. fold o o'. rewrite (moved_dim _ _ _ _ HM).
    induction (seq 0 (o_dim o)) as [|k l IHl]; cbn [map]; [constructor|constructor; [|exact IHl]].
    apply (spatial_shift (o_n o) (fun x => add3 x t) o o' p p' pos _ _ (coord k t) HD). intros x. rewrite HFr. apply coord_add.
  - assert (HWs : dr_wells (u_drift u') = option_map (map (fun '(x, y, s) => (x + coord 0 t, y + coord 1 t, s))) (dr_wells (u_drift u))).
    { unfold opt_drift in W1, W2. destruct (_ && asked D "point_log") eqn:EP; [|injection W1 as <-; injection W2 as <-; reflexivity].
      destruct (init_wells D (u_obj u0)) as [w1|] eqn:Q1; [|discriminate W1]. destruct (init_wells (translate t D) (u_obj u0')) as [w2|] eqn:Q2; [|discriminate W2].
      cbn in W1, W2. injection W1 as <-. injection W2 as <-. cbn [option_map]. f_equal.
      destruct c; try discriminate EP.
      destruct (wells_frame D (u_obj u0) w1) as (rows & P1 & ->); [unfold o_dim; rewrite HCl0; reflexivity|exact Hct0|exact Q1|].
      destruct (wells_frame (translate t D) (u_obj u0') w2) as (rows' & P2 & ->); [unfold o_dim; rewrite HCl0'; reflexivity|exact Hct0'|exact Q2|].
      cbn [translate d_point] in P2. rewrite P1 in P2. cbn in P2. injection P2 as <-. rewrite !map_map. apply map_ext. intros [[x y] s].
      assert (HE : frame (u_obj u0') (x + coord 0 t, y + coord 1 t, 0) = add3 (frame (u_obj u0) (x, y, 0)) t).
      { rewrite <- (frame_shift (u_obj u0) (u_obj u0') t); [|apply HM0|apply HM0|apply HM0| |].
        - f_equal. specialize (H2 eq_refl). destruct t as [[t0 t1] t2]. cbn in H2 |- *. rewrite H2. f_equal. ring.
        - unfold o_dim. rewrite HCl0. exact HCe0.
        - unfold o_dim. rewrite HCl0. exact H2. }
      cbv beta iota. change (fst (fst t)) with (coord 0 t). change (snd (fst t)) with (coord 1 t). rewrite HE, !coord_add. reflexivity. }
    unfold well_terms. rewrite HWs. destruct (dr_wells (u_drift u)) as [ws|]; [|constructor]. cbn [option_map opt_list].
    clear HWs W1. induction ws as [|[[wx wy] st] ws IHw]; cbn [map]; [constructor|constructor; [|exact IHw]].
    apply (spatial_shift (o_n o) (fun x => add3 x t) o o' p p' pos _ _ 0 HD). intros x. fold o o'. rewrite HFr, plane_dist_shift. ring.
  - unfold ext_terms.
    assert (HEx : option_map (fun x => fst x) (dr_ext (u_drift u')) =
      option_map (fun '(arr, ex, ey) => (arr, map (fun x => x + coord 0 t) ex, map (fun y => y + coord 1 t) ey)) (option_map (fun x => fst x) (dr_ext (u_drift u)))).
    { unfold opt_drift in E1, E2. destruct (_ && asked D "external_Z"); [|injection E1 as <-; injection E2 as <-; reflexivity].
      destruct (init_external D (u_obj u0)) as [w1|] eqn:K1; [|discriminate E1]. destruct (init_external (translate t D) (u_obj u0')) as [w2|] eqn:K2; [|discriminate E2].
      cbn in E1, E2. injection E1 as <-. injection E2 as <-. cbn [option_map]. f_equal.
      unfold init_external in K1, K2. cbn [translate d_ext d_ext_x d_ext_y] in K2.
      destruct (d_ext D) as [[[rows cols] f]|]; [|discriminate]. destruct (d_ext_x D) as [ex|], (d_ext_y D) as [ey|]; try discriminate.
      cbn [option_map] in K2. rewrite !map_length in K2.
      match type of K1 with bind ?x _ = _ => destruct x as [arr|] eqn:EA; [|discriminate K1] end. cbn [bind] in K1, K2.
      bindok K1. bindok K2. injection K1 as <-. injection K2 as <-. reflexivity. }
    destruct (dr_ext (u_drift u)) as [[[[arr ex] ey] zz]|], (dr_ext (u_drift u')) as [[[[arr' ex'] ey'] zz']|]; try discriminate HEx; [|constructor].
    cbn in HEx. injection HEx as -> -> ->. constructor; [|constructor].
    apply (spatial_shift (o_n o) (fun x => add3 x t) o o' p p' pos _ _ 0 HD). intros x. etransitivity; [exact (ext_at_shift arr ex ey x t)|ring].
  - apply spec_shift; [|exact HSA]. unfold opt_drift in S1, S2. 
    replace (init_specified (translate t D) (u_obj u0')) with (init_specified D (u_obj u0)) in S2; [congruence|].
    unfold init_specified. cbn [translate d_spec]. rewrite (mv_n _ _ _ _ HM0). reflexivity.
  - unfold fun_terms.
    assert (HFs : dr_fun (u_drift u') = option_map (map (fun (f : R -> R -> R -> R) x y z => f (x - coord 0 t) (y - coord 1 t) (z - coord 2 t))) (dr_fun (u_drift u))).
    { unfold opt_drift, init_functional in F1, F2. cbn [translate d_fun] in F2. destruct (asked D "functional"); [|injection F1 as <-; injection F2 as <-; reflexivity].
      destruct (d_fun D) as [[|f fs]|]; cbn in F1, F2; try discriminate. injection F1 as <-. injection F2 as <-. reflexivity. }
    rewrite HFs. destruct (dr_fun (u_drift u)) as [fs|]; [|constructor]. cbn [option_map opt_list].
    clear HFs F1. induction fs as [|f fs IHf]; cbn [map]; [constructor|constructor; [|exact IHf]].
    apply (spatial_shift (o_n o) (fun x => add3 x t) o o' p p' pos _ _ 0 HD). intros x. fold o o'. cbv zeta. rewrite HFr, !coord_add.
    replace (coord 0 (frame o x) + coord 0 t - coord 0 t) with (coord 0 (frame o x)) by ring.
    replace (coord 1 (frame o x) + coord 1 t - coord 1 t) with (coord 1 (frame o x)) by ring.
    replace (coord 2 (frame o x) + coord 2 t - coord 2 t) with (coord 2 (frame o x)) by ring. ring.
Qed.
