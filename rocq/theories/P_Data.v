(** Proofs: objects built from related data (permuted, moved) are related, whatever
    sequence of update_variogram_model calls follows. *)
From Coq Require Import String Permutation.
From Verif Require Import Base Sums Matrix M_Variogram P_Variogram M_Geometry S_Geometry P_Geometry M_Kriging S_Kriging
  P_Kriging P_OKSpec M_Init M_Object M_Execute S_Execute P_Object P_Execute P_Cells P_Window P_WindowExec P_Master P_Det P_OK P_Similar P_Binning.

Definition sep_gen (ct : coord_type) (dim : nat) (sc an : vec) (p q : vec3) : R :=
  match ct with
  | Geographic => great_circle_distance (lon p) (lat p) (lon q) (lat q)
  | Euclidean =>
      if Nat.eqb dim 3
      then aniso3 (sc 0%nat) (sc 1%nat) (an 0%nat) (an 1%nat) (an 2%nat) (sub3 p q)
      else aniso2 (sc 0%nat) (an 0%nat) (sub3 p q)
  end.
Lemma separation_gen o : separation o = sep_gen (o_ct o) (o_dim o) (o_scaling o) (o_angle o).
Proof. reflexivity. Qed.

Record moved (Q : vec -> vec -> Prop) (s : nat -> nat) (o o' : obj) : Prop := {
  mv_class : o_class o' = o_class o; mv_ct : o_ct o' = o_ct o;
  mv_fun : o_fun o' = o_fun o; mv_params : o_params o' = o_params o; mv_n : o_n o' = o_n o;
  mv_scaling : o_scaling o' = o_scaling o; mv_angle : o_angle o' = o_angle o;
  mv_perm : perm_on (o_n o) s;
  mv_values : forall i, (i < o_n o)%nat -> o_values o' i = o_values o (s i);
  mv_inv : coords_inv o; mv_inv' : coords_inv o';
  mv_Q : Q (o_scaling o) (o_angle o);
  mv_sep : forall sc an, Q sc an -> forall i j, (i < o_n o)%nat -> (j < o_n o)%nat ->
    sep_gen (o_ct o) (o_dim o) sc an (datum o' i) (datum o' j) =
    sep_gen (o_ct o) (o_dim o) sc an (datum o (s i)) (datum o (s j)) }.

Lemma moved_dim Q s o o' : moved Q s o o' -> o_dim o' = o_dim o.
Proof. intros H. unfold o_dim. rewrite (mv_class _ _ _ _ H). reflexivity. Qed.

Lemma moved_separation Q s o o' i j : moved Q s o o' -> (i < o_n o)%nat -> (j < o_n o)%nat ->
  separation o' (datum o' i) (datum o' j) = separation o (datum o (s i)) (datum o (s j)).
Proof.
  intros H Hi Hj. rewrite !separation_gen, (moved_dim _ _ _ _ H).
  rewrite (mv_ct _ _ _ _ H), (mv_scaling _ _ _ _ H), (mv_angle _ _ _ _ H). apply (mv_sep _ _ _ _ H); try assumption.
  apply (mv_Q _ _ _ _ H).
Qed.

Lemma moved_G Q s o o' i j : moved Q s o o' -> (i < o_n o)%nat -> (j < o_n o)%nat -> G_of o' i j = G_of o (s i) (s j).
Proof.
  intros H Hi Hj. unfold G_of, data_semivariance, o_vg. rewrite (mv_fun _ _ _ _ H), (mv_params _ _ _ _ H).
  rewrite (moved_separation Q s o o') by assumption.
  destruct (Nat.eqb_spec i j) as [->|Hne]; [rewrite Nat.eqb_refl; reflexivity|].
  destruct (Nat.eqb_spec (s i) (s j)) as [He|]; [|reflexivity]. apply (mv_perm _ _ _ _ H) in He; auto. contradiction.
Qed.

Lemma moved_pair_data Q s o o' : moved Q s o o' ->
  Permutation (pair_data (o_ct o') (o_dim o') (o_n o') (o_adj o') (o_values o'))
              (pair_data (o_ct o) (o_dim o) (o_n o) (o_adj o) (o_values o)).
Proof.
  intros H. rewrite (mv_ct _ _ _ _ H), (mv_n _ _ _ _ H), (moved_dim _ _ _ _ H).
  apply (pair_data_perm _ _ _ s); [apply (mv_perm _ _ _ _ H)| |intros; apply distance_sym|apply (mv_values _ _ _ _ H)].
  intros i j Hi Hj.
  pose proof (data_distances_sep o' i j (mv_inv' _ _ _ _ H)) as H1. unfold data_distances in H1.
  rewrite (mv_ct _ _ _ _ H), (moved_dim _ _ _ _ H) in H1. rewrite H1.
  pose proof (data_distances_sep o (s i) (s j) (mv_inv _ _ _ _ H)) as H2. unfold data_distances in H2. rewrite H2.
  apply (moved_separation Q s o o'); assumption.
Qed.

Lemma moved_set_model Q s o o' m : moved Q s o o' -> moved Q s (set_model o m) (set_model o' m).
Proof. intros []. constructor; assumption. Qed.
Lemma moved_set_fun Q s o o' m : moved Q s o o' -> moved Q s (set_fun o m) (set_fun o' m).
Proof. intros []. constructor; try assumption. reflexivity. Qed.
Lemma moved_set_variogram Q s o o' l g p : moved Q s o o' -> moved Q s (set_variogram o l g p) (set_variogram o' l g p).
Proof. intros []. constructor; try assumption. reflexivity. Qed.
Lemma moved_set_stats Q s o o' x y : moved Q s o o' -> moved Q s (set_stats o x) (set_stats o' y).
Proof. intros []. constructor; assumption. Qed.
Lemma moved_set_aniso Q s o o' sc an adj adj' : moved Q s o o' -> Q sc an -> o_ct o = Euclidean ->
  adjust_for_anisotropy false (o_dim o) (o_orig o) (o_center o) sc an = Ok adj ->
  adjust_for_anisotropy false (o_dim o') (o_orig o') (o_center o') sc an = Ok adj' ->
  moved Q s (set_aniso o sc an adj) (set_aniso o' sc an adj').
Proof.
  intros H HQ Hct Ha Ha'. constructor; try apply H; try reflexivity; try assumption.
  - unfold coords_inv. cbn -[adjust_for_anisotropy]. rewrite Hct. exact Ha.
  - unfold coords_inv. cbn -[adjust_for_anisotropy]. rewrite (mv_ct _ _ _ _ H), Hct. exact Ha'.
Qed.
Lemma moved_set_aniso_geo Q s o o' : moved Q s o o' -> Q (fun _ => 1) (fun _ => 0) -> o_ct o = Geographic ->
  moved Q s (set_aniso o (fun _ => 1) (fun _ => 0) (o_orig o)) (set_aniso o' (fun _ => 1) (fun _ => 0) (o_orig o')).
Proof.
  intros H HQ Hct.
  assert (A : forall x, o_ct x = Geographic -> coords_inv x -> coords_inv (set_aniso x (fun _ => 1) (fun _ => 0) (o_orig x))).
  { intros x Hx Hinv. unfold coords_inv in *. cbn -[adjust_for_anisotropy]. rewrite Hx in *. tauto. }
  constructor; try apply H; try reflexivity; try assumption; apply A; try apply H; try assumption.
  rewrite (mv_ct _ _ _ _ H). exact Hct.
Qed.

(** anisotropy requested by an update *)
Definition update_Q (E : env) (c : kclass) (ct : coord_type) (Q : vec -> vec -> Prop) (v : vargs) : Prop :=
  forall name prm fn sc an, resolve_gs E c (ct_name ct) v = Ok (name, prm, fn, sc, an) -> Q sc an.

Lemma update_moved E Q s o o' v : moved Q s o o' -> Q (fun _ => 1) (fun _ => 0) -> update_Q E (o_class o) (o_ct o) Q v ->
  moved Q s (fst (update_variogram_model E o v)) (fst (update_variogram_model E o' v)).
Proof.
  intros H H10 HU. unfold update_variogram_model.
  assert (Hc := mv_class _ _ _ _ H). assert (Ht := mv_ct _ _ _ _ H).
  change (o_ct (set_model o' (a_model v))) with (o_ct o'). change (o_ct (set_model o (a_model v))) with (o_ct o).
  rewrite Hc, Ht. specialize (HU). unfold update_Q in HU.
  destruct (resolve_gs E (o_class o) (ct_name (o_ct o)) v) as [[[[[name prm] fn] sc] an]|e]; [|apply moved_set_model, H].
  specialize (HU _ _ _ _ _ eq_refl).
  destruct (resolve_fun name fn) as [f|e]; [|apply moved_set_model, moved_set_model, H].
  assert (H1 : moved Q s (set_fun (set_model (set_model o (a_model v)) (VName name)) f)
                         (set_fun (set_model (set_model o' (a_model v)) (VName name)) f))
    by apply moved_set_fun, moved_set_model, moved_set_model, H.
  set (o1 := set_fun (set_model (set_model o (a_model v)) (VName name)) f) in *.
  set (o1' := set_fun (set_model (set_model o' (a_model v)) (VName name)) f) in *.
  (* after the anisotropy part *)
  assert (Hrest : forall o2 o2', moved Q s o2 o2' ->
    moved Q s
     (fst (match make_parameter_list name prm with
        | Err e => (o2, Some e)
        | Ok vp =>
          match initialize_variogram_model (e_fit E) (o_ct o2) (o_dim o2) (o_n o2) (o_adj o2)
                  (o_n o2) (o_values o2) name vp (o_fun o2) (a_nlags v) (a_weight v) with
          | Err e => (o2, Some e)
          | Ok (lags, semivariance, params) =>
            let o := set_variogram o2 lags semivariance params in
            match all_statistics (e_la E) (o_ct o) (o_dim o2) (o_n o) (o_adj o) (o_values o)
                    (o_vg o) (o_pinv o) with
            | Err e => (o, Some e)
            | Ok s => (set_stats o (Some s), None)
            end
          end
        end))
     (fst (match make_parameter_list name prm with
        | Err e => (o2', Some e)
        | Ok vp =>
          match initialize_variogram_model (e_fit E) (o_ct o2') (o_dim o2') (o_n o2') (o_adj o2')
                  (o_n o2') (o_values o2') name vp (o_fun o2') (a_nlags v) (a_weight v) with
          | Err e => (o2', Some e)
          | Ok (lags, semivariance, params) =>
            let o := set_variogram o2' lags semivariance params in
            match all_statistics (e_la E) (o_ct o) (o_dim o2') (o_n o) (o_adj o) (o_values o)
                    (o_vg o) (o_pinv o) with
            | Err e => (o, Some e)
            | Ok s => (set_stats o (Some s), None)
            end
          end
        end))).
  { intros o2 o2' H2. destruct (make_parameter_list name prm) as [vp|e]; [|exact H2].
    pose proof (moved_pair_data Q s o2 o2' H2) as HP.
    assert (HI : initialize_variogram_model (e_fit E) (o_ct o2') (o_dim o2') (o_n o2') (o_adj o2')
                  (o_n o2') (o_values o2') name vp (o_fun o2') (a_nlags v) (a_weight v) =
                 initialize_variogram_model (e_fit E) (o_ct o2) (o_dim o2) (o_n o2) (o_adj o2)
                  (o_n o2) (o_values o2) name vp (o_fun o2) (a_nlags v) (a_weight v)).
    { rewrite (mv_ct _ _ _ _ H2), (mv_n _ _ _ _ H2), (moved_dim _ _ _ _ H2), (mv_fun _ _ _ _ H2) in *.
      apply initialize_perm; [reflexivity|exact HP]. }
    rewrite HI.
    destruct (initialize_variogram_model (e_fit E) (o_ct o2) (o_dim o2) (o_n o2) (o_adj o2)
                  (o_n o2) (o_values o2) name vp (o_fun o2) (a_nlags v) (a_weight v)) as [[[lags sv] params]|e]; [|exact H2].
    cbv zeta. assert (H3 := moved_set_variogram Q s o2 o2' lags sv params H2).
    destruct (all_statistics _ _ _ _ _ _ _ _), (all_statistics _ _ _ _ _ _ _ _); cbn [fst];
      try apply moved_set_stats; try exact H3.
    - destruct H3. constructor; assumption.
    - destruct H3. constructor; assumption. }
  assert (Hd1 : o_dim o1' = o_dim o1) by (apply (moved_dim Q s), H1).
  change (o_scaling o1') with (o_scaling o'). change (o_angle o1') with (o_angle o').
  change (o_scaling o1) with (o_scaling o). change (o_angle o1) with (o_angle o).
  rewrite Hd1, (mv_scaling _ _ _ _ H), (mv_angle _ _ _ _ H).
  destruct (aniso_differs (o_dim o1) sc (o_scaling o) an (o_angle o)).
  2:{ specialize (Hrest o1 o1' H1). rewrite Hd1 in Hrest. exact Hrest. }
  change (o_ct o1') with (o_ct o'). change (o_ct o1) with (o_ct o). rewrite Ht.
  destruct (o_ct o) eqn:Ect.
  - destruct (adjust_supported (o_dim o1) (o_orig o1) (o_center o1) sc an (o_dim_cases o1)) as [adj Hadj].
    destruct (adjust_supported (o_dim o1) (o_orig o1') (o_center o1') sc an (o_dim_cases o1)) as [adj' Hadj'].
    rewrite Hadj, Hadj'.
    assert (H2 : moved Q s (set_aniso o1 sc an adj) (set_aniso o1' sc an adj')).
    { apply moved_set_aniso; try assumption. rewrite Hd1. exact Hadj'. }
    specialize (Hrest _ _ H2).
    change (o_dim (set_aniso o1' sc an adj')) with (o_dim o1') in Hrest.
    change (o_dim (set_aniso o1 sc an adj)) with (o_dim o1) in Hrest. rewrite Hd1 in Hrest. exact Hrest.
  - assert (H2 := moved_set_aniso_geo Q s o1 o1' H1 H10 Ect).
    specialize (Hrest _ _ H2).
    change (o_dim (set_aniso o1' (fun _ => 1) (fun _ => 0) (o_orig o1'))) with (o_dim o1') in Hrest.
    change (o_dim (set_aniso o1 (fun _ => 1) (fun _ => 0) (o_orig o1))) with (o_dim o1) in Hrest.
    rewrite Hd1 in Hrest. exact Hrest.
Qed.

(** *** Constructors *)
Lemma initialize_length fit ct ndim n X m y name vp f nlags w a :
  initialize_variogram_model fit ct ndim n X m y name vp f nlags w = Ok a -> m = n.
Proof.
  unfold initialize_variogram_model. destruct (Nat.eqb_spec m n) as [->|Hne]; [reflexivity|]. cbn [negb].
  destruct ct; [destruct (Nat.leb n 1); [discriminate|destruct (Nat.eqb nlags 0); discriminate]|].
  destruct (Nat.eqb ndim 2); discriminate.
Qed.

Lemma class_ct_name c A o E : construct E c A = Ok o -> ct_name (o_ct o) = class_ct c (c_ct A).
Proof.
  intros H. destruct (construct_inv E c A o H) as (ex & name & prm & fn & sc & an & f & vp & lags & sv & params & Hall).
  destruct Hall as (_&_&_&_&_&_&_&_&_&_&_&_&_&_&_&_&_&_&_&_&_&_&Hct).
  destruct Hct as [(He & -> & _)|(He & _ & -> & _)]; rewrite He; reflexivity.
Qed.

Lemma construct_coords_inv E c A o : construct E c A = Ok o -> coords_inv o.
Proof.
  intros H. destruct (construct_inv E c A o H) as (ex & name & prm & fn & sc & an & f & vp & lags & sv & params & Hall).
  destruct Hall as (_&_&_&_&_&_&_&_&Hc&_&_&_&_&_&_&_&_&_&_&_&_&_&Hct).
  unfold coords_inv. destruct Hct as [(_ & -> & _ & -> & -> & Ha)|(_ & -> & -> & H1 & H2 & H3 & H4)].
  - unfold o_dim. rewrite Hc. exact Ha.
  - auto.
Qed.

Lemma construct_moved E c A A' o o' (Q : vec -> vec -> Prop) (s : nat -> nat) : construct E c A = Ok o -> construct E c A' = Ok o' ->
  c_v A' = c_v A -> c_ct A' = c_ct A -> o_n o' = o_n o -> perm_on (o_n o) s ->
  (forall i, (i < o_n o)%nat -> o_values o' i = o_values o (s i)) ->
  Q (fun _ => 1) (fun _ => 0) -> update_Q E c (o_ct o) Q (c_v A) ->
  (forall sc an, Q sc an -> forall i j, (i < o_n o)%nat -> (j < o_n o)%nat ->
    sep_gen (o_ct o) (o_dim o) sc an (datum o' i) (datum o' j) =
    sep_gen (o_ct o) (o_dim o) sc an (datum o (s i)) (datum o (s j))) ->
  moved Q s o o'.
Proof.
  intros H H' Hv Hct Hn Hs Hval H10 HU Hsep.
  pose proof (class_ct_name _ _ _ _ H) as N1. pose proof (class_ct_name _ _ _ _ H') as N2. rewrite Hct in N2.
  assert (Hc' : o_ct o' = o_ct o) by (destruct (o_ct o'), (o_ct o); cbn in *; congruence).
  pose proof (construct_coords_inv _ _ _ _ H) as I1. pose proof (construct_coords_inv _ _ _ _ H') as I2.
  destruct (construct_inv E c A o H) as (ex & name & prm & fn & sc & an & f & vp & lags & sv & params & Hall).
  destruct Hall as (_&_&Hgs&Hf&Hmp&_&Hini&_&Hc&_&_&_&_&Hfo&Hpo&_&_&Hvo&_&_&_&_&Ha).
  destruct (construct_inv E c A' o' H') as (ex' & name' & prm' & fn' & sc' & an' & f' & vp' & lags' & sv' & params' & Hall').
  destruct Hall' as (_&_&Hgs'&Hf'&Hmp'&_&Hini'&_&Hcc'&_&_&_&_&Hfo'&Hpo'&_&_&Hvo'&_&_&_&_&Ha').
  rewrite Hv, Hct in Hgs'. rewrite Hgs in Hgs'. injection Hgs' as <- <- <- <- <-.
  rewrite Hf in Hf'. injection Hf' as <-. rewrite Hmp in Hmp'. injection Hmp' as <-.
  assert (HQ : Q (o_scaling o) (o_angle o)).
  { destruct Ha as [(_ & _ & _ & -> & -> & _)|(_ & _ & _ & _ & -> & -> & _)]; [|exact H10].
    unfold update_Q in HU. rewrite N1 in HU. apply (HU _ _ _ _ _ Hgs). }
  assert (HSA : o_scaling o' = o_scaling o /\ o_angle o' = o_angle o).
  { destruct Ha as [(_ & Ht & _ & -> & -> & _)|(_ & _ & Ht & _ & -> & -> & _)];
    destruct Ha' as [(_ & Ht' & _ & -> & -> & _)|(_ & _ & Ht' & _ & -> & -> & _)]; try (split; reflexivity); congruence. }
  destruct HSA as [HS HA].
  assert (HCC : o_class o' = o_class o) by congruence.
  assert (HM : forall g p, moved Q s (set_variogram (set_fun o f) g g p) (set_variogram (set_fun o' f) g g p)).
  { intros g p. constructor; try reflexivity; try assumption. }
  assert (HP : params' = params).
  { pose proof (moved_pair_data Q s _ _ (HM [] [])) as HP. cbn in HP.
    change (o_dim (set_variogram (set_fun o f) [] [] [])) with (o_dim o) in HP.
    change (o_dim (set_variogram (set_fun o' f) [] [] [])) with (o_dim o') in HP.
    assert (D1 : o_dim o = cdim c) by (unfold o_dim; rewrite Hc; reflexivity).
    assert (D2 : o_dim o' = cdim c) by (unfold o_dim; rewrite Hcc'; reflexivity).
    rewrite D1, D2, Hn, Hc' in HP. rewrite Hvo, Hvo' in HP.
    rewrite Hn, Hc', Hv in Hini'.
    rewrite (initialize_length _ _ _ _ _ _ _ _ _ _ _ _ _ Hini') in Hini'.
    rewrite (initialize_length _ _ _ _ _ _ _ _ _ _ _ _ _ Hini) in Hini.
    rewrite (initialize_perm (e_fit E) (o_ct o) (cdim c) (o_n o) (o_adj o') (o_adj o) (o_n o) (o_n o)
       (rnth (c_values A')) (rnth (c_values A)) name vp f (a_nlags (c_v A)) (a_weight (c_v A)) eq_refl HP) in Hini'.
    rewrite Hini in Hini'. injection Hini' as _ _ <-. reflexivity. }
  constructor; try assumption; congruence.
Qed.

Lemma built_moved E c A A' us (Q : vec -> vec -> Prop) (s : nat -> nat) : forall o o',
  construct E c A = Ok o -> construct E c A' = Ok o' ->
  c_v A' = c_v A -> c_ct A' = c_ct A -> o_n o' = o_n o -> perm_on (o_n o) s ->
  (forall i, (i < o_n o)%nat -> o_values o' i = o_values o (s i)) ->
  Q (fun _ => 1) (fun _ => 0) -> (forall v, In v (c_v A :: us) -> update_Q E c (o_ct o) Q v) ->
  (forall sc an, Q sc an -> forall i j, (i < o_n o)%nat -> (j < o_n o)%nat ->
    sep_gen (o_ct o) (o_dim o) sc an (datum o' i) (datum o' j) =
    sep_gen (o_ct o) (o_dim o) sc an (datum o (s i)) (datum o (s j))) ->
  moved Q s (after_updates E us o) (after_updates E us o').
Proof.
  intros o o' H H' Hv Hct Hn Hs Hval H10 HU Hsep.
  assert (HM : moved Q s o o').
  { apply (construct_moved E c A A'); try assumption. apply HU. left; reflexivity. }
  assert (Hcl : o_class o = c).
  { destruct (construct_inv E c A o H) as (ex & name & prm & fn & sc & an & f & vp & lags & sv & params & Hall). apply Hall. }
  assert (HU' : forall v, In v us -> update_Q E (o_class o) (o_ct o) Q v).
  { intros v Hin. rewrite Hcl. apply HU. right; exact Hin. }
  clear - HM HU' H10. revert o o' HM HU'. induction us as [|v us IH]; intros o o' HM HU'; [exact HM|].
  cbn [after_updates fold_left]. apply IH.
  - apply update_moved; try assumption. apply HU'. left; reflexivity.
  - destruct (update_preserves E o v) as (-> & _ & _ & _ & -> & _). intros w Hw. apply HU'. right; exact Hw.
Qed.

Lemma after_updates_fixed E us : forall o,
  let o' := after_updates E us o in
  o_class o' = o_class o /\ o_pinv o' = o_pinv o /\ o_pinv_type o' = o_pinv_type o /\ o_exact o' = o_exact o /\
  o_ct o' = o_ct o /\ o_n o' = o_n o /\ o_orig o' = o_orig o /\ o_values o' = o_values o /\ o_center o' = o_center o.
Proof.
  induction us as [|v us IH]; intros o; cbn [after_updates fold_left]; [repeat split|].
  specialize (IH (fst (update_variogram_model E o v))). cbv zeta in IH.
  destruct (update_preserves E o v) as (P1 & P2 & P3 & P4 & P5 & P6 & P7 & P8 & P9 & _). cbv zeta.
  unfold after_updates in IH. destruct IH as (-> & -> & -> & -> & -> & -> & -> & -> & ->).
  repeat split; assumption.
Qed.

Lemma built_reachable E c A us o : built E c A us o -> reachable E o.
Proof.
  intros (Hl & o0 & Ho & ->).
  assert (Hr : reachable E o0) by (apply (reach_new E c A); assumption).
  clear - Hr. unfold after_updates. revert o0 Hr. induction us as [|v us IH]; intros o0 Hr; cbn; [exact Hr|].
  apply IH, reach_update, Hr.
Qed.

(** *** Same data *)
Lemma agree_pair_data o o' : agree o o' ->
  pair_data (o_ct o') (o_dim o') (o_n o') (o_adj o') (o_values o') = pair_data (o_ct o) (o_dim o) (o_n o) (o_adj o) (o_values o).
Proof. intros []. unfold o_dim. congruence. Qed.

Lemma update_agree E o o' v : agree o o' ->
  agree (fst (update_variogram_model E o v)) (fst (update_variogram_model E o' v)).
Proof.
  intros H. unfold update_variogram_model, o_dim. cbn -[adjust_for_anisotropy initialize_variogram_model all_statistics resolve_gs aniso_differs].
  destruct H as [Hc Ht Hf Hp Hn Ho Hv He Hs Ha Had]. rewrite Hc, Ht.
  destruct (resolve_gs E (o_class o) (ct_name (o_ct o)) v) as [[[[[name prm] fn] sc] an]|e]; [|constructor; assumption].
  destruct (resolve_fun name fn) as [f|e]; [|constructor; assumption].
  rewrite Hs, Ha, Ho, He.
  destruct (aniso_differs _ _ _ _ _).
  - destruct (o_ct o) eqn:Ect.
    + destruct (adjust_for_anisotropy _ _ _ _ _ _) as [adj|e].
      * destruct (make_parameter_list name prm) as [vp|e]; [|constructor; cbn; congruence].
        cbn -[initialize_variogram_model all_statistics]. rewrite Ht, Hn, Hv, Ect.
        destruct (initialize_variogram_model _ _ _ _ _ _ _ _ _ _ _ _) as [[[lags sv] params]|e]; [|constructor; cbn; congruence].
        cbn -[all_statistics].
        destruct (all_statistics (e_la E) _ _ _ _ _ _ (o_pinv o)), (all_statistics (e_la E) _ _ _ _ _ _ (o_pinv o'));
          constructor; cbn; congruence.
      * constructor; cbn; congruence.
    + destruct (make_parameter_list name prm) as [vp|e]; [|constructor; cbn; congruence].
      cbn -[initialize_variogram_model all_statistics]. rewrite Ht, Hn, Hv, Ect.
      destruct (initialize_variogram_model _ _ _ _ _ _ _ _ _ _ _ _) as [[[lags sv] params]|e]; [|constructor; cbn; congruence].
      cbn -[all_statistics].
      destruct (all_statistics (e_la E) _ _ _ _ _ _ (o_pinv o)), (all_statistics (e_la E) _ _ _ _ _ _ (o_pinv o'));
        constructor; cbn; congruence.
  - destruct (make_parameter_list name prm) as [vp|e]; [|constructor; cbn; congruence].
    cbn -[initialize_variogram_model all_statistics]. rewrite Ht, Hn, Hv, Had.
    destruct (initialize_variogram_model _ _ _ _ _ _ _ _ _ _ _ _) as [[[lags sv] params]|e]; [|constructor; cbn; congruence].
    cbn -[all_statistics].
    destruct (all_statistics (e_la E) _ _ _ _ _ _ (o_pinv o)), (all_statistics (e_la E) _ _ _ _ _ _ (o_pinv o'));
      constructor; cbn; congruence.
Qed.

Lemma construct_agree E c A A' o o' : construct E c A = Ok o -> construct E c A' = Ok o' ->
  c_coords A' = c_coords A -> c_values A' = c_values A -> c_v A' = c_v A -> c_ct A' = c_ct A -> agree o o'.
Proof.
  intros H H' Hco Hva Hv Hct.
  destruct (construct_inv E c A o H) as (ex & name & prm & fn & sc & an & f & vp & lags & sv & params & Hall).
  destruct Hall as (_&_&Hgs&Hf&Hmp&_&Hini&_&Hc&_&_&_&_&Hfo&Hpo&Hn&Ho&Hvo&_&_&_&_&Ha).
  destruct (construct_inv E c A' o' H') as (ex' & name' & prm' & fn' & sc' & an' & f' & vp' & lags' & sv' & params' & Hall').
  destruct Hall' as (_&_&Hgs'&Hf'&Hmp'&_&Hini'&_&Hc'&_&_&_&_&Hfo'&Hpo'&Hn'&Ho'&Hvo'&_&_&_&_&Ha').
  rewrite Hco in *. rewrite Hva in *. rewrite Hv, Hct in *.
  rewrite Hgs in Hgs'. injection Hgs' as <- <- <- <- <-.
  rewrite Hf in Hf'. injection Hf' as <-. rewrite Hmp in Hmp'. injection Hmp' as <-.
  assert (HX : o_ct o' = o_ct o /\ o_center o' = o_center o /\ o_scaling o' = o_scaling o /\ o_angle o' = o_angle o /\ o_adj o' = o_adj o).
  { destruct Ha as [(Hx & Ht & (cs & Hm & Hce) & Hs & Hag & Had)|(Hx & _ & Ht & Hce & Hs & Hag & Had)];
    destruct Ha' as [(Hx' & Ht' & (cs' & Hm' & Hce') & Hs' & Hag' & Had')|(Hx' & _ & Ht' & Hce' & Hs' & Hag' & Had')]; try congruence.
    - rewrite Hm in Hm'. injection Hm' as <-. repeat split; try congruence.
    - repeat split; congruence. }
  destruct HX as (X1 & X2 & X3 & X4 & X5).
  assert (HP : params' = params) by (rewrite X1, X5, Hn', <- Hn, Hini in Hini'; congruence).
  constructor; congruence.
Qed.

Lemma built_agree E c A A' us o o' : built E c A us o -> built E c A' us o' ->
  c_coords A' = c_coords A -> c_values A' = c_values A -> c_v A' = c_v A -> c_ct A' = c_ct A -> agree o o'.
Proof.
  intros (_ & o0 & H & ->) (_ & o0' & H' & ->) Hco Hva Hv Hct.
  assert (HA := construct_agree E c A A' o0 o0' H H' Hco Hva Hv Hct). clear - HA.
  unfold after_updates. revert o0 o0' HA. induction us as [|v us IH]; intros; cbn [fold_left]; [exact HA|].
  apply IH, update_agree, HA.
Qed.

Lemma built_exact E c A us o : built E c A us o -> c_exact A = Some (o_exact o).
Proof.
  intros (_ & o0 & H & ->). destruct (after_updates_fixed E us o0) as (_ & _ & _ & -> & _).
  destruct (construct_inv E c A o0 H) as (ex & name & prm & fn & sc & an & f & vp & lags & sv & params & Hall).
  destruct Hall as (_&HX&_&_&_&_&_&_&_&_&_&HX'&_). congruence.
Qed.

Lemma moved_g Q s o o' pos pos' : moved Q s o o' -> o_exact o' = o_exact o ->
  (forall i, (i < o_n o)%nat -> separation o' pos' (datum o' i) = separation o pos (datum o (s i))) ->
  forall i, (i < o_n o)%nat -> g_of o' pos' i = g_of o pos (s i).
Proof.
  intros H HX Hsep i Hi. unfold g_of, query_semivariance, o_vg.
  rewrite (mv_fun _ _ _ _ H), (mv_params _ _ _ _ H), HX, Hsep by exact Hi. reflexivity.
Qed.

Lemma moved_cells E Q s o o' q q' r r' p p' pos pos' : run E o q r -> run E o' q' r' -> moved Q s o o' ->
  o_exact o' = o_exact o -> q_window q = q_window q' ->
  shown o q p pos -> shown o' q' p' pos' ->
  (forall i, (i < o_n o)%nat -> separation o' pos' (datum o' i) = separation o pos (datum o (s i))) ->
  (q_window q <> None -> no_ties o pos) ->
  r_value r p = r_value r' p' /\ r_variance r p = r_variance r' p'.
Proof.
  intros (HE & HR & HO & HF & HX) (_ & HR' & HO' & HF' & HX') HM Hex HW HS HS' Hsep Hnt.
  eapply (cell_similar E o o' s q q' r r' p p' pos pos'); try eassumption.
  - apply (mv_inv _ _ _ _ HM).
  - apply (mv_inv' _ _ _ _ HM).
  - apply (mv_n _ _ _ _ HM).
  - apply (mv_perm _ _ _ _ HM).
  - apply (mv_values _ _ _ _ HM).
  - intros. apply (moved_G Q); assumption.
  - apply (moved_g Q); assumption.
  - intros Hw. split; [apply Hnt, Hw|]. exists 1. split; [lra|]. intros i Hi. rewrite Rmult_1_l. apply Hsep, Hi.
Qed.
