(** Proofs for C66. *)
From Coq Require Import String Permutation.
From Verif Require Import Base Sums Matrix M_Variogram P_Variogram M_Geometry S_Geometry P_Geometry M_Kriging S_Kriging
  P_Kriging P_OKSpec M_Init M_Object M_Execute S_Execute P_Object P_Execute P_Cells P_Window P_WindowExec P_Master P_Det P_OK P_Similar P_Binning P_Data P_Linear P_Exec2 P_Data2
  M_UK S_UK S_UK2 P_UK P_UK2 P_UK3 P_UK4 P_UK5 S_State P_State P_State2 P_UK7 P_UK11 P_UK13 P_UK14 P_UK15 S_Amplify.

Lemma amplified_sep k o o' x y : amplified k o o' -> separation o' x y = separation o x y.
Proof.
  intros H. rewrite !separation_gen. unfold o_dim.
  rewrite (am_class _ _ _ H), (am_ct _ _ _ H), (am_scaling _ _ _ H), (am_angle _ _ _ H). reflexivity.
Qed.
Lemma amplified_G k o o' i j : amplified k o o' -> (i < o_n o)%nat -> (j < o_n o)%nat -> G_of o' i j = k * G_of o i j.
Proof.
  intros H Hi Hj. unfold G_of, data_semivariance. destruct (Nat.eqb i j); [ring|].
  rewrite (amplified_sep k o o' _ _ H), !(am_datum _ _ _ H) by assumption. apply (am_vg _ _ _ H).
Qed.
Lemma amplified_g k o o' pos i : amplified k o o' -> (i < o_n o)%nat -> g_of o' pos i = k * g_of o pos i.
Proof.
  intros H Hi. unfold g_of, query_semivariance.
  rewrite (amplified_sep k o o' _ _ H), (am_datum _ _ _ H), (am_exact _ _ _ H) by assumption.
  destruct (_ && _); [ring|]. apply (am_vg _ _ _ H).
Qed.

Lemma OK_scale n (k : R) G G' g g' w mu :
  (forall i j, (i < n)%nat -> (j < n)%nat -> G' i j = k * G i j) -> (forall i, (i < n)%nat -> g' i = k * g i) ->
  OK_system n G g w mu -> OK_system n G' g' w (k * mu).
Proof.
  intros HG Hg [H1 H2]. split; [|exact H2]. intros i Hi. rewrite Hg, <- H1 by exact Hi. rewrite Rmult_plus_distr_l, <- bsum_scal. f_equal.
  apply bsum_ext; intros j Hj. rewrite HG by assumption. ring.
Qed.
Lemma OK_scale_estimate n (k : R) G G' g g' z z' v s :
  (forall i j, (i < n)%nat -> (j < n)%nat -> G' i j = k * G i j) -> (forall i, (i < n)%nat -> g' i = k * g i) ->
  (forall i, (i < n)%nat -> z' i = z i) ->
  OK_estimate n G g z v s -> OK_estimate n G' g' z' v (k * s).
Proof.
  intros HG Hg Hz (w & mu & HS & -> & ->). exists w, (k * mu). split; [apply (OK_scale n k G G' g g' w mu HG Hg HS)|]. split.
  - apply bsum_ext; intros i Hi. rewrite Hz by exact Hi. reflexivity.
  - rewrite Rmult_plus_distr_l, <- bsum_scal. f_equal. apply bsum_ext; intros i Hi. rewrite Hg by exact Hi. ring.
Qed.

Theorem ok_amplified E k o o' q q' r r' p p' pos : 0 < k -> amplified k o o' ->
  run E o q r -> run E o' q' r' -> q_window q' = q_window q -> regular_for o q ->
  shown o q p pos -> shown o' q' p' pos -> (q_window q <> None -> no_ties o pos) ->
  exists v s, r_value r p = Some v /\ r_variance r p = Some s /\ r_value r' p' = Some v /\ r_variance r' p' = Some (k * s).
Proof.
  intros Hk HA HR HR' HW Hreg HS HS' Hnt.
  destruct (run_cell E o q r p pos HR HS) as (v & s & Hv & Hs & HK). specialize (HK (regular_for_well_posed _ _ _ Hreg)).
  destruct (kriged_uses _ _ _ _ _ HK) as (m & sel & HU & Hlt & HLR & HE).
  pose proof (run_local_regular E o q r pos m sel HR Hreg HU HLR) as HLoc.
  destruct (run_cell E o' q' r' p' pos HR' HS') as (v' & s' & Hv' & Hs' & HK').
  assert (HWP : well_posed o' q' pos).
  { unfold well_posed. destruct (q_window q') eqn:EW; [right; left; discriminate|]. right. right.
    unfold uses in HU. rewrite <- HW in HU. destruct HU as [-> Hid]. destruct HE as (w & mu & HSy & _). exists w, (k * mu).
    rewrite (am_n _ _ _ HA). apply (OK_scale (o_n o) k (fun a b => G_of o (sel a) (sel b)) _ (fun a => g_of o pos (sel a)) _ w mu); [| |exact HSy].
    - intros i j Hi Hj. cbv beta. rewrite !Hid. apply amplified_G; assumption.
    - intros i Hi. cbv beta. rewrite !Hid. apply amplified_g; assumption. }
  specialize (HK' HWP). destruct (kriged_uses _ _ _ _ _ HK') as (m' & sel' & HU' & Hlt' & _ & HE').
  assert (Hm : m' = m /\ forall a, (a < m)%nat -> sel' a = sel a).
  { unfold uses in HU, HU'. rewrite HW in HU'. destruct (q_window q) as [kk|].
    - destruct HU as [-> (N1 & N2 & N3 & N4)], HU' as [-> (N1' & N2' & N3' & N4')]. split; [reflexivity|].
      rewrite (am_n _ _ _ HA) in *. assert (Hd := am_datum _ _ _ HA).
      apply (nearest_unique (o_n o) kk (fun i => separation o pos (datum o i))); try assumption.
      + apply Hnt. discriminate.
      + intros a b Hab Hb. specialize (N3' a b Hab Hb). rewrite !(amplified_sep k o o' _ _ HA), !Hd in N3' by (apply N1'; lia). exact N3'.
      + intros a j Ha Hj Hno. specialize (N4' a j Ha Hj Hno). rewrite !(amplified_sep k o o' _ _ HA), !Hd in N4' by first [apply N1'; lia|assumption]. exact N4'.
    - destruct HU as [-> Hid], HU' as [-> Hid']. split; [apply (am_n _ _ _ HA)|]. intros a _. rewrite Hid, Hid'. reflexivity. }
  destruct Hm as [-> Hsel].
  assert (HE2 : local_estimate o m sel pos v' (/ k * s')).
  { apply (OK_scale_estimate m (/ k) (fun a b => G_of o' (sel' a) (sel' b)) _ (fun a => g_of o' pos (sel' a)) _ (fun a => o_values o' (sel' a)) _ v' s'); [| | |exact HE'].
    - intros a b Ha Hb. cbv beta. rewrite !Hsel by assumption. rewrite (amplified_G k o o') by auto. field. lra.
    - intros a Ha. cbv beta. rewrite !Hsel by assumption. rewrite (amplified_g k o o') by auto. field. lra.
    - intros a Ha. cbv beta. rewrite Hsel by assumption. symmetry. apply (am_values _ _ _ HA), Hlt, Ha. }
  destruct (regular_unique' _ _ _ _ _ _ _ _ HLoc HE HE2) as [Ev Es].
  exists v, s. repeat (split; [assumption|]). split; [congruence|]. rewrite Hs'. f_equal. rewrite Es. field. lra.
Qed.

Theorem uk_amplified E k u u' q q' specs specs' r r' p p' pos : 0 < k -> amplified k (u_obj u) (u_obj u') -> u_drift u' = u_drift u ->
  urun E u q specs r -> urun E u' q' specs' r' -> faithful_specs u q -> faithful_specs u' q' -> uregular u q specs ->
  shown (u_obj u) q p pos -> shown (u_obj u') q' p' pos -> specs_agree u q q' specs specs' p p' ->
  exists v s, r_value r p = Some v /\ r_variance r p = Some s /\ r_value r' p' = Some v /\ r_variance r' p' = Some (k * s).
Proof.
  intros Hk HA HD HR HR' HF HF' Hreg HS HS' HSA.
  destruct (ucompare E E u u' (fun i => i) q q' specs specs' r r' p p' pos pos k 1 0 (fun _ => 0) HR HR' HF HF' HS HS' Hreg) as (v & s & Hv & Hs & Hv' & Hs').
  - apply (am_n _ _ _ HA).
  - apply perm_id.
  - lra.
  - intros i j Hi Hj. apply amplified_G; assumption.
  - intros i Hi. apply amplified_g; assumption.
  - apply affine_rel_shift.
    assert (HFr : forall x, frame (u_obj u') x = frame (u_obj u) x) by (intros; apply frame_geo; apply HA).
    assert (HSp : forall h h' : vec3 -> R, (forall x, h' x = h x) ->
      shift_rel (o_n (u_obj u)) (fun i => i) p p' pos pos (spatial (u_obj u) h) (spatial (u_obj u') h')).
    { intros h h' Hh. apply (spatial_shift (o_n (u_obj u)) (fun x => x) (u_obj u) (u_obj u') p p' pos h h' 0).
      - apply (am_datum _ _ _ HA).
      - intros x. rewrite Hh. ring. }
    assert (HMp : forall (X : Type) (l : list X) (t t' : X -> term), (forall x, shift_rel (o_n (u_obj u)) (fun i => i) p p' pos pos (t x) (t' x)) ->
      Forall2 (shift_rel (o_n (u_obj u)) (fun i => i) p p' pos pos) (map t l) (map t' l)).
    { intros X l t t' Ht. induction l as [|x l IH]; cbn [map]; [constructor|constructor; [apply Ht|exact IH]]. }
    unfold drift_terms. repeat apply Forall2_app.
    + unfold linear_terms. rewrite HD. replace (o_dim (u_obj u')) with (o_dim (u_obj u)) by (unfold o_dim; rewrite (am_class _ _ _ HA); reflexivity).
      destruct (dr_linear (u_drift u)); [|constructor]. apply HMp. intros j. apply HSp. intros x. rewrite HFr. reflexivity.
    + unfold well_terms. rewrite HD. apply HMp. intros [[wx wy] st]. apply HSp. intros x. rewrite HFr. reflexivity.
    + unfold ext_terms. rewrite HD. destruct (dr_ext (u_drift u)) as [[[[arr ex] ey] zz]|]; [|constructor]. constructor; [|constructor]. apply HSp. reflexivity.
    + apply spec_shift; [rewrite HD; reflexivity|exact HSA].
    + unfold fun_terms. rewrite HD. apply HMp. intros f. apply HSp. intros x. cbv zeta. rewrite HFr. reflexivity.
  - intros i Hi. rewrite (am_values _ _ _ HA) by exact Hi. rewrite bsum_0 by (intros; ring). ring.
  - exists v, s. rewrite Hv, Hs, Hv', Hs'. rewrite bsum_0 by (intros; ring). repeat split. f_equal. ring.
Qed.

(** *** the constructor with multiplied parameters *)
Lemma builtin_resolve name fn f : In name builtin_models -> resolve_fun name fn = Ok f -> dict_get variogram_dict name = Some f.
Proof.
  intros Hin. unfold resolve_fun. destruct (dict_get variogram_dict name) as [g|] eqn:E; [intros H; injection H as <-; reflexivity|].
  exfalso. unfold builtin_models in Hin. cbn in Hin. destruct Hin as [<-|[<-|[<-|[<-|[<-|[<-|[]]]]]]]; discriminate E.
Qed.

Lemma times_vg k name l f p p' : In name builtin_models -> dict_get variogram_dict name = Some f ->
  make_parameter_list name (PList l) = Ok (Some p) -> make_parameter_list name (PList (times k name l)) = Ok (Some p') ->
  forall d, fcall f p' d = k * fcall f p d.
Proof.
  intros Hin Hf H H' d. unfold builtin_models in Hin. cbn in Hin.
  destruct Hin as [<-|[<-|[<-|[<-|[<-|[<-|[]]]]]]]; cbn in Hf; injection Hf as <-; cbn in H, H'.
  - destruct l as [|a [|b [|c l]]]; try discriminate H. cbn in H, H'. injection H as <-. injection H' as <-.
    cbn. unfold linear_variogram_model, rnth. cbn. ring.
  - destruct l as [|a [|b [|c [|e l]]]]; try discriminate H. cbn in H, H'. injection H as <-. injection H' as <-.
    unfold f_power, power_variogram_model, rnth. cbn. ring.
  - destruct l as [|a [|b [|c [|e l]]]]; try discriminate H. cbn in H, H'. injection H as <-. injection H' as <-.
    unfold f_gaussian, gaussian_variogram_model, rnth. cbn. ring.
  - destruct l as [|a [|b [|c [|e l]]]]; try discriminate H. cbn in H, H'. injection H as <-. injection H' as <-.
    unfold f_spherical, spherical_variogram_model, rnth. cbn. destruct (Rleb d b); ring.
  - destruct l as [|a [|b [|c [|e l]]]]; try discriminate H. cbn in H, H'. injection H as <-. injection H' as <-.
    unfold f_exponential, exponential_variogram_model, rnth. cbn. ring.
  - destruct l as [|a [|b [|c [|e l]]]]; try discriminate H. cbn in H, H'. injection H as <-. injection H' as <-.
    unfold f_hole, hole_effect_variogram_model, rnth. cbn. ring.
Qed.

Lemma init_params fit ct ndim n X nv y model p f nlags w lags sv params :
  initialize_variogram_model fit ct ndim n X nv y model (Some p) f nlags w = Ok (lags, sv, params) -> params = p.
Proof.
  unfold initialize_variogram_model. intros H. destruct ct, (Nat.eqb ndim 2); try discriminate H.
  all: destruct (negb (Nat.eqb nv n)) in H; [destruct (Nat.leb n 1), (Nat.eqb nlags 0); discriminate H|].
  all: bindok H; cbv zeta in H; destruct (_ && _) in H; [discriminate H|]; destruct (_ && _) in H; [discriminate H|]; injection H; auto.
Qed.

Theorem construct_amplified E c A name l k o o' :
  In name builtin_models -> a_model (c_v A) = VName name -> a_params (c_v A) = PList l ->
  construct E c A = Ok o -> construct E c (with_v A (with_params (c_v A) (PList (times k name l)))) = Ok o' ->
  amplified k o o'.
Proof.
  intros Hin Hm Hp H H'.
  destruct (construct_inv _ _ _ _ H) as (ex & nm & prm & fn & sc & an & f & vp & lags & sv & params & Q1 & Q2 & Q3 & Q4 & Q5 & Q6 & Q7 & Q8 & Q9 & Q10 & Q11 & Q12 & Q13 & Q14 & Q15 & Q16 & Q17 & Q18 & _ & _ & _ & _ & Q19).
  destruct (construct_inv _ _ _ _ H') as (ex' & nm' & prm' & fn' & sc' & an' & f' & vp' & lags' & sv' & params' & P1 & P2 & P3 & P4 & P5 & P6 & P7 & P8 & P9 & P10 & P11 & P12 & P13 & P14 & P15 & P16 & P17 & P18 & _ & _ & _ & _ & P19).
  cbn [with_v with_params c_v c_ct c_exact c_values c_coords a_model a_params a_fun a_nlags a_weight a_scaling a_angle c_pinv c_pinv_type] in *.
  unfold resolve_gs in Q3, P3. unfold with_params in P3. cbn [a_model a_params a_fun a_scaling a_angle] in P3. rewrite Hm in Q3, P3. rewrite Hp in Q3.
  injection Q3 as <- <- <- <- <-. injection P3 as <- <- <- <- <-.
  assert (f' = f) as -> by congruence.
  apply (builtin_resolve _ _ _ Hin) in Q4.
  destruct vp as [vp|].
  2:{ exfalso. unfold make_parameter_list in Q5. repeat (match type of Q5 with context [if ?b then _ else _] => destruct b end; try discriminate Q5). }
  destruct vp' as [vp'|].
  2:{ exfalso. unfold make_parameter_list in P5. repeat (match type of P5 with context [if ?b then _ else _] => destruct b end; try discriminate P5). }
  apply init_params in Q7. apply init_params in P7. subst params params'.
  assert (HG : o_ct o' = o_ct o /\ o_center o' = o_center o /\ o_scaling o' = o_scaling o /\ o_angle o' = o_angle o).
  { destruct Q19 as [(G1 & G2 & (cs & G3 & G4) & G5 & G6 & _)|(G1 & G2 & G3 & G4 & G5 & G6 & _)];
      destruct P19 as [(K1 & K2 & (cs' & K3 & K4) & K5 & K6 & _)|(K1 & K2 & K3 & K4 & K5 & K6 & _)].
    - assert (cs' = cs) by congruence. subst cs'. repeat split; congruence.
    - exfalso. rewrite G1 in K1. discriminate.
    - exfalso. rewrite G1 in K1. discriminate.
    - repeat split; congruence. }
  destruct HG as (T1 & T2 & T3 & T4).
  constructor; try congruence.
  - intros i _. unfold datum, o_dim. congruence.
  - intros d. unfold o_vg. rewrite Q14, Q15, P14, P15 || idtac.
    replace (o_fun o') with f by congruence. replace (o_fun o) with f by congruence.
    replace (o_params o') with vp' by congruence. replace (o_params o) with vp by congruence.
    apply (times_vg k name l f vp vp' Hin Q4 Q5 P5).
Qed.

Theorem construct_uk_amplified E c A D name l k u u' :
  In name builtin_models -> a_model (c_v A) = VName name -> a_params (c_v A) = PList l ->
  construct_uk E c A D = Ok u -> construct_uk E c (with_v A (with_params (c_v A) (PList (times k name l)))) D = Ok u' ->
  amplified k (u_obj u) (u_obj u') /\ u_drift u' = u_drift u.
Proof.
  intros Hin Hm Hp H H'. unfold construct_uk in H, H'.
  destruct (construct E c A) as [o|] eqn:EC; [|discriminate H]. destruct (construct E c (with_v _ _)) as [o'|] eqn:EC'; [|discriminate H'].
  cbn [bind] in H, H'. bindok H. bindok H'. injection H as <-. injection H' as <-. cbn [u_obj u_drift].
  pose proof (construct_amplified E c A name l k o o' Hin Hm Hp EC EC') as HA. split; [exact HA|].
  destruct (construct_orig _ _ _ _ EC) as (_ & O1 & _). destruct (construct_orig _ _ _ _ EC') as (_ & O2 & _). cbn in O2.
  rewrite (init_drift_same c D o o') in E0.
  - congruence.
  - symmetry. apply (am_n _ _ _ HA).
  - congruence.
  - symmetry. apply (am_center _ _ _ HA).
  - intros _ _. rewrite (am_scaling _ _ _ HA), (am_angle _ _ _ HA). split; [intros; reflexivity|reflexivity].
Qed.

