(** Proofs: an unmasked cell of a result is determined by the object, the
    window and its own location. *)
From Coq Require Import String FunctionalExtensionality.
From Verif Require Import Base Sums Matrix M_Variogram P_Variogram M_Geometry S_Geometry P_Geometry M_Kriging S_Kriging
  P_Kriging P_OKSpec M_Init M_Object M_Execute S_Execute P_Object P_Execute P_Cells P_Window P_WindowExec P_Master.

(** Objects that krige alike (up to exact_values and pseudo_inv). *)
Record agree (o o' : obj) : Prop := {
  ag_class : o_class o' = o_class o;
  ag_ct : o_ct o' = o_ct o; ag_fun : o_fun o' = o_fun o; ag_params : o_params o' = o_params o;
  ag_n : o_n o' = o_n o; ag_orig : o_orig o' = o_orig o; ag_values : o_values o' = o_values o;
  ag_center : o_center o' = o_center o; ag_scaling : o_scaling o' = o_scaling o; ag_angle : o_angle o' = o_angle o;
  ag_adj : o_adj o' = o_adj o }.

Lemma agree_refl o : agree o o.
Proof. constructor; reflexivity. Qed.
Lemma agree_sym o o' : agree o o' -> agree o' o.
Proof. intros []; constructor; symmetry; assumption. Qed.

Lemma invert_is_pinv L pi pit n a b : linalg_ok L -> invert L pi pit n a = Ok b -> is_pinv n a b.
Proof.
  intros HL H. destruct pi; [apply (invert_pinv L pit n a b HL H)|apply inverse_is_pinv, (invert_ok L pit n a b HL H)].
Qed.

Definition row_of (pos : vec3) : vec := fun j =>
  match j with 0%nat => fst (fst pos) | 1%nat => snd (fst pos) | _ => snd pos end.

Lemma locate_row dim q l p pos : dim = 2%nat \/ dim = 3%nat ->
  locate dim (q_style q) (q_pts q) (q_mask q) = Ok l -> cell dim q p pos -> l_at l p = row_of pos.
Proof.
  intros Hd HL C. destruct (locate_cell dim q l p pos Hd HL C) as [_ Hpos].
  assert (HX : exists x y z, l_at l = xyz_cols x y z /\ (dim = 2%nat -> z p = 0)).
  { destruct Hd as [-> | ->]; cbn [locate] in HL; unfold locate2, locate3 in HL;
    repeat match type of HL with
    | (if ?b then _ else _) = Ok _ => destruct b; try discriminate HL
    | match ?m with _ => _ end = Ok _ => destruct m; try discriminate HL
    end; injection HL as <-; cbn [l_at]; eexists _, _, _; (split; [reflexivity|]); intros; try reflexivity; discriminate. }
  destruct HX as (x & y & z & HX & Hz). unfold loc_of, loc in Hpos. rewrite HX in *. cbn [xyz_cols] in Hpos.
  subst pos. apply functional_extensionality. intros [|[|j]]; cbn; try reflexivity.
  destruct Hd as [-> | ->]; cbn; [apply Hz|]; reflexivity.
Qed.

Lemma adjust_row b b' n X X' c s a Y Y' p p' : adjust_for_anisotropy b n X c s a = Ok Y ->
  adjust_for_anisotropy b' n X' c s a = Ok Y' -> X p = X' p' -> Y p = Y' p'.
Proof.
  intros HX HY HE. unfold adjust_for_anisotropy in *. destruct b, b'; try discriminate.
  bindok HX. destruct a0 as [st rot]. cbn [bind] in HY. injection HX as <-. injection HY as <-.
  apply functional_extensionality. intros j. f_equal. unfold trm, mulm.
  apply bsum_ext; intros k _. f_equal. apply bsum_ext; intros k' _. rewrite HE. reflexivity.
Qed.

Lemma adjust_query_row o o' i i' X X' Y Y' p p' : agree o o' -> adjust_query o i X = Ok Y -> adjust_query o' i' X' = Ok Y' ->
  X p = X' p' -> Y p = Y' p'.
Proof.
  intros Ag HX HY HE. unfold adjust_query, o_dim in *. destruct Ag as [Hc Ht _ _ _ _ _ He Hs Ha _].
  rewrite Ht, Hc, He, Hs, Ha in HY. destruct (o_ct o); [|congruence].
  apply (adjust_row _ _ _ _ _ _ _ _ _ _ p p' HX HY HE).
Qed.

(** the value of a cell computed by [ref] *)
Lemma ref_value E o q r p pos : ref E o q = Ok r -> cell (o_dim o) q p pos -> ~ hidden (o_dim o) q p ->
  exists a_inv, invert (e_la E) (o_pinv o) (o_pinv_type o) (o_n o + 1) (get_kriging_matrix o) = Ok a_inv /\
    r_value r p = Some (point_value (o_n o) a_inv (rhs_spec (o_n o) (g_of o pos)) (o_values o)) /\
    r_variance r p = Some (point_variance (o_n o) a_inv (rhs_spec (o_n o) (g_of o pos))).
Proof.
  intros H C Hh. unfold ref in H. bindok H. bindok H. bindok H. rename a into l, a0 into pts, a1 into a_inv.
  exists a_inv. split; [reflexivity|].
  destruct (locate_cell _ _ _ _ _ (o_dim_cases o) E0 C) as [Hp Hpos].
  pose proof (cell_hidden_mask _ q l p pos (o_dim_cases o) E0 C) as HH.
  injection H as <-. cbn [r_value r_variance finish fst snd].
  destruct (String.eqb (q_style q) "masked"); cbn [andb] in HH; [|rewrite Hpos; auto].
  destruct (l_mask l p); [exfalso; apply Hh, HH; reflexivity|rewrite Hpos; auto].
Qed.

(** the value of a cell computed with a window *)
Lemma window_value E o q k r p pos : env_ok E -> coords_inv o -> ordinary o -> faithful_backend E o q ->
  q_window q = Some k -> execute E o q = Ok r -> cell (o_dim o) q p pos -> ~ hidden (o_dim o) q p ->
  (2 <= k <= o_n o)%nat /\
  exists l pts v s, locate (o_dim o) (q_style q) (q_pts q) (q_mask q) = Ok l /\
    adjust_query o (q_int q) (l_at l) = Ok pts /\ r_value r p = Some v /\ r_variance r p = Some s /\
    let sel := snd (neighbours E o pts k p) in
    nearest o k pos sel /\ local_regular o k sel /\ local_estimate o k sel pos v s.
Proof.
  intros HE Hinv Hord HF HW H C Hh.
  destruct (execute_ok_window E o q r k Hord HW H) as [Hk2 HB].
  assert (HWB : window_backend E o (q_backend q)).
  { destruct HB as [HB|[Hc HB]]; [left; exact HB|right]. split; [exact Hc|]. split; [exact HB|].
    intros Hcy. apply HF; assumption. }
  pose proof H as H'. rewrite (execute_window_unfold E o q k Hinv Hord HW Hk2 HB) in H'. bindok H'. bindok H'. bindok H'.
  rename a into l, a0 into pts. destruct a1 as [z s].
  destruct (locate_cell _ _ _ _ _ (o_dim_cases o) E0 C) as [Hp Hpos].
  destruct (locate_facts _ _ _ _ _ (o_dim_cases o) E0) as [Hn Hm].
  pose proof (cell_hidden_mask _ q l p pos (o_dim_cases o) E0 C) as HH.
  assert (Hml : l_mask l p = false).
  { destruct Hm as [Hm|Hm]; [|apply Hm]. rewrite Hm in HH. cbn in HH. apply not_true_iff_false. intros Hx. apply Hh, HH, Hx. }
  assert (HkN : (k <= o_n o)%nat).
  { destruct (Nat.le_gt_cases k (o_n o)) as [Hle|Hgt]; [exact Hle|exfalso].
    apply (window_too_large E o q k r p pos l HE Hinv Hord HW HB Hk2 Hgt C E0 Hml H). }
  split; [lia|]. exists l, pts, (z p), (s p). split; [reflexivity|]. split; [first [exact E1|reflexivity]|].
  injection H' as <-. cbn [r_value r_variance finish fst snd].
  split; [destruct (String.eqb _ _); rewrite ?Hml; reflexivity|].
  split; [destruct (String.eqb _ _); rewrite ?Hml; reflexivity|].
  pose proof (window_values_spec E o q k l pts HE Hinv E1 HkN HWB) as HV. cbv zeta in HV. rewrite E2 in HV.
  specialize (HV p Hp Hml). rewrite Hpos in HV. exact HV.
Qed.

Lemma agree_G o o' : agree o o' -> G_of o' = G_of o.
Proof.
  intros [Hc Ht Hf Hpa Hn Ho Hv He Hs Ha Had]. unfold G_of, o_vg, separation, datum, o_dim.
  rewrite Hc, Ht, Hf, Hpa, Ho, Hs, Ha. reflexivity.
Qed.
Lemma agree_sep o o' : agree o o' -> separation o' = separation o /\ datum o' = datum o.
Proof.
  intros [Hc Ht Hf Hpa Hn Ho Hv He Hs Ha Had]. unfold separation, datum, o_dim.
  rewrite Hc, Ht, Ho, Hs, Ha. auto.
Qed.
Lemma agree_g o o' pos : agree o o' -> o_exact o' = o_exact o -> g_of o' pos = g_of o pos.
Proof.
  intros Ag He. destruct (agree_sep o o' Ag) as [H1 H2]. destruct Ag. unfold g_of, o_vg.
  rewrite He, ag_fun0, ag_params0, H1, H2. reflexivity.
Qed.
Lemma agree_neighbours E o o' pts pts' k p p' : agree o o' -> pts p = pts' p' ->
  neighbours E o pts k p = neighbours E o' pts' k p'.
Proof.
  intros Ag HE. destruct Ag. unfold neighbours, o_dim. rewrite ag_ct0, ag_class0, ag_n0, ag_adj0.
  destruct (o_ct o).
  - destruct (cdim (o_class o)) as [|[|[|?]]]; unfold zyx; rewrite <- HE; reflexivity.
  - unfold unit_vectors. rewrite <- HE. reflexivity.
Qed.

(** The determinism lemma *)
Lemma cell_det E o o' q q' r r' p p' pos : env_ok E -> coords_inv o -> coords_inv o' -> ordinary o -> agree o o' ->
  faithful_backend E o q -> faithful_backend E o' q' -> q_window q = q_window q' ->
  execute E o q = Ok r -> execute E o' q' = Ok r' ->
  shown o q p pos -> shown o' q' p' pos ->
  (forall i, (i < o_n o)%nat -> g_of o pos i = g_of o' pos i) ->
  r_value r p = r_value r' p' /\ r_variance r p = r_variance r' p'.
Proof.
  intros HE Hinv Hinv' Hord Ag HF HF' HWW H H' [C Hh] [C' Hh'] Hg.
  assert (Hd : o_dim o' = o_dim o) by (unfold o_dim; rewrite (ag_class _ _ Ag); reflexivity).
  assert (Hord' : ordinary o') by (unfold ordinary; rewrite (ag_class _ _ Ag); exact Hord).
  destruct (q_window q) as [k|] eqn:HW.
  - destruct (window_value E o q k r p pos HE Hinv Hord HF HW H C Hh)
      as (Hk & l & pts & v & s & HL & HA & Hv & Hs & HN & HR & HEs).
    destruct (window_value E o' q' k r' p' pos HE Hinv' Hord' HF' (eq_sym HWW) H' C' Hh')
      as (Hk' & l' & pts' & v' & s' & HL' & HA' & Hv' & Hs' & HN' & HR' & HEs').
    rewrite Hd in *.
    assert (Hrow : pts p = pts' p').
    { apply (adjust_query_row o o' (q_int q) (q_int q') (l_at l) (l_at l') pts pts' p p' Ag HA HA').
      rewrite (locate_row _ q l p pos (o_dim_cases o) HL C), (locate_row _ q' l' p' pos (o_dim_cases o) HL' C'). reflexivity. }
    rewrite <- (agree_neighbours E o o' pts pts' k p p' Ag Hrow) in HR', HEs', HN'.
    set (sel := snd (neighbours E o pts k p)) in *.
    unfold local_estimate, local_regular in *. rewrite (agree_G o o' Ag), (ag_values _ _ Ag) in *.
    assert (v = v' /\ s = s') as [-> ->].
    { apply (regular_unique' k (fun a b => G_of o (sel a) (sel b)) (fun a => g_of o pos (sel a))
               (fun a => o_values o (sel a)) v s v' s' HR HEs).
      refine (OK_estimate_ext _ _ _ _ _ _ _ _ _ _ _ _ HEs'); intros i; intros; try reflexivity.
      symmetry. apply Hg. apply HN. assumption. }
    rewrite Hv, Hs, Hv', Hs'. auto.
  - destruct (execute_ok_ref E o q r Hinv Hord HF HW H) as (r1 & HR & Hsh & Heq).
    destruct (execute_ok_ref E o' q' r' Hinv' Hord' HF' (eq_sym HWW) H') as (r1' & HR' & Hsh' & Heq').
    destruct HE as (HL & _).
    destruct (ref_cell E o q r1 p pos HL Hinv HR C) as [Hp _]. rewrite <- Hsh in Hp. destruct (Heq p Hp) as [-> ->].
    destruct (ref_cell E o' q' r1' p' pos HL Hinv' HR' C') as [Hp' _]. rewrite <- Hsh' in Hp'. destruct (Heq' p' Hp') as [-> ->].
    destruct (ref_value E o q r1 p pos HR C Hh) as (a & HI & -> & ->).
    destruct (ref_value E o' q' r1' p' pos HR' C' Hh') as (a' & HI' & -> & ->).
    apply (invert_is_pinv _ _ _ _ _ _ HL) in HI. apply (invert_is_pinv _ _ _ _ _ _ HL) in HI'.
    assert (Ha : meq (o_n o + 1) a' a).
    { unfold get_kriging_matrix, data_distances, o_vg, o_dim in *.
      rewrite (ag_n _ _ Ag), (ag_fun _ _ Ag), (ag_params _ _ Ag), (ag_ct _ _ Ag),
        (ag_class _ _ Ag), (ag_adj _ _ Ag) in HI'. apply (pinv_unique _ _ _ _ HI' HI). }
    rewrite (ag_n _ _ Ag), (ag_values _ _ Ag).
    assert (Hb : veq (o_n o + 1) (rhs_spec (o_n o) (g_of o pos)) (rhs_spec (o_n o) (g_of o' pos))).
    { apply rhs_spec_ext. intros i Hi. apply Hg, Hi. }
    rewrite (point_value_ext _ _ _ _ _ Hb), (point_variance_ext _ _ _ _ Hb).
    set (b := rhs_spec (o_n o) (g_of o' pos)).
    assert (Hx : forall i, (i < o_n o + 1)%nat -> mulv (o_n o + 1) a b i = mulv (o_n o + 1) a' b i).
    { intros i Hi. unfold mulv. apply bsum_ext; intros j Hj. rewrite Ha by assumption. reflexivity. }
    unfold point_value, point_variance. split; f_equal; apply bsum_ext; intros i Hi; rewrite Hx by lia; reflexivity.
Qed.
