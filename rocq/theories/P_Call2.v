(** Proofs for C69 (anisotropy of an update), C70 (parameters of the wrapper). *)
From Coq Require Import String Permutation.
From Verif Require Import Base Sums Matrix M_Variogram M_Geometry M_Kriging M_Init M_Object M_Execute S_Execute S_Geometry M_UK M_Compat S_State M_Call S_Call S_Compat
  P_Object P_Execute P_State P_State5 P_UK2 P_Compat P_Call.

Definition aniso_names (dim : nat) : list string := map fst (if Nat.eqb dim 2 then default_anisotropy_2d else default_anisotropy_3d).

Lemma vargs_anisotropy dim kw d v m : dim = 2%nat \/ dim = 3%nat -> dict_get kw "variogram_model" = Some (V_model m) ->
  (forall k, In k (map fst kw) -> ~ In k (aniso_names dim)) ->
  bind_args (update_sig dim) kw = Ok d -> vargs_of dim d = Ok v ->
  a_model v = m /\ a_scaling v = rnth (repeat 1 (dim - 1)) /\ a_angle v = rnth (repeat 0 (if Nat.eqb dim 2 then 1%nat else 3%nat)).
Proof.
  intros Hdim Hm Hk HB HV.
  assert (HN : NoDup (map fst (update_sig dim))) by (destruct Hdim as [-> | ->]; distinct_names).
  pose proof (bind_get _ _ _ HN HB) as HG. clear HB.
  assert (HA : forall k x, In (k, Some (V_real x)) (aniso_sig dim) -> In k (aniso_names dim) -> get_real d k = Ok x).
  { intros k x Hi Hk'. unfold get_real, get. rewrite (HG k (Some (V_real x))).
    - rewrite (proj2 (dict_get_none kw k)); [reflexivity|]. intros K. exact (Hk k K Hk').
    - unfold update_sig. apply in_or_app. right. exact Hi. }
  assert (HM : get_model d "variogram_model" = Ok m).
  { unfold get_model, get. rewrite (HG "variogram_model"%string None) by (left; reflexivity). rewrite Hm. reflexivity. }
  unfold vargs_of in HV. rewrite HM in HV. cbn [bind] in HV. bindok HV. bindok HV. bindok HV. bindok HV.
  destruct Hdim as [-> | ->]; cbn [Nat.eqb mapM] in HV.
  - rewrite (HA "anisotropy_scaling"%string 1), (HA "anisotropy_angle"%string 0) in HV by (cbn; tauto). cbn in HV. injection HV as <-. repeat split.
  - rewrite (HA "anisotropy_scaling_y"%string 1), (HA "anisotropy_scaling_z"%string 1), (HA "anisotropy_angle_x"%string 0), (HA "anisotropy_angle_y"%string 0),
      (HA "anisotropy_angle_z"%string 0) in HV by (cbn; tauto). cbn in HV. injection HV as <-. repeat split.
Qed.

Lemma update_removes E m m' name kw p q : update_call E m [V_model (VName name)] kw = (m', None) -> o_ct (kobj m) = Euclidean ->
  (forall k, In k (map fst kw) -> ~ In k (aniso_names (model_dim m))) ->
  separation (kobj m') p q = plain_distance (model_dim m) p q.
Proof.
  intros HU HE Hk. unfold update_call in HU.
  destruct (positional (update_sig (model_dim m)) [V_model (VName name)] kw) as [kw'|e] eqn:EP; [|discriminate]. cbn [bind] in HU.
  apply positional_keys in EP.
  destruct (bind_args (update_sig (model_dim m)) kw') as [d|e] eqn:EB; [|discriminate]. cbn [bind] in HU.
  destruct (vargs_of (model_dim m) d) as [v|e] eqn:EV; [|discriminate].
  assert (Hdim : model_dim m = 2%nat \/ model_dim m = 3%nat) by (destruct m; cbn; apply o_dim_cases).
  destruct (vargs_anisotropy (model_dim m) kw' d v (VName name) Hdim) as (V1 & V2 & V3); try assumption.
  { rewrite EP. reflexivity. }
  { rewrite EP. intros k Hi. cbn in Hi. destruct Hi as [<-|Hi]; [|apply Hk; exact Hi].
    unfold aniso_names. destruct (Nat.eqb (model_dim m) 2); cbn; intuition discriminate. }
  assert (Hfin : forall o o', update_variogram_model E o v = (o', None) -> o_ct o = Euclidean -> o_dim o = model_dim m ->
    separation o' p q = plain_distance (model_dim m) p q).
  { intros o o' HO HC HD. pose proof (update_settings E o v) as HS. rewrite HO in HS. cbn [fst snd] in HS. specialize (HS eq_refl HC).
    destruct HS as (nm & prm & fn & sc & an & HR & HS). unfold resolve_gs in HR. rewrite V1 in HR. injection HR as <- <- <- <- <-.
    pose proof (update_preserves E o v) as HP. rewrite HO in HP. cbn [fst] in HP.
    assert (HCl : o_class o' = o_class o) by apply HP. assert (HCt : o_ct o' = o_ct o) by apply HP.
    assert (HD' : o_dim o' = o_dim o) by (unfold o_dim; rewrite HCl; reflexivity).
    rewrite <- HD, <- HD'. apply separation_none; [rewrite HCt; exact HC|]. rewrite HD', HD, <- V2, <- V3. rewrite <- HD. exact HS. }
  destruct m as [o|u]; cbn [kobj model_dim] in *.
  - destruct (update_variogram_model E o v) as [o' e'] eqn:EO. injection HU as <- ->. cbn [kobj]. apply (Hfin o o' EO HE eq_refl).
  - pose proof (update_uk_obj E u v) as [U1 U2]. destruct (update_uk E u v) as [u' e'] eqn:EU. injection HU as <- ->. cbn [kobj fst snd] in *.
    apply (Hfin (u_obj u)); [|exact HE|reflexivity]. unfold update_uk in EU. destruct (update_variogram_model E (u_obj u) v) as [o1 e1]. injection EU as <- <-. reflexivity.
Qed.
