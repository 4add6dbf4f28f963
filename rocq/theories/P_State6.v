(** Proofs for C29/C31: objects reached by whole sessions. *)
From Coq Require Import String.
From Verif Require Import Base Sums Matrix M_Variogram M_Geometry M_Kriging M_Init M_Object M_Execute S_Execute M_UK S_UK S_State
  P_Object P_Data P_State P_State2 P_State5.

Definition updates_of (cs : list call) : list vargs := flat_map (fun c => match c with Update v => [v] | _ => [] end) cs.

Lemma session_state E cs : forall o, exists a b,
  fold_left (after_call E) cs o = set_flags (after_updates E (updates_of cs) o) a b.
Proof.
  induction cs as [|c cs IH]; intros o.
  - exists (o_verbose o), (o_plotting o). cbn. symmetry. apply set_flags_id.
  - cbn [fold_left].
    assert (G : forall c', updates_of [c'] = [] -> after_call E o c' = o ->
      exists a b, fold_left (after_call E) cs (after_call E o c') = set_flags (after_updates E (updates_of (c' :: cs)) o) a b).
    { intros c' H1 H2. rewrite H2. destruct (IH o) as (a & b & H). exists a, b. rewrite H.
      unfold updates_of in *. cbn [flat_map] in *. rewrite app_nil_r in H1. rewrite H1. reflexivity. }
    destruct c as [v|q|s| | |]; try (apply G; reflexivity).
    + apply IH.
    + cbn [after_call]. destruct (flip_flags s o) as (a & b & ->). clear G.
      destruct (IH (set_flags o a b)) as (a' & b' & ->). 
      change (updates_of (Switch s :: cs)) with (updates_of cs).
      assert (K : forall us o, exists a' b', after_updates E us (set_flags o a b) = set_flags (after_updates E us o) a' b').
      { clear. induction us as [|v us IH]; intros o; [exists a, b; reflexivity|]. cbn [after_updates fold_left].
        rewrite update_flags. cbn [fst]. apply IH. }
      destruct (K (updates_of cs) o) as (a2 & b2 & ->).
      exists a', b'. reflexivity.
Qed.

Lemma equivalent_flags E o o' a b : equivalent E o o' -> equivalent E (set_flags o a b) o'.
Proof. intros []. constructor; assumption. Qed.

Theorem rebuild_after_session E c A o0 cs v : List.length (c_coords A) = cdim c -> construct E c A = Ok o0 ->
  let o := fold_left (after_call E) cs o0 in
  match update_variogram_model E o v with
  | (o', None) => exists o'', construct E c (with_v A v) = Ok o'' /\ equivalent E o' o'' /\
                    (computes_statistics c A -> o_stats o' = o_stats o'')
  | (_, Some e) => computes_statistics c A -> construct E c (with_v A v) = Err e
  end.
Proof.
  intros HL HC o. subst o. destruct (session_state E cs o0) as (a & b & ->). rewrite update_flags.
  assert (HB : built E c A (updates_of cs) (after_updates E (updates_of cs) o0)) by (split; [exact HL|exists o0; auto]).
  pose proof (update_is_rebuild E c A _ _ v HB) as H.
  destruct (update_variogram_model E (after_updates E (updates_of cs) o0) v) as [o' [e|]]; cbn [fst snd]; [exact H|].
  destruct H as (o'' & H1 & H2 & H3). exists o''. split; [exact H1|]. split; [apply equivalent_flags, H2|exact H3].
Qed.

(** a rejected model leaves predictions alone *)
Lemma rejected_model_state E o v : model_rejected E o v ->
  exists m e, update_variogram_model E o v = (set_model o m, Some e).
Proof.
  intros [(s & H1 & H2 & H3)|(m & H1 & H2)].
  - assert (R : resolve_fun s (a_fun v) = Err ValueError).
    { unfold resolve_fun, dict_get, variogram_dict.
      assert (K : forall k, In k ["linear"; "power"; "gaussian"; "spherical"; "exponential"; "hole-effect"]%string -> String.eqb s k = false)
        by (intros k Hk; apply String.eqb_neq; intros ->; apply H2, Hk).
      cbn [find fst]. rewrite ?(String.eqb_sym _ s). rewrite !K by (cbn; auto 10).
      destruct (String.eqb_spec s "custom") as [->|]; [|reflexivity].
      destruct (a_fun v) as [|g|] eqn:EF; try reflexivity. exfalso. apply (H3 eq_refl). exists g. reflexivity. }
    eexists _, _. eapply rejected_name; [unfold resolve_gs; rewrite H1; reflexivity|exact R].
  - assert (R : exists e, resolve_gs E (o_class o) (ct_name (o_ct o)) v = Err e).
    { unfold resolve_gs. rewrite H1. destruct H2 as [H2|H2].
      - unfold validate_gstools. destruct (e_gstools E) as [[M N]|]; [|eexists; reflexivity].
        destruct (gs_is_covmodel m); [|eexists; reflexivity]. cbn [negb].
        destruct H2 as [H2|H2]; [discriminate|]. 
        destruct H2 as [H2|[H2|[H2 H3]]]; [discriminate| |].
        + rewrite H2. eexists; reflexivity.
        + destruct (version_lt (M, N) 1 3); [eexists; reflexivity|]. rewrite H2, H3. eexists; reflexivity.
      - destruct (validate_gstools E m); [|eexists; reflexivity]. cbn [bind].
        destruct (o_class o); try rewrite H2; try (eexists; reflexivity).
        + destruct (Nat.eqb_spec (gs_field_dim m) 3); [eexists; reflexivity|]. destruct H2 as [H2|[H2 H3]]; [contradiction|].
          rewrite H2. destruct (o_ct o); [eexists; reflexivity|discriminate H3].
        + destruct (Nat.eqb_spec (gs_field_dim m) 3); [eexists; reflexivity|]. destruct H2 as [H2|H2]; [contradiction|]. rewrite H2. eexists; reflexivity.
        + apply Nat.ltb_lt in H2. rewrite H2. eexists; reflexivity.
        + apply Nat.ltb_lt in H2. rewrite H2. eexists; reflexivity. }
    destruct R as [e R]. eexists _, _. apply rejected_gs, R.
Qed.
Theorem rejected_model_predictions E o v : model_rejected E o v ->
  exists o' e, update_variogram_model E o v = (o', Some e) /\ forall q, execute E o' q = execute E o q.
Proof. intros H. destruct (rejected_model_state E o v H) as (m & e & K). exists (set_model o m), e. split; [exact K|]. intros q. apply execute_set_model. Qed.
