(** Proofs of C82, continued: redundant drift terms. *)
From Coq Require Import String.
From Verif Require Import Base Sums Matrix M_Variogram M_Geometry S_Geometry M_Kriging S_Kriging M_Init M_Object M_Execute S_Execute
  M_UK S_UK P_UK4 S_Bilinear S_Drift P_UK18 P_UK19 P_UK20 P_UK21 S_Span P_Span P_Span2.

Theorem redundant_raises E u q specs : env_ok E -> ureachable E u -> o_pinv (u_obj u) = false ->
  q_backend q = "vectorized"%string \/ q_backend q = "loop"%string -> good_query (u_obj u) q -> good_specs u q specs ->
  redundant (o_n (u_obj u)) (drift_terms u q specs) -> execute_uk E u q specs = Err LinAlgError.
Proof.
  intros HE HR HP HB HQ HS HD. apply (singular_raises E u q specs HE HR HP HB HQ HS).
  apply redundant_singular. exact HD.
Qed.

Lemma combination_nil vs : combination [] vs = 0.
Proof. destruct vs; reflexivity. Qed.

Theorem constant_raises E u q specs f fs k : env_ok E -> ureachable E u -> o_pinv (u_obj u) = false ->
  q_backend q = "vectorized"%string \/ q_backend q = "loop"%string -> good_query (u_obj u) q -> good_specs u q specs ->
  dr_fun (u_drift u) = Some fs -> In f fs -> (forall x y z, f x y z = k) -> execute_uk E u q specs = Err LinAlgError.
Proof.
  intros HE HR HP HB HQ HS HD HI Hk. apply (redundant_raises E u q specs HE HR HP HB HQ HS).
  assert (HT : In (spatial (u_obj u) (fun p => let c := frame (u_obj u) p in f (coord 0 c) (coord 1 c) (coord 2 c))) (drift_terms u q specs)).
  { unfold drift_terms. rewrite !in_app_iff. do 4 right. unfold fun_terms. rewrite HD. cbn [opt_list].
    apply (in_map (fun f => spatial (u_obj u) (fun p => let c := frame (u_obj u) p in f (coord 0 c) (coord 1 c) (coord 2 c))) fs f HI). }
  apply in_split in HT as (l1 & l2 & HT). rewrite HT. eexists l1, _, l2, k, []. split; [reflexivity|].
  intros i _. cbn [spatial t_data]. cbv zeta. rewrite Hk. rewrite combination_nil. ring.
Qed.

(** missing coefficients are 0: pad to a given length *)
Lemma combination_pad k cs vs : combination (cs ++ repeat 0 k) vs = combination cs vs.
Proof.
  revert vs. induction cs as [|c cs IH]; intros vs; cbn [app].
  - rewrite combination_nil. revert vs. induction k as [|k IH]; intros vs; [apply combination_nil|]. destruct vs as [|v vs]; [reflexivity|].
    cbn [repeat]. change (0 * v + combination (repeat 0 k) vs = 0). rewrite IH. ring.
  - destruct vs as [|v vs]; [reflexivity|]. change (c * v + combination (cs ++ repeat 0 k) vs = c * v + combination cs vs). rewrite IH. reflexivity.
Qed.
Lemma combination_app cs1 cs2 v1 v2 : List.length cs1 = List.length v1 ->
  combination (cs1 ++ cs2) (v1 ++ v2) = combination cs1 v1 + combination cs2 v2.
Proof.
  revert v1. induction cs1 as [|c cs1 IH]; intros [|v v1] HL; try discriminate.
  - cbn [app]. rewrite combination_nil. ring.
  - cbn [app combination]. rewrite IH by (injection HL; auto). ring.
Qed.

Lemma expressed_more n pos p t p' l1 t0 l2 : expressed n pos p t p' (l1 ++ l2) -> expressed n pos p t p' (l1 ++ t0 :: l2).
Proof.
  intros (c & cs & H1 & H2). set (cs' := cs ++ repeat 0 (List.length l1)).
  assert (HL : (List.length l1 <= List.length cs')%nat) by (unfold cs'; rewrite app_length, repeat_length; lia).
  exists c, (firstn (List.length l1) cs' ++ 0 :: skipn (List.length l1) cs').
  assert (X : forall f : term -> R, combination cs (map f (l1 ++ l2)) =
            combination (firstn (List.length l1) cs' ++ 0 :: skipn (List.length l1) cs') (map f (l1 ++ t0 :: l2))).
  { intros f. rewrite <- (combination_pad (List.length l1) cs). fold cs'. rewrite !map_app. cbn [map].
    rewrite combination_app by (rewrite firstn_length, map_length; lia).
    rewrite <- (firstn_skipn (List.length l1) cs') at 1. rewrite combination_app by (rewrite firstn_length, map_length; lia).
    f_equal. change (combination (skipn (List.length l1) cs') (map f l2) = 0 * f t0 + combination (skipn (List.length l1) cs') (map f l2)). ring. }
  split.
  - intros i Hi. rewrite (H1 i Hi). f_equal. apply X.
  - rewrite H2. f_equal. apply X.
Qed.

Lemma expressed_trans n pos p t p' ts p'' ts'' : expressed n pos p t p' ts -> (forall t', In t' ts -> expressed n pos p' t' p'' ts'') ->
  expressed n pos p t p'' ts''.
Proof.
  intros HE HA. destruct (expressed_nth _ _ _ _ _ _ HE) as (c & cs & H1 & H2).
  destruct (span_sum n (List.length ts) (List.length ts'') (F_of ts) (F_of ts'') (f_of ts p' pos) (f_of ts'' p'' pos) cs) as (c0 & cs0 & K1 & K2).
  { intros k Hk. apply expressed_nth. apply HA, nth_In, Hk. }
  exists (c + c0), (map cs0 (seq 0 (List.length ts''))).
  assert (X : forall vs : list R, List.length vs = List.length ts'' ->
            combination (map cs0 (seq 0 (List.length ts''))) vs = bsum (List.length ts'') (fun j => cs0 j * nth j vs 0)).
  { intros vs HL. rewrite combination_nth, HL. apply bsum_ext. intros k Hk. f_equal.
    rewrite (nth_indep _ 0 (cs0 0%nat)) by (rewrite map_length, seq_length; exact Hk). rewrite map_nth, seq_nth by exact Hk. reflexivity. }
  split.
  - intros i Hi. rewrite X by apply map_length. rewrite (H1 i Hi), K1 by exact Hi. rewrite Rplus_assoc. do 2 f_equal.
    apply bsum_ext. intros j _. unfold F_of. rewrite nth_t_data. reflexivity.
  - rewrite X by apply map_length. rewrite H2, K2. rewrite Rplus_assoc. do 2 f_equal.
    apply bsum_ext. intros j _. unfold f_of. rewrite nth_t_query. reflexivity.
Qed.

Theorem redundant_ignored E c A D D' us u u' q q' specs specs' r r' p p' pos l1 t l2 :
  ubuilt E c A D us u -> ubuilt E c A D' us u' ->
  urun E u q specs r -> urun E u' q' specs' r' -> faithful_specs u q -> faithful_specs u' q' ->
  shown (u_obj u) q p pos -> shown (u_obj u') q' p' pos -> uregular u' q' specs' ->
  drift_terms u q specs = l1 ++ t :: l2 ->
  same_span (o_n (u_obj u)) pos p (l1 ++ l2) p' (drift_terms u' q' specs') ->
  expressed (o_n (u_obj u)) pos p t p (l1 ++ l2) ->
  r_value r p = r_value r' p' /\ r_variance r p = r_variance r' p'.
Proof.
  intros HU HU' HR HR' HF HF' HS HS' Hreg HT [H1 H2] HE.
  apply (span_only E c A D D' us u u' q q' specs specs' r r' p p' pos); try assumption. rewrite HT. split.
  - intros t0 Ht0. apply in_app_or in Ht0 as [Ht0|[<-|Ht0]].
    + apply H1, in_or_app. left; exact Ht0.
    + apply (expressed_trans _ _ _ _ p (l1 ++ l2) _ _ HE H1).
    + apply H1, in_or_app. right; exact Ht0.
  - intros t0 Ht0. apply expressed_more. apply H2, Ht0.
Qed.
