(** Proofs of C82: universal kriging depends on the drift functions only through the
    functions they span together with the constants. *)
From Coq Require Import String.
From Verif Require Import Base Sums Matrix Nz M_Variogram P_Variogram M_Geometry S_Geometry P_Geometry M_Kriging S_Kriging
  P_Kriging P_OKSpec M_Init M_Object M_Execute S_Execute P_Object P_Execute P_Cells P_Window P_WindowExec P_Master P_Det P_OK
  M_UK S_UK P_UK P_UK2 P_UK3 P_UK4 P_UK5 P_State2 S_Span.

Lemma span_sum n m m' (F F' : mat) (f f' nu : vec) :
  (forall k, (k < m)%nat -> exists c cs, (forall i, (i < n)%nat -> F k i = c + bsum m' (fun j => cs j * F' j i)) /\
     f k = c + bsum m' (fun j => cs j * f' j)) ->
  exists c cs, (forall i, (i < n)%nat -> bsum m (fun k => nu k * F k i) = c + bsum m' (fun j => cs j * F' j i)) /\
     bsum m (fun k => nu k * f k) = c + bsum m' (fun j => cs j * f' j).
Proof.
  induction m as [|m IH]; intros H.
  - exists 0, (fun _ => 0). split; [intros i _|]; cbn; rewrite bsum_0; try ring; intros; ring.
  - destruct IH as (c & cs & H1 & H2); [intros k Hk; apply H; lia|].
    destruct (H m ltac:(lia)) as (c0 & cs0 & K1 & K2).
    exists (c + nu m * c0), (fun j => cs j + nu m * cs0 j).
    assert (X : forall g : vec, bsum m' (fun j => (cs j + nu m * cs0 j) * g j) =
              bsum m' (fun j => cs j * g j) + nu m * bsum m' (fun j => cs0 j * g j)).
    { intros g. rewrite <- bsum_scal, <- bsum_plus. apply bsum_ext; intros; ring. }
    split; [intros i Hi|]; rewrite X; cbn [bsum]; rewrite ?H1, ?H2, ?K1, ?K2 by assumption; ring.
Qed.

Lemma span_system n m m' G (F F' : mat) (g f f' w : vec) mu nu :
  UK_system n m G F g f w mu nu ->
  (forall k, (k < m')%nat -> exists c cs, (forall i, (i < n)%nat -> F' k i = c + bsum m (fun j => cs j * F j i)) /\
     f' k = c + bsum m (fun j => cs j * f j)) ->
  (forall k, (k < m)%nat -> exists c cs, (forall i, (i < n)%nat -> F k i = c + bsum m' (fun j => cs j * F' j i)) /\
     f k = c + bsum m' (fun j => cs j * f' j)) ->
  exists mu' nu', UK_system n m' G F' g f' w mu' nu' /\
    bsum m (fun k => nu k * f k) + mu = bsum m' (fun k => nu' k * f' k) + mu'.
Proof.
  intros (H1 & H2 & H3) HA HB. destruct (span_sum n m m' F F' f f' nu HB) as (c & cs & K1 & K2).
  exists (mu + c), cs. split; [|rewrite K2; ring]. split; [|split; [exact H2|]].
  - intros i Hi. rewrite <- (H1 i Hi), K1 by exact Hi. ring.
  - intros k Hk. destruct (HA k Hk) as (c0 & cs0 & L1 & L2).
    rewrite (bsum_ext n _ (fun j => c0 * w j + bsum m (fun l => cs0 l * (w j * F l j)))).
    2:{ intros j Hj. rewrite L1 by exact Hj. rewrite Rmult_plus_distr_l, <- bsum_scal. f_equal; [ring|]. apply bsum_ext; intros; ring. }
    rewrite bsum_plus, bsum_scal, H2, bsum_swap, L2. f_equal; [ring|]. apply bsum_ext; intros l Hl. rewrite bsum_scal, H3 by exact Hl. reflexivity.
Qed.

Lemma expressed_nth n pos p t p' ts : expressed n pos p t p' ts ->
  exists c cs, (forall i, (i < n)%nat -> t_data t i = c + bsum (List.length ts) (fun j => cs j * F_of ts j i)) /\
     t_query t p pos = c + bsum (List.length ts) (fun j => cs j * f_of ts p' pos j).
Proof.
  intros (c & cs & H1 & H2). exists c, (fun j => nth j cs 0). split; [intros i Hi; rewrite (H1 i Hi)|rewrite H2];
    rewrite combination_nth, map_length; f_equal; apply bsum_ext; intros k _; unfold F_of, f_of; rewrite ?nth_t_data, ?nth_t_query; reflexivity.
Qed.

Lemma same_span_sym n pos p ts p' ts' : same_span n pos p ts p' ts' -> same_span n pos p' ts' p ts.
Proof. intros [H1 H2]. split; assumption. Qed.

Lemma span_solution n G g pos p ts p' ts' w mu nu : same_span n pos p ts p' ts' ->
  UK_system n (List.length ts) G (F_of ts) g (f_of ts p pos) w mu nu ->
  exists mu' nu', UK_system n (List.length ts') G (F_of ts') g (f_of ts' p' pos) w mu' nu' /\
    bsum (List.length ts) (fun k => nu k * f_of ts p pos k) + mu = bsum (List.length ts') (fun k => nu' k * f_of ts' p' pos k) + mu'.
Proof.
  intros [H1 H2] HS. apply (span_system n _ _ G (F_of ts) (F_of ts') g _ _ w mu nu HS).
  - intros k Hk. apply expressed_nth. apply H2, nth_In, Hk.
  - intros k Hk. apply expressed_nth. apply H1, nth_In, Hk.
Qed.

Lemma span_estimate n G g z pos p ts p' ts' v s : same_span n pos p ts p' ts' ->
  UK_estimate n (List.length ts) G (F_of ts) g (f_of ts p pos) z v s ->
  UK_estimate n (List.length ts') G (F_of ts') g (f_of ts' p' pos) z v s.
Proof.
  intros HSp (w & mu & nu & HS & -> & ->). destruct (span_solution _ _ _ _ _ _ _ _ _ _ _ HSp HS) as (mu' & nu' & HS' & HV).
  exists w, mu', nu'. split; [exact HS'|]. split; [reflexivity|]. lra.
Qed.

Lemma same_history_obj E c A D D' us u u' : ubuilt E c A D us u -> ubuilt E c A D' us u' -> u_obj u' = u_obj u.
Proof.
  intros H H'. destruct (ubuilt_obj _ _ _ _ _ _ H) as ((_ & o & HC & HO) & _). destruct (ubuilt_obj _ _ _ _ _ _ H') as ((_ & o' & HC' & HO') & _).
  rewrite HO, HO'. congruence.
Qed.

Theorem span_only E c A D D' us u u' q q' specs specs' r r' p p' pos :
  ubuilt E c A D us u -> ubuilt E c A D' us u' ->
  urun E u q specs r -> urun E u' q' specs' r' -> faithful_specs u q -> faithful_specs u' q' ->
  shown (u_obj u) q p pos -> shown (u_obj u') q' p' pos -> uregular u' q' specs' ->
  same_span (o_n (u_obj u)) pos p (drift_terms u q specs) p' (drift_terms u' q' specs') ->
  r_value r p = r_value r' p' /\ r_variance r p = r_variance r' p'.
Proof.
  intros HU HU' HR HR' HF HF' HS HS' Hreg HSp. pose proof (same_history_obj _ _ _ _ _ _ _ _ HU HU') as HO.
  destruct (uk_cells E u' q' specs' r' p' pos HR' HS' (uregular_well_posed _ _ _ _ _ Hreg) HF') as (v' & s' & -> & -> & HE').
  cbv zeta in HE'. rewrite HO in HE'.
  assert (HW : uwell_posed u q specs p pos).
  { destruct HE' as (w & mu & nu & HS0 & _). unfold uwell_posed. right.
    destruct (span_solution _ _ _ _ _ _ _ _ _ _ _ (same_span_sym _ _ _ _ _ _ HSp) HS0) as (mu' & nu' & HS1 & _).
    exists w, mu', nu'. exact HS1. }
  destruct (uk_cells E u q specs r p pos HR HS HW HF) as (v & s & -> & -> & HE). cbv zeta in HE.
  pose proof (uregular_get E u' q' specs' r' HR' Hreg) as HG. rewrite HO in HG.
  destruct (UK_estimate_unique _ _ _ _ _ _ _ _ _ _ _ HG (span_estimate _ _ _ _ _ _ _ _ _ _ _ HSp HE) HE') as [-> ->].
  split; reflexivity.
Qed.

(** redundant terms make the system singular *)
Lemma redundant_singular n G ts : redundant n ts -> ~ UK_regular n (List.length ts) G (F_of ts).
Proof.
  intros (l1 & t & l2 & c & cs & -> & HT) HG.
  set (m := List.length (l1 ++ t :: l2)) in *. 
  destruct (HG (fun _ => 0) (fun _ => 0)) as (w & mu & nu & HS & HU).
  (* multipliers: coefficient -1 at t and those of the combination elsewhere *)
  set (co := fun k => nth k (firstn (List.length l1) (cs ++ repeat 0 (List.length l1)) ++ [-1] ++ skipn (List.length l1) cs) 0).
  assert (HZ : forall i, (i < n)%nat -> bsum m (fun k => co k * F_of (l1 ++ t :: l2) k i) = - c).
  { intros i Hi.
    rewrite (bsum_ext m _ (fun k => nth k (firstn (List.length l1) (cs ++ repeat 0 (List.length l1)) ++ [-1] ++ skipn (List.length l1) cs) 0
                              * nth k (map (fun t' => t_data t' i) (l1 ++ t :: l2)) 0)).
    2:{ intros k Hk. unfold co, F_of. rewrite nth_t_data. reflexivity. }
    unfold m. rewrite <- (map_length (fun t' => t_data t' i)), <- combination_nth.
    specialize (HT i Hi). revert HT. rewrite !map_app. cbn [map].
    set (v1 := map (fun t' => t_data t' i) l1). set (v2 := map (fun t' => t_data t' i) l2).
    replace (List.length l1) with (List.length v1) by (unfold v1; apply map_length).
    generalize (t_data t i) as x. clearbody v1 v2. clear.
    assert (G0 : forall v1 cs x, x = c + combination cs (v1 ++ v2) ->
      combination (firstn (List.length v1) (cs ++ repeat 0 (List.length v1)) ++ [-1] ++ skipn (List.length v1) cs) (v1 ++ x :: v2) = - c).
    { clear. induction v1 as [|y v1 IH]; intros cs x Hx.
      - cbn [List.length firstn skipn app combination]. cbn [app] in Hx. rewrite Hx. ring.
      - destruct cs as [|a cs].
        + cbn [List.length repeat app firstn skipn combination] in *. specialize (IH [] (x) ltac:(cbn [app combination]; destruct (v1 ++ v2); exact Hx)).
          replace (skipn (List.length v1) (@nil R)) with (@nil R) in IH by (symmetry; apply skipn_nil).
          cbn [app] in IH. rewrite IH. ring.
        + cbn [List.length repeat app firstn skipn combination] in *. specialize (IH cs (x - a * y) ltac:(rewrite Hx; ring)).
          assert (HS : firstn (List.length v1) (cs ++ 0 :: repeat 0 (List.length v1)) = firstn (List.length v1) (cs ++ repeat 0 (List.length v1))).
          { clear. change (0 :: repeat 0 (List.length v1)) with (repeat 0 (S (List.length v1))).
            replace (S (List.length v1)) with (List.length v1 + 1)%nat by lia. rewrite repeat_app, app_assoc, firstn_app, app_length, repeat_length.
            replace (List.length v1 - (List.length cs + List.length v1))%nat with 0%nat by lia. cbn [firstn]. apply app_nil_r. }
          rewrite HS.
          assert (HX : forall l, List.length l = List.length v1 ->
                     combination (l ++ -1 :: skipn (List.length v1) cs) (v1 ++ x :: v2) =
                     combination (l ++ -1 :: skipn (List.length v1) cs) (v1 ++ (x - a * y) :: v2) - a * y).
          { generalize (skipn (List.length v1) cs) as tl. clear. intros tl l. revert l. induction v1 as [|z v1 IH]; intros [|b l] HL; try discriminate.
            - cbn. ring.
            - cbn [app combination]. rewrite IH by (injection HL; auto). ring. }
          cbn [app] in IH |- *. rewrite HX, IH; [ring|]. rewrite firstn_length, app_length, repeat_length. lia. }
    intros x Hx. apply G0. exact Hx. }
  destruct (HU w (mu + c) (fun k => nu k + co k)) as (_ & _ & K).
  - destruct HS as (S1 & S2 & S3). split; [|split; [exact S2|exact S3]].
    intros i Hi. rewrite <- (S1 i Hi).
    rewrite (bsum_ext m _ (fun k => nu k * F_of (l1 ++ t :: l2) k i + co k * F_of (l1 ++ t :: l2) k i)) by (intros; ring).
    rewrite bsum_plus, HZ by exact Hi. ring.
  - assert (HL : (List.length l1 < m)%nat) by (unfold m; rewrite app_length; cbn; lia).
    specialize (K (List.length l1) HL). cbv beta in K.
    assert (HC : co (List.length l1) = -1).
    { unfold co. assert (HN : List.length (firstn (List.length l1) (cs ++ repeat 0 (List.length l1))) = List.length l1)
        by (rewrite firstn_length, app_length, repeat_length; lia).
      rewrite app_nth2; rewrite HN; [|lia]. rewrite Nat.sub_diag. reflexivity. }
    lra.
Qed.
