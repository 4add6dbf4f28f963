(** C75, C76: concrete cases. *)
From Coq Require Import String Permutation FunctionalExtensionality.
From Verif Require Import Base Sums Matrix M_Variogram P_Variogram M_Geometry S_Geometry P_Geometry M_Kriging S_Kriging
  P_Kriging P_OKSpec M_Init M_Object M_Execute S_Execute P_Object P_Execute P_Cells P_OK P_Exec2 P_Data2
  S_Fit S_State S_Amplify P_Amplify P_Fit4 S_Stats P_Stats S_Stretch P_Stats2 S_Valid P_Valid P_Valid4 P_Valid6 P_Valid7 S_Access P_Access2 Witness Witness2 P_UK8.

Definition val (x y z : list R) (s n sc an : R) : cargs :=
  {| c_coords := [x; y]; c_values := z;
     c_v := {| a_model := VName "linear"; a_params := PList [s; n]; a_fun := FNone;
               a_nlags := 6; a_weight := false; a_scaling := (fun _ => sc); a_angle := (fun _ => an) |};
     c_verbose := false; c_plotting := false; c_stat := true; c_ct := "euclidean";
     c_exact := Some true; c_pinv := false; c_pinv_type := "pinv" |}.

Lemma val_call x y z s n sc an : List.length x = List.length z -> List.length y = List.length z -> (2 <= List.length z)%nat -> proper_call OK2 (val x y z s n sc an).
Proof.
  intros Hx Hy Hz. constructor; cbn; try reflexivity; try discriminate; try assumption; [left; reflexivity|].
  intros l [<-|[<-|[]]]; assumption.
Qed.
Lemma val_vg x y z s n sc an : 0 <= s -> 0 < n -> sc <> 0 -> proper_variogram OK2 (c_v (val x y z s n sc an)) "linear" [s; n].
Proof. intros Hs Hn Hsc. constructor; try reflexivity; [apply request_linear; try reflexivity; lra|intros k _; exact Hsc]. Qed.
Lemma val_construct x y z s n sc an : List.length x = List.length z -> List.length y = List.length z -> (2 <= List.length z)%nat ->
  0 <= s -> 0 < n -> sc <> 0 -> exists o, construct WE OK2 (val x y z s n sc an) = Ok o.
Proof.
  intros Hx Hy Hz Hs Hn Hsc. apply (proj2 (construct_iff WE OK2 _ "linear" [s; n] (wit_env_ok _ _) (val_call x y z s n sc an Hx Hy Hz) (val_vg x y z s n sc an Hs Hn Hsc))).
  intros _. left. exact Hn.
Qed.
Lemma val_current x y z s n sc an o : construct WE OK2 (val x y z s n sc an) = Ok o -> current_statistics WE OK2 (val x y z s n sc an) [] o.
Proof. intros H. split; [split; [reflexivity|exists o; auto]|left; auto]. Qed.
Lemma val_fields x y z s n sc an o : construct WE OK2 (val x y z s n sc an) = Ok o ->
  o_class o = OK2 /\ o_ct o = Euclidean /\ o_n o = List.length x /\ o_exact o = true /\ o_pinv o = false /\ o_values o = rnth z /\
  (forall d, o_vg o d = s * d + n) /\ o_scaling o = (fun _ => sc) /\ o_angle o = (fun _ => an) /\ (forall i, datum o i = (rnth x i, rnth y i, 0)) /\
  (exists f, dict_get variogram_dict "linear" = Some f /\ o_fun o = f) /\ o_params o = [s; n].
Proof.
  intros H. destruct (construct_inv WE OK2 _ o H) as (ex & name & prm & fn & sc' & an' & f & vp & lags & sv & params & Hall).
  destruct Hall as (_&Hex&Hgs&Hf&Hmp&_&Hini&_&Hc&Hpi&_&Hexo&_&Hfo&Hpo&Hn&Horig&Hval&_&_&_&_&Hct).
  cbn in Hex, Hgs, Hn, Horig, Hval, Hpi. injection Hex as <-. injection Hgs as <- <- <- <- <-.
  cbn in Hf. injection Hf as <-. cbn in Hmp. injection Hmp as <-.
  destruct Hct as [(_ & Hct & _ & Hs & Ha & _)|(Hg & _)]; [|discriminate].
  apply init_params in Hini. subst params.
  repeat (split; [assumption|]). split; [|split; [assumption|split; [assumption|split; [|split; [|exact Hpo]]]]].
  - intros d. unfold o_vg. rewrite Hfo, Hpo. reflexivity.
  - intros i. unfold datum, loc, o_dim. rewrite Hc, Horig. reflexivity.
  - eexists. split; [reflexivity|exact Hfo].
Qed.
Lemma val_center x y z s n sc an o : construct WE OK2 (val x y z s n sc an) = Ok o -> exists cs, mapM center_of [x; y] = Ok cs /\ o_center o = rnth cs.
Proof.
  intros H. destruct (construct_inv WE OK2 _ o H) as (ex & name & prm & fn & sc' & an' & f & vp & lags & sv & params & Hall).
  destruct Hall as (_&_&_&_&_&_&_&_&_&_&_&_&_&_&_&_&_&_&_&_&_&_&[(_&_&HH&_)|(HH&_)]); [exact HH|discriminate HH].
Qed.
Lemma val_sep x y z s n an o i j : construct WE OK2 (val x y z s n 1 an) = Ok o ->
  sep o i j = sqrt ((rnth x i - rnth x j)² + (rnth y i - rnth y j)²).
Proof.
  intros H. destruct (val_fields _ _ _ _ _ _ _ _ H) as (Hc & Hct & _ & _ & _ & _ & _ & Hs & Ha & HD & _).
  unfold sep, separation. rewrite Hct, !HD, Hs. unfold o_dim. rewrite Hc. cbn [cdim Nat.eqb].
  rewrite P_Motion.aniso2_iso by reflexivity. unfold dist3, Rsqr. f_equal. ring.
Qed.
Lemma val_residuals x y z s n an o : construct WE OK2 (val x y z s n 1 an) = Ok o -> 0 <= s -> eps <= n -> (forall i j, (i < j < List.length x)%nat -> eps < sep o i j) -> all_residuals o.
Proof.
  intros H Hs Hn HD. destruct (val_fields _ _ _ _ _ _ _ _ H) as (Hc & Hct & HN & _ & HP & _ & HV & _ & _ & _ & (f & F & Hf) & Hpar).
  assert (EV := eps_val).
  destruct (construct_stats WE OK2 _ o H (fun _ => eq_refl)) as (st & K & K').
  assert (HR : reachable WE o) by (refine (reach_new WE OK2 (val x y z s n 1 an) o eq_refl H)).
  destruct (statistics_validate WE o st (wit_env_ok _ _) (reachable_inv WE o HR) HP) as (v & sg & H1 & H2); [rewrite HN; exact HD|exact K|].
  exists st. split; [exact K'|]. destruct H2 as (-> & _). rewrite map_length.
  assert (PO : proper o).
  { split; [exact Hct|]. rewrite Hf, Hpar. injection F as <-. apply proper_linear; try reflexivity; cbn; lra. }
  rewrite (all_kept o v sg PO); [apply seq_length| | |exact H1].
  - rewrite HV. lra.
  - rewrite HN. exact HD.
Qed.

(** order *)
Lemma isosceles x y z a b c o : construct WE OK2 (val x y z 1 1 1 0) = Ok o -> List.length x = 3%nat ->
  sep o 0 1 = 6 -> sep o 0 2 = 5 -> sep o 1 2 = 5 -> rnth z 0 = a -> rnth z 1 = b -> rnth z 2 = c ->
  exists st, o_stats o = Some st /\ st_epsilon st = [(b - a) / sqrt 14; (c - (a + b) / 2) / sqrt (17 / 2)].
Proof.
  intros H HL S1 S2 S3 Za Zb Zc.
  destruct (val_fields _ _ _ _ _ _ _ _ H) as (Hc & Hct & HN & _ & HP & HVal & HV & _ & _ & _ & (f & F & Hf) & Hpar).
  assert (EV := eps_val). rewrite HL in HN.
  destruct (construct_stats WE OK2 _ o H (fun _ => eq_refl)) as (st & K & K').
  assert (HR : reachable WE o) by (refine (reach_new WE OK2 (val x y z 1 1 1 0) o eq_refl H)).
  assert (HD : forall i j, (i < j < o_n o)%nat -> eps < sep o i j).
  { rewrite HN. intros i j Hij. destruct i as [|[|i]]; [| |lia]; (destruct j as [|[|[|j]]]; [lia| | |lia]); try lia; rewrite ?S1, ?S2, ?S3; lra. }
  destruct (statistics_validate WE o st (wit_env_ok _ _) (reachable_inv WE o HR) HP HD K) as (v & sg & H1 & H2).
  exists st. split; [exact K'|]. destruct H2 as (_ & _ & ->).
  assert (PO : proper o).
  { split; [exact Hct|]. rewrite Hf, Hpar. injection F as <-. apply proper_linear; try reflexivity; cbn; lra. }
  rewrite (all_kept o v sg PO); [|rewrite HV; lra|exact HD|exact H1]. rewrite HN. cbn [Nat.sub seq map].
  assert (SYM : forall i j, sep o i j = sep o j i) by (intros; apply P_Object.separation_sym).
  pose proof (H1 1%nat ltac:(lia)) as (w & mu & (E1 & E2) & V1 & W1).
  pose proof (H1 2%nat ltac:(lia)) as (w' & mu' & (E1' & E2') & V2 & W2).
  assert (G : forall i j, i <> j -> G_of o i j = sep o i j + 1).
  { intros i j Hne. unfold G_of, data_semivariance. destruct (Nat.eqb_spec i j); [contradiction|]. rewrite HV. unfold sep. ring. }
  assert (G0 : forall i, G_of o i i = 0) by (intros i; unfold G_of, data_semivariance; rewrite Nat.eqb_refl; reflexivity).
  pose proof (E1 0%nat ltac:(lia)) as A0. pose proof (E1' 0%nat ltac:(lia)) as B0. pose proof (E1' 1%nat ltac:(lia)) as B1.
  cbn [bsum] in *. change (separation o (datum o 0%nat) (datum o 1%nat)) with (sep o 0 1) in *.
  change (separation o (datum o 0%nat) (datum o 2%nat)) with (sep o 0 2) in *. change (separation o (datum o 1%nat) (datum o 2%nat)) with (sep o 1 2) in *.
  rewrite !G0 in *. rewrite (G 0%nat 1%nat), (G 1%nat 0%nat), ?(SYM 1%nat 0%nat), ?S1 in * by lia. rewrite ?HV, ?S1, ?S2, ?S3 in *.
  rewrite HVal, ?Za, ?Zb, ?Zc in *.
  assert (w 0%nat = 1) by lra. assert (w' 0%nat = 1 / 2) by lra. assert (w' 1%nat = 1 / 2) by lra.
  assert (X1 : v 1%nat = a) by (rewrite V1; replace (w 0%nat) with 1; ring).
  assert (X2 : sg 1%nat = 14) by (rewrite W1; replace (w 0%nat) with 1; replace mu with 7 by lra; ring).
  assert (X3 : v 2%nat = (a + b) / 2) by (rewrite V2; replace (w' 0%nat) with (1 / 2); replace (w' 1%nat) with (1 / 2); field).
  assert (X4 : sg 2%nat = 17 / 2) by (rewrite W2; replace (w' 0%nat) with (1 / 2); replace (w' 1%nat) with (1 / 2); replace mu' with (5 / 2) by lra; field).
  rewrite X1, X2, X3, X4. reflexivity.
Qed.

Lemma sqrt_sq a b r : 0 <= r -> a² + b² = r² -> sqrt (a² + b²) = r.
Proof. intros Hr ->. apply sqrt_Rsqr, Hr. Qed.

Theorem order_matters : exists A s coords z o o' st st' q q',
  (forall j, (j < 2)%nat -> rearranged s (nth j (c_coords A) []) (nth j coords [])) /\ rearranged s (c_values A) z /\ perm_on (List.length (c_values A)) s /\
  current_statistics WE OK2 A [] o /\ current_statistics WE OK2 (with_data A coords z) [] o' /\
  o_stats o = Some st /\ o_stats o' = Some st' /\ st_Q1 st = Some q /\ st_Q1 st' = Some q' /\ q <> q'.
Proof.
  destruct (val_construct [0; 6; 3] [0; 0; 4] [0; 1; 2] 1 1 1 0) as [o Ho]; try reflexivity; try (cbn; lia); try lra.
  destruct (val_construct [6; 0; 3] [0; 0; 4] [1; 0; 2] 1 1 1 0) as [o' Ho']; try reflexivity; try (cbn; lia); try lra.
  destruct (isosceles _ _ _ 0 1 2 o Ho) as (st & Hs & He); try reflexivity; try (rewrite (val_sep _ _ _ _ _ _ _ _ _ Ho); cbn; apply sqrt_sq; unfold Rsqr; lra).
  destruct (isosceles _ _ _ 1 0 2 o' Ho') as (st' & Hs' & He'); try reflexivity; try (rewrite (val_sep _ _ _ _ _ _ _ _ _ Ho'); cbn; apply sqrt_sq; unfold Rsqr; lra).
  destruct (construct_stats WE OK2 _ o Ho (fun _ => eq_refl)) as (t & K & K'). rewrite Hs in K'. injection K' as <-.
  destruct (construct_stats WE OK2 _ o' Ho' (fun _ => eq_refl)) as (t & T & T'). rewrite Hs' in T'. injection T' as <-.
  destruct (statistics_entries _ _ _ _ _ _ _ _ _ K) as (_ & _ & _ & _ & _ & _ & Q & _).
  destruct (statistics_entries _ _ _ _ _ _ _ _ _ T) as (_ & _ & _ & _ & _ & _ & Q' & _).
  rewrite He in Q. rewrite He' in Q'. unfold calcQ1 in Q, Q'. cbn [List.length Nat.eqb] in Q, Q'.
  set (s := fun i : nat => match i with 0%nat => 1%nat | 1%nat => 0%nat | _ => i end).
  exists (val [0; 6; 3] [0; 0; 4] [0; 1; 2] 1 1 1 0), s, [[6; 0; 3]; [0; 0; 4]], [1; 0; 2], o, o', st, st'. do 2 eexists.
  split; [|split; [|split; [|split; [apply val_current, Ho|split; [apply (val_current _ _ _ _ _ _ _ _ Ho')|
    split; [exact Hs|split; [exact Hs'|split; [exact Q|split; [exact Q'|]]]]]]]]].
  - intros [|[|j]] Hj; [| |lia]; (split; [reflexivity|]); intros [|[|[|i]]] Hi; try reflexivity; cbn in Hi; lia.
  - split; [reflexivity|]. intros [|[|[|i]]] Hi; try reflexivity; cbn in Hi; lia.
  - split.
    + clear. intros [|[|[|i]]] Hi; cbn in *; lia.
    + clear. intros [|[|[|i]]] [|[|[|j]]] Hi Hj; cbn in *; intros; try lia; try discriminate.
  - assert (P1 := sqrt_lt_R0 14 ltac:(lra)). assert (P2 := sqrt_lt_R0 (17 / 2) ltac:(lra)).
    unfold lsum. cbn [fold_right INR List.length]. replace (1 + 1) with 2 by ring.
    set (u := / sqrt 14). set (v := / sqrt (17 / 2)). assert (0 < u) by (apply Rinv_0_lt_compat; lra). assert (0 < v) by (apply Rinv_0_lt_compat; lra).
    assert (UV : u < v). { apply Rinv_lt_contravar; [nra|]. apply sqrt_lt_1; lra. }
    replace ((1 - 0) / sqrt 14 + ((2 - (0 + 1) / 2) / sqrt (17 / 2) + 0)) with (u + 3 / 2 * v) by (unfold u, v; field; lra).
    replace ((0 - 1) / sqrt 14 + ((2 - (1 + 0) / 2) / sqrt (17 / 2) + 0)) with (3 / 2 * v - u) by (unfold u, v; field; lra).
    rewrite !Rabs_right by lra. lra.
Qed.

(** the hypotheses of C75 *)
Theorem ex_statistics : exists A o o', env_ok WE /\ current_statistics WE OK2 A [] o /\
  current_statistics WE OK2 (with_values A (map (fun z => -2 * z + 7) (c_values A))) [] o' /\
  (forall v, In v [c_v A] -> explicit_params v) /\ c_pinv A = false /\ all_residuals o /\ (3 <= o_n o)%nat.
Proof.
  destruct (val_construct [0; 6; 3] [0; 0; 4] [0; 1; 2] 1 1 1 0) as [o Ho]; try reflexivity; try (cbn; lia); try lra.
  destruct (val_construct [0; 6; 3] [0; 0; 4] (map (fun z => -2 * z + 7) [0; 1; 2]) 1 1 1 0) as [o' Ho']; try reflexivity; try (cbn; lia); try lra.
  exists (val [0; 6; 3] [0; 0; 4] [0; 1; 2] 1 1 1 0), o, o'. split; [apply wit_env_ok|]. split; [apply val_current, Ho|].
  split; [apply (val_current _ _ _ _ _ _ _ _ Ho')|]. split; [intros v [<-|[]]; left; cbn; discriminate|]. split; [reflexivity|].
  assert (EV := eps_val). split.
  - apply (val_residuals _ _ _ _ _ _ _ Ho); [lra|lra|]. intros i j Hij. cbn in Hij. rewrite (val_sep _ _ _ _ _ _ _ _ _ Ho).
    destruct i as [|[|i]]; [| |lia]; (destruct j as [|[|[|j]]]; [lia| | |lia]); try lia; cbn.
    + rewrite (sqrt_sq _ _ 6); unfold Rsqr; lra.
    + rewrite (sqrt_sq _ _ 5); unfold Rsqr; lra.
    + rewrite (sqrt_sq _ _ 5); unfold Rsqr; lra.
  - destruct (val_fields _ _ _ _ _ _ _ _ Ho) as (_ & _ & -> & _). cbn. lia.
Qed.

Theorem ex_statistics_amplified : exists A A' o o', env_ok WE /\ current_statistics WE OK2 A [] o /\ current_statistics WE OK2 A' [] o' /\
  amplified 4 o o' /\ o_pinv o = false /\ o_pinv o' = false /\ all_residuals o /\ all_residuals o' /\ (3 <= o_n o)%nat.
Proof.
  destruct (val_construct [0; 6; 3] [0; 0; 4] [0; 1; 2] 1 1 1 0) as [o Ho]; try reflexivity; try (cbn; lia); try lra.
  destruct (val_construct [0; 6; 3] [0; 0; 4] [0; 1; 2] (4 * 1) (4 * 1) 1 0) as [o' Ho']; try reflexivity; try (cbn; lia); try lra.
  exists (val [0; 6; 3] [0; 0; 4] [0; 1; 2] 1 1 1 0), (val [0; 6; 3] [0; 0; 4] [0; 1; 2] (4 * 1) (4 * 1) 1 0), o, o'. split; [apply wit_env_ok|]. split; [apply val_current, Ho|].
  split; [apply val_current, Ho'|].
  split.
  { destruct (val_fields _ _ _ _ _ _ _ _ Ho) as (F1 & F2 & F3 & F4 & F5 & F6 & F7 & F8 & F9 & F10 & _).
    destruct (val_fields _ _ _ _ _ _ _ _ Ho') as (F1' & F2' & F3' & F4' & F5' & F6' & F7' & F8' & F9' & F10' & _). cbn in F3, F3'.
    constructor; [congruence|congruence|congruence| |congruence|congruence|congruence| |congruence|].
    - destruct (val_center _ _ _ _ _ _ _ _ Ho) as (cs & C1 & ->). destruct (val_center _ _ _ _ _ _ _ _ Ho') as (cs' & C1' & ->). rewrite C1 in C1'. injection C1' as <-. reflexivity.
    - intros i Hi. rewrite F10, F10'. reflexivity.
    - intros d. rewrite F7, F7'. ring. }
  assert (EV := eps_val). split; [apply (val_fields _ _ _ _ _ _ _ _ Ho)|]. split; [apply (val_fields _ _ _ _ _ _ _ _ Ho')|].
  assert (R : forall s o, construct WE OK2 (val [0; 6; 3] [0; 0; 4] [0; 1; 2] s s 1 0) = Ok o -> 1 <= s -> all_residuals o).
  { intros s o1 H1 Hs. apply (val_residuals _ _ _ _ _ _ _ H1); [lra|lra|]. intros i j Hij. cbn in Hij. rewrite (val_sep _ _ _ _ _ _ _ _ _ H1).
    destruct i as [|[|i]]; [| |lia]; (destruct j as [|[|[|j]]]; [lia| | |lia]); try lia; cbn.
    + rewrite (sqrt_sq _ _ 6); unfold Rsqr; lra.
    + rewrite (sqrt_sq _ _ 5); unfold Rsqr; lra.
    + rewrite (sqrt_sq _ _ 5); unfold Rsqr; lra. }
  split; [apply (R 1 o Ho); lra|]. split; [apply (R (4 * 1) o' Ho'); lra|].
  destruct (val_fields _ _ _ _ _ _ _ _ Ho) as (_ & _ & -> & _). cbn. lia.
Qed.

Theorem ex_statistics_unit : exists A A' o o', env_ok WE /\ current_statistics WE OK2 A [] o /\ current_statistics WE OK2 A' [] o' /\
  magnified 2 o o' /\ o_pinv o' = o_pinv o /\ (3 <= o_n o)%nat /\
  (forall i j, (i < o_n o)%nat -> (j < o_n o)%nat -> i <> j -> eps < sep o i j /\ eps < 2 * sep o i j).
Proof.
  destruct (val_construct [0; 6; 3] [0; 0; 4] [0; 1; 2] 1 1 1 0) as [o Ho]; try reflexivity; try (cbn; lia); try lra.
  destruct (val_construct [0; 12; 6] [0; 0; 8] [0; 1; 2] (1 / 2) 1 1 0) as [o' Ho']; try reflexivity; try (cbn; lia); try lra.
  exists (val [0; 6; 3] [0; 0; 4] [0; 1; 2] 1 1 1 0), (val [0; 12; 6] [0; 0; 8] [0; 1; 2] (1 / 2) 1 1 0), o, o'. split; [apply wit_env_ok|]. split; [apply val_current, Ho|].
  split; [apply val_current, Ho'|].
  destruct (val_fields _ _ _ _ _ _ _ _ Ho) as (F1 & F2 & F3 & F4 & F5 & F6 & F7 & F8 & F9 & F10 & _).
  destruct (val_fields _ _ _ _ _ _ _ _ Ho') as (F1' & F2' & F3' & F4' & F5' & F6' & F7' & F8' & F9' & F10' & _). cbn in F3, F3'.
  split.
  - constructor; [congruence|congruence|congruence|congruence|congruence|congruence|congruence| |congruence|].
    + intros i Hi. rewrite F10, F10'. rewrite F3 in Hi. destruct i as [|[|[|i]]]; [| | |lia]; cbn; f_equal; try f_equal; ring.
    + intros d _. rewrite F7, F7'. field.
  - split; [congruence|]. split; [lia|]. assert (EV := eps_val).
    assert (Z : forall i j, (i < o_n o)%nat -> (j < o_n o)%nat -> i <> j -> 5 <= sep o i j).
    { intros i j Hi Hj Hne. rewrite F3 in Hi, Hj. rewrite (val_sep _ _ _ _ _ _ _ _ _ Ho).
      destruct i as [|[|[|i]]]; [| | |lia]; (destruct j as [|[|[|j]]]; [| | |lia]); try lia; cbn;
      first [rewrite (sqrt_sq _ _ 6) by (unfold Rsqr; lra); lra|rewrite (sqrt_sq _ _ 5) by (unfold Rsqr; lra); lra]. }
    intros i j Hi Hj Hne. specialize (Z i j Hi Hj Hne). lra.
Qed.
