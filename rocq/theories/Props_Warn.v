(** PROPERTY C85: the warnings.  Vocabulary: S_Warn, S_State, S_Stretch, S_UK, S_AscGrid.
    [construct_warns E c A]: the call of the constructor issues "Anisotropy is not compatible
    with geographic coordinates"; [update_warns] the same for update_variogram_model;
    [unneeded_warns u q specs]: execute issues the warning that specified drift arrays are not
    needed; [asc_warnings x y z]: write_asc_grid issues the warning about the dimensions, and
    the one about the order of the coordinates. *)
From Coq Require Import String Ascii ZArith QArith Qabs Lia List.
From Verif Require Import Base M_Geometry M_Object M_Init M_Execute S_Execute M_UK S_UK S_State S_Stretch M_Warn M_Text S_Text M_AscGrid S_AscGrid S_Warn
  M_Variogram P_Object P_UK8 P_Warn P_Warn2 Witness Witness2 P_Geo3 P_UK17.
Import ListNotations.

(** * Kriging classes *)
Open Scope R_scope.

(** the warning about anisotropy appears exactly for a geographic object whose requested
    scaling is not one *)
Theorem C85_anisotropy_warning :
  forall E c A o, construct E c A = Ok o ->
    construct_warns E c A = true <-> o_ct o = Geographic /\ asked_scaling c (c_v A) 0%nat <> 1.
Proof. exact construct_warned. Qed.
Print Assumptions C85_anisotropy_warning.

(** and it says the truth: the object is the one built without the anisotropy arguments *)
Theorem C85_anisotropy_is_ignored :
  forall E A, c_ct A = "geographic"%string ->
    construct E OK2 (with_v A (without_anisotropy (c_v A))) = construct E OK2 A.
Proof. exact construct_ignored. Qed.
Print Assumptions C85_anisotropy_is_ignored.

Theorem C85_update_warning :
  forall E o v, reachable E o -> snd (update_variogram_model E o v) = None ->
    update_warns E o v = true <-> o_ct o = Geographic /\ asked_scaling (o_class o) v 0%nat <> 1.
Proof. exact update_warned. Qed.
Print Assumptions C85_update_warning.

Theorem C85_update_is_ignored :
  forall E o v, reachable E o -> o_ct o = Geographic ->
    update_variogram_model E o (without_anisotropy v) = update_variogram_model E o v.
Proof. exact update_ignored. Qed.
Print Assumptions C85_update_is_ignored.

(** universal kriging: arrays of specified drift values for an object without specified drift
    are reported, and do not change the answer; the warning about the size of the system is
    never issued *)
Theorem C85_unneeded_drift_arrays :
  forall E u q specs r w, ureachable E u -> execute_uk E u q specs = Ok (r, w) ->
    w = false /\ (unneeded_warns u q specs = true <-> dr_spec (u_drift u) = None /\ specs <> []) /\
    (dr_spec (u_drift u) = None -> execute_uk E u q [] = Ok (r, w)).
Proof. exact unneeded_iff. Qed.
Print Assumptions C85_unneeded_drift_arrays.

(** also when the call fails *)
Theorem C85_unneeded_arrays_are_ignored :
  forall E u q specs, dr_spec (u_drift u) = None -> execute_uk E u q specs = execute_uk E u q [].
Proof. exact ignored_always. Qed.
Print Assumptions C85_unneeded_arrays_are_ignored.

(** only the scaling is reported: an angle given with scaling 1 is dropped silently *)
Theorem C85_angle_is_reported_refuted :
  ~ forall E A o, construct E OK2 A = Ok o -> o_ct o = Geographic ->
      a_angle (c_v A) 0%nat <> 0 -> construct_warns E OK2 A = true.
Proof.
  intros H. pose (A := eq_args cross [1; 2; 3; 4] "linear" [1; 0]).
  destruct (eq_construct WE cross [1; 2; 3; 4] "linear" [1; 0] f_linear [1; 0] eq_refl ltac:(cbn; lia)) as (o & Ho & _ & _ & _ & Hct & _).
  { repeat split; reflexivity. }
  pose (v := {| a_model := VName "linear"; a_params := PList [1; 0]; a_fun := FNone; a_nlags := 6; a_weight := false;
                a_scaling := (fun _ => 1); a_angle := (fun _ => 30) |}).
  assert (HO : construct WE OK2 (with_v A v) = Ok o) by (rewrite <- Ho; rewrite <- (construct_ignored WE (with_v A v)) by reflexivity; reflexivity).
  assert (K : construct_warns WE OK2 (with_v A v) = true) by (apply (H WE (with_v A v) o HO Hct); cbn; intros K0; lra).
  apply (construct_warned WE OK2 (with_v A v) o HO) in K. destruct K as [_ K]. apply K. reflexivity.
Qed.
Print Assumptions C85_angle_is_reported_refuted.

(** a geographic object asked for scaling 2 is built with the warning; with scaling 1 without *)
Example C85_anisotropy_nonvacuous : exists E A A' o,
  construct E OK2 A = Ok o /\ construct E OK2 A' = Ok o /\ o_ct o = Geographic /\ reachable E o /\
  construct_warns E OK2 A = true /\ construct_warns E OK2 A' = false.
Proof.
  pose (A := eq_args cross [1; 2; 3; 4] "linear" [1; 0]).
  destruct (eq_construct WE cross [1; 2; 3; 4] "linear" [1; 0] f_linear [1; 0] eq_refl ltac:(cbn; lia)) as (o & Ho & Hre & _ & _ & Hct & _).
  { repeat split; reflexivity. }
  pose (v := {| a_model := VName "linear"; a_params := PList [1; 0]; a_fun := FNone; a_nlags := 6; a_weight := false;
                a_scaling := (fun _ => 2); a_angle := (fun _ => 0) |}).
  assert (HO : construct WE OK2 (with_v A v) = Ok o) by (rewrite <- Ho; rewrite <- (construct_ignored WE (with_v A v)) by reflexivity; reflexivity).
  exists WE, (with_v A v), A, o. repeat (split; [assumption|]). split.
  - apply (construct_warned WE OK2 (with_v A v) o HO). split; [exact Hct|]. cbn. intros K0; lra.
  - destruct (construct_warns WE OK2 A) eqn:K; [|reflexivity]. apply (construct_warned WE OK2 A o Ho) in K. destruct K as [_ K]. now contradiction K.
Qed.

(** an unneeded array (of any shape) for an object with a functional drift *)
Example C85_unneeded_nonvacuous : exists E u q s r, ureachable E u /\ dr_spec (u_drift u) = None /\
  execute_uk E u q [s] = Ok (r, false) /\ unneeded_warns u q [s] = true /\ unneeded_warns u q [] = false.
Proof.
  destruct (pair_u 0 0 3 4 1 0 0 3 fx) as (u & HB & Ho & HC & HD & HX); [unfold fx; lra|].
  destruct (pair_point u 1 1 HX) as [r (_ & HR & w & Hr)].
  assert (HN : dr_spec (u_drift u) = None) by (rewrite HD; reflexivity).
  assert (Hs : forall s, execute_uk WE u (one_point 1 1 "vectorized") [s] = Ok (r, w)) by (intros s; rewrite ignored_always; assumption).
  pose (s := Spec1 5 (fun _ => 0)).
  destruct (unneeded_iff WE u _ [s] r w HR (Hs s)) as (W & U1 & _).
  destruct (unneeded_iff WE u _ [] r w HR Hr) as (_ & U2 & _).
  exists WE, u, (one_point 1 1 "vectorized"), s, r. split; [exact HR|]. split; [exact HN|]. split; [specialize (Hs s); rewrite W in Hs; exact Hs|]. split.
  - apply U1. split; [exact HN|discriminate].
  - destruct (unneeded_warns u (one_point 1 1 "vectorized") []) eqn:K; [|reflexivity]. destruct (proj1 U2 eq_refl) as [_ K']. now contradiction K'.
Qed.

(** * write_asc_grid *)
From Coq Require Import Lqa.
Open Scope Q_scope.

(** what the two warnings report *)
Theorem C85_asc_warnings :
  forall x y z, plane z -> (2 <= List.length x)%nat -> (2 <= List.length y)%nat ->
    (fst (asc_warnings x y z) = false <-> g_rows z = List.length y /\ g_cols z = List.length x) /\
    (snd (asc_warnings x y z) = false <-> least_first x /\ least_first y).
Proof. exact warnings_iff. Qed.
Print Assumptions C85_asc_warnings.

(** for evenly spaced coordinates, in either direction: no warning exactly when the
    coordinates read back from the file are those written *)
Theorem C85_asc_warned_exactly_when_not_read_back :
  forall x y z nx ny fx fy sx sy nd,
    line_axis x nx fx sx -> line_axis y ny fy sy -> hundredths fx -> hundredths fy -> hundredths sx -> hundredths sy ->
    (2 <= g_rows z)%nat -> (2 <= g_cols z)%nat -> cells_in_field z nd ->
    exists t a, write_asc exact x y z nd 1 = (Some t, Ok tt) /\ read_asc exact t 0 = Ok a /\
      (asc_warnings x y z = (false, false) <-> same_numbers (a_x a) x /\ same_numbers (a_y a) y).
Proof. exact warned_iff. Qed.
Print Assumptions C85_asc_warned_exactly_when_not_read_back.

Definition sevens (r c : nat) : grid cell := {| g_rows := r; g_cols := c; g_at := fun _ _ => Num 7 |}.

(** but uneven coordinates can pass all checks, without a warning, and be read back changed *)
Theorem C85_no_warning_means_read_back_refuted :
  ~ forall x y z nd t a, write_asc exact x y z nd 1 = (Some t, Ok tt) -> read_asc exact t 0 = Ok a ->
      asc_warnings x y z = (false, false) -> same_numbers (a_x a) x.
Proof.
  intros H. specialize (H [0; 1; 1 # 2; 3] [0; 1] (sevens 2 4) (-999 # 1)).
  assert (W : exists t, write_asc exact [0; 1; 1 # 2; 3] [0; 1] (sevens 2 4) (-999 # 1) 1 = (Some t, Ok tt) /\
    exists a, read_asc exact t 0 = Ok a /\ ~ qnth (a_x a) 2 == 1 # 2 /\ List.length (a_x a) = 4%nat).
  { eexists. split; [vm_compute; reflexivity|]. eexists. split; [vm_compute; reflexivity|]. split; [vm_compute; intros K; discriminate K|reflexivity]. }
  destruct W as (t & W1 & a & W2 & W3 & W4). destruct (H t a W1 W2 eq_refl) as [_ K]. apply W3. apply (K 2%nat). rewrite W4. lia.
Qed.
Print Assumptions C85_no_warning_means_read_back_refuted.

(** ascending axes: no warning; x descending: the order warning; z transposed: the other *)
Example C85_asc_nonvacuous :
  line_axis [0; 1; 2] 3 0 1 /\ line_axis [2; 1; 0] 3 2 (-1) /\ line_axis [0; 1] 2 0 1 /\ cells_in_field (sevens 2 3) (-999 # 1) /\
  hundredths 0 /\ hundredths 1 /\ hundredths 2 /\ hundredths (-1) /\
  asc_warnings [0; 1; 2] [0; 1] (sevens 2 3) = (false, false) /\
  asc_warnings [2; 1; 0] [0; 1] (sevens 2 3) = (false, true) /\
  asc_warnings [0; 1] [2; 1; 0] (sevens 3 2) = (false, true) /\
  asc_warnings [0; 1; 2] [0; 1] (sevens 3 2) = (true, false).
Proof.
  assert (P3 : forall i, (i < 3)%nat -> i = 0%nat \/ i = 1%nat \/ i = 2%nat) by lia.
  assert (P2 : forall i, (i < 2)%nat -> i = 0%nat \/ i = 1%nat) by lia.
  split; [|split; [|split; [|split]]].
  - split; [lia|]. split; [intros K; discriminate K|]. split; [reflexivity|]. intros i Hi. destruct (P3 i Hi) as [-> |[-> | ->]]; reflexivity.
  - split; [lia|]. split; [intros K; discriminate K|]. split; [reflexivity|]. intros i Hi. destruct (P3 i Hi) as [-> |[-> | ->]]; reflexivity.
  - split; [lia|]. split; [intros K; discriminate K|]. split; [reflexivity|]. intros i Hi. destruct (P2 i Hi) as [-> | ->]; reflexivity.
  - intros m n _ _. cbn. unfold in_field. lra.
  - repeat split; try reflexivity; [exists 0%Z|exists 100%Z|exists 200%Z|exists (-100)%Z]; reflexivity.
Qed.
