(** PROPERTY C67: what the accessor methods report.  Vocabulary: S_Access, S_Fit. *)
From Coq Require Import String.
From Verif Require Import Base Sums Matrix M_Variogram M_Geometry S_Geometry M_Kriging S_Kriging M_Init M_Object M_Execute S_Execute
  S_State S_Fit S_Access S_Valid P_Fit5 P_Access P_Access2 Witness Witness2 P_UK8 P_UK9.

(** A built-in model with given parameters: the variogram that kriging uses is the
    documented formula, after construction and after update_variogram_model. *)
Theorem C67_documented_variogram :
  forall E c A o name s r n, construct E c A = Ok o -> a_model (c_v A) = VName name ->
    spelled name s r n (a_params (c_v A)) -> (name = "power"%string -> r <> 0) ->
    forall d, o_vg o d = documented name s r n d.
Proof. exact construct_documented. Qed.
Print Assumptions C67_documented_variogram.

Theorem C67_documented_variogram_after_update :
  forall E o v o' name s r n, update_variogram_model E o v = (o', None) -> a_model v = VName name ->
    spelled name s r n (a_params v) -> (name = "power"%string -> r <> 0) ->
    forall d, o_vg o' d = documented name s r n d.
Proof. exact update_documented. Qed.
Print Assumptions C67_documented_variogram_after_update.

(** get_variogram_points: the experimental lags (see C34) and the variogram at them. *)
Theorem C67_variogram_points :
  forall E c A o, construct E c A = Ok o -> List.length (c_coords A) = cdim c -> (1 <= a_nlags (c_v A))%nat ->
    exists dmin dmax members,
      extremes (o_n o) (sep o) dmin dmax /\ classes (o_n o) (sep o) dmin dmax (a_nlags (c_v A)) members /\
      let ks := filter (fun k => nonempty (members k)) (seq 0 (a_nlags (c_v A))) in
      let lags := map (fun k => mean (map (fun p => sep o (fst p) (snd p)) (members k))) ks in
      get_variogram_points o = (lags, map (o_vg o) lags).
Proof.
  intros E c A o HC HL Hn. destruct (experimental_of_construct E c A o HC HL Hn) as (dmin & dmax & M & H1 & H2 & _ & _ & H3 & _).
  exists dmin, dmax, M. split; [exact H1|]. split; [exact H2|]. cbv zeta in *. rewrite <- H3. reflexivity.
Qed.
Print Assumptions C67_variogram_points.

(** get_epsilon_residuals and get_statistics: each datum (with variance at least eps)
    predicted from those before it; after construction ... *)
Theorem C67_statistics :
  forall E c A o, env_ok E -> construct E c A = Ok o -> List.length (c_coords A) = cdim c -> (c = OK2 -> c_stat A = true) ->
    c_pinv A = false -> (forall i j, (i < j < o_n o)%nat -> eps < sep o i j) ->
    exists v s, predicted_from_before o v s /\ reported o v s (filter (fun i => Rleb eps (s i)) (seq 1 (o_n o - 1))).
Proof. exact reported_construct. Qed.
Print Assumptions C67_statistics.

(** ... and after an update *)
Theorem C67_statistics_after_update :
  forall E c A us o u o', env_ok E -> built E c A us o -> update_variogram_model E o u = (o', None) -> c_pinv A = false ->
    (forall i j, (i < j < o_n o')%nat -> eps < sep o' i j) ->
    exists v s, predicted_from_before o' v s /\ reported o' v s (filter (fun i => Rleb eps (s i)) (seq 1 (o_n o' - 1))).
Proof. exact reported_update. Qed.
Print Assumptions C67_statistics_after_update.

(** With a sound model (S_Valid) and a nugget of at least eps = 1e-10 no datum is skipped. *)
Theorem C67_no_residual_skipped :
  forall o v s, proper o -> eps <= o_vg o 0 -> (forall i j, (i < j < o_n o)%nat -> eps < sep o i j) -> predicted_from_before o v s ->
    filter (fun i => Rleb eps (s i)) (seq 1 (o_n o - 1)) = seq 1 (o_n o - 1).
Proof. exact all_kept. Qed.
Print Assumptions C67_no_residual_skipped.

Example C67_nonvacuous : forall z, List.length z = 3%nat -> exists o, env_ok WE /\ construct WE UK2 (tri_args z) = Ok o /\
  List.length (c_coords (tri_args z)) = cdim UK2 /\ c_pinv (tri_args z) = false /\ o_n o = 3%nat /\
  proper o /\ eps <= o_vg o 0 /\ (forall i j, (i < j < o_n o)%nat -> eps < sep o i j).
Proof. exact ex_reported. Qed.
Example C67_spellings : spelled "linear" 1 0 1 (PList [1; 1]) /\
  spelled "gaussian" 3 2 1 (PDict [("psill", 2); ("range", 2); ("nugget", 1)]%string) /\
  documented "gaussian" 3 2 1 0 = 1 /\ documented "spherical" 3 2 1 5 = 3.
Proof.
  split; [apply sp_linear; reflexivity|]. split; [|split].
  - apply sp_three_dict; cbn; auto. right. split; [reflexivity|]. f_equal. lra.
  - unfold documented. cbn. replace (0 * (0 * 1) / _) with 0 by (unfold Rdiv; ring). rewrite Ropp_0, exp_0. ring.
  - unfold documented. cbn. rewrite (proj2 (Rleb_false 5 2)) by lra. ring.
Qed.
