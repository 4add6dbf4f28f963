(** Proofs: from arguments to results; examples. *)
From Coq Require Import String.
From Verif Require Import Base Sums Matrix M_Variogram M_Geometry S_Geometry M_Kriging S_Kriging M_Init M_Object M_Execute S_Execute
  M_UK S_UK S_Valid P_Object P_OK P_UK8 P_UK9 P_Valid2 P_Valid3 P_Valid4 P_Valid5 P_Valid6 Witness.

Theorem construct_execute E c A name l : env_ok E -> proper_call c A -> proper_variogram c (c_v A) name l -> c = OK2 \/ c = OK3 ->
  0 < last l 0 \/ distinct_inputs (c_coords A) (List.length (c_values A)) ->
  exists o, construct E c A = Ok o /\ proper o /\
    forall q, good_query o q -> has_backend o q -> exists r, execute E o q = Ok r.
Proof.
  intros HE HC HV Hc HD.
  destruct (construct_ok E c A name l HE HC HV) as (o & Ho & HP & Hn & Hpi & HS).
  { intros _. destruct HD as [HD|HD]; [left; exact HD|right; apply (distinct_le _ _ _ HD); lia]. }
  exists o. split; [exact Ho|]. split; [exact HP|]. intros q HQ HB.
  pose proof (reach_new E c A o (pc_dim _ _ HC) Ho) as HR.
  assert (Hord : ordinary o).
  { destruct (construct_inv E c A o Ho) as (? & ? & ? & ? & ? & ? & ? & ? & ? & ? & ? & _ & _ & _ & _ & _ & _ & _ & _ & Hcl & _).
    unfold ordinary. rewrite Hcl. exact Hc. }
  destruct (proper_execute E o q HE HR Hord HP (HS HD)) as [r (_ & _ & _ & _ & Hr)]; try assumption; [|eauto].
  rewrite Hn. pose proof (pc_two _ _ HC). lia.
Qed.

Lemma drift_off E c A D u : construct_uk E c A D = Ok u -> proper_drifts c D (List.length (c_values A)) -> c = UK2 \/ c = UK3 ->
  dr_ext (u_drift u) = None /\ (in_names "specified" (d_terms D) = false -> dr_spec (u_drift u) = None).
Proof.
  intros H HD Hc. unfold construct_uk in H. bindok H. bindok H. injection H as <-. cbn [u_drift].
  rename E1 into HI. unfold init_drift in HI. cbv zeta in HI. bindok HI. bindok HI. bindok HI. bindok HI. injection HI as <-. cbn [dr_ext dr_spec].
  split.
  - destruct (in_names "external_Z" (d_terms D)) eqn:EX.
    + pose proof (pd_external _ _ _ HD EX). destruct c; try congruence; cbn in E1; injection E1 as <-; reflexivity.
    + rewrite andb_false_r in E1. cbn in E1. injection E1 as <-. reflexivity.
  - intros HS. rewrite HS in E3. cbn in E3. injection E3 as <-. reflexivity.
Qed.

Theorem construct_execute_uk E c A D name l : env_ok E -> proper_call c A -> proper_variogram c (c_v A) name l -> c = UK2 \/ c = UK3 ->
  proper_drifts c D (List.length (c_values A)) ->
  0 < last l 0 \/ distinct_inputs (c_coords A) (List.length (c_values A)) ->
  exists u, construct_uk E c A D = Ok u /\ proper (u_obj u) /\
    forall q specs, good_query (u_obj u) q -> q_backend q = "vectorized"%string -> in_names "specified" (d_terms D) = false ->
      drift_independent u q specs -> exists r w, execute_uk E u q specs = Ok (r, w).
Proof.
  intros HE HC HV Hc HDr HD.
  destruct (construct_ok E c A name l HE HC HV) as (o & Ho & HP & Hn & Hpi & HS).
  { intros _. destruct HD as [HD|HD]; [left; exact HD|right; apply (distinct_le _ _ _ HD); lia]. }
  destruct (construct_uk_ok E c A D o Ho (eq_sym Hn) HDr) as (u & Hu & Huo). exists u. split; [exact Hu|]. rewrite Huo. split; [exact HP|].
  intros q specs HQ HB HSp HI. destruct (drift_off E c A D u Hu HDr Hc) as [HX HY].
  apply uk_succeeds_vectorized; rewrite ?Huo; try assumption; [|exact (HS HD)|exact (HY HSp)].
  exact (ur_new E c A D u Hc (pc_dim _ _ HC) Hu).
Qed.

(** ** Examples *)
Lemma row_call c x : (c = OK2 \/ c = UK2) -> (2 <= List.length x)%nat -> proper_call c (row_args x true) /\
  proper_variogram c (c_v (row_args x true)) "gaussian" [1; 2; 0].
Proof.
  intros Hc Hx. split.
  - split; cbn; try reflexivity; try exact Hx; auto; try discriminate.
    + destruct Hc as [-> | ->]; reflexivity.
    + intros y [<-|[<-|[]]]; [reflexivity|apply map_length].
  - split; cbn; try reflexivity; [|intros; lra]. apply request_sill; [left; reflexivity|lra..].
Qed.
Lemma ex_row_call : proper_call OK2 (row_args four true) /\ proper_call UK2 (row_args four true) /\
  proper_variogram OK2 (c_v (row_args four true)) "gaussian" [1; 2; 0] /\ proper_variogram UK2 (c_v (row_args four true)) "gaussian" [1; 2; 0] /\
  with_stats UK2 (row_args four true) /\ distinct_inputs (c_coords (row_args four true)) 4.
Proof.
  destruct (row_call OK2 four (or_introl eq_refl) ltac:(cbn; lia)) as [C1 V1]. destruct (row_call UK2 four (or_intror eq_refl) ltac:(cbn; lia)) as [C2 V2].
  split; [exact C1|]. split; [exact C2|]. split; [exact V1|]. split; [exact V2|]. split; [left; discriminate|].
  intros i j Hi Hj Hne. exists four. split; [left; reflexivity|]. apply four_ne; assumption.
Qed.
Lemma ex_row_duplicates : let A := row_args [0; 0; 1] true in
  proper_call UK2 A /\ proper_variogram UK2 (c_v A) "gaussian" [1; 2; 0] /\ with_stats UK2 A /\ last [1; 2; 0] 0 = 0 /\
  (1 < List.length (c_values A) - 1)%nat /\ (forall x, In x (c_coords A) -> rnth x 0 = rnth x 1).
Proof.
  intros A. destruct (row_call UK2 [0; 0; 1] (or_intror eq_refl) ltac:(cbn; lia)) as [C V].
  split; [exact C|]. split; [exact V|]. split; [left; discriminate|]. split; [reflexivity|]. split; [cbn; lia|].
  intros x [<-|[<-|[]]]; reflexivity.
Qed.
Lemma ex_uk_call : proper_call UK2 (tri_args [1; 3; 4]) /\ proper_variogram UK2 (c_v (tri_args [1; 3; 4])) "linear" [1; 1] /\ proper_drifts UK2 lin_args 3 /\
  exists u q, construct_uk WE UK2 (tri_args [1; 3; 4]) lin_args = Ok u /\ good_query (u_obj u) q /\ q_backend q = "vectorized"%string /\
    in_names "specified" (d_terms lin_args) = false /\ drift_independent u q [].
Proof.
  split.
  { split; cbn; try reflexivity; try lia; auto; try discriminate. intros y [<-|[<-|[]]]; reflexivity. }
  split.
  { split; cbn; try reflexivity; [|intros; lra]. apply request_linear; [reflexivity|lra..]. }
  split.
  { split; cbn; discriminate. }
  destruct tri_drift as (o & u & _ & Hu & HR & Hc & _ & _ & _ & _ & _ & _ & HI & _).
  exists u, (one_point 1 1 "vectorized"). split; [exact Hu|]. split; [|split; [reflexivity|split; [reflexivity|exact HI]]].
  split; [|intros _; left; reflexivity]. right; left. split; [reflexivity|]. split; [reflexivity|]. unfold o_dim. rewrite Hc. discriminate.
Qed.
Lemma ex_update_call : exists E o v, env_ok E /\ reachable E o /\ o_ct o = Euclidean /\ o_pinv o = false /\ o_n o = 4%nat /\
  proper_variogram (o_class o) v "gaussian" [2; 3; 1] /\ 0 < last [2; 3; 1] 0.
Proof.
  destruct ex_valid as (E & o & HE & HR & HO & HP & HS & HD & Hn & Hpi & _).
  exists E, o, {| a_model := VName "gaussian"; a_params := PList [2; 3; 1]; a_fun := FNone;
               a_nlags := 6; a_weight := false; a_scaling := (fun _ => 1); a_angle := (fun _ => 0) |}.
  split; [exact HE|]. split; [exact HR|]. split; [exact (proj1 HP)|]. split; [exact Hpi|]. split; [exact Hn|]. split; [|cbn; lra].
  split; cbn; try reflexivity; [|intros; lra]. apply request_sill; [left; reflexivity|lra..].
Qed.

(** spherical model, four data in space, no nugget, anisotropy *)
Definition space_args : cargs :=
  {| c_coords := [[0; 1; 0; 0]; [0; 0; 1; 0]; [0; 0; 0; 1]]; c_values := [1; 2; 4; 8];
     c_v := {| a_model := VName "spherical"; a_params := PList [2; 3; 0]; a_fun := FNone;
               a_nlags := 6; a_weight := false; a_scaling := (fun _ => 2); a_angle := (fun k => INR k) |};
     c_verbose := false; c_plotting := false; c_stat := false; c_ct := "euclidean";
     c_exact := Some true; c_pinv := false; c_pinv_type := "pinv" |}.
Lemma ex_spherical_call : proper_call OK3 space_args /\ proper_variogram OK3 (c_v space_args) "spherical" [2; 3; 0] /\ distinct_inputs (c_coords space_args) (List.length (c_values space_args)).
Proof.
  split; [|split].
  - split; cbn; try reflexivity; auto; try discriminate; try lia. intros x [<-|[<-|[<-|[]]]]; reflexivity.
  - split; cbn; try reflexivity; [|intros; lra]. apply request_sill; [right; right; reflexivity|lra..].
  - intros i j Hi Hj Hne. cbn in Hi, Hj.
    assert (Hx : exists x, (x = [0; 1; 0; 0] \/ x = [0; 0; 1; 0] \/ x = [0; 0; 0; 1]) /\ rnth x i <> rnth x j).
    { destruct i as [|[|[|[|i]]]], j as [|[|[|[|j]]]]; try lia; unfold rnth;
      first [exists [0; 1; 0; 0]; split; [tauto|cbn; lra]|exists [0; 0; 1; 0]; split; [tauto|cbn; lra]|exists [0; 0; 0; 1]; split; [tauto|cbn; lra]]. }
    destruct Hx as (x & Hx & Hd). exists x. split; [|exact Hd]. cbn. destruct Hx as [-> |[-> | ->]]; tauto.
Qed.
