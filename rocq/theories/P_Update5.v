From Coq Require Import String.
From Verif Require Import Base Sums Matrix M_Variogram M_Geometry S_Geometry M_Kriging S_Kriging M_Init M_Object M_Execute S_Execute
  S_Valid M_UK S_UK S_Line S_Update P_Object P_Execute P_Cells P_OK P_Far P_Data P_Data2 P_Linear P_UK4 P_UK5 P_UK8 P_UK9 P_Valid P_Valid2 P_Valid3 P_Valid4 P_Valid5 P_Valid6 P_Valid7 Witness Witness2 Witness3 P_Update P_Update2 P_Update3 P_Update4.

(** universal example: regional_linear on three and four data *)
Definition fld_args (x y z : list R) : cargs :=
  {| c_coords := [x; y]; c_values := z;
     c_v := {| a_model := VName "linear"; a_params := PList [1; 1]; a_fun := FNone;
               a_nlags := 6; a_weight := false; a_scaling := (fun _ => 1); a_angle := (fun _ => 0) |};
     c_verbose := false; c_plotting := false; c_stat := false; c_ct := "euclidean";
     c_exact := Some true; c_pinv := false; c_pinv_type := "pinv" |}.
Lemma fld_fields x y z o : construct WE UK2 (fld_args x y z) = Ok o ->
  o_class o = UK2 /\ o_n o = List.length x /\ o_ct o = Euclidean /\ o_exact o = true /\ o_pinv o = false /\
  o_fun o = f_linear /\ o_params o = [1; 1] /\ o_scaling o = (fun _ => 1) /\ o_angle o = (fun _ => 0) /\
  (forall i, datum o i = (rnth x i, rnth y i, 0)) /\
  (forall p q, separation o p q = sqrt ((lon p - lon q)² + (lat p - lat q)²)) /\ proper o /\ o_vg o 0 = 1.
Proof.
  intros H.
  destruct (construct_inv WE UK2 _ o H) as (ex & name & prm & fn & sc & an & f & vp & lags & sv & params & Hall).
  destruct Hall as (_&Hex&Hgs&Hf&Hmp&_&Hini&_&Hc&Hpi&_&Hexo&_&Hfo&Hpo&Hn&Horig&Hval&_&_&_&_&Hct).
  cbn in Hex, Hn, Horig, Hval, Hpi. unfold resolve_gs in Hgs. cbn in Hgs. injection Hex as <-. injection Hgs as <- <- <- <- <-.
  cbn in Hf. injection Hf as <-. cbn in Hmp. injection Hmp as <-.
  destruct Hct as [(_ & Hct & _ & Hs & Ha & _)|(Hg & _)]; [|discriminate].
  apply initialize_params in Hini. rewrite Hini in Hpo.
  assert (Hdim : o_dim o = 2%nat) by (unfold o_dim; rewrite Hc; reflexivity).
  assert (Hd : forall i, datum o i = (rnth x i, rnth y i, 0)).
  { intros i. unfold datum, loc. rewrite Hdim, Horig. reflexivity. }
  repeat (split; [first [assumption|reflexivity]|]).
  split; [|split].
  - intros [[x0 y0] z0] [[u v] w]. unfold separation, lon, lat. rewrite Hct, Hdim, Hs, Ha. cbn [Nat.eqb fst snd].
    unfold aniso2, rad, dot3, sub3. cbv zeta. replace (0 * PI / 180) with 0 by (field). rewrite cos_0, sin_0. f_equal. unfold Rsqr. ring.
  - split; [exact Hct|]. apply proper_linear; rewrite ?Hfo, ?Hpo; cbn; try reflexivity; lra.
  - unfold o_vg. rewrite Hfo, Hpo. cbn. unfold linear_variogram_model, rnth. cbn. ring.
Qed.
Lemma fld_construct x y z : (2 <= List.length z)%nat -> List.length x = List.length z -> List.length y = List.length z ->
  exists o, construct WE UK2 (fld_args x y z) = Ok o.
Proof.
  intros Hz Hx Hy. apply (proj2 (construct_iff WE UK2 (fld_args x y z) "linear" [1; 1] (wit_env_ok _ _)
    ltac:(constructor; cbn; try reflexivity; try discriminate; try assumption; [left; reflexivity|intros l [<-|[<-|[]]]; assumption])
    ltac:(constructor; try reflexivity; [apply request_linear; try reflexivity; lra|intros k _; cbn; lra]))).
  intros _. left. cbn. lra.
Qed.
Definition lin_d : drift := {| dr_linear := true; dr_wells := None; dr_ext := None; dr_spec := None; dr_fun := None |}.
Lemma fld_uk x y z o : construct WE UK2 (fld_args x y z) = Ok o -> construct_uk WE UK2 (fld_args x y z) lin_args = Ok {| u_obj := o; u_drift := lin_d |}.
Proof. intros H. unfold construct_uk. rewrite H. reflexivity. Qed.
(** the first three data are not on a line *)
Lemma fld_independent x y z o q : construct WE UK2 (fld_args (0 :: 1 :: 0 :: x) (0 :: 0 :: 1 :: y) z) = Ok o ->
  drift_independent {| u_obj := o; u_drift := lin_d |} q [].
Proof.
  intros Ho. destruct (fld_fields _ _ _ _ Ho) as (Hc&Hn&Hct&Hex&Hpi&Hf&Hp&Hsc&Han&Hd&_).
  assert (Hdim : o_dim o = 2%nat) by (unfold o_dim; rewrite Hc; reflexivity).
  set (u := {| u_obj := o; u_drift := lin_d |}).
  intros c cs H.
  assert (HT2 : drift_terms u q [] = [spatial o (fun p => coord 0 (frame o p)); spatial o (fun p => coord 1 (frame o p))]).
  { unfold drift_terms, well_terms, ext_terms, spec_terms, fun_terms. cbn. rewrite app_nil_r. unfold linear_terms. cbn [u u_obj u_drift dr_linear]. cbn [lin_d dr_linear]. rewrite Hdim. reflexivity. }
  cbv zeta in H |- *. rewrite HT2 in H |- *. cbn [List.length] in H |- *. cbn [u u_obj] in H. rewrite Hn in H. cbn [List.length] in H.
  pose proof (H 0%nat ltac:(lia)) as H0. pose proof (H 1%nat ltac:(lia)) as H1. pose proof (H 2%nat ltac:(lia)) as H2.
  cbn [bsum nth spatial t_data] in H0, H1, H2. rewrite !frame_id in H0, H1, H2 by (assumption || (rewrite Hd; reflexivity)).
  rewrite !Hd in H0, H1, H2. unfold rnth in H0, H1, H2. cbn in H0, H1, H2. split; [lra|]. intros k Hk. destruct k as [|[|k]]; [lra|lra|lia].
Qed.
Lemma fld_run x y z o a b : construct WE UK2 (fld_args (0 :: 1 :: 0 :: x) (0 :: 0 :: 1 :: y) z) = Ok o ->
  exists r, urun WE {| u_obj := o; u_drift := lin_d |} (one_point a b "vectorized") [] r.
Proof.
  intros Ho. destruct (fld_fields _ _ _ _ Ho) as (Hc&Hn&Hct&Hex&Hpi&Hf&Hp&Hsc&Han&Hd&Hs&HP&Hnug).
  assert (HQ : good_query o (one_point a b "vectorized")).
  { split; [|intros _; left; reflexivity]. right; left. split; [reflexivity|]. split; [reflexivity|]. unfold o_dim. rewrite Hc. discriminate. }
  pose proof (ur_new WE UK2 (fld_args (0 :: 1 :: 0 :: x) (0 :: 0 :: 1 :: y) z) lin_args _ (or_introl eq_refl) eq_refl (fld_uk _ _ _ _ Ho)) as Hre.
  destruct (uk_succeeds_vectorized WE {| u_obj := o; u_drift := lin_d |} (one_point a b "vectorized") [] (wit_env_ok _ _) Hre HP ltac:(left; cbn [u_obj]; rewrite Hnug; lra) Hpi
    (fld_independent x y z o _ Ho) eq_refl eq_refl eq_refl HQ) as (r & w & Hr).
  exists r. split; [apply wit_env_ok|]. split; [exact Hre|]. exists w. exact Hr.
Qed.

Lemma ex_uadds : exists u u' rP r r', let qP := one_point 2 2 "vectorized" in let q := one_point 1 1 "vectorized" in
  adds (u_obj u) (u_obj u') /\ u_drift u' = u_drift u /\ dr_spec (u_drift u) = None /\
  (forall k, o_scaling (u_obj u) k = 1) /\ (forall k, o_angle (u_obj u) k = 0) /\
  urun WE u qP [] rP /\ urun WE u q [] r /\ urun WE u' q [] r' /\
  shown (u_obj u) qP 0 (new_place (u_obj u) (u_obj u')) /\ shown (u_obj u) q 0 (1, 1, 0) /\ shown (u_obj u') q 0 (1, 1, 0) /\
  uregular u qP [] /\ uregular u q [] /\ uregular u' q [] /\ (o_exact (u_obj u) = true -> away (u_obj u) (new_place (u_obj u) (u_obj u'))) /\
  List.length (drift_terms u q []) = 2%nat /\ o_n (u_obj u) = 3%nat.
Proof.
  destruct (fld_construct [0; 1; 0] [0; 0; 1] [1; 3; 4] ltac:(cbn; lia) eq_refl eq_refl) as [o Ho].
  destruct (fld_construct [0; 1; 0; 2] [0; 0; 1; 2] [1; 3; 4; 9] ltac:(cbn; lia) eq_refl eq_refl) as [o' Ho'].
  destruct (fld_fields _ _ _ _ Ho) as (Hc&Hn&Hct&Hex&Hpi&Hf&Hp&Hsc&Han&Hd&Hs&_).
  destruct (fld_fields _ _ _ _ Ho') as (Hc'&Hn'&Hct'&Hex'&Hpi'&Hf'&Hp'&Hsc'&Han'&Hd'&Hs'&_).
  destruct (fld_run [] [] _ o 2 2 Ho) as [rP HP]. destruct (fld_run [] [] _ o 1 1 Ho) as [r Hr]. destruct (fld_run [2] [2] _ o' 1 1 Ho') as [r' Hr'].
  assert (HAp : appended (fld_args [0; 1; 0] [0; 0; 1] [1; 3; 4]) (fld_args [0; 1; 0; 2] [0; 0; 1; 2] [1; 3; 4; 9])).
  { constructor; try reflexivity; [|exists 9; reflexivity]. cbn. constructor; [exists 2; reflexivity|]. constructor; [exists 2; reflexivity|constructor]. }
  assert (HNP : new_place o o' = (2, 2, 0)) by (unfold new_place; rewrite Hn, Hd'; reflexivity).
  exists {| u_obj := o; u_drift := lin_d |}, {| u_obj := o'; u_drift := lin_d |}, rP, r, r'. cbv zeta. cbn [u_obj u_drift]. rewrite HNP.
  split; [exact (constructor_adds _ _ _ _ _ _ HAp ltac:(discriminate) Ho Ho' ltac:(left; cbn; discriminate))|].
  split; [reflexivity|]. split; [reflexivity|]. split; [intros; rewrite Hsc; reflexivity|]. split; [intros; rewrite Han; reflexivity|].
  split; [exact HP|]. split; [exact Hr|]. split; [exact Hr'|]. split; [apply one_point_shown_u; exact Hc|]. split; [apply one_point_shown_u; exact Hc|]. split; [apply one_point_shown_u; exact Hc'|].
  split; [left; exact Hpi|]. split; [left; exact Hpi|]. split; [left; exact Hpi'|]. split.
  - intros _ i Hi. rewrite Hn in Hi. cbn in Hi. rewrite Hd, Hs. unfold lon, lat. cbn [fst snd].
    assert (1 <= (2 - rnth [0; 1; 0] i)² + (2 - rnth [0; 0; 1] i)²) as HL.
    { destruct i as [|[|[|i]]]; [| | |lia]; unfold rnth, Rsqr; cbn; lra. }
    apply sqrt_le_1_alt in HL. rewrite sqrt_1 in HL. pose proof eps_lt_1. lra.
  - split; [|exact Hn]. unfold drift_terms, linear_terms. cbn. unfold o_dim. rewrite Hc. reflexivity.
Qed.
