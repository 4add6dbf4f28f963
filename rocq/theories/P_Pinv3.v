(** Examples for C74 and for the universal part of C22. *)
From Coq Require Import String.
From Verif Require Import Base Sums Matrix M_Variogram P_Variogram M_Geometry S_Geometry P_Geometry M_Kriging S_Kriging
  P_Kriging P_OKSpec M_Init M_Object M_Execute S_Execute P_Object P_Execute P_Cells P_Window P_WindowExec P_Master P_Det P_OK P_Dup P_Options P_Linear
  M_UK S_UK S_UK2 P_UK P_UK2 P_UK3 P_UK4 P_UK11 S_Drift P_UK19 P_UK20 P_UK21 S_Pinv P_Pinv P_Pinv2 Witness Witness2 Witness3 P_UK8 P_UK9 P_UK17
  S_Valid P_Valid6 P_Valid7 P_Valid5.

Lemma wit_svd cython gs : svd_converges (wit_env cython gs).
Proof.
  split.
  - intros t n A H. cbn in H. apply (choose_none _ H), pinv_exists.
  - intros n A b H. cbn in H. destruct (choose (is_pinv n A)) eqn:EC; [discriminate|]. apply (choose_none _ EC), pinv_exists.
Qed.

(** ordinary kriging, two of three data at the same place *)
Lemma ex_pseudo : exists E o q, env_ok E /\ svd_converges E /\ reachable E o /\ ordinary o /\ o_pinv o = true /\ q_window q = None /\
  good_query o q /\ available E o (q_backend q) /\ coincident o 0 1 /\ o_vg o 0 = 0.
Proof.
  destruct dup_run as (o & r & Ho & _). destruct (dup_facts _ _ _ Ho) as (Hre & Hord & Hp & Hco & Hv & Hn & Hct & Hdim).
  exists (wit_env false None), o, (one_point 1 1 "loop"). split; [apply wit_env_ok|]. split; [apply wit_svd|].
  split; [exact Hre|]. split; [exact Hord|]. split; [exact Hp|]. split; [reflexivity|].
  split. { split; [|intros _; left; reflexivity]. right; left. split; [reflexivity|]. split; [reflexivity|]. rewrite Hdim. discriminate. }
  split; [right; left; reflexivity|]. auto.
Qed.

(** a moving window of two points around a query next to the pair *)
Definition windowed (x y : R) (k : nat) : query :=
  {| q_style := "points"; q_pts := [[x]; [y]]; q_int := [false; false]; q_mask := None; q_backend := "loop"; q_window := Some k |}.
Lemma window_pseudo : exists E o q, env_ok E /\ svd_converges E /\ reachable E o /\ ordinary o /\ o_pinv o = true /\
  good_query o q /\ q_window q = Some 2%nat /\ has_backend o q /\ forall r, execute E o q <> Ok r.
Proof.
  destruct dup_run as (o & r & Ho & _). destruct (dup_facts _ _ _ Ho) as (Hre & Hord & Hp & Hco & Hv & Hn & Hct & Hdim).
  destruct (gen_fields _ _ _ _ _ _ _ _ _ Ho) as (_&_&Hc&_&_&_&_&_&_&_&_&Hd&_&_&Hs).
  exists (wit_env false None), o, (windowed 1 1 2). split; [apply wit_env_ok|]. split; [apply wit_svd|].
  split; [exact Hre|]. split; [exact Hord|]. split; [exact Hp|].
  split. { split; [|intros _; left; reflexivity]. right; left. split; [reflexivity|]. split; [reflexivity|]. rewrite Hdim. discriminate. }
  split; [reflexivity|]. split. { split; [split; [lia|rewrite Hn; lia]|left; reflexivity]. }
  intros r' Hr'.
  assert (HR : run (wit_env false None) o (windowed 1 1 2) r').
  { split; [apply wit_env_ok|]. split; [exact Hre|]. split; [exact Hord|]. split; [intros Hb; discriminate Hb|exact Hr']. }
  assert (HS : shown o (windowed 1 1 2) 0 (1, 1, 0)).
  { split; [|apply P_Exec2.not_hidden; discriminate]. rewrite Hdim. apply (cell_point 2 (windowed 1 1 2) 0 eq_refl); cbn; lia. }
  destruct (duplicate_window _ o _ r' 0 (1, 1, 0) 2 0 1 HR eq_refl HS Hv Hco) as (sel & v & s & (N1 & N2 & N3 & N4) & _ & _ & _ & HN).
  assert (D0 : separation o (1, 1, 0) (datum o 0) = sqrt 2) by (rewrite Hs, Hd; unfold lon, lat, rnth; cbn; f_equal; unfold Rsqr; ring).
  assert (D1 : separation o (1, 1, 0) (datum o 1) = sqrt 2) by (rewrite Hs, Hd; unfold lon, lat, rnth; cbn; f_equal; unfold Rsqr; ring).
  assert (D2 : separation o (1, 1, 0) (datum o 2) = sqrt 13) by (rewrite Hs, Hd; unfold lon, lat, rnth; cbn; f_equal; unfold Rsqr; ring).
  assert (HL : sqrt 2 < sqrt 13) by (apply sqrt_lt_1_alt; lra).
  assert (H2 : forall a, (a < 2)%nat -> sel a <> 2%nat).
  { intros a Ha H. set (b := (1 - a)%nat). assert (Hb : (b < 2)%nat) by lia. assert (Hab : a <> b) by lia.
    assert (Hsb : (sel b < 3)%nat) by (rewrite <- Hn; apply N1, Hb). assert (sel b <> 2%nat) by (intros K; apply Hab, N2; congruence || assumption).
    destruct (Nat.eq_dec (sel b) 0) as [E0|E0].
    - pose proof (N4 a 1%nat Ha ltac:(lia)) as K. rewrite H, D1, D2 in K. assert (sqrt 13 <= sqrt 2); [|lra]. apply K.
      intros c Hc'. destruct (Nat.eq_dec c a) as [->|]; [lia|]. replace c with b by lia. lia.
    - pose proof (N4 a 0%nat Ha ltac:(lia)) as K. rewrite H, D0, D2 in K. assert (sqrt 13 <= sqrt 2); [|lra]. apply K.
      intros c Hc'. destruct (Nat.eq_dec c a) as [->|]; [lia|]. replace c with b by lia. lia. }
  apply HN. pose proof (N1 0%nat ltac:(lia)) as A0. pose proof (N1 1%nat ltac:(lia)) as A1. pose proof (H2 0%nat ltac:(lia)) as B0. pose proof (H2 1%nat ltac:(lia)) as B1.
  assert (A01 : sel 0%nat <> sel 1%nat) by (intros K; apply N2 in K; lia).
  destruct (Nat.eq_dec (sel 0%nat) 0) as [E0|E0].
  - split; [exists 0%nat|exists 1%nat]; split; lia.
  - split; [exists 1%nat|exists 0%nat]; split; lia.
Qed.

(** constructor: LinAlgError without, success with pseudo_inv *)
Lemma ex_pseudo_construct : exists E A, svd_converges E /\ env_ok E /\ In (c_pinv_type A) pinv_types /\ construct E UK2 A = Err LinAlgError.
Proof.
  pose proof ex_row_duplicates as H. cbv zeta in H. destruct H as (H1 & H2 & H3 & H4 & H5 & H6).
  exists (wit_env false None), (row_args [0; 0; 1] true). split; [apply wit_svd|]. split; [apply wit_env_ok|]. split; [left; reflexivity|].
  apply (construct_duplicate _ UK2 _ "gaussian" [1; 2; 0] 0 1 (wit_env_ok _ _) H1 H2 H3 H4); [lia|exact H5|exact H6].
Qed.

(** universal kriging: (0,0), (3,4), (0,0) with a functional drift, against the averaged data *)
Definition trip_args : cargs :=
  {| c_coords := [[0; 3; 0]; [0; 4; 0]]; c_values := [1; 5; 3];
     c_v := {| a_model := VName "linear"; a_params := PList [1; 0]; a_fun := FNone;
               a_nlags := 6; a_weight := false; a_scaling := (fun _ => 1); a_angle := (fun _ => 0) |};
     c_verbose := false; c_plotting := false; c_stat := false; c_ct := "euclidean";
     c_exact := Some true; c_pinv := false; c_pinv_type := "pinv" |}.
Lemma trip_construct : exists o, construct WE UK2 (with_pinv trip_args true "pinvh") = Ok o.
Proof.
  destruct (pseudo_construct WE UK2 trip_args "pinvh" (wit_svd _ _)) as [H _]; [left; reflexivity|right; left; reflexivity|].
  apply H. left. apply (construct_iff WE UK2 trip_args "linear" [1; 0] (wit_env_ok _ _)).
  - split; cbn; try reflexivity; try lia; auto; try discriminate. intros y [<-|[<-|[]]]; reflexivity.
  - split; cbn; try reflexivity; [|intros; lra]. apply request_linear; [reflexivity|lra..].
  - intros _. right. cbn. intros i j Hi Hj Hij. exists [0; 3; 0]. split; [left; reflexivity|].
    destruct i as [|[|i]]; [| |lia]; (destruct j as [|[|j]]; [| |lia]); unfold rnth; cbn; lra || lia.
Qed.

Lemma ex_universal_averaged : exists E u u' q r r', urun E u q [] r /\ urun E u' q [] r' /\ faithful_specs u q /\ shown (u_obj u) q 0 (1, 1, 0) /\
  umerges 0 2 u u' /\ same_place u 0 2 /\ o_vg (u_obj u) 0 = 0 /\ drift_regular u' q [] /\ o_pinv (u_obj u) = true /\ dr_fun (u_drift u) = Some [fx] /\
  svd_converges E /\ q_backend q = "vectorized"%string /\ good_query (u_obj u) q /\ good_specs u q [].
Proof.
  destruct trip_construct as [o Ho]. set (A := with_pinv trip_args true "pinvh") in *. set (u := {| u_obj := o; u_drift := one_drift fx |}).
  assert (HC : construct_uk WE UK2 A (fun_args fx) = Ok u) by (unfold construct_uk; rewrite Ho; reflexivity).
  assert (HU : ureachable WE u) by exact (ur_new WE UK2 A (fun_args fx) u (or_introl eq_refl) eq_refl HC).
  destruct (construct_inv WE UK2 _ o Ho) as (ex & name & prm & fn & sc & an & f & vp & lags & sv & params & Hall).
  destruct Hall as (_&Hex&Hgs&Hf&Hmp&_&Hini&_&Hc&Hpi&_&Hexo&_&Hfo&Hpo&Hn&Horig&Hval&_&_&_&_&Hct).
  cbn in Hex, Hgs, Hn, Horig, Hval, Hpi, Hmp, Hf. injection Hex as <-. injection Hgs as <- <- <- <- <-. injection Hf as <-. injection Hmp as <-.
  destruct Hct as [(_ & Hct & Hcen & Hs & Ha & _)|(Hg & _)]; [|discriminate].
  assert (Hpar : params = [1; 0]).
  { unfold initialize_variogram_model in Hini. rewrite Hct in Hini. cbn [cdim Nat.eqb] in Hini. rewrite Hn in Hini. cbn [List.length A with_pinv trip_args c_values Nat.eqb negb] in Hini.
    bindok Hini. cbn in Hini. injection Hini as _ _ <-. reflexivity. }
  assert (Hdim : o_dim o = 2%nat) by (unfold o_dim; rewrite Hc; reflexivity).
  assert (Hd : forall i, datum o i = (rnth [0; 3; 0] i, rnth [0; 4; 0] i, 0)) by (intros i; unfold datum, loc; rewrite Hdim, Horig; reflexivity).
  destruct (pair_u 0 0 3 4 1 0 2 5 fx) as (u' & HB' & Ho' & HC' & HD' & HX'); [unfold fx; lra|].
  destruct (pair_point u' 1 1 HX') as [r' Hr']. set (q := one_point 1 1 "vectorized").
  destruct (construct_inv WE UK2 _ _ Ho') as (ex2 & name2 & prm2 & fn2 & sc2 & an2 & f2 & vp2 & lags2 & sv2 & params2 & Hall2).
  destruct Hall2 as (_&Hex2&Hgs2&Hf2&Hmp2&_&Hini2&_&Hc2&Hpi2&_&Hexo2&_&Hfo2&Hpo2&Hn2&Horig2&Hval2&_&_&_&_&Hct2).
  cbn in Hex2, Hgs2, Hn2, Horig2, Hval2, Hpi2, Hmp2, Hf2. injection Hex2 as <-. injection Hgs2 as <- <- <- <- <-. injection Hf2 as <-. injection Hmp2 as <-.
  destruct Hct2 as [(_ & Hct2 & Hcen2 & Hs2 & Ha2 & _)|(Hg2 & _)]; [|discriminate].
  assert (Hpar2 : params2 = [1; 0]).
  { unfold initialize_variogram_model in Hini2. rewrite Hct2 in Hini2. cbn [cdim Nat.eqb] in Hini2. rewrite Hn2 in Hini2. cbn [List.length pair_args c_values Nat.eqb negb] in Hini2.
    bindok Hini2. cbn in Hini2. injection Hini2 as _ _ <-. reflexivity. }
  assert (Hdim2 : o_dim (u_obj u') = 2%nat) by (unfold o_dim; rewrite Hc2; reflexivity).
  assert (Hd2 : forall i, datum (u_obj u') i = (rnth [0; 3] i, rnth [0; 4] i, 0)) by (intros i; unfold datum, loc; rewrite Hdim2, Horig2; reflexivity).
  assert (HQ : good_query o q).
  { split; [|intros _; left; reflexivity]. right; left. split; [reflexivity|]. split; [reflexivity|]. rewrite Hdim. discriminate. }
  assert (HGS : good_specs u q []) by (intros ds Hds; discriminate).
  destruct (proj2 (pseudo_vectorized_iff WE u q [] (wit_svd _ _) HU Hpi eq_refl)) as (r & w & Hr).
  { split; [exact HQ|]. split; [exact HGS|]. intros p pos _ arr ex ey zs HE. discriminate. }
  exists WE, u, u', q, r, r'. split; [split; [apply wit_env_ok|split; [exact HU|exists w; exact Hr]]|]. split; [exact Hr'|].
  split; [left; reflexivity|]. split; [apply one_point_shown_u, Hc|].
  split.
  { split; cbn [u u_obj u_drift].
    - constructor; try congruence.
      + intros a Ha'. rewrite Hn2 in Ha'. rewrite Hd, Hd2. destruct a as [|[|a]]; [| |lia]; reflexivity.
      + intros a Ha'. rewrite Hn2 in Ha'. rewrite Hval, Hval2. destruct a as [|[|a]]; [| |lia]; cbn; unfold rnth; cbn; lra.
    - destruct Hcen as (cs & Hm & ->), Hcen2 as (cs2 & Hm2 & ->). cbn in Hm, Hm2.
      assert (T03 : Rltb 0 3 = true) by (apply Rltb_true; lra). assert (T04 : Rltb 0 4 = true) by (apply Rltb_true; lra).
      assert (F30 : Rltb 3 0 = false) by (apply Rltb_false; lra). assert (F40 : Rltb 4 0 = false) by (apply Rltb_false; lra).
      assert (F00 : Rltb 0 0 = false) by (apply Rltb_false; lra).
      repeat rewrite ?T03, ?T04, ?F30, ?F40, ?F00 in Hm. repeat rewrite ?T03, ?T04, ?F30, ?F40, ?F00 in Hm2.
      injection Hm as <-. injection Hm2 as <-. reflexivity.
    - rewrite HD'. reflexivity.
    - rewrite HD'. reflexivity.
    - rewrite HD'. exact I.
    - rewrite HD'. exact I.
    - rewrite HD'. reflexivity. }
  split.
  { unfold same_place. cbn [u u_obj u_drift]. rewrite Hn. split; [lia|]. split; [lia|]. split; [lia|]. split; [rewrite !Hd; reflexivity|]. intros ds d Hds. discriminate. }
  split; [cbn [u u_obj]; unfold o_vg; rewrite Hfo, Hpo, Hpar; cbn; unfold linear_variogram_model, rnth; cbn [nth]; ring|].
  split; [|split; [exact Hpi|split; [reflexivity|split; [apply wit_svd|split; [reflexivity|split; [exact HQ|exact HGS]]]]]].
  destruct Hr' as (_ & HU' & w' & Hr'). apply (vectorized_iff WE u' q [] (wit_env_ok _ _) HU' Hpi2 eq_refl). eauto.
Qed.

Lemma ex_universal_irrelevant : exists E u u' q r r', ubuilt E UK2 quad_args lin_args [] u /\ ubuilt E UK2 (with_pinv quad_args true "pinv") lin_args [] u' /\
  urun E u q [] r /\ urun E u' q [] r' /\ faithful_specs u q /\ shown (u_obj u) q 0 (1, 1, 0).
Proof.
  destruct (quad_call [1; 3; 4; 6] eq_refl) as (H1 & H2 & H3).
  destruct (construct_execute_uk WE UK2 quad_args lin_args "linear" [1; 1] (wit_env_ok true None) H1 H2 (or_introl eq_refl) H3) as (u & Hu & HP & HX).
  { left. cbn. lra. }
  assert (HB : ubuilt WE UK2 quad_args lin_args [] u) by (split; [reflexivity|]; exists u; split; [exact Hu|reflexivity]).
  pose proof Hu as HC. unfold construct_uk in HC. bindok HC. bindok HC. injection HC as HC. rename a into o. rename a0 into dr.
  destruct (pseudo_construct WE UK2 quad_args "pinv" (wit_svd _ _)) as [HPs _]; [left; reflexivity|left; reflexivity|].
  destruct HPs as [o' Ho']; [left; eauto|].
  set (D := {| dr_linear := true; dr_wells := None; dr_ext := None; dr_spec := None; dr_fun := None |}).
  set (u' := {| u_obj := o'; u_drift := D |}).
  assert (Hu' : construct_uk WE UK2 (with_pinv quad_args true "pinv") lin_args = Ok u') by (unfold construct_uk; rewrite Ho'; reflexivity).
  assert (HU' : ureachable WE u') by exact (ur_new WE UK2 (with_pinv quad_args true "pinv") lin_args u' (or_introl eq_refl) eq_refl Hu').
  destruct (construct_inv WE UK2 _ o' Ho') as (ex & name & prm & fn & sc & an & f & vp & lags & sv & params & Hall).
  destruct Hall as (_&_&_&_&_&_&_&_&Hc'&Hpi'&_). cbn in Hpi'.
  destruct (construct_inv WE UK2 _ o E) as (ex2 & name2 & prm2 & fn2 & sc2 & an2 & f2 & vp2 & lags2 & sv2 & params2 & Hall2).
  destruct Hall2 as (_&_&Hgs&_&_&_&_&_&Hc&Hpi&_&_&_&_&_&Hn&Horig&_&_&_&_&_&Hct).
  cbn in Hgs, Horig, Hn. injection Hgs as <- <- <- <- <-. destruct Hct as [(_ & _ & _ & Hsc & Han & _)|(Hg & _)]; [|discriminate].
  assert (Hdim : o_dim o = 2%nat) by (unfold o_dim; rewrite Hc; reflexivity).
  assert (Hdim' : o_dim o' = 2%nat) by (unfold o_dim; rewrite Hc'; reflexivity).
  assert (Hd : forall i, datum o i = (rnth [0; 1; 0; 0] i, rnth [0; 0; 1; 0] i, 0)) by (intros i; unfold datum, loc; rewrite Hdim, Horig; reflexivity).
  assert (HDr : u_drift u = D) by (rewrite <- HC; cbn [u_drift]; cbn in E0; injection E0 as <-; reflexivity).
  set (q := one_point 1 1 "vectorized"). assert (Hu_o : u_obj u = o) by (rewrite <- HC; reflexivity).
  destruct (HX q []) as (r & w & Hr).
  - rewrite Hu_o. split; [|intros _; left; reflexivity]. right; left. split; [reflexivity|]. split; [reflexivity|]. rewrite Hdim. discriminate.
  - reflexivity.
  - reflexivity.
  - intros c cs H.
    assert (HT2 : drift_terms u q [] = [spatial o (fun p => coord 0 (frame o p)); spatial o (fun p => coord 1 (frame o p))]).
    { unfold drift_terms, linear_terms, well_terms, ext_terms, spec_terms, fun_terms. rewrite HDr, Hu_o, Hdim. reflexivity. }
    cbv zeta in H |- *. rewrite HT2, Hu_o in H. rewrite HT2. cbn [List.length] in H |- *. rewrite Hn in H.
    pose proof (H 0%nat ltac:(lia)) as Q0. pose proof (H 1%nat ltac:(lia)) as Q1. pose proof (H 2%nat ltac:(lia)) as Q2.
    cbn [bsum nth spatial t_data] in Q0, Q1, Q2. rewrite !frame_id in Q0, Q1, Q2 by (assumption || (intros; rewrite ?Hsc, ?Han; reflexivity) || (rewrite Hd; reflexivity)).
    rewrite !Hd in Q0, Q1, Q2. unfold rnth in Q0, Q1, Q2. cbn in Q0, Q1, Q2. split; [lra|]. intros k Hk. destruct k as [|[|k]]; [lra|lra|lia].
  - destruct (proj2 (pseudo_vectorized_iff WE u' q [] (wit_svd _ _) HU' Hpi' eq_refl)) as (r' & w' & Hr').
    { split; [split; [|intros _; left; reflexivity]; right; left; split; [reflexivity|]; split; [reflexivity|]; cbn [u' u_obj]; rewrite Hdim'; discriminate|].
      split; [intros ds Hds; discriminate|]. intros p pos _ arr ex' ey zs HE. discriminate. }
    exists WE, u, u', q, r, r'. split; [exact HB|]. split; [split; [reflexivity|]; exists u'; split; [exact Hu'|reflexivity]|].
    split; [split; [apply wit_env_ok|]; split; [exact (ur_new WE UK2 quad_args lin_args u (or_introl eq_refl) eq_refl Hu)|]; exists w; exact Hr|].
    split; [split; [apply wit_env_ok|]; split; [exact HU'|]; exists w'; exact Hr'|].
    split; [left; reflexivity|]. rewrite Hu_o. apply (one_point_shown_u o 1 1 "vectorized" Hc).
Qed.
