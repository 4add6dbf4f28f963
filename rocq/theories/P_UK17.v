(** Examples for the universal kriging comparisons: two data anywhere, any linear
    variogram, one functional drift. *)
From Coq Require Import String ClassicalEpsilon.
From Verif Require Import Base Sums Matrix M_Variogram P_Variogram M_Geometry S_Geometry P_Geometry M_Kriging S_Kriging
  P_Kriging P_OKSpec M_Init M_Object M_Execute S_Execute P_Object P_Execute P_Cells P_Window P_WindowExec P_Master P_Det P_OK
  P_Similar P_Data Witness M_UK S_UK S_UK2 P_UK P_UK2 P_UK3 P_UK4 P_UK5 P_UK6 P_UK7 Witness3 P_UK8 P_UK12 S_State S_Amplify.

Definition pair_args (x0 y0 x1 y1 slope nug z0 z1 : R) : cargs :=
  {| c_coords := [[x0; x1]; [y0; y1]]; c_values := [z0; z1];
     c_v := {| a_model := VName "linear"; a_params := PList [slope; nug]; a_fun := FNone;
               a_nlags := 6; a_weight := false; a_scaling := (fun _ => 1); a_angle := (fun _ => 0) |};
     c_verbose := false; c_plotting := false; c_stat := false; c_ct := "euclidean";
     c_exact := Some true; c_pinv := false; c_pinv_type := "pinv" |}.

Lemma pair_construct x0 y0 x1 y1 slope nug z0 z1 : exists o,
  construct WE UK2 (pair_args x0 y0 x1 y1 slope nug z0 z1) = Ok o.
Proof.
  unfold construct. cbn -[adjust_for_anisotropy all_statistics initialize_variogram_model].
  match goal with |- context [adjust_for_anisotropy false 2 ?X ?c ?s ?a] =>
    destruct (adjust_supported 2 X c s a (or_introl eq_refl)) as [Y HY]; rewrite HY end.
  cbn [bind].
  destruct (initialize_explicit (e_fit WE) Euclidean 2 2 Y (rnth [z0; z1]) "linear" f_linear [slope; nug] 6 false)
    as (lags & sv & Hi); try reflexivity.
  cbn [wit_env e_fit] in Hi. rewrite Hi. cbn [bind].
  match goal with |- context [all_statistics _ ?a ?b 2 ?X ?y ?v false] => destruct (stats_two true None a b X y v) as [s Hs] end.
  cbn [wit_env e_la] in Hs. rewrite Hs. cbn [bind]. eauto.
Qed.

Lemma pair_fields x0 y0 x1 y1 slope nug z0 z1 o :
  construct WE UK2 (pair_args x0 y0 x1 y1 slope nug z0 z1) = Ok o ->
  o_class o = UK2 /\ o_n o = 2%nat /\ o_pinv o = false /\
  datum o 0%nat = (x0, y0, 0) /\ datum o 1%nat = (x1, y1, 0) /\
  o_scaling o = (fun _ => 1) /\ o_angle o = (fun _ => 0).
Proof.
  intros H.
  destruct (construct_inv WE UK2 _ o H) as (ex & name & prm & fn & sc & an & f & vp & lags & sv & params & Hall).
  destruct Hall as (_&Hex&Hgs&Hf&Hmp&_&Hini&_&Hc&Hpi&_&Hexo&_&Hfo&Hpo&Hn&Horig&Hval&_&_&_&_&Hct).
  cbn in Hex, Hgs, Hn, Horig, Hval, Hpi. injection Hex as <-. injection Hgs as <- <- <- <- <-.
  destruct Hct as [(_ & Hct & _ & Hs & Ha & _)|(Hg & _)]; [|discriminate].
  assert (Hdim : o_dim o = 2%nat) by (unfold o_dim; rewrite Hc; reflexivity).
  assert (Hd0 : datum o 0%nat = (x0, y0, 0)) by (unfold datum, loc; rewrite Hdim, Horig; reflexivity).
  assert (Hd1 : datum o 1%nat = (x1, y1, 0)) by (unfold datum, loc; rewrite Hdim, Horig; reflexivity).
  repeat (split; [first [assumption|reflexivity]|]). exact Ha.
Qed.

Definition one_drift (h : R -> R -> R -> R) : drift :=
  {| dr_linear := false; dr_wells := None; dr_ext := None; dr_spec := None; dr_fun := Some [h] |}.

(** the object is built and every query that locates is answered *)
Lemma pair_u x0 y0 x1 y1 slope nug z0 z1 h : h x0 y0 0 <> h x1 y1 0 ->
  exists u, ubuilt WE UK2 (pair_args x0 y0 x1 y1 slope nug z0 z1) (fun_args h) [] u /\
    construct WE UK2 (pair_args x0 y0 x1 y1 slope nug z0 z1) = Ok (u_obj u) /\ construct_uk WE UK2 (pair_args x0 y0 x1 y1 slope nug z0 z1) (fun_args h) = Ok u /\
    u_drift u = one_drift h /\
    forall q l, q_backend q = "vectorized"%string -> bad_style (q_style q) = false ->
      locate 2 (q_style q) (q_pts q) (q_mask q) = Ok l -> forallb (fun b => b) (q_int q) = false ->
      exists r, urun WE u q [] r.
Proof.
  intros Hh. destruct (pair_construct x0 y0 x1 y1 slope nug z0 z1) as [o Ho].
  set (A := pair_args x0 y0 x1 y1 slope nug z0 z1) in *. set (u := {| u_obj := o; u_drift := one_drift h |}).
  assert (HC : construct_uk WE UK2 A (fun_args h) = Ok u).
  { unfold construct_uk. rewrite Ho. reflexivity. }
  assert (HR : ureachable WE u) by exact (ur_new WE UK2 A (fun_args h) _ (or_introl eq_refl) eq_refl HC).
  destruct (pair_fields _ _ _ _ _ _ _ _ _ Ho) as (Hc & Hn & Hpi & H0 & H1 & Hs & Ha).
  assert (Hd : o_dim o = 2%nat) by (unfold o_dim; rewrite Hc; reflexivity).
  exists u. split; [split; [reflexivity|]; exists u; split; [exact HC|reflexivity]|]. split; [exact Ho|]. split; [exact HC|]. split; [reflexivity|].
  intros q l HB HS HL HQ.
  destruct (u_succeeds true None u q [] l []) as [_ HX]; try assumption; try reflexivity.
  - intros K. contradiction.
  - apply u21_nonsingular; [exact Hn|reflexivity|].
    change (h (coord 0 (frame o (datum o 0))) (coord 1 (frame o (datum o 0))) (coord 2 (frame o (datum o 0))) <>
            h (coord 0 (frame o (datum o 1))) (coord 1 (frame o (datum o 1))) (coord 2 (frame o (datum o 1)))).
    rewrite H0, H1, !frame_id by (assumption || reflexivity). exact Hh.
  - cbn. rewrite Hd. exact HL.
  - destruct HX as [r Hr]; [exact HB|reflexivity|]. exists r. split; [apply wit_env_ok|]. split; [exact HR|]. exists false. exact Hr.
Qed.


Lemma spec_none u q q' specs specs' p p' : dr_spec (u_drift u) = None -> specs_agree u q q' specs specs' p p'.
Proof. intros H K. contradiction. Qed.
Lemma pair_regular u x0 y0 x1 y1 slope nug z0 z1 q : construct WE UK2 (pair_args x0 y0 x1 y1 slope nug z0 z1) = Ok (u_obj u) -> uregular u q [].
Proof. intros H. left. apply (pair_fields _ _ _ _ _ _ _ _ _ H). Qed.
Lemma pair_faithful u q h : u_drift u = one_drift h -> faithful_specs u q.
Proof. intros H. right. rewrite H. reflexivity. Qed.
Lemma pair_specs u q q' p p' h : u_drift u = one_drift h -> specs_agree u q q' [] [] p p'.
Proof. intros H. apply spec_none. rewrite H. reflexivity. Qed.
Lemma pair_shown u x0 y0 x1 y1 slope nug z0 z1 x y : construct WE UK2 (pair_args x0 y0 x1 y1 slope nug z0 z1) = Ok (u_obj u) ->
  shown (u_obj u) (one_point x y "vectorized") 0 (x, y, 0).
Proof. intros H. apply one_point_shown_u, (pair_fields _ _ _ _ _ _ _ _ _ H). Qed.
Lemma pair_point u x y : (forall q l, q_backend q = "vectorized"%string -> bad_style (q_style q) = false ->
      locate 2 (q_style q) (q_pts q) (q_mask q) = Ok l -> forallb (fun b => b) (q_int q) = false ->
      exists r, urun WE u q [] r) -> exists r, urun WE u (one_point x y "vectorized") [] r.
Proof. intros H. eapply H; reflexivity. Qed.

(** a 2 x 1 grid with the second cell masked *)
Definition row_query (s b : string) : query :=
  {| q_style := s; q_pts := [[1; 2]; [1]]; q_int := [false; false];
     q_mask := Some (Mask2 1 2 (fun _ j => Nat.eqb j 1)); q_backend := b; q_window := None |}.

Lemma ex_uk_styles : exists E u r r' r'' r3,
  ubuilt E UK2 (pair_args 0 0 3 4 1 0 0 3) (fun_args fx) [] u /\ o_dim (u_obj u) = 2%nat /\
  urun E u (one_point 1 1 "vectorized") [] r /\ urun E u (row_query "grid" "vectorized") [] r' /\
  urun E u (row_query "masked" "vectorized") [] r'' /\ urun E u (one_point 1 1 "loop") [] r3 /\
  faithful_specs u (one_point 1 1 "vectorized") /\ faithful_specs u (row_query "grid" "vectorized") /\
  specs_agree u (row_query "grid" "vectorized") (one_point 1 1 "vectorized") [] [] 0 0 /\
  shown (u_obj u) (one_point 1 1 "vectorized") 0 (1, 1, 0) /\ shown (u_obj u) (row_query "grid" "vectorized") 0 (1, 1, 0) /\
  hidden 2 (row_query "masked" "vectorized") 1 /\ ~ hidden 2 (row_query "masked" "vectorized") 0.
Proof.
  destruct (pair_u 0 0 3 4 1 0 0 3 fx) as (u & HB & Ho & HC & HD & HX); [unfold fx; lra|].
  destruct (pair_fields _ _ _ _ _ _ _ _ _ Ho) as (Hc & Hn & Hpi & H0 & H1 & Hs & Ha).
  assert (Hd : o_dim (u_obj u) = 2%nat) by (unfold o_dim; rewrite Hc; reflexivity).
  destruct (pair_point u 1 1 HX) as [r Hr].
  destruct (HX (row_query "grid" "vectorized") (match locate 2 "grid" [[1; 2]; [1]] (Some (Mask2 1 2 (fun _ j => Nat.eqb j 1))) with Ok l => l | Err _ => {| l_npt := 0; l_shape := []; l_at := fun _ _ => 0; l_mask := fun _ => false |} end)) as [r' Hr'];
    try reflexivity.
  destruct (HX (row_query "masked" "vectorized") (match locate 2 "masked" [[1; 2]; [1]] (Some (Mask2 1 2 (fun _ j => Nat.eqb j 1))) with Ok l => l | Err _ => {| l_npt := 0; l_shape := []; l_at := fun _ _ => 0; l_mask := fun _ => false |} end)) as [r'' Hr''];
    try reflexivity.
  assert (HI := ureachable_inv _ _ (proj1 (proj2 Hr))).
  assert (HLo : exists l, locate (o_dim (u_obj u)) "points" [[1]; [1]] None = Ok l) by (rewrite Hd; cbn; eauto).
  destruct HLo as [l HL].
  assert (HInv : exists B, invert wit_la false (o_pinv_type (u_obj u)) (uk_size u) (UM u) = Ok B).
  { destruct (u_succeeds true None u (one_point 1 1 "loop") [] l []) as [K _]; try assumption; try reflexivity.
    - apply Hr.
    - intros K. rewrite HD in K. contradiction.
    - assert (HT : drift_terms u (one_point 1 1 "loop") [] = fun_terms u).
      { unfold drift_terms, linear_terms, well_terms, ext_terms, spec_terms. rewrite HD. reflexivity. }
      apply u21_nonsingular; [exact Hn|rewrite HT; unfold fun_terms; rewrite HD; reflexivity|].
      rewrite HT. unfold fun_terms, F_of. rewrite HD. cbn [one_drift dr_fun opt_list map nth spatial t_data].
      rewrite H0, H1, !frame_id by (assumption || reflexivity). unfold fx. cbn. lra.
    - unfold spec_grids. rewrite HD. reflexivity. }
  destruct HInv as [B HInv].
  destruct (u_loop WE u (one_point 1 1 "loop") [] l [] B HI eq_refl eq_refl HL) as [HLoop _]; try reflexivity.
  { unfold spec_grids. rewrite HD. reflexivity. }
  { rewrite Hpi. exact HInv. }
  destruct HLoop as [r3 Hr3].
  { intros p pos wx wy s _. rewrite HD. intros []. }
  { intros p pos _ arr ex ey zv K. rewrite HD in K. discriminate. }
  { left. reflexivity. }
  exists WE, u, r, r', r'', r3. split; [exact HB|]. split; [exact Hd|]. split; [exact Hr|]. split; [exact Hr'|]. split; [exact Hr''|].
  split; [split; [apply wit_env_ok|split; [apply Hr|exists false; exact Hr3]]|].
  split; [exact (pair_faithful _ _ _ HD)|]. split; [exact (pair_faithful _ _ _ HD)|].
  split; [exact (pair_specs _ _ _ _ _ _ HD)|]. split; [apply one_point_shown_u, Hc|].
  split.
  - split; [|apply P_Exec2.not_hidden; discriminate]. rewrite Hd. apply (cell_grid2 2 (row_query "grid" "vectorized") 0 0); auto; cbn; lia.
  - split.
    + apply (hidden2 2 (row_query "masked" "vectorized") 0 1 (Mask2 1 2 (fun _ j => Nat.eqb j 1))); try reflexivity; cbn; lia.
    + intros H. remember 2%nat as d2 eqn:E2. remember 0%nat as n0 eqn:E0. revert E0.
      destruct H as [i j m Hst H2 Hm Hi Hj HM|k i j m Hst H3 Hm Hk Hi Hj HM]; [|lia]. intros H5.
      injection Hm as <-. cbn in HM, H5, Hi, Hj. destruct i; [|lia]. destruct j as [|[|j]]; [cbn in HM; discriminate|lia|lia].
Qed.

(** affine change of the values: z' = 2 z + 1 + 3 x *)
Lemma ex_uk_affine : exists E A D u u' q r r' z,
  ubuilt E UK2 A D [] u /\ ubuilt E UK2 (with_values A z) D [] u' /\ explicit_params (c_v A) /\
  urun E u q [] r /\ urun E u' q [] r' /\ faithful_specs u q /\ shown (u_obj u) q 0 (1, 1, 0) /\ uwell_posed u q [] 0 (1, 1, 0) /\
  List.length (drift_terms u q []) = 1%nat /\
  forall i, (i < List.length (c_values A))%nat ->
    rnth z i = 2 * rnth (c_values A) i + 1 + combination [3] (map (fun t => t_data t i) (drift_terms u q [])).
Proof.
  destruct (pair_u 0 0 3 4 1 0 5 7 fx) as (u & HB & Ho & HC & HD & HX); [unfold fx; lra|].
  destruct (pair_u 0 0 3 4 1 0 11 24 fx) as (u' & HB' & Ho' & HC' & HD' & HX'); [unfold fx; lra|].
  destruct (pair_fields _ _ _ _ _ _ _ _ _ Ho) as (Hc & Hn & Hpi & H0 & H1 & Hs & Ha).
  assert (Hd : o_dim (u_obj u) = 2%nat) by (unfold o_dim; rewrite Hc; reflexivity).
  destruct (pair_point u 1 1 HX) as [r Hr]. destruct (pair_point u' 1 1 HX') as [r' Hr'].
  assert (HT : drift_terms u (one_point 1 1 "vectorized") [] = fun_terms u).
  { unfold drift_terms, linear_terms, well_terms, ext_terms, spec_terms. rewrite HD. reflexivity. }
  exists WE, (pair_args 0 0 3 4 1 0 5 7), (fun_args fx), u, u', (one_point 1 1 "vectorized"), r, r', [11; 24].
  split; [exact HB|]. split; [exact HB'|]. split; [left; discriminate|]. split; [exact Hr|]. split; [exact Hr'|].
  split; [exact (pair_faithful _ _ _ HD)|]. split; [apply one_point_shown_u, Hc|]. split; [left; exact Hpi|].
  split; [rewrite HT; unfold fun_terms; rewrite HD; reflexivity|].
  intros i Hi. cbn in Hi. rewrite HT. unfold fun_terms. rewrite HD. cbn [one_drift dr_fun opt_list map combination spatial t_data].
  destruct i as [|[|i]]; [| |lia]; rewrite ?H0, ?H1, !frame_id by (assumption || reflexivity); unfold fx; cbn; lra.
Qed.

Lemma ex_uk_sum : exists E A D u1 u2 u q r1 r2 r,
  ubuilt E UK2 (with_values A [5; 7]) D [] u1 /\ ubuilt E UK2 (with_values A [1; 2]) D [] u2 /\
  ubuilt E UK2 (with_values A (map (fun i => rnth [5; 7] i + rnth [1; 2] i) (seq 0 (List.length [5; 7])))) D [] u /\ explicit_params (c_v A) /\
  urun E u1 q [] r1 /\ urun E u2 q [] r2 /\ urun E u q [] r /\ faithful_specs u q /\ shown (u_obj u) q 0 (1, 1, 0).
Proof.
  destruct (pair_u 0 0 3 4 1 0 5 7 fx) as (u1 & HB1 & Ho1 & _ & HD1 & HX1); [unfold fx; lra|].
  destruct (pair_u 0 0 3 4 1 0 1 2 fx) as (u2 & HB2 & Ho2 & _ & HD2 & HX2); [unfold fx; lra|].
  destruct (pair_u 0 0 3 4 1 0 (5 + 1) (7 + 2) fx) as (u & HB & Ho & _ & HD & HX); [unfold fx; lra|].
  destruct (pair_point u1 1 1 HX1) as [r1 Hr1]. destruct (pair_point u2 1 1 HX2) as [r2 Hr2]. destruct (pair_point u 1 1 HX) as [r Hr].
  exists WE, (pair_args 0 0 3 4 1 0 5 7), (fun_args fx), u1, u2, u, (one_point 1 1 "vectorized"), r1, r2, r.
  split; [exact HB1|]. split; [exact HB2|]. split; [exact HB|]. split; [left; discriminate|]. split; [exact Hr1|]. split; [exact Hr2|].
  split; [exact Hr|]. split; [exact (pair_faithful _ _ _ HD)|exact (pair_shown _ _ _ _ _ _ _ _ _ _ _ Ho)].
Qed.

Lemma ex_uk_swapped : exists E A D coords z u u' q r r',
  (forall j, (j < 2)%nat -> rearranged (fun i => 1 - i)%nat (nth j (c_coords A) []) (nth j coords [])) /\
  rearranged (fun i => 1 - i)%nat (c_values A) z /\ perm_on (List.length (c_values A)) (fun i => 1 - i)%nat /\
  Forall2 (rearranged (fun i => 1 - i)%nat) (opt_list (d_spec D)) [] /\ List.length coords = 2%nat /\
  ubuilt E UK2 A D [] u /\ ubuilt E UK2 (with_data A coords z) (with_spec D []) [] u' /\
  urun E u q [] r /\ urun E u' q [] r' /\ faithful_specs u q /\ shown (u_obj u) q 0 (1, 1, 0).
Proof.
  destruct (pair_u 0 0 3 4 1 0 5 7 fx) as (u & HB & Ho & _ & HD & HX); [unfold fx; lra|].
  destruct (pair_u 3 4 0 0 1 0 7 5 fx) as (u' & HB' & Ho' & _ & HD' & HX'); [unfold fx; lra|].
  destruct (pair_point u 1 1 HX) as [r Hr]. destruct (pair_point u' 1 1 HX') as [r' Hr'].
  exists WE, (pair_args 0 0 3 4 1 0 5 7), (fun_args fx), [[3; 0]; [4; 0]], [7; 5], u, u', (one_point 1 1 "vectorized"), r, r'.
  assert (P : perm_on 2 (fun i => 1 - i)%nat).
  { split; [intros i Hi; lia|intros i j Hi Hj H; lia]. }
  split; [intros [|[|j]] Hj; [| |lia]; (split; [reflexivity|]; intros [|[|i]] Hi; [| |cbn in Hi; lia]; reflexivity)|].
  split; [split; [reflexivity|]; intros [|[|i]] Hi; [| |cbn in Hi; lia]; reflexivity|].
  split; [exact P|]. split; [constructor|]. split; [reflexivity|].
  split; [exact HB|]. split; [exact HB'|]. split; [exact Hr|]. split; [exact Hr'|].
  split; [exact (pair_faithful _ _ _ HD)|exact (pair_shown _ _ _ _ _ _ _ _ _ _ _ Ho)].
Qed.

Lemma ex_uk_translation : exists E A D coords t u u' q q' r r',
  ubuilt E UK2 A D [] u /\ ubuilt E UK2 (with_data A coords (c_values A)) (translate t D) [] u' /\
  (forall i, (i < List.length (c_values A))%nat -> input UK2 (with_data A coords (c_values A)) i = add3 (input UK2 A i) t) /\
  urun E u q [] r /\ urun E u' q' [] r' /\ faithful_specs u q /\ faithful_specs u' q' /\
  shown (u_obj u) q 0 (1, 1, 0) /\ shown (u_obj u') q' 0 (add3 (1, 1, 0) t) /\ uregular u q [] /\ specs_agree u q q' [] [] 0 0 /\ t <> (0, 0, 0).
Proof.
  destruct (pair_u 0 0 3 4 1 0 5 7 fx) as (u & HB & Ho & _ & HD & HX); [unfold fx; lra|].
  destruct (pair_u 10 20 13 24 1 0 5 7 (fun x y z => fx (x - 10) (y - 20) (z - 0))) as (u' & HB' & Ho' & _ & HD' & HX'); [unfold fx; lra|].
  destruct (pair_point u 1 1 HX) as [r Hr]. destruct (pair_point u' 11 21 HX') as [r' Hr'].
  exists WE, (pair_args 0 0 3 4 1 0 5 7), (fun_args fx), [[10; 13]; [20; 24]], (10, 20, 0), u, u',
    (one_point 1 1 "vectorized"), (one_point 11 21 "vectorized"), r, r'.
  split; [exact HB|]. split; [exact HB'|].
  split.
  { intros [|[|i]] Hi; [| |cbn in Hi; lia]; unfold input, loc, add3; cbn; (apply f_equal2; [apply f_equal2|]; ring). }
  split; [exact Hr|]. split; [exact Hr'|]. split; [exact (pair_faithful _ _ _ HD)|]. split; [exact (pair_faithful _ _ _ HD')|].
  split; [exact (pair_shown _ _ _ _ _ _ _ _ _ _ _ Ho)|]. split.
  { replace (add3 (1, 1, 0) (10, 20, 0)) with (11, 21, 0) by (unfold add3; apply f_equal2; [apply f_equal2|]; ring).
    exact (pair_shown _ _ _ _ _ _ _ _ _ _ _ Ho'). }
  split; [exact (pair_regular _ _ _ _ _ _ _ _ _ _ Ho)|]. split; [exact (pair_specs _ _ _ _ _ _ HD)|]. intros K. injection K. lra.
Qed.

(** a quarter turn *)
Definition turn (p : vec3) : vec3 := (- snd (fst p), fst (fst p), snd p).
Lemma frame_plane o p : o_dim o = 2%nat -> o_scaling o = (fun _ => 1) -> o_angle o = (fun _ => 0) -> frame o p = (coord 0 p, coord 1 p, 0).
Proof.
  intros Hd Hs Ha. destruct p as [[x y] z]. unfold frame, center3, loc. rewrite Hd, Hs, Ha. cbn [Nat.eqb].
  unfold rad. replace (0 * PI / 180) with 0 by field. rewrite cos_0, sin_0. unfold add3, sub3, dot3, coord. cbn [fst snd]. f_equal; [f_equal|]; ring.
Qed.
Lemma ex_uk_isometry : exists E A D coords f fs u u' q q' r r',
  ubuilt E UK2 A D [] u /\ ubuilt E UK2 (with_data A coords (c_values A)) (carry f fs D) [] u' /\ isotropic UK2 (c_v A) /\
  (forall x y, dist3 (f x) (f y) = dist3 x y) /\ (forall x, snd x = 0 -> snd (f x) = 0) /\
  (forall i, (i < List.length (c_values A))%nat -> input UK2 (with_data A coords (c_values A)) i = f (input UK2 A i)) /\
  asked D "external_Z" = false /\ asked D "point_log" = false /\
  Forall2 (fun h h' => forall x, fun_at u' h' (f x) = fun_at u h x) (opt_list (d_fun D)) fs /\
  urun E u q [] r /\ urun E u' q' [] r' /\ faithful_specs u q /\ faithful_specs u' q' /\
  shown (u_obj u) q 0 (1, 2, 0) /\ shown (u_obj u') q' 0 (f (1, 2, 0)) /\ uregular u q [] /\ specs_agree u q q' [] [] 0 0 /\
  f (1, 2, 0) <> (1, 2, 0).
Proof.
  set (fy := fun _ y _ : R => y).
  destruct (pair_u 0 0 3 4 1 0 5 7 fx) as (u & HB & Ho & _ & HD & HX); [unfold fx; lra|].
  destruct (pair_u (- 0) 0 (- (4)) 3 1 0 5 7 fy) as (u' & HB' & Ho' & _ & HD' & HX'); [unfold fy; lra|].
  destruct (pair_point u 1 2 HX) as [r Hr]. destruct (pair_point u' (- (2)) 1 HX') as [r' Hr'].
  destruct (pair_fields _ _ _ _ _ _ _ _ _ Ho) as (Hc & Hn & Hpi & H0 & H1 & Hs & Ha).
  destruct (pair_fields _ _ _ _ _ _ _ _ _ Ho') as (Hc' & Hn' & Hpi' & H0' & H1' & Hs' & Ha').
  assert (Hd : o_dim (u_obj u) = 2%nat) by (unfold o_dim; rewrite Hc; reflexivity).
  assert (Hd' : o_dim (u_obj u') = 2%nat) by (unfold o_dim; rewrite Hc'; reflexivity).
  exists WE, (pair_args 0 0 3 4 1 0 5 7), (fun_args fx), [[- 0; - (4)]; [0; 3]], turn, [fy], u, u',
    (one_point 1 2 "vectorized"), (one_point (- (2)) 1 "vectorized"), r, r'.
  split; [exact HB|]. split; [exact HB'|]. split; [split; [reflexivity|intros K; discriminate K]|].
  split.
  { intros [[a b] c] [[a' b'] c']. unfold dist3, turn. cbn [fst snd]. f_equal. ring. }
  split; [intros x Hx; exact Hx|].
  split.
  { intros [|[|i]] Hi; [| |cbn in Hi; lia]; cbn; unfold loc, turn; cbn; reflexivity. }
  split; [reflexivity|]. split; [reflexivity|].
  split.
  { constructor; [|constructor]. intros x. unfold fun_at. rewrite !frame_plane by assumption. unfold fx, fy, turn, coord. cbn [fst snd]. reflexivity. }
  split; [exact Hr|]. split; [exact Hr'|]. split; [exact (pair_faithful _ _ _ HD)|]. split; [exact (pair_faithful _ _ _ HD')|].
  split; [exact (pair_shown _ _ _ _ _ _ _ _ _ _ _ Ho)|]. split; [exact (pair_shown _ _ _ _ _ _ _ _ _ _ _ Ho')|].
  split; [exact (pair_regular _ _ _ _ _ _ _ _ _ _ Ho)|]. split; [exact (pair_specs _ _ _ _ _ _ HD)|]. intros K. injection K. lra.
Qed.

(** k = 2 *)
Lemma ex_uk_amplified : exists E A D u u' q r r',
  In "linear"%string builtin_models /\ a_model (c_v A) = VName "linear" /\ a_params (c_v A) = PList [1; 0] /\
  construct_uk E UK2 A D = Ok u /\ construct_uk E UK2 (with_v A (with_params (c_v A) (PList (times 2 "linear" [1; 0])))) D = Ok u' /\
  urun E u q [] r /\ urun E u' q [] r' /\ faithful_specs u q /\ faithful_specs u' q /\ uregular u q [] /\
  shown (u_obj u) q 0 (1, 1, 0) /\ shown (u_obj u') q 0 (1, 1, 0) /\ specs_agree u q q [] [] 0 0.
Proof.
  destruct (pair_u 0 0 3 4 1 0 5 7 fx) as (u & HB & Ho & HC & HD & HX); [unfold fx; lra|].
  destruct (pair_u 0 0 3 4 (2 * 1) (2 * 0) 5 7 fx) as (u' & HB' & Ho' & HC' & HD' & HX'); [unfold fx; lra|].
  destruct (pair_point u 1 1 HX) as [r Hr]. destruct (pair_point u' 1 1 HX') as [r' Hr'].
  exists WE, (pair_args 0 0 3 4 1 0 5 7), (fun_args fx), u, u', (one_point 1 1 "vectorized"), r, r'.
  split; [left; reflexivity|]. split; [reflexivity|]. split; [reflexivity|]. split; [exact HC|]. split; [exact HC'|].
  split; [exact Hr|]. split; [exact Hr'|]. split; [exact (pair_faithful _ _ _ HD)|]. split; [exact (pair_faithful _ _ _ HD')|].
  split; [exact (pair_regular _ _ _ _ _ _ _ _ _ _ Ho)|]. split; [exact (pair_shown _ _ _ _ _ _ _ _ _ _ _ Ho)|].
  split; [exact (pair_shown _ _ _ _ _ _ _ _ _ _ _ Ho')|exact (pair_specs _ _ _ _ _ _ HD)].
Qed.
Lemma ex_ok_amplified : exists E A o o' q r r',
  In "linear"%string builtin_models /\ a_model (c_v A) = VName "linear" /\ a_params (c_v A) = PList [1; 1] /\
  construct E OK2 A = Ok o /\ construct E OK2 (with_v A (with_params (c_v A) (PList (times 2 "linear" [1; 1])))) = Ok o' /\
  run E o q r /\ run E o' q r' /\ regular_for o q /\ shown o q 0 (1, 1, 0) /\ shown o' q 0 (1, 1, 0) /\ q_window q = None.
Proof.
  destruct (two_run 1 1 7 8 true 1 1 true None ltac:(lra)) as (o & r & Ho & Hr).
  destruct (two_run (2 * 1) (2 * 1) 7 8 true 1 1 true None ltac:(lra)) as (o' & r' & Ho' & Hr').
  destruct (two_fields _ _ _ _ _ _ _ _ Ho) as (_&_&Hc&_&_&_&Hp&_). destruct (two_fields _ _ _ _ _ _ _ _ Ho') as (_&_&Hc'&_).
  exists WE, (two_args 1 1 7 8 true false), o, o', (one_point 1 1 "vectorized"), r, r'.
  split; [left; reflexivity|]. split; [reflexivity|]. split; [reflexivity|]. split; [exact Ho|]. split; [exact Ho'|].
  split; [exact Hr|]. split; [exact Hr'|]. split; [left; exact Hp|].
  split; [apply (one_point_cell o 1 1 "vectorized" Hc)|]. split; [apply (one_point_cell o' 1 1 "vectorized" Hc')|reflexivity].
Qed.
