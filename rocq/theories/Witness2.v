(** More concrete objects for the non-vacuity examples: OrdinaryKriging with a
    linear variogram on arbitrary data. *)
From Coq Require Import String ClassicalEpsilon.
From Verif Require Import Base Sums Matrix M_Variogram P_Variogram M_Geometry S_Geometry P_Geometry M_Kriging S_Kriging
  P_Kriging P_OKSpec M_Init M_Object M_Execute S_Execute P_Object P_Execute P_Cells P_Window P_WindowExec P_Master P_Det P_OK Witness P_Dup.

Definition gen_args (x y z : list R) (slope nugget : R) (exact pinv : bool) : cargs :=
  {| c_coords := [x; y]; c_values := z;
     c_v := {| a_model := VName "linear"; a_params := PList [slope; nugget]; a_fun := FNone;
               a_nlags := 6; a_weight := false; a_scaling := (fun _ => 1); a_angle := (fun _ => 0) |};
     c_verbose := false; c_plotting := false; c_stat := false; c_ct := "euclidean";
     c_exact := Some exact; c_pinv := pinv; c_pinv_type := "pinv" |}.

Lemma gen_construct E x y z slope nugget exact pinv : List.length y = List.length x -> List.length z = List.length x ->
  (2 <= List.length x)%nat -> exists o, construct E OK2 (gen_args x y z slope nugget exact pinv) = Ok o.
Proof.
  intros Hy Hz Hn.
  apply (construct_explicit E _ "linear" f_linear [slope; nugget] x y); cbn; try reflexivity; try lia; eauto.
  repeat split; reflexivity.
Qed.

Lemma gen_fields E x y z slope nugget exact pinv o :
  construct E OK2 (gen_args x y z slope nugget exact pinv) = Ok o ->
  reachable E o /\ coords_inv o /\ o_class o = OK2 /\ o_n o = List.length x /\ o_ct o = Euclidean /\ o_exact o = exact /\ o_pinv o = pinv /\
  o_fun o = f_linear /\ o_params o = [slope; nugget] /\
  (forall d, o_vg o d = slope * d + nugget) /\ o_values o = rnth z /\
  (forall i, datum o i = (rnth x i, rnth y i, 0)) /\ o_scaling o = (fun _ => 1) /\ o_angle o = (fun _ => 0) /\
  forall p q, separation o p q = sqrt ((lon p - lon q)² + (lat p - lat q)²).
Proof.
  intros H.
  assert (Hre : reachable E o) by (refine (reach_new E OK2 _ o _ H); reflexivity).
  split; [exact Hre|].
  split; [apply (reachable_inv E o Hre)|].
  destruct (construct_inv E OK2 _ o H) as (ex & name & prm & fn & sc & an & f & vp & lags & sv & params & Hall).
  destruct Hall as (_&Hex&Hgs&Hf&Hmp&_&Hini&_&Hc&Hpi&_&Hexo&_&Hfo&Hpo&Hn&Horig&Hval&_&_&_&_&Hct).
  cbn in Hex, Hgs, Hn, Horig, Hval, Hpi. injection Hex as <-. injection Hgs as <- <- <- <- <-.
  cbn in Hf. injection Hf as <-. cbn in Hmp. injection Hmp as <-.
  destruct Hct as [(_ & Hct & _ & Hs & Ha & _)|(Hg & _)]; [|discriminate].
  assert (Hpar : params = [slope; nugget]).
  { unfold initialize_variogram_model in Hini. rewrite Hct in Hini. cbn [cdim Nat.eqb] in Hini.
    destruct (negb (Nat.eqb (List.length (c_values (gen_args x y z slope nugget exact pinv))) (o_n o))).
    { destruct (Nat.leb _ _); discriminate. }
    bindok Hini. cbn in Hini. injection Hini as _ _ <-. reflexivity. }
  rewrite Hpar in Hpo.
  assert (Hdim : o_dim o = 2%nat) by (unfold o_dim; rewrite Hc; reflexivity).
  assert (Hvg : forall d, o_vg o d = slope * d + nugget).
  { intros d. unfold o_vg. rewrite Hfo, Hpo. reflexivity. }
  assert (Hd0 : forall i, datum o i = (rnth x i, rnth y i, 0)) by (intros i; unfold datum, loc; rewrite Hdim, Horig; reflexivity).
  repeat (split; [first [assumption|reflexivity]|]).
  intros [[x0 y0] z0] [[u v] w]. unfold separation, lon, lat. rewrite Hct, Hdim, Hs, Ha. cbn [Nat.eqb fst snd].
  unfold aniso2, rad, dot3, sub3. cbv zeta. replace (0 * PI / 180) with 0 by (field). rewrite cos_0, sin_0. f_equal. unfold Rsqr. ring.
Qed.

Lemma gen_locate o x y : o_class o = OK2 -> exists l, locate (o_dim o) "points" [[x]; [y]] None = Ok l.
Proof. intros Hc. unfold o_dim. rewrite Hc. cbn. eauto. Qed.

Lemma gen_run x y z slope nugget exact cython gs qx qy : List.length y = List.length x -> List.length z = List.length x ->
  (2 <= List.length x)%nat ->
  (forall o, construct (wit_env cython gs) OK2 (gen_args x y z slope nugget exact false) = Ok o -> regular o) ->
  exists o r, construct (wit_env cython gs) OK2 (gen_args x y z slope nugget exact false) = Ok o /\
    run (wit_env cython gs) o (one_point qx qy "vectorized") r.
Proof.
  intros Hy Hz Hn HR. set (E := wit_env cython gs) in *. destruct (gen_construct E x y z slope nugget exact false Hy Hz Hn) as [o Ho].
  destruct (gen_fields _ _ _ _ _ _ _ _ _ Ho) as (Hre&Hinv&Hc&_&Hct&Hex&Hpi&_).
  assert (Hord : ordinary o) by (left; exact Hc).
  destruct (gen_locate o qx qy Hc) as [l HL].
  destruct (execute_succeeds E o (one_point qx qy "vectorized") l (wit_env_ok cython gs) Hinv Hord eq_refl Hpi) as [r Hr];
    [left; reflexivity|apply HR, Ho|exact HL|reflexivity|].
  exists o, r. split; [exact Ho|]. split; [apply wit_env_ok|]. split; [exact Hre|]. split; [exact Hord|].
  split; [intros Hb; discriminate Hb|exact Hr].
Qed.

(** with pseudo_inv *)
Lemma gen_run_pinv x y z slope nugget exact cython gs qx qy : List.length y = List.length x -> List.length z = List.length x ->
  (2 <= List.length x)%nat ->
  (forall o, construct (wit_env cython gs) OK2 (gen_args x y z slope nugget exact true) = Ok o ->
     exists P, is_pinv (o_n o + 1) (get_kriging_matrix o) P) ->
  exists o r, construct (wit_env cython gs) OK2 (gen_args x y z slope nugget exact true) = Ok o /\
    run (wit_env cython gs) o (one_point qx qy "vectorized") r.
Proof.
  intros Hy Hz Hn HR. set (E := wit_env cython gs) in *. destruct (gen_construct E x y z slope nugget exact true Hy Hz Hn) as [o Ho].
  destruct (gen_fields _ _ _ _ _ _ _ _ _ Ho) as (Hre&Hinv&Hc&_&Hct&Hex&Hpi&_).
  assert (Hord : ordinary o) by (left; exact Hc).
  destruct (gen_locate o qx qy Hc) as [l HL].
  pose proof (execute_ref E o (one_point qx qy "vectorized") Hinv Hord eq_refl (or_introl eq_refl)) as Href.
  unfold ref in Href. cbn [one_point q_style q_pts q_mask q_int] in Href. rewrite HL in Href. cbn [bind] in Href.
  assert (HA : exists pts, adjust_query o [false; false] (l_at l) = Ok pts).
  { unfold adjust_query. rewrite Hct. cbn [forallb andb]. apply adjust_supported. unfold o_dim. rewrite Hc. left. reflexivity. }
  destruct HA as [pts HA]. rewrite HA in Href. cbn [bind] in Href. unfold invert in Href. rewrite Hpi in Href.
  destruct (la_pinv (e_la E) (o_pinv_type o) (o_n o + 1) (get_kriging_matrix o)) as [P|] eqn:EP.
  - cbn [bind] in Href. destruct Href as (r & Hr & _).
    exists o, r. split; [exact Ho|]. split; [apply wit_env_ok|]. split; [exact Hre|]. split; [exact Hord|].
    split; [intros Hb; discriminate Hb|exact Hr].
  - exfalso. cbn in EP. apply (choose_none _ EP). apply HR, Ho.
Qed.

(** *** Three data, the first two at the same place: (0,0), (0,0), (3,4) *)
Definition dup_args (pinv : bool) : cargs := gen_args [0; 0; 3] [0; 0; 4] [1; 3; 5] 1 0 true pinv.

Lemma dup_facts E pinv o : construct E OK2 (dup_args pinv) = Ok o ->
  reachable E o /\ ordinary o /\ o_pinv o = pinv /\ coincident o 0 1 /\ o_vg o 0 = 0 /\ o_n o = 3%nat /\ o_ct o = Euclidean /\ o_dim o = 2%nat.
Proof.
  intros H. destruct (gen_fields _ _ _ _ _ _ _ _ _ H) as (Hre&Hinv&Hc&Hn&Hct&Hex&Hpi&_&_&Hvg&_&Hd&_&_&Hs).
  cbn in Hn. split; [exact Hre|]. split; [left; exact Hc|]. split; [exact Hpi|]. split; [|split; [|split; [|split]]].
  - split; [lia|]. split; [lia|]. split; [lia|]. rewrite Hs, !Hd. unfold lon, lat. cbn. 
    replace ((0 - 0)² + (0 - 0)²) with 0 by (unfold Rsqr; ring). apply sqrt_0.
  - rewrite Hvg. ring.
  - exact Hn.
  - exact Hct.
  - unfold o_dim. rewrite Hc. reflexivity.
Qed.

Definition dup_pinv : mat := fun i j =>
  match i, j with
  | 0%nat, 0%nat | 0%nat, 1%nat | 1%nat, 0%nat | 1%nat, 1%nat => / 40
  | 0%nat, 2%nat | 1%nat, 2%nat | 2%nat, 0%nat | 2%nat, 1%nat => - / 20
  | 0%nat, 3%nat | 1%nat, 3%nat | 3%nat, 0%nat | 3%nat, 1%nat => / 4
  | 2%nat, 2%nat => / 10
  | 2%nat, 3%nat | 3%nat, 2%nat => / 2
  | _, _ => 5 / 2
  end.

Lemma sqrt_25' : sqrt ((3 - 0)² + (4 - 0)²) = 5.
Proof. replace ((3 - 0)² + (4 - 0)²) with (5 * 5) by (unfold Rsqr; ring). apply sqrt_square. lra. Qed.
Lemma sqrt_00 x y : sqrt ((x - x)² + (y - y)²) = 0.
Proof. replace ((x - x)² + (y - y)²) with 0 by (unfold Rsqr; ring). apply sqrt_0. Qed.

Definition dup_mat : mat := fun i j =>
  match i, j with
  | 0%nat, 2%nat | 1%nat, 2%nat | 2%nat, 0%nat | 2%nat, 1%nat => - (5)
  | 3%nat, 3%nat => 0
  | 3%nat, _ | _, 3%nat => 1
  | _, _ => 0
  end.

Lemma dup_matrix E pinv o i j : construct E OK2 (dup_args pinv) = Ok o -> (i < 4)%nat -> (j < 4)%nat -> get_kriging_matrix o i j = dup_mat i j.
Proof.
  intros H Hi Hj. destruct (gen_fields _ _ _ _ _ _ _ _ _ H) as (Hre&Hinv&Hc&Hn&Hct&Hex&Hpi&_&_&Hvg&_&Hd&_&_&Hs). cbn in Hn.
  assert (HG : forall a b, G_of o a b = if Nat.eqb a b then 0 else 1 * sqrt ((rnth [0; 0; 3] a - rnth [0; 0; 3] b)² + (rnth [0; 0; 4] a - rnth [0; 0; 4] b)²) + 0).
  { intros a b. unfold G_of, data_semivariance. rewrite Hvg, Hs, !Hd. reflexivity. }
  unfold get_kriging_matrix, kriging_matrix, set_entry, set_col, set_row, fill_diagonal, set_block, zeros2. rewrite Hn.
  pose proof (fun a b => data_distances_sep o a b Hinv) as HD.
  destruct i as [|[|[|[|i]]]]; [| | | |lia]; destruct j as [|[|[|[|j]]]]; try lia; cbn [Nat.eqb Nat.ltb Nat.leb andb]; try reflexivity;
    rewrite Hvg, HD, Hs, !Hd; unfold lon, lat, rnth; cbn [nth fst snd dup_mat]; rewrite ?sqrt_25, ?sqrt_25', ?sqrt_00; ring.
Qed.

Lemma is_pinv_ext n A A' P : meq n A A' -> is_pinv n A P -> is_pinv n A' P.
Proof.
  intros H (H1 & H2 & H3 & H4).
  assert (HL : forall B, meq n (mulm n A B) (mulm n A' B)).
  { intros B i j Hi Hj. unfold mulm. apply bsum_ext. intros k Hk. rewrite H by assumption. reflexivity. }
  assert (HR : forall B, meq n (mulm n B A) (mulm n B A')).
  { intros B i j Hi Hj. unfold mulm. apply bsum_ext. intros k Hk. rewrite H by assumption. reflexivity. }
  assert (HX : forall B C D, meq n C D -> meq n (mulm n B C) (mulm n B D)).
  { intros B C D HCD i j Hi Hj. unfold mulm. apply bsum_ext. intros k Hk. rewrite HCD by assumption. reflexivity. }
  split; [|split; [|split]]; intros i j Hi Hj.
  - rewrite <- (HL _ i j Hi Hj), <- (HX A _ _ (HR P) i j Hi Hj), <- (H i j Hi Hj). apply H1; assumption.
  - rewrite <- (HX P _ _ (HL P) i j Hi Hj). apply H2; assumption.
  - unfold trm. rewrite <- (HL P j i Hj Hi), <- (HL P i j Hi Hj). apply H3; assumption.
  - unfold trm. rewrite <- (HR P j i Hj Hi), <- (HR P i j Hi Hj). apply H4; assumption.
Qed.

Lemma dup_is_pinv : is_pinv 4 dup_mat dup_pinv.
Proof.
  split; [|split; [|split]]; intros i j Hi Hj;
  (destruct i as [|[|[|[|i]]]]; [| | | |lia]); (destruct j as [|[|[|[|j]]]]; [| | | |lia]);
  unfold trm, mulm, dup_mat, dup_pinv; cbn [bsum]; field.
Qed.

Lemma dup_run : exists o r, construct (wit_env false None) OK2 (dup_args true) = Ok o /\
  run (wit_env false None) o (one_point 1 1 "vectorized") r.
Proof.
  apply gen_run_pinv; [reflexivity|reflexivity|cbn; lia|]. intros o Ho. exists dup_pinv.
  pose proof (dup_facts _ _ _ Ho) as (_&_&_&_&_&Hn&_). rewrite Hn. 
  apply (is_pinv_ext 4 dup_mat); [|exact dup_is_pinv]. intros i j Hi Hj. symmetry. apply (dup_matrix _ _ _ _ _ Ho); assumption.
Qed.

Lemma ex_dup_raises : exists E o q, env_ok E /\ reachable E o /\ ordinary o /\ o_pinv o = false /\ q_window q = None /\
  available E o (q_backend q) /\ good_query o q /\ coincident o 0 1 /\ o_vg o 0 = 0.
Proof.
  destruct (gen_construct (wit_env false None) [0; 0; 3] [0; 0; 4] [1; 3; 5] 1 0 true false) as [o Ho]; [reflexivity|reflexivity|cbn; lia|].
  destruct (dup_facts _ _ _ Ho) as (Hre & Hord & Hp & Hco & Hv & Hn & Hct & Hd).
  exists (wit_env false None), o, (one_point 1 1 "vectorized").
  split; [apply wit_env_ok|]. split; [exact Hre|]. split; [exact Hord|]. split; [exact Hp|]. split; [reflexivity|].
  split; [left; reflexivity|]. split; [|split; assumption].
  split; [right; left; split; [reflexivity|split; [reflexivity|intros H; rewrite Hd in H; discriminate]]|intros _; left; reflexivity].
Qed.

Lemma ex_dup_merge : exists E o o' q r r', run E o q r /\ run E o' q r' /\ q_window q = None /\ shown o q 0 (1, 1, 0) /\
  merges 0 1 o o' /\ coincident o 0 1 /\ o_vg o 0 = 0 /\ regular o' /\ o_pinv o = true.
Proof.
  destruct dup_run as (o & r & Ho & Hr). destruct (two_run 1 0 2 5 true 1 1 false None ltac:(lra)) as (o' & r' & Ho' & Hr').
  destruct (dup_facts _ _ _ Ho) as (Hre & Hord & Hp & Hco & Hv & Hn & Hct & Hdim).
  destruct (gen_fields _ _ _ _ _ _ _ _ _ Ho) as (_&_&Hc&_&_&Hex&_&Hf&Hpar&_&Hval&Hd&Hsc&Han&_).
  destruct (two_fields _ _ _ _ _ _ _ _ Ho') as (_&_&Hc'&Hn'&Hct'&Hex'&_&Hf'&Hpar'&Hvg'&Hval'&Hd0&Hd1&_).
  exists (wit_env false None), o, o', (one_point 1 1 "vectorized"), r, r'.
  split; [exact Hr|]. split; [exact Hr'|]. split; [reflexivity|]. split; [apply (one_point_cell o 1 1 "vectorized" Hc)|].
  split; [|split; [exact Hco|split; [exact Hv|split; [|exact Hp]]]].
  - constructor; try congruence.
    + rewrite Hsc. destruct (construct_inv _ _ _ _ Ho') as (?&?&?&?&?&?&?&?&?&?&?&_&_&Hgs&_&_&_&_&_&_&_&_&_&_&_&_&_&_&_&_&_&_&_&[HH|HH]).
      * cbn in Hgs. injection Hgs as _ _ _ <- _. apply HH.
      * destruct HH as (HH&_). discriminate.
    + rewrite Han. destruct (construct_inv _ _ _ _ Ho') as (?&?&?&?&?&?&?&?&?&?&?&_&_&Hgs&_&_&_&_&_&_&_&_&_&_&_&_&_&_&_&_&_&_&_&[HH|HH]).
      * cbn in Hgs. injection Hgs as _ _ _ _ <-. apply HH.
      * destruct HH as (HH&_). discriminate.
    + intros a Ha. rewrite Hn' in Ha. destruct a as [|[|a]]; [| |lia]; cbn [skip Nat.ltb Nat.leb]; rewrite Hd; cbn; congruence.
    + intros a Ha. rewrite Hn' in Ha. rewrite Hval, Hval'. destruct a as [|[|a]]; [| |lia]; cbn; [lra|reflexivity].
  - apply two_regular; [exact Hn'|]. rewrite (two_G _ _ _ _ _ _ _ _ Ho'). lra.
Qed.

(** two data in the other order *)
Lemma ex_swapped : exists E A coords z o o' q r r',
  (forall j, (j < 2)%nat -> rearranged (fun i => 1 - i)%nat (nth j (c_coords A) []) (nth j coords [])) /\
  rearranged (fun i => 1 - i)%nat (c_values A) z /\ perm_on (List.length (c_values A)) (fun i => 1 - i)%nat /\
  built E OK2 A [] o /\ built E OK2 (with_data A coords z) [] o' /\
  run E o q r /\ run E o' q r' /\ shown o q 0 (1, 1, 0) /\ q_window q = None.
Proof.
  destruct (two_run 1 0 2 5 true 1 1 false None ltac:(lra)) as (o & r & Ho & Hr).
  destruct (gen_run [3; 0] [4; 0] [5; 2] 1 0 true false None 1 1) as (o' & r' & Ho' & Hr'); [reflexivity|reflexivity|cbn; lia| |].
  { intros o' Ho'. destruct (gen_fields _ _ _ _ _ _ _ _ _ Ho') as (_&_&_&Hn&_&_&_&_&_&Hvg&_&Hd&_&_&Hs).
    apply two_regular; [exact Hn|]. unfold G_of, data_semivariance. cbn [Nat.eqb]. rewrite Hvg, Hs, !Hd. unfold lon, lat, rnth. cbn [nth fst snd].
    rewrite sqrt_25'. lra. }
  destruct (two_fields _ _ _ _ _ _ _ _ Ho) as (_&_&Hc&_).
  exists (wit_env false None), (two_args 1 0 2 5 true false), [[3; 0]; [4; 0]], [5; 2], o, o', (one_point 1 1 "vectorized"), r, r'.
  split; [|split; [|split; [|split; [|split; [|split; [|split; [|split]]]]]]].
  - intros j Hj. destruct j as [|[|j]]; [| |lia]; (split; [reflexivity|]); intros i Hi; cbn in Hi; destruct i as [|[|i]]; cbn; (reflexivity || lia).
  - split; [reflexivity|]. intros i Hi; cbn in Hi; destruct i as [|[|i]]; cbn; (reflexivity || lia).
  - split; [intros i Hi; cbn [two_args c_values List.length] in *; lia|]. intros i j Hi Hj H. cbn [two_args c_values List.length] in *. lia.
  - split; [reflexivity|]. exists o. split; [exact Ho|reflexivity].
  - split; [reflexivity|]. exists o'. split; [exact Ho'|reflexivity].
  - exact Hr.
  - exact Hr'.
  - apply (one_point_cell o 1 1 "vectorized" Hc).
  - reflexivity.
Qed.

(** the same two data moved by (1, -2) *)
Lemma ex_moved : exists E A coords o o' q q' r r',
  built E OK2 A [] o /\ built E OK2 (with_data A coords (c_values A)) [] o' /\ o_ct o = Euclidean /\ isotropic OK2 (c_v A) /\
  (forall i, (i < List.length (c_values A))%nat -> input OK2 (with_data A coords (c_values A)) i = add3 (input OK2 A i) (1, - (2), 0)) /\
  run E o q r /\ run E o' q' r' /\ q_window q' = q_window q /\ shown o q 0 (1, 1, 0) /\ shown o' q' 0 (add3 (1, 1, 0) (1, - (2), 0)).
Proof.
  destruct (two_run 1 0 2 5 true 1 1 false None ltac:(lra)) as (o & r & Ho & Hr).
  destruct (gen_run [0 + 1; 3 + 1] [0 + - (2); 4 + - (2)] [2; 5] 1 0 true false None (1 + 1) (1 + - (2))) as (o' & r' & Ho' & Hr'); [reflexivity|reflexivity|cbn; lia| |].
  { intros o' Ho'. destruct (gen_fields _ _ _ _ _ _ _ _ _ Ho') as (_&_&_&Hn&_&_&_&_&_&Hvg&_&Hd&_&_&Hs).
    apply two_regular; [exact Hn|]. unfold G_of, data_semivariance. cbn [Nat.eqb]. rewrite Hvg, Hs, !Hd. unfold lon, lat, rnth. cbn [nth fst snd].
    replace ((0 + 1 - (3 + 1))² + (0 + - (2) - (4 + - (2)))²) with (5 * 5) by (unfold Rsqr; ring). rewrite sqrt_square; lra. }
  destruct (two_fields _ _ _ _ _ _ _ _ Ho) as (_&_&Hc&_&Hct&_). destruct (gen_fields _ _ _ _ _ _ _ _ _ Ho') as (_&_&Hc'&_).
  exists (wit_env false None), (two_args 1 0 2 5 true false), [[0 + 1; 3 + 1]; [0 + - (2); 4 + - (2)]], o, o', (one_point 1 1 "vectorized"),
    (one_point (1 + 1) (1 + - (2)) "vectorized"), r, r'.
  split; [|split; [|split; [|split; [|split; [|split; [|split; [|split; [|split]]]]]]]].
  - split; [reflexivity|]. exists o. split; [exact Ho|reflexivity].
  - split; [reflexivity|]. exists o'. split; [exact Ho'|reflexivity].
  - exact Hct.
  - cbn. split; [reflexivity|discriminate].
  - intros i Hi. cbn in Hi. destruct i as [|[|i]]; [| |lia]; unfold input, loc, add3, rnth; cbn; rewrite Rplus_0_r; reflexivity.
  - exact Hr.
  - exact Hr'.
  - reflexivity.
  - apply (one_point_cell o 1 1 "vectorized" Hc).
  - cbn [add3]. rewrite Rplus_0_r. apply (one_point_cell o' (1 + 1) (1 + - (2)) "vectorized" Hc').
Qed.

(** the same two data in another unit of length (a tenth), slope scaled *)
Lemma ex_magnified : exists E o o' q q' r r',
  magnified 10 o o' /\ run E o q r /\ run E o' q' r' /\ q_window q' = q_window q /\
  shown o q 0 (1, 1, 0) /\ shown o' q' 0 (scale3 10 (1, 1, 0)).
Proof.
  destruct (two_run 1 0 2 5 true 1 1 false None ltac:(lra)) as (o & r & Ho & Hr).
  destruct (gen_run [10 * 0; 10 * 3] [10 * 0; 10 * 4] [2; 5] (1 / 10) 0 true false None (10 * 1) (10 * 1)) as (o' & r' & Ho' & Hr'); [reflexivity|reflexivity|cbn; lia| |].
  { intros o' Ho'. destruct (gen_fields _ _ _ _ _ _ _ _ _ Ho') as (_&_&_&Hn&_&_&_&_&_&Hvg&_&Hd&_&_&Hs).
    apply two_regular; [exact Hn|]. unfold G_of, data_semivariance. cbn [Nat.eqb]. rewrite Hvg, Hs, !Hd. unfold lon, lat, rnth. cbn [nth fst snd].
    replace ((10 * 0 - 10 * 3)² + (10 * 0 - 10 * 4)²) with (50 * 50) by (unfold Rsqr; ring). rewrite sqrt_square; lra. }
  destruct (two_fields _ _ _ _ _ _ _ _ Ho) as (_&_&Hc&Hn&Hct&Hex&_&_&_&Hvg&Hv&Hd0&Hd1&_).
  destruct (gen_fields _ _ _ _ _ _ _ _ _ Ho') as (_&_&Hc'&Hn'&Hct'&Hex'&_&_&_&Hvg'&Hv'&Hd'&Hs'&Ha'&_). cbn in Hn'.
  exists (wit_env false None), o, o', (one_point 1 1 "vectorized"), (one_point (10 * 1) (10 * 1) "vectorized"), r, r'.
  split; [|split; [exact Hr|split; [exact Hr'|split; [reflexivity|split]]]].
  - constructor; try congruence.
    + rewrite Hs'. destruct (construct_inv _ _ _ _ Ho) as (?&?&?&?&?&?&?&?&?&?&?&_&_&Hgs&_&_&_&_&_&_&_&_&_&_&_&_&_&_&_&_&_&_&_&[HH|HH]).
      * cbn in Hgs. injection Hgs as _ _ _ <- _. symmetry. apply HH.
      * destruct HH as (HH&_). discriminate.
    + rewrite Ha'. destruct (construct_inv _ _ _ _ Ho) as (?&?&?&?&?&?&?&?&?&?&?&_&_&Hgs&_&_&_&_&_&_&_&_&_&_&_&_&_&_&_&_&_&_&_&[HH|HH]).
      * cbn in Hgs. injection Hgs as _ _ _ _ <-. symmetry. apply HH.
      * destruct HH as (HH&_). discriminate.
    + intros i Hi. rewrite Hn in Hi. destruct i as [|[|i]]; [| |lia]; rewrite Hd', ?Hd0, ?Hd1; unfold scale3, rnth; cbn [nth]; rewrite Rmult_0_r; reflexivity.
    + intros d _. rewrite Hvg, Hvg'. field.
  - apply (one_point_cell o 1 1 "vectorized" Hc).
  - cbn [scale3]. rewrite Rmult_0_r. apply (one_point_cell o' (10 * 1) (10 * 1) "vectorized" Hc').
Qed.
