(** Examples for the theorems on proper models. *)
From Coq Require Import String.
From Verif Require Import Base Sums Matrix M_Variogram M_Geometry S_Geometry M_Kriging S_Kriging M_Init M_Object M_Execute S_Execute M_UK S_UK S_Valid
  P_Object P_Kriging P_Psd P_Psd2 P_Valid P_Valid2 P_Dup P_OKSpec P_OK P_Det P_Exec2 P_Cells P_Execute P_Master P_Options
  P_UK P_UK2 P_UK3 P_UK4 P_UK5 P_UK6 P_UK7 P_UK8 P_UK9 P_Valid3 P_Valid4 Witness Witness3.

(** data along the x axis, gaussian model without nugget *)
Definition row_args (x : list R) (exact : bool) : cargs :=
  {| c_coords := [x; map (fun _ => 0) x]; c_values := x;
     c_v := {| a_model := VName "gaussian"; a_params := PList [1; 2; 0]; a_fun := FNone;
               a_nlags := 6; a_weight := false; a_scaling := (fun _ => 1); a_angle := (fun _ => 0) |};
     c_verbose := false; c_plotting := false; c_stat := false; c_ct := "euclidean";
     c_exact := Some exact; c_pinv := false; c_pinv_type := "pinv" |}.
Lemma row_construct E x exact : (2 <= List.length x)%nat -> exists o, construct E OK2 (row_args x exact) = Ok o.
Proof.
  intros Hx. apply (construct_explicit E _ "gaussian" f_gaussian [1 - 0; 2; 0] x (map (fun _ => 0) x)); cbn; try reflexivity; try lia; eauto.
  - rewrite map_length. reflexivity.
  - repeat split; reflexivity.
Qed.
Lemma rnth_map0 x i : rnth (map (fun _ : R => 0) x) i = 0.
Proof. unfold rnth. revert i. induction x as [|a x IH]; intros [|i]; cbn; auto. Qed.
Lemma row_fields E x exact o : construct E OK2 (row_args x exact) = Ok o ->
  reachable E o /\ o_class o = OK2 /\ o_n o = List.length x /\ o_ct o = Euclidean /\ o_exact o = exact /\ o_pinv o = false /\
  o_fun o = f_gaussian /\ o_params o = [1 - 0; 2; 0] /\ o_scaling o = (fun _ => 1) /\ o_angle o = (fun _ => 0) /\
  (forall i, datum o i = (rnth x i, 0, 0)) /\
  forall p q, separation o p q = sqrt ((lon p - lon q)² + (lat p - lat q)²).
Proof.
  intros H.
  assert (Hre : reachable E o) by (refine (reach_new E OK2 (row_args x exact) o _ H); reflexivity).
  split; [exact Hre|].
  destruct (construct_inv E OK2 _ o H) as (ex & name & prm & fn & sc & an & f & vp & lags & sv & params & Hall).
  destruct Hall as (_&Hex&Hgs&Hf&Hmp&_&Hini&_&Hc&Hpi&_&Hexo&_&Hfo&Hpo&Hn&Horig&Hval&_&_&_&_&Hct).
  cbn in Hex, Hgs, Hn, Horig, Hval, Hpi. injection Hex as <-. injection Hgs as <- <- <- <- <-.
  cbn in Hf. injection Hf as <-. cbn in Hmp. injection Hmp as <-.
  destruct Hct as [(_ & Hct & _ & Hs & Ha & _)|(Hg & _)]; [|discriminate].
  assert (Hpar : params = [1 - 0; 2; 0]).
  { unfold initialize_variogram_model in Hini. rewrite Hct in Hini. cbn [cdim Nat.eqb] in Hini. rewrite Hn in Hini. cbn [row_args c_values] in Hini. rewrite Nat.eqb_refl in Hini. cbn [negb] in Hini.
    bindok Hini. cbn in Hini. injection Hini as _ _ <-. reflexivity. }
  rewrite Hpar in Hpo.
  assert (Hdim : o_dim o = 2%nat) by (unfold o_dim; rewrite Hc; reflexivity).
  assert (Hd : forall i, datum o i = (rnth x i, 0, 0)).
  { intros i. unfold datum, loc. rewrite Hdim, Horig. cbn -[rnth]. unfold columns. cbn -[rnth]. rewrite rnth_map0. reflexivity. }
  repeat (split; [first [assumption|reflexivity]|]).
  intros [[x0 y] z] [[u v] w]. unfold separation, lon, lat. rewrite Hct, Hdim, Hs, Ha. cbn [Nat.eqb fst snd].
  unfold aniso2, rad, dot3, sub3. cbv zeta. replace (0 * PI / 180) with 0 by (field). rewrite cos_0, sin_0. f_equal. unfold Rsqr. ring.
Qed.
Lemma row_sep o x a b : (forall p q, separation o p q = sqrt ((lon p - lon q)² + (lat p - lat q)²)) -> separation o (x, 0, a) (b, 0, 0) = Rabs (x - b).
Proof. intros Hs. rewrite Hs. unfold lon, lat. cbn [fst snd]. replace ((x - b)² + (0 - 0)²) with (Rsqr (x - b)) by (unfold Rsqr; ring). apply sqrt_Rsqr_abs. Qed.
Lemma row_proper E x exact o : construct E OK2 (row_args x exact) = Ok o -> proper o.
Proof.
  intros H. destruct (row_fields E x exact o H) as (_&_&_&Hct&_&_&Hf&Hp&_). split; [exact Hct|]. apply proper_gaussian; rewrite ?Hf, ?Hp; cbn; try reflexivity; lra.
Qed.
Lemma row_distinct E x exact o : construct E OK2 (row_args x exact) = Ok o ->
  (forall i j, (i < List.length x)%nat -> (j < List.length x)%nat -> i <> j -> rnth x i <> rnth x j) -> distinct_data o.
Proof.
  intros H Hx i j Hi Hj Hne. destruct (row_fields E x exact o H) as (_&_&Hn&_&_&_&_&_&_&_&Hd&Hs).
  rewrite Hn in Hi, Hj. rewrite !Hd, (row_sep o _ _ _ Hs). specialize (Hx i j Hi Hj Hne). intros E0.
  destruct (Req_dec (rnth x i - rnth x j) 0) as [E1|E1]; [lra|]. apply (Rabs_no_R0 _ E1 E0).
Qed.
Definition three : list R := [0; 3; 4].
Definition four : list R := [0; 3; 4; 6].
Lemma four_ne i j : (i < 4)%nat -> (j < 4)%nat -> i <> j -> rnth four i <> rnth four j.
Proof. intros Hi Hj Hne. destruct i as [|[|[|[|]]]], j as [|[|[|[|]]]]; try lia; cbn; lra. Qed.
Lemma three_ne i j : (i < 3)%nat -> (j < 3)%nat -> i <> j -> rnth three i <> rnth three j.
Proof. intros Hi Hj Hne. destruct i as [|[|[|]]], j as [|[|[|]]]; try lia; cbn; lra. Qed.

Definition at_1 (b : string) (w : option nat) : query :=
  {| q_style := "points"; q_pts := [[1]; [0]]; q_int := [false; false]; q_mask := None; q_backend := b; q_window := w |}.
Lemma at_1_shown o b w : o_class o = OK2 -> shown o (at_1 b w) 0 (1, 0, 0).
Proof.
  intros Hc. unfold shown, o_dim. rewrite Hc. split.
  - apply (cell_point 2 (at_1 b w) 0 eq_refl). cbn. lia.
  - intros H. inversion H; discriminate.
Qed.
Lemma at_1_good o b w : o_class o = OK2 -> good_query o (at_1 b w).
Proof.
  intros Hc. split; [|intros _; left; reflexivity]. right; left. split; [reflexivity|]. split; [reflexivity|].
  unfold o_dim. rewrite Hc. discriminate.
Qed.
Lemma row_run E x exact o b w : env_ok E -> construct E OK2 (row_args x exact) = Ok o ->
  (forall i j, (i < List.length x)%nat -> (j < List.length x)%nat -> i <> j -> rnth x i <> rnth x j) ->
  (0 < List.length x)%nat -> has_backend o (at_1 b w) -> exists r, run E o (at_1 b w) r.
Proof.
  intros HE H Hx Hn HB. destruct (row_fields E x exact o H) as (Hre&Hc&Hno&_&_&Hpi&_).
  apply proper_execute; auto.
  - left. exact Hc.
  - exact (row_proper E x exact o H).
  - right. exact (row_distinct E x exact o H Hx).
  - rewrite Hno. exact Hn.
  - apply at_1_good. exact Hc.
Qed.
Lemma eps_lt_1 : eps < 1. Proof. unfold eps. lra. Qed.
Lemma row_off E x exact o : construct E OK2 (row_args x exact) = Ok o -> (forall i, (i < List.length x)%nat -> 1 <= Rabs (1 - rnth x i)) -> off_data o (1, 0, 0).
Proof.
  intros H Hx i Hi. destruct (row_fields E x exact o H) as (_&_&Hn&_&_&_&_&_&_&_&Hd&Hs). rewrite Hd, (row_sep o _ _ _ Hs).
  rewrite Hn in Hi. specialize (Hx i Hi). pose proof eps_lt_1. split; intros; lra.
Qed.
Lemma four_far i : (i < 4)%nat -> 1 <= Rabs (1 - rnth four i).
Proof. intros Hi. destruct i as [|[|[|[|]]]]; try lia; cbn; unfold Rabs; destruct (Rcase_abs _); lra. Qed.
Lemma three_far i : (i < 3)%nat -> 1 <= Rabs (1 - rnth three i).
Proof. intros Hi. destruct i as [|[|[|]]]; try lia; cbn; unfold Rabs; destruct (Rcase_abs _); lra. Qed.

Lemma ex_valid : exists E o, env_ok E /\ reachable E o /\ ordinary o /\ proper o /\ solvable_data o /\ distinct_data o /\ (o_n o = 4)%nat /\ o_pinv o = false /\
  o_exact o = true /\ o_vg o 0 = 0 /\
  forall b w, has_backend o (at_1 b w) -> good_query o (at_1 b w) /\ shown o (at_1 b w) 0 (1, 0, 0) /\ off_data o (1, 0, 0) /\ clear_of_data o (1, 0, 0) /\ exists r, run E o (at_1 b w) r.
Proof.
  set (E := wit_env true None). destruct (row_construct E four true ltac:(cbn; lia)) as [o Ho].
  destruct (row_fields E four true o Ho) as (Hre&Hc&Hn&Hct&Hex&Hpi&Hf&Hp&_&_&Hd&Hs).
  exists E, o. split; [apply wit_env_ok|]. split; [exact Hre|]. split; [left; exact Hc|]. split; [exact (row_proper _ _ _ _ Ho)|].
  pose proof (row_distinct _ _ _ _ Ho four_ne) as HD. split; [right; exact HD|]. split; [exact HD|]. split; [exact Hn|]. split; [exact Hpi|].
  split; [exact Hex|]. split.
  { unfold o_vg. rewrite Hf, Hp. cbn [fcall f_gaussian]. unfold gaussian_variogram_model, rnth. cbn [nth].
    match goal with |- context [exp ?e] => replace e with 0 by field end. rewrite exp_0. ring. }
  intros b w HB. split; [apply at_1_good; exact Hc|]. split; [apply at_1_shown; exact Hc|].
  pose proof (row_off _ _ _ _ Ho four_far) as HO. split; [exact HO|]. split; [intros _ i Hi; right; apply (HO i Hi); exact Hex|].
  apply (row_run E four true o b w); auto; [apply wit_env_ok|exact four_ne|cbn; lia].
Qed.

Lemma ex_windows : exists E o q q' r r', run E o q r /\ run E o q' r' /\ shown o q 0 (1, 0, 0) /\ shown o q' 0 (1, 0, 0) /\
  well_posed o q (1, 0, 0) /\ proper o /\ q_window q = None /\ q_window q' = Some 2%nat /\ o_n o = 4%nat.
Proof.
  destruct ex_valid as (E & o & HE & _ & Hord & HP & _ & _ & Hn & Hpi & _ & _ & HR).
  assert (Hc : o_class o = OK2 \/ o_class o = OK3) by exact Hord.
  destruct (HR "loop"%string None) as (_ & Hs & _ & _ & r & Hr); [right; left; reflexivity|].
  destruct (HR "loop"%string (Some 2%nat)) as (_ & Hs' & _ & _ & r' & Hr'); [split; [rewrite Hn; lia|left; reflexivity]|].
  exists E, o, (at_1 "loop" None), (at_1 "loop" (Some 2%nat)), r, r'. split; [exact Hr|]. split; [exact Hr'|]. split; [exact Hs|]. split; [exact Hs'|].
  split; [left; exact Hpi|]. split; [exact HP|]. split; [reflexivity|]. split; [reflexivity|exact Hn].
Qed.

Lemma ex_more_data : exists E o o' r r', more_data (fun i => i) o o' /\ (o_n o < o_n o')%nat /\
  run E o (at_1 "vectorized" None) r /\ run E o' (at_1 "vectorized" None) r' /\
  shown o (at_1 "vectorized" None) 0 (1, 0, 0) /\ shown o' (at_1 "vectorized" None) 0 (1, 0, 0) /\
  well_posed o (at_1 "vectorized" None) (1, 0, 0) /\ well_posed o' (at_1 "vectorized" None) (1, 0, 0) /\ proper o.
Proof.
  set (E := wit_env true None). destruct (row_construct E three true ltac:(cbn; lia)) as [o Ho]. destruct (row_construct E four true ltac:(cbn; lia)) as [o' Ho'].
  destruct (row_fields E three true o Ho) as (Hre&Hc&Hn&Hct&Hex&Hpi&Hf&Hp&Hsc&Han&Hd&Hs).
  destruct (row_fields E four true o' Ho') as (Hre'&Hc'&Hn'&Hct'&Hex'&Hpi'&Hf'&Hp'&Hsc'&Han'&Hd'&Hs').
  destruct (row_run E three true o "vectorized" None (wit_env_ok _ _) Ho three_ne ltac:(cbn; lia) (or_introl eq_refl)) as [r Hr].
  destruct (row_run E four true o' "vectorized" None (wit_env_ok _ _) Ho' four_ne ltac:(cbn; lia) (or_introl eq_refl)) as [r' Hr'].
  exists E, o, o', r, r'. split.
  { constructor; try congruence; rewrite ?Hn, ?Hn'.
    - cbn. intros; lia.
    - auto.
    - intros i Hi. rewrite Hd, Hd'. destruct i as [|[|[|i]]]; [reflexivity..|cbn in Hi; lia]. }
  split; [rewrite Hn, Hn'; cbn; lia|]. split; [exact Hr|]. split; [exact Hr'|]. split; [apply at_1_shown, Hc|]. split; [apply at_1_shown, Hc'|].
  split; [left; exact Hpi|]. split; [left; exact Hpi'|]. exact (row_proper _ _ _ _ Ho).
Qed.

(** linear drift on three data *)
Lemma tri_fields c o : construct WE c (tri_args [1; 3; 4]) = Ok o -> c = OK2 \/ c = UK2 ->
  o_class o = c /\ o_n o = 3%nat /\ o_ct o = Euclidean /\ o_exact o = true /\ o_pinv o = false /\
  o_fun o = f_linear /\ o_params o = [1; 1] /\ o_scaling o = (fun _ => 1) /\ o_angle o = (fun _ => 0) /\
  (forall i, datum o i = (rnth [0; 1; 0] i, rnth [0; 0; 1] i, 0)) /\
  forall p q, separation o p q = sqrt ((lon p - lon q)² + (lat p - lat q)²).
Proof.
  intros H Hcc.
  destruct (construct_inv WE c _ o H) as (ex & name & prm & fn & sc & an & f & vp & lags & sv & params & Hall).
  destruct Hall as (_&Hex&Hgs&Hf&Hmp&_&Hini&_&Hc&Hpi&_&Hexo&_&Hfo&Hpo&Hn&Horig&Hval&_&_&_&_&Hct).
  cbn in Hex, Hn, Horig, Hval, Hpi. unfold resolve_gs in Hgs. cbn in Hgs. injection Hex as <-. injection Hgs as <- <- <- <- <-.
  cbn in Hf. injection Hf as <-. cbn in Hmp. injection Hmp as <-.
  assert (HD2 : cdim c = 2%nat) by (destruct Hcc as [->| ->]; reflexivity).
  destruct Hct as [(_ & Hct & _ & Hs & Ha & _)|(Hg & _)]; [|destruct Hcc as [->| ->]; discriminate].
  assert (Hpar : params = [1; 1]).
  { unfold initialize_variogram_model in Hini. rewrite Hct, HD2 in Hini. rewrite Hn in Hini. cbn [List.length tri_args c_values Nat.eqb negb] in Hini.
    bindok Hini. cbn in Hini. injection Hini as _ _ <-. reflexivity. }
  rewrite Hpar in Hpo.
  assert (Hdim : o_dim o = 2%nat) by (unfold o_dim; rewrite Hc; exact HD2).
  assert (Hd : forall i, datum o i = (rnth [0; 1; 0] i, rnth [0; 0; 1] i, 0)).
  { intros i. unfold datum, loc. rewrite Hdim, Horig. reflexivity. }
  repeat (split; [first [assumption|reflexivity]|]).
  intros [[x0 y] z] [[u v] w]. unfold separation, lon, lat. rewrite Hct, Hdim, Hs, Ha. cbn [Nat.eqb fst snd].
  unfold aniso2, rad, dot3, sub3. cbv zeta. replace (0 * PI / 180) with 0 by (field). rewrite cos_0, sin_0. f_equal. unfold Rsqr. ring.
Qed.
Lemma tri_proper c o : construct WE c (tri_args [1; 3; 4]) = Ok o -> c = OK2 \/ c = UK2 -> proper o /\ o_vg o 0 = 1.
Proof.
  intros H Hc. destruct (tri_fields c o H Hc) as (_&_&Hct&_&_&Hf&Hp&_). split.
  - split; [exact Hct|]. apply proper_linear; rewrite ?Hf, ?Hp; cbn; try reflexivity; lra.
  - unfold o_vg. rewrite Hf, Hp. cbn. unfold linear_variogram_model, rnth. cbn. ring.
Qed.
Lemma tri_drift : exists o u, construct WE OK2 (tri_args [1; 3; 4]) = Ok o /\ construct_uk WE UK2 (tri_args [1; 3; 4]) lin_args = Ok u /\
  ureachable WE u /\ o_class (u_obj u) = UK2 /\ o_n (u_obj u) = 3%nat /\ o_pinv (u_obj u) = false /\ o_exact (u_obj u) = true /\
  proper (u_obj u) /\ o_vg (u_obj u) 0 = 1 /\ u_drift u = {| dr_linear := true; dr_wells := None; dr_ext := None; dr_spec := None; dr_fun := None |} /\
  drift_independent u (one_point 1 1 "vectorized") [] /\ off_data (u_obj u) (1, 1, 0).
Proof.
  destruct (tri_construct [1; 3; 4] eq_refl) as [o1 Ho1].
  assert (HO : exists o, construct WE OK2 (tri_args [1; 3; 4]) = Ok o).
  { apply (construct_explicit WE _ "linear" f_linear [1; 1] [0; 1; 0] [0; 0; 1]); cbn; try reflexivity; try lia; eauto. repeat split; reflexivity. }
  destruct HO as [o Ho].
  set (u := {| u_obj := o1; u_drift := {| dr_linear := true; dr_wells := None; dr_ext := None; dr_spec := None; dr_fun := None |} |}).
  assert (HC : construct_uk WE UK2 (tri_args [1; 3; 4]) lin_args = Ok u) by (unfold construct_uk; rewrite Ho1; reflexivity).
  destruct (tri_fields UK2 o1 Ho1 (or_intror eq_refl)) as (Hc&Hn&Hct&Hex&Hpi&Hf&Hp&Hsc&Han&Hd&Hs).
  destruct (tri_proper UK2 o1 Ho1 (or_intror eq_refl)) as [HP Hnug].
  exists o, u. split; [exact Ho|]. split; [exact HC|].
  split; [exact (ur_new WE UK2 (tri_args [1; 3; 4]) lin_args u (or_introl eq_refl) eq_refl HC)|].
  split; [exact Hc|]. split; [exact Hn|]. split; [exact Hpi|]. split; [exact Hex|]. split; [exact HP|]. split; [exact Hnug|]. split; [reflexivity|].
  assert (Hdim : o_dim o1 = 2%nat) by (unfold o_dim; rewrite Hc; reflexivity).
  split.
  - intros c cs H. set (q := one_point 1 1 "vectorized") in *.
    assert (HT2 : drift_terms u q [] = [spatial o1 (fun p => coord 0 (frame o1 p)); spatial o1 (fun p => coord 1 (frame o1 p))]).
    { unfold drift_terms, well_terms, ext_terms, spec_terms, fun_terms. cbn. rewrite app_nil_r. unfold linear_terms. cbn [u u_obj u_drift dr_linear]. rewrite Hdim. reflexivity. }
    cbv zeta in H |- *. rewrite HT2 in H |- *. cbn [List.length] in H |- *. cbn [u u_obj] in H. rewrite Hn in H.
    pose proof (H 0%nat ltac:(lia)) as H0. pose proof (H 1%nat ltac:(lia)) as H1. pose proof (H 2%nat ltac:(lia)) as H2.
    cbn [bsum nth spatial t_data] in H0, H1, H2. rewrite !frame_id in H0, H1, H2 by (assumption || (intros; rewrite ?Hsc, ?Han; reflexivity) || (rewrite Hd; reflexivity)).
    rewrite !Hd in H0, H1, H2. unfold rnth in H0, H1, H2. cbn in H0, H1, H2. split; [lra|]. intros k Hk. destruct k as [|[|k]]; [lra|lra|lia].
  - intros i Hi. change (u_obj u) with o1 in *. rewrite Hd, Hs. unfold lon, lat. cbn [fst snd]. rewrite Hn in Hi.
    assert (1 <= (1 - rnth [0; 1; 0] i)² + (1 - rnth [0; 0; 1] i)²) as HL.
    { destruct i as [|[|[|i]]]; [| | |lia]; unfold rnth, Rsqr; cbn; lra. }
    apply sqrt_le_1_alt in HL. rewrite sqrt_1 in HL. pose proof eps_lt_1. split; intros; lra.
Qed.
Lemma ex_drift : exists E A D o u q r r', counterparts OK2 UK2 /\ c_ct A = "euclidean"%string /\
  built E OK2 A [] o /\ ubuilt E UK2 A D [] u /\ run E o q r /\ urun E u q [] r' /\ q_window q = None /\
  shown o q 0 (1, 1, 0) /\ shown (u_obj u) q 0 (1, 1, 0) /\ well_posed o q (1, 1, 0) /\ uwell_posed u q [] 0 (1, 1, 0) /\ faithful_specs u q /\
  proper o /\ proper (u_obj u) /\ solvable_data (u_obj u) /\ off_data (u_obj u) (1, 1, 0) /\ drift_independent u q [] /\ o_pinv (u_obj u) = false /\
  dr_linear (u_drift u) = true /\ dr_spec (u_drift u) = None /\ dr_ext (u_drift u) = None /\ good_query (u_obj u) q /\ o_n o = 3%nat.
Proof.
  destruct tri_drift as (o & u & Ho & Hu & Hre & Hcu & Hnu & Hpiu & Hexu & HPu & Hnugu & Hdr & Hind & Hoff).
  destruct (tri_fields OK2 o Ho (or_introl eq_refl)) as (Hc&Hn&Hct&Hex&Hpi&Hf&Hp&Hsc&Han&Hd&Hs).
  destruct (tri_proper OK2 o Ho (or_introl eq_refl)) as [HP Hnug].
  set (q := one_point 1 1 "vectorized").
  assert (HQ : good_query o q). { split; [|intros _; left; reflexivity]. right; left. split; [reflexivity|]. split; [reflexivity|]. unfold o_dim. rewrite Hc. discriminate. }
  assert (HQu : good_query (u_obj u) q). { split; [|intros _; left; reflexivity]. right; left. split; [reflexivity|]. split; [reflexivity|]. unfold o_dim. rewrite Hcu. discriminate. }
  assert (HSu : solvable_data (u_obj u)) by (left; rewrite Hnugu; lra).
  assert (Hind' : drift_independent u q []) by exact Hind.
  destruct (proper_execute WE o q (wit_env_ok _ _)) as [r Hr]; auto.
  { exact (reach_new WE OK2 (tri_args [1; 3; 4]) o eq_refl Ho). } { left; exact Hc. } { left. rewrite Hnug. lra. } { rewrite Hn. lia. } { left; reflexivity. }
  destruct (uk_succeeds_vectorized WE u q [] (wit_env_ok _ _) Hre HPu HSu Hpiu Hind' eq_refl) as (r' & w & Hr'); [rewrite Hdr; reflexivity..|exact HQu|].
  exists WE, (tri_args [1; 3; 4]), lin_args, o, u, q, r, r'.
  split; [left; auto|]. split; [reflexivity|]. split; [split; [reflexivity|]; exists o; auto|]. split; [split; [reflexivity|]; exists u; auto|].
  split; [exact Hr|]. split; [split; [apply wit_env_ok|]; split; [exact Hre|]; exists w; exact Hr'|]. split; [reflexivity|].
  split; [apply one_point_cell; exact Hc|]. split; [apply one_point_shown_u; exact Hcu|]. split; [left; exact Hpi|]. split; [left; exact Hpiu|].
  split; [left; reflexivity|]. split; [exact HP|]. split; [exact HPu|]. split; [exact HSu|]. split; [exact Hoff|]. split; [exact Hind'|]. split; [exact Hpiu|].
  rewrite Hdr. split; [reflexivity|]. split; [reflexivity|]. split; [reflexivity|]. split; [exact HQu|exact Hn].
Qed.
