(** C79: with a moving window predictions jump where the set of nearest data changes. *)
From Coq Require Import String.
From Verif Require Import Base Sums Matrix M_Variogram P_Variogram M_Geometry S_Geometry P_Geometry M_Kriging S_Kriging
  P_Kriging P_OKSpec M_Init M_Object M_Execute S_Execute P_Object P_Execute P_Cells P_OK P_Exec2 P_Data2 S_Valid P_Valid P_Valid4 P_Valid5 P_Valid6 P_Valid7
  P_Amplify P_Fit4 Witness Witness2 P_UK8 P_Stats3 S_Line P_Line P_Far P_Far2 P_Far3 P_Pinv3 P_Valid2.

Definition spots : list R := [0; 1; 3].
Lemma spot_cases i : (i < 3)%nat -> i = 0%nat \/ i = 1%nat \/ i = 2%nat. Proof. lia. Qed.

(** the two nearest of 0, 1, 3 *)
Lemma two_nearest o x sel : o_n o = 3%nat -> (forall i, (i < 3)%nat -> separation o (x, 0, 0) (datum o i) = Rabs (x - rnth spots i)) ->
  nearest o 2 (x, 0, 0) sel -> 5 / 4 <= x <= 7 / 4 -> x <> 3 / 2 -> sel 0%nat = 1%nat /\ sel 1%nat = (if Rle_dec x (3 / 2) then 0%nat else 2%nat).
Proof.
  intros Hn HS (N1 & N2 & N3 & N4) Hx Hne.
  assert (D0 : separation o (x, 0, 0) (datum o 0%nat) = x) by (rewrite HS by lia; unfold rnth, spots; cbn [nth]; rewrite Rabs_right; lra).
  assert (D1 : separation o (x, 0, 0) (datum o 1%nat) = x - 1) by (rewrite HS by lia; unfold rnth, spots; cbn [nth]; rewrite Rabs_right; lra).
  assert (D2 : separation o (x, 0, 0) (datum o 2%nat) = 3 - x) by (rewrite HS by lia; unfold rnth, spots; cbn [nth]; rewrite Rabs_left; lra).
  pose proof (N1 0%nat ltac:(lia)) as A0. pose proof (N1 1%nat ltac:(lia)) as A1. rewrite Hn in A0, A1.
  assert (A01 : sel 0%nat <> sel 1%nat) by (intros K; apply N2 in K; lia).
  pose proof (N3 0%nat 1%nat ltac:(lia) ltac:(lia)) as C.
  assert (M : forall j, (j < 3)%nat -> sel 0%nat <> j -> sel 1%nat <> j -> separation o (x, 0, 0) (datum o (sel 1%nat)) <= separation o (x, 0, 0) (datum o j)).
  { intros j Hj H0 H1. apply (N4 1%nat j); [lia|lia|]. intros [|[|b]] Hb; [exact H0|exact H1|lia]. }
  destruct (spot_cases _ A0) as [E0|[E0|E0]]; destruct (spot_cases _ A1) as [E1|[E1|E1]]; rewrite E0, E1 in *; try (exfalso; apply A01; reflexivity).
  - rewrite D0, D1 in C. lra.
  - pose proof (M 1%nat ltac:(lia) ltac:(lia) ltac:(lia)) as K. rewrite D1, D2 in K. lra.
  - split; [reflexivity|]. destruct (Rle_dec x (3 / 2)) as [L|L]; [reflexivity|]. exfalso. pose proof (M 2%nat ltac:(lia) ltac:(lia) ltac:(lia)) as K. rewrite D0, D2 in K. lra.
  - split; [reflexivity|]. destruct (Rle_dec x (3 / 2)) as [L|L]; [|reflexivity]. exfalso. pose proof (M 0%nat ltac:(lia) ltac:(lia) ltac:(lia)) as K. rewrite D0, D2 in K. lra.
  - pose proof (M 1%nat ltac:(lia) ltac:(lia) ltac:(lia)) as K. rewrite D1, D0 in K. lra.
  - rewrite D2, D1 in C. lra.
Qed.

Theorem window_jump : exists E o, env_ok E /\ proper o /\ ordinary o /\ o_pinv o = false /\ o_exact o = true /\ o_n o = 3%nat /\ (forall d, 0 <= d -> o_vg o d = 2 * d) /\
  forall delta, 0 < delta -> exists q q' r r' pos pos' v v', run E o q r /\ run E o q' r' /\ q_window q = Some 2%nat /\ q_window q' = Some 2%nat /\
    shown o q 0 pos /\ shown o q' 0 pos' /\ away o pos /\ away o pos' /\ separation o pos' pos < delta /\
    r_value r 0 = Some v /\ r_value r' 0 = Some v' /\ v' + 1 < v.
Proof.
  assert (PR : proper_request "linear" [2; 0]) by (apply request_linear; try reflexivity; lra).
  assert (DI : distinct_inputs [[0; 1; 3]; [0; 0; 0]] 3).
  { intros i j Hi Hj Hne. exists [0; 1; 3]. split; [left; reflexivity|]. unfold rnth.
    destruct i as [|[|[|i]]]; [| | |lia]; (destruct j as [|[|[|j]]]; [| | |lia]); cbn; first [lia|lra]. }
  destruct (mod_run [0; 1; 3] [0; 0; 0] [2; 5; 1] "linear" [2; 0]) as (o & Ho & HP & _); try reflexivity; try (cbn; lia); [exact PR|right; exact DI|].
  destruct (mod_fields _ _ _ _ _ o f_linear [2; 0] Ho eq_refl eq_refl) as (Hc & Hct & Hn & Hex & Hp & Hv & Hf & Hpa & Hd & Hs). cbn in Hn.
  assert (SEP : forall a i, (i < 3)%nat -> separation o (a, 0, 0) (datum o i) = Rabs (a - rnth spots i)).
  { intros a i Hi. rewrite Hs, Hd. unfold lon, lat. cbn [fst snd]. replace (rnth [0; 0; 0] i) with 0 by (unfold rnth; destruct i as [|[|[|i]]]; [| | |lia]; reflexivity). apply sqrt_line. }
  assert (D : forall i, (i < 3)%nat -> datum o i = (rnth spots i, 0, 0)) by (intros i Hi; rewrite Hd; unfold rnth; destruct i as [|[|[|i]]]; [| | |lia]; reflexivity).
  assert (HV : forall d, 0 <= d -> o_vg o d = 2 * d) by (intros d _; unfold o_vg; rewrite Hf, Hpa; cbn; unfold linear_variogram_model; cbn; ring).
  assert (Hre : reachable WE o) by (refine (reach_new WE OK2 (mod_args [0; 1; 3] [0; 0; 0] [2; 5; 1] "linear" [2; 0]) o eq_refl Ho)).
  assert (Hord : ordinary o) by (left; exact Hc).
  assert (Hdd : distinct_data o).
  { intros i j Hi Hj Hij. rewrite Hn in Hi, Hj. rewrite (D i Hi), SEP by exact Hj. intros K. unfold Rabs, rnth, spots in K.
    destruct i as [|[|[|i]]]; [| | |lia]; (destruct j as [|[|[|j]]]; [| | |lia]); cbn in K; first [lia|destruct (Rcase_abs _); lra]. }
  assert (POINT : forall x, 5 / 4 <= x <= 7 / 4 -> x <> 3 / 2 ->
    exists r, run WE o (windowed x 0 2) r /\ shown o (windowed x 0 2) 0 (x, 0, 0) /\ away o (x, 0, 0) /\
      r_value r 0 = Some (if Rle_dec x (3 / 2) then 5 else 7 - 2 * x)).
  { intros x Hx Hne.
    assert (HR : exists r, run WE o (windowed x 0 2) r).
    { apply proper_execute; auto; [apply wit_env_ok|right; exact Hdd|rewrite Hn; lia| |].
      - split; [|intros _; left; reflexivity]. right; left. split; [reflexivity|]. split; [reflexivity|]. unfold o_dim. rewrite Hc. discriminate.
      - split; [split; [lia|rewrite Hn; lia]|left; reflexivity]. }
    destruct HR as [r HR].
    assert (SH : shown o (windowed x 0 2) 0 (x, 0, 0)).
    { split; [|apply P_Exec2.not_hidden; discriminate]. unfold o_dim. rewrite Hc. apply (cell_point 2 (windowed x 0 2) 0 eq_refl); cbn; lia. }
    assert (AW : away o (x, 0, 0)).
    { intros i Hi. rewrite Hn in Hi. rewrite SEP by exact Hi. assert (EV : eps < 1 / 4) by (unfold eps; lra). unfold rnth, spots.
      destruct i as [|[|[|i]]]; [| | |lia]; cbn; unfold Rabs; destruct (Rcase_abs _); lra. }
    assert (ON : on_line o (rnth spots) (x, 0, 0) x).
    { split; rewrite Hn; [intros i j Hi Hj; rewrite (D i Hi); apply SEP, Hj|intros i Hi; apply SEP, Hi]. }
    assert (RS : resolved o (x, 0, 0)) by (intros _ i Hi; right; apply AW, Hi).
    exists r. split; [exact HR|]. split; [exact SH|]. split; [exact AW|].
    destruct (Rle_dec x (3 / 2)) as [L|L] eqn:EL.
    - destruct (line_outside WE o _ r 0 (x, 0, 0) (rnth spots) x 2 HR SH (or_introl Hp) ON RS HV) as (m & sel & (-> & NE) & H).
      destruct (two_nearest o x sel Hn (fun i => SEP x i) NE Hx Hne) as [S0 S1]. rewrite EL in S1.
      destruct (H 0%nat ltac:(lia)) as [H1 _].
      + right. rewrite S0. split; [|unfold rnth, spots; cbn; lra]. intros [|[|c]] Hc'; [rewrite S0|rewrite S1|lia]; unfold rnth, spots; cbn; lra.
      + rewrite H1, S0, Hv. reflexivity.
    - destruct (line_between WE o _ r 0 (x, 0, 0) (rnth spots) x 2 HR SH (or_introl Hp) ON RS HV) as (m & sel & (-> & NE) & H).
      destruct (two_nearest o x sel Hn (fun i => SEP x i) NE Hx Hne) as [S0 S1]. rewrite EL in S1.
      destruct (H 0%nat 1%nat ltac:(lia) ltac:(lia)) as [H1 _].
      + rewrite S0, S1. unfold rnth, spots. cbn. lra.
      + rewrite S0, S1. unfold rnth, spots. cbn. lra.
      + intros [|[|c]] Hc'; [| |lia]; rewrite ?S0, ?S1; unfold rnth, spots; cbn; lra.
      + rewrite H1, S0, S1, Hv. f_equal. unfold rnth, spots. cbn. field. }
  exists WE, o. split; [apply wit_env_ok|]. split; [exact HP|]. split; [exact Hord|]. split; [exact Hp|]. split; [exact Hex|]. split; [exact Hn|]. split; [exact HV|].
  intros delta Hdelta. set (h := Rmin delta 1 / 4).
  assert (H1 : 0 < h /\ h <= 1 / 4 /\ 4 * h <= delta).
  { unfold h. pose proof (Rmin_l delta 1). pose proof (Rmin_r delta 1). assert (0 < Rmin delta 1) by (apply Rmin_glb_lt; lra). lra. }
  destruct H1 as (G1 & G2 & G3). clearbody h.
  destruct (POINT (3 / 2 - h) ltac:(lra) ltac:(intros K; lra)) as (r & R1 & R2 & R3 & R4).
  destruct (POINT (3 / 2 + h) ltac:(lra) ltac:(intros K; lra)) as (r' & R1' & R2' & R3' & R4').
  destruct (Rle_dec (3 / 2 - h) (3 / 2)) as [_|K]; [|exfalso; lra]. destruct (Rle_dec (3 / 2 + h) (3 / 2)) as [K|_]; [exfalso; lra|].
  exists (windowed (3 / 2 - h) 0 2), (windowed (3 / 2 + h) 0 2), r, r', (3 / 2 - h, 0, 0), (3 / 2 + h, 0, 0), 5, (7 - 2 * (3 / 2 + h)).
  split; [exact R1|]. split; [exact R1'|]. split; [reflexivity|]. split; [reflexivity|]. split; [exact R2|]. split; [exact R2'|]. split; [exact R3|]. split; [exact R3'|].
  split; [|split; [exact R4|split; [exact R4'|lra]]].
  rewrite Hs. unfold lon, lat. cbn [fst snd]. rewrite sqrt_line. rewrite Rabs_right; lra.
Qed.
