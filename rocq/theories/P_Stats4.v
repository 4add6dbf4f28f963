(** C75, C76: concrete cases, continued. *)
From Coq Require Import String Permutation FunctionalExtensionality.
From Verif Require Import Base Sums Matrix M_Variogram P_Variogram M_Geometry S_Geometry P_Geometry M_Kriging S_Kriging
  P_Kriging P_OKSpec M_Init M_Object M_Execute S_Execute P_Object P_Execute P_Cells P_OK P_Exec2 P_Data2
  S_Fit S_State S_Amplify P_Amplify P_Fit4 S_Stats P_Stats S_Stretch P_Stats2 S_Valid P_Valid P_Valid4 P_Valid6 P_Valid7 S_Access P_Access2 Witness Witness2 P_UK8 P_Stats3.

Lemma val_run x y z s n sc an a b : List.length x = List.length z -> List.length y = List.length z -> (2 <= List.length z)%nat ->
  0 <= s -> 0 < n -> sc <> 0 -> exists o r, construct WE OK2 (val x y z s n sc an) = Ok o /\ run WE o (one_point a b "vectorized") r.
Proof.
  intros Hx Hy Hz Hs Hn Hsc.
  destruct (construct_execute WE OK2 (val x y z s n sc an) "linear" [s; n] (wit_env_ok _ _) (val_call x y z s n sc an Hx Hy Hz) (val_vg x y z s n sc an Hs Hn Hsc)) as (o & Ho & _ & H); [left; reflexivity|left; exact Hn|].
  destruct (val_fields _ _ _ _ _ _ _ _ Ho) as (Hc & Hct & _).
  destruct (H (one_point a b "vectorized")) as [r Hr].
  - split; [|intros _; left; reflexivity]. right. left. split; [reflexivity|]. split; [reflexivity|]. unfold o_dim. rewrite Hc. discriminate.
  - left. reflexivity.
  - exists o, r. split; [exact Ho|]. split; [apply wit_env_ok|]. split; [refine (reach_new WE OK2 (val x y z s n sc an) o eq_refl Ho)|].
    split; [left; exact Hc|]. split; [|exact Hr]. intros HB. discriminate HB.
Qed.

Lemma rad_90 : rad 90 = PI / 2. Proof. unfold rad. field. Qed.
Lemma stretch_90 v x y : a_scaling v 0%nat = 2 -> a_angle v 0%nat = 90 -> stretch OK2 v (x, y, 0) = (y, -2 * x, 0).
Proof. intros Hs Ha. unfold stretch. cbn [cdim Nat.eqb]. rewrite Hs, Ha, rad_90, cos_PI2, sin_PI2. unfold dot3. f_equal. f_equal; ring. Qed.

Theorem ex_stretch : exists A coords o o' r r' q q', env_ok WE /\ construct WE OK2 A = Ok o /\ construct WE OK2 (relocated A coords) = Ok o' /\
  List.length (c_coords A) = 2%nat /\ List.length coords = 2%nat /\ o_ct o = Euclidean /\ a_model (c_v A) = VName "linear" /\ c_stat A = true /\
  (forall i, (i < List.length (c_values A))%nat -> input OK2 (relocated A coords) i = stretch OK2 (c_v A) (input OK2 A i)) /\
  run WE o q r /\ run WE o' q' r' /\ q_window q' = q_window q /\ q_window q = None /\
  shown o q 0 (1, 2, 0) /\ shown o' q' 0 (stretch OK2 (c_v A) (1, 2, 0)) /\ a_scaling (c_v A) 0%nat = 2 /\ a_angle (c_v A) 0%nat = 90 /\
  separation o (0, 0, 0) (1, 0, 0) = 2 /\ separation o (0, 0, 0) (0, 1, 0) = 1.
Proof.
  destruct (val_run [0; 6; 3] [0; 0; 4] [0; 1; 2] 1 1 2 90 1 2) as (o & r & Ho & Hr); try reflexivity; try (cbn; lia); try lra.
  destruct (val_run [0; 0; 4] [-2 * 0; -2 * 6; -2 * 3] [0; 1; 2] 1 1 1 0 2 (-2 * 1)) as (o' & r' & Ho' & Hr'); try reflexivity; try (cbn; lia); try lra.
  destruct (val_fields _ _ _ _ _ _ _ _ Ho) as (F1 & F2 & F3 & F4 & F5 & F6 & F7 & F8 & F9 & F10 & _).
  destruct (val_fields _ _ _ _ _ _ _ _ Ho') as (F1' & F2' & _).
  assert (HI : forall i, (i < 3)%nat -> input OK2 (relocated (val [0; 6; 3] [0; 0; 4] [0; 1; 2] 1 1 2 90) [[0; 0; 4]; [-2 * 0; -2 * 6; -2 * 3]]) i =
             stretch OK2 (c_v (val [0; 6; 3] [0; 0; 4] [0; 1; 2] 1 1 2 90)) (input OK2 (val [0; 6; 3] [0; 0; 4] [0; 1; 2] 1 1 2 90) i)).
  { intros i Hi. destruct i as [|[|[|i]]]; [| | |lia]; unfold input; cbn [loc cdim Nat.eqb c_coords relocated with_v with_data val nth]; unfold rnth, loc; cbn [nth cdim Nat.eqb];
      symmetry; apply stretch_90; reflexivity. }
  exists (val [0; 6; 3] [0; 0; 4] [0; 1; 2] 1 1 2 90), [[0; 0; 4]; [-2 * 0; -2 * 6; -2 * 3]], o, o', r, r', (one_point 1 2 "vectorized"), (one_point 2 (-2 * 1) "vectorized").
  split; [apply wit_env_ok|]. split; [exact Ho|]. split; [exact Ho'|]. split; [reflexivity|]. split; [reflexivity|]. split; [exact F2|]. split; [reflexivity|].
  split; [reflexivity|]. split; [exact HI|]. split; [exact Hr|]. split; [exact Hr'|]. split; [reflexivity|]. split; [reflexivity|].
  split; [apply one_point_cell, F1|]. rewrite (stretch_90 (c_v (val [0; 6; 3] [0; 0; 4] [0; 1; 2] 1 1 2 90)) 1 2) by reflexivity.
  split; [apply one_point_cell, F1'|]. split; [reflexivity|]. split; [reflexivity|].
  destruct (stretch_construct WE OK2 _ _ "linear" o o' Ho Ho' F2 eq_refl HI) as (_&_&_&_&_&_&_&_&_&_&_&_&SEP&_).
  split; rewrite SEP; rewrite !stretch_90 by reflexivity; unfold dist3.
  - match goal with |- sqrt ?a = _ => replace a with (2 * 2) by (unfold Rsqr; ring) end. apply sqrt_square. lra.
  - match goal with |- sqrt ?a = _ => replace a with (1 * 1) by (unfold Rsqr; ring) end. apply sqrt_square. lra.
Qed.

(** translation, isometry *)
Theorem ex_moved_statistics : exists A coords coords' o o1 o2 (f : vec3 -> vec3), env_ok WE /\ current_statistics WE OK2 A [] o /\
  current_statistics WE OK2 (with_data A coords (c_values A)) [] o1 /\ current_statistics WE OK2 (with_data A coords' (c_values A)) [] o2 /\
  o_ct o = Euclidean /\ (forall v, In v [c_v A] -> isotropic OK2 v) /\ (3 <= List.length (c_values A))%nat /\
  (forall i, (i < List.length (c_values A))%nat -> input OK2 (with_data A coords (c_values A)) i = add3 (input OK2 A i) (10, -5, 0)) /\
  (forall x y, dist3 (f x) (f y) = dist3 x y) /\ (forall x, snd x = 0 -> snd (f x) = 0) /\ f (1, 0, 0) = (0, 1, 0) /\
  (forall i, (i < List.length (c_values A))%nat -> input OK2 (with_data A coords' (c_values A)) i = f (input OK2 A i)).
Proof.
  destruct (val_construct [0; 6; 3] [0; 0; 4] [0; 1; 2] 1 1 1 0) as [o Ho]; try reflexivity; try (cbn; lia); try lra.
  destruct (val_construct [0 + 10; 6 + 10; 3 + 10] [0 + -5; 0 + -5; 4 + -5] [0; 1; 2] 1 1 1 0) as [o1 Ho1]; try reflexivity; try (cbn; lia); try lra.
  destruct (val_construct [- 0; - 0; - 4] [0; 6; 3] [0; 1; 2] 1 1 1 0) as [o2 Ho2]; try reflexivity; try (cbn; lia); try lra.
  exists (val [0; 6; 3] [0; 0; 4] [0; 1; 2] 1 1 1 0), [[0 + 10; 6 + 10; 3 + 10]; [0 + -5; 0 + -5; 4 + -5]], [[- 0; - 0; - 4]; [0; 6; 3]], o, o1, o2, (fun x => (- snd (fst x), fst (fst x), snd x)).
  split; [apply wit_env_ok|]. split; [apply val_current, Ho|]. split; [apply (val_current _ _ _ _ _ _ _ _ Ho1)|]. split; [apply (val_current _ _ _ _ _ _ _ _ Ho2)|].
  split; [apply (val_fields _ _ _ _ _ _ _ _ Ho)|]. split; [intros v [<-|[]]; split; [reflexivity|discriminate]|]. split; [cbn; lia|].
  split; [|split; [|split; [|split]]].
  - intros i Hi. cbn in Hi. destruct i as [|[|[|i]]]; [| | |lia]; unfold input, loc, rnth; cbn [c_coords with_data val nth cdim Nat.eqb add3]; rewrite Rplus_0_r; reflexivity.
  - intros [[a b] c] [[a' b'] c']. unfold dist3. cbn [fst snd]. f_equal. unfold Rsqr. ring.
  - intros x Hx. exact Hx.
  - cbn. rewrite Ropp_0. reflexivity.
  - intros i Hi. cbn in Hi. destruct i as [|[|[|i]]]; [| | |lia]; reflexivity.
Qed.
