From Coq Require Import String.
From Verif Require Import Base Sums Matrix M_Variogram M_Geometry S_Geometry M_Kriging S_Kriging M_Init M_Object M_Execute S_Execute
  S_Valid M_UK S_UK S_Line S_Update P_Object P_Execute P_Cells P_OK P_Far P_Data P_Data2 P_Linear P_UK4 P_UK5 P_UK8 P_UK9 P_Valid P_Valid2 P_Valid3 P_Valid5 Witness Witness2 Witness3 P_Update P_Update2 P_Update3.

(** drift functions as functions of the adjusted location *)
Definition funs (fr : vec3 -> vec3) (dim : nat) (D : drift) : list (vec3 -> R) :=
  (if dr_linear D then map (fun k p => coord k (fr p)) (seq 0 dim) else []) ++
  map (fun w => let '(wx, wy, strength) := w in fun p => - strength * logd (plane_dist (fr p) wx wy)) (opt_list (dr_wells D)) ++
  match dr_ext D with Some (arr, ex, ey, _) => [ext_at arr ex ey] | None => [] end ++
  map (fun f p => let c := fr p in f (coord 0 c) (coord 1 c) (coord 2 c)) (opt_list (dr_fun D)).

Lemma drift_terms_funs u q s : dr_spec (u_drift u) = None ->
  drift_terms u q s = map (spatial (u_obj u)) (funs (frame (u_obj u)) (o_dim (u_obj u)) (u_drift u)).
Proof.
  intros H. unfold drift_terms, funs, linear_terms, well_terms, ext_terms, spec_terms, fun_terms. rewrite H. cbn [app]. rewrite !map_app, !map_map.
  f_equal; [destruct (dr_linear _); [rewrite map_map|]; reflexivity|]. f_equal; [apply map_ext; intros [[a b] c]; reflexivity|].
  f_equal. destruct (dr_ext _) as [[[[? ?] ?] ?]|]; reflexivity.
Qed.
Lemma funs_length fr fr' dim D : List.length (funs fr dim D) = List.length (funs fr' dim D).
Proof. unfold funs. rewrite !app_length, !map_length. f_equal. destruct (dr_linear D); [rewrite !map_length|]; reflexivity. Qed.
Lemma funs_at fr fr' dim D p k : fr p = fr' p -> nth k (funs fr dim D) (fun _ => 0) p = nth k (funs fr' dim D) (fun _ => 0) p.
Proof.
  intros H.
  assert (X : map (fun f : vec3 -> R => f p) (funs fr dim D) = map (fun f => f p) (funs fr' dim D)).
  { unfold funs. rewrite !map_app, !map_map. f_equal; [destruct (dr_linear D); [rewrite !map_map; apply map_ext; intros; rewrite H; reflexivity|reflexivity]|].
    f_equal; [apply map_ext; intros [[a b] c]; rewrite H; reflexivity|]. f_equal. apply map_ext; intros. rewrite H. reflexivity. }
  assert (Y : forall l k, nth k l (fun _ : vec3 => 0) p = nth k (map (fun f => f p) l) 0) by (intros; exact (eq_sym (map_nth (fun f : vec3 -> R => f p) l (fun _ => 0) k0))).
  rewrite !Y, X. reflexivity.
Qed.
Lemma nth_spatial_data o fs k i : t_data (nth k (map (spatial o) fs) no_term) i = nth k fs (fun _ => 0) (datum o i).
Proof. change no_term with (spatial o (fun _ => 0)). rewrite map_nth. reflexivity. Qed.
Lemma nth_spatial_query o fs k p pos : t_query (nth k (map (spatial o) fs) no_term) p pos = nth k fs (fun _ => 0) pos.
Proof. change no_term with (spatial o (fun _ => 0)). rewrite map_nth. reflexivity. Qed.

Lemma frame_plain o p : (o_dim o = 2%nat \/ o_dim o = 3%nat) -> (forall k, o_scaling o k = 1) -> (forall k, o_angle o k = 0) -> in_dim (o_dim o) p -> frame o p = p.
Proof.
  intros [H|H] Hs Ha Hp; [|apply frame_id3; assumption].
  destruct p as [[x y] z]. assert (Hz : z = 0) by (apply Hp; exact H). unfold frame, center3, loc. rewrite H, !Hs, !Ha. cbn [Nat.eqb].
  unfold rad. replace (0 * PI / 180) with 0 by field. rewrite cos_0, sin_0. unfold add3, sub3, dot3. f_equal; [f_equal|]; try ring. subst z; ring.
Qed.

Lemma dim_23 o : o_dim o = 2%nat \/ o_dim o = 3%nat.
Proof. unfold o_dim. destruct (o_class o); cbn; auto. Qed.

Lemma spatial_drift_adds u u' q s p qP sP pP q' s' p' pos :
  adds (u_obj u) (u_obj u') -> u_drift u' = u_drift u -> dr_spec (u_drift u) = None ->
  (forall k, o_scaling (u_obj u) k = 1) -> (forall k, o_angle (u_obj u) k = 0) -> shown (u_obj u) q p pos ->
  drift_adds (o_n (u_obj u)) (new_place (u_obj u) (u_obj u')) pos (drift_terms u q s) p (drift_terms u qP sP) pP (drift_terms u' q' s') p'.
Proof.
  intros [HM Hn HV] HD HS Hsc Han HSh. rewrite !drift_terms_funs by (rewrite ?HD; exact HS). rewrite HD.
  pose proof (md_dim _ _ HM) as Hdim. rewrite Hdim.
  assert (FR : forall x, in_dim (o_dim (u_obj u)) x -> frame (u_obj u') x = frame (u_obj u) x).
  { intros x Hx. rewrite !frame_plain; try apply dim_23; try assumption; try reflexivity; rewrite ?Hdim; try assumption; intros k;
    [rewrite (md_scaling _ _ _ HM)|rewrite (md_angle _ _ _ HM)]; auto. }
  split; [rewrite !map_length; apply funs_length|]. split; [rewrite !map_length; apply funs_length|].
  intros k Hk. split; [|split; [|split]].
  - intros i Hi. rewrite !nth_spatial_data, (md_datum _ _ _ HM i Hi). apply funs_at, FR, datum_in_dim.
  - reflexivity.
  - rewrite !nth_spatial_query. apply funs_at, FR. destruct HSh as [HC _]. apply (cell_in_dim _ _ _ _ HC).
  - rewrite nth_spatial_data, nth_spatial_query. unfold new_place. apply funs_at, FR. rewrite <- Hdim. apply datum_in_dim.
Qed.

Theorem u_one_more_user E u u' qP q q' sP s s' rP r r' pP p p' pos :
  adds (u_obj u) (u_obj u') -> u_drift u' = u_drift u -> dr_spec (u_drift u) = None ->
  (forall k, o_scaling (u_obj u) k = 1) -> (forall k, o_angle (u_obj u) k = 0) ->
  urun E u qP sP rP -> urun E u q s r -> urun E u' q' s' r' ->
  shown (u_obj u) qP pP (new_place (u_obj u) (u_obj u')) -> shown (u_obj u) q p pos -> shown (u_obj u') q' p' pos ->
  uregular u qP sP -> uregular u q s -> uregular u' q' s' ->
  (o_exact (u_obj u) = true -> away (u_obj u) (new_place (u_obj u) (u_obj u'))) ->
  exists vP vaP v va lam, r_value rP pP = Some vP /\ r_variance rP pP = Some vaP /\ r_value r p = Some v /\ r_variance r p = Some va /\ vaP <> 0 /\
    r_value r' p' = Some (v + lam * (new_value (u_obj u) (u_obj u') - vP)) /\ r_variance r' p' = Some (va - lam² * vaP).
Proof.
  intros HA HD HS Hsc Han RP RQ RQ' SP SQ SQ' GP GQ GQ' HAw.
  apply (u_one_more E u u' qP q q' sP s s' rP r r' pP p p' pos); try assumption; try (right; rewrite ?HD; exact HS).
  apply spatial_drift_adds; assumption.
Qed.

Theorem u_surface_user E0 u q0 s0 r0 : urun E0 u q0 s0 r0 -> uregular u q0 s0 -> dr_spec (u_drift u) = None ->
  let ts := drift_terms u q0 s0 in
  exists c a b, bsum (o_n (u_obj u)) c = 0 /\ (forall k, (k < List.length ts)%nat -> bsum (o_n (u_obj u)) (fun i => c i * F_of ts k i) = 0) /\
  forall E q s r p pos, urun E u q s r -> shown (u_obj u) q p pos ->
    r_value r p = Some (a + bsum (List.length ts) (fun k => b k * f_of ts p pos k) + bsum (o_n (u_obj u)) (fun i => c i * g_of (u_obj u) pos i)).
Proof.
  intros HR HG HS ts. destruct (u_surface u q0 s0 (uregular_get _ _ _ _ _ HR HG)) as (c & a & b & H1 & H2 & H3). fold ts in H1, H2, H3.
  exists c, a, b. split; [exact H1|]. split; [exact H2|]. intros E q s r p pos HR1 HSh.
  assert (HE : drift_terms u q s = ts) by (unfold ts; rewrite !drift_terms_funs by exact HS; reflexivity).
  rewrite (H3 E q s r p pos HR1 HSh (or_intror HS)); rewrite HE; [reflexivity|]. split; reflexivity.
Qed.

(** examples: ordinary *)
Definition at_6 : query := {| q_style := "points"; q_pts := [[6]; [0]]; q_int := [false; false]; q_mask := None; q_backend := "vectorized"; q_window := None |}.
Lemma ex_adds : exists E A A' o o' rP r r', appended A A' /\ explicit_params (c_v A) /\ construct E OK2 A = Ok o /\ construct E OK2 A' = Ok o' /\
  adds o o' /\ run E o at_6 rP /\ run E o (at_1 "vectorized" None) r /\ run E o' (at_1 "vectorized" None) r' /\
  shown o at_6 0 (new_place o o') /\ shown o (at_1 "vectorized" None) 0 (1, 0, 0) /\ shown o' (at_1 "vectorized" None) 0 (1, 0, 0) /\
  regular_for o (at_1 "vectorized" None) /\ regular_for o' (at_1 "vectorized" None) /\ (o_exact o = true -> away o (new_place o o')) /\ o_n o = 3%nat.
Proof.
  set (E := wit_env true None). destruct (row_construct E three true ltac:(cbn; lia)) as [o Ho]. destruct (row_construct E four true ltac:(cbn; lia)) as [o' Ho'].
  destruct (row_fields E three true o Ho) as (Hre&Hc&Hn&Hct&Hex&Hpi&Hf&Hp&Hsc&Han&Hd&Hs).
  destruct (row_fields E four true o' Ho') as (Hre'&Hc'&Hn'&Hct'&Hex'&Hpi'&Hf'&Hp'&Hsc'&Han'&Hd'&Hs').
  destruct (row_run E three true o "vectorized" None (wit_env_ok _ _) Ho three_ne ltac:(cbn; lia) (or_introl eq_refl)) as [r Hr].
  destruct (row_run E four true o' "vectorized" None (wit_env_ok _ _) Ho' four_ne ltac:(cbn; lia) (or_introl eq_refl)) as [r' Hr'].
  assert (HNP : new_place o o' = (6, 0, 0)) by (unfold new_place; rewrite Hn, Hd'; reflexivity).
  assert (HRP : exists rP, run E o at_6 rP).
  { apply proper_execute; auto.
    - apply wit_env_ok.
    - left; exact Hc.
    - exact (row_proper _ _ _ _ Ho).
    - right. exact (row_distinct _ _ _ _ Ho three_ne).
    - rewrite Hn. cbn. lia.
    - split; [|intros _; left; reflexivity]. right; left. split; [reflexivity|]. split; [reflexivity|]. unfold o_dim. rewrite Hc. discriminate.
    - left; reflexivity. }
  destruct HRP as [rP HRP].
  assert (HAp : appended (row_args three true) (row_args four true)).
  { constructor; try reflexivity; [|exists 6; reflexivity]. cbn. constructor; [exists 6; reflexivity|]. constructor; [exists 0; reflexivity|constructor]. }
  assert (Hep : explicit_params (c_v (row_args three true))) by (left; cbn; discriminate).
  exists E, (row_args three true), (row_args four true), o, o', rP, r, r'. rewrite HNP.
  split; [exact HAp|]. split; [exact Hep|]. split; [exact Ho|]. split; [exact Ho'|].
  split; [exact (constructor_adds _ _ _ _ _ _ HAp ltac:(discriminate) Ho Ho' Hep)|]. split; [exact HRP|]. split; [exact Hr|]. split; [exact Hr'|].
  split. { unfold shown, o_dim. rewrite Hc. split; [apply (cell_point 2 at_6 0 eq_refl); cbn; lia|]. intros H; inversion H; discriminate. }
  split; [apply at_1_shown, Hc|]. split; [apply at_1_shown, Hc'|]. split; [left; exact Hpi|]. split; [left; exact Hpi'|].
  split; [|exact Hn]. intros _ i Hi. rewrite Hn in Hi. rewrite Hd, (row_sep o _ _ _ Hs). cbn in Hi.
  assert (1 <= Rabs (6 - rnth three i)) by (destruct i as [|[|[|i]]]; [| | |lia]; cbn; unfold Rabs; destruct (Rcase_abs _); lra).
  pose proof eps_lt_1. lra.
Qed.
