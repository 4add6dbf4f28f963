(** Proofs: execute with a moving window. *)
From Coq Require Import String.
From Verif Require Import Base Sums Matrix M_Variogram P_Variogram M_Geometry S_Geometry P_Geometry M_Kriging S_Kriging
  P_Kriging P_OKSpec M_Init M_Object M_Execute S_Execute P_Object P_Execute P_Cells P_Window.

(** *** Neighbours *)
Lemma kd_nearest N dim data k q rr (sep : nat -> R) : (k <= N)%nat -> kd_spec N dim data k q rr ->
  (forall i j, (i < N)%nat -> (j < N)%nat -> euclid dim q (data i) <= euclid dim q (data j) -> sep i <= sep j) ->
  let sel := snd rr in
  (forall a, (a < k)%nat -> (sel a < N)%nat) /\
  (forall a b, (a < k)%nat -> (b < k)%nat -> sel a = sel b -> a = b) /\
  (forall a b, (a <= b)%nat -> (b < k)%nat -> sep (sel a) <= sep (sel b)) /\
  (forall a j, (a < k)%nat -> (j < N)%nat -> (forall b, (b < k)%nat -> sel b <> j) -> sep (sel a) <= sep j) /\
  (forall a, (a < k)%nat -> fst rr a = Some (euclid dim q (data (sel a)))).
Proof.
  destruct rr as [dist idx]. intros HkN (H1 & H2 & H3 & H4 & _) Hm. cbn [fst snd].
  assert (Hlt : forall a, (a < k)%nat -> (idx a < N)%nat) by (intros a Ha; apply (H1 a Ha); lia).
  split; [exact Hlt|]. split; [|split; [|split]].
  - intros a b Ha Hb. apply H2; lia.
  - intros a b Hab Hb. apply Hm; [apply Hlt; lia|apply Hlt; lia|]. apply H3; lia.
  - intros a j Ha Hj Hn. apply Hm; [apply Hlt; lia|exact Hj|]. apply H4; try assumption; lia.
  - intros a Ha. apply H1; lia.
Qed.

Lemma euclid_unit m m' i j : euclid 3 (unit_vectors m i) (unit_vectors m' j) =
  dist3 (sphere (m i 0%nat) (m i 1%nat)) (sphere (m' j 0%nat) (m' j 1%nat)).
Proof. unfold euclid, unit_vectors, dist3, sphere, rad. cbn [bsum]. f_equal. ring. Qed.

Lemma neighbours_spec E o ints at_ pts k p : kd_ok (e_kd E) -> coords_inv o ->
  adjust_query o ints at_ = Ok pts -> (k <= o_n o)%nat ->
  let pos := loc_of (o_dim o) at_ p in
  let sel := snd (neighbours E o pts k p) in
  nearest o k pos sel /\
  forall r, (r < k)%nat -> fst (neighbours E o pts k p) r = Some (separation o pos (datum o (sel r))).
Proof.
  intros HK Hinv HQ HkN pos sel.
  assert (HD : forall i, query_distances o pts p i = separation o pos (datum o i)).
  { intros i. apply (query_distances_sep o ints at_ pts p i Hinv HQ). }
  unfold nearest. subst sel. unfold neighbours. destruct (o_ct o) eqn:Hct.
  - assert (Hq : forall i, query_distances o pts p i =
        match o_dim o with 2%nat => euclid 2 (pts p) (o_adj o i) | _ => euclid 3 (zyx pts p) (zyx (o_adj o) i) end).
    { intros i. unfold query_distances, o_dim. rewrite Hct. destruct (o_class o); reflexivity. }
    destruct (o_dim_cases o) as [Hd|Hd]; rewrite Hd in *.
    + pose proof (kd_nearest (o_n o) 2 (o_adj o) k (pts p) _ (fun i => separation o pos (datum o i)) HkN
                   (HK (o_n o) 2%nat (o_adj o) k (pts p))) as HN.
      cbv zeta in HN. destruct HN as (N1 & N2 & N3 & N4 & N5).
      { intros i j _ _ Hle. rewrite <- !HD, !Hq. exact Hle. }
      split; [split; [exact N1|split; [exact N2|split; [exact N3|exact N4]]]|].
      intros r Hr. rewrite N5 by exact Hr. f_equal. rewrite <- HD, Hq. reflexivity.
    + pose proof (kd_nearest (o_n o) 3 (zyx (o_adj o)) k (zyx pts p) _ (fun i => separation o pos (datum o i)) HkN
                   (HK (o_n o) 3%nat (zyx (o_adj o)) k (zyx pts p))) as HN.
      cbv zeta in HN. destruct HN as (N1 & N2 & N3 & N4 & N5).
      { intros i j _ _ Hle. rewrite <- !HD, !Hq. exact Hle. }
      split; [split; [exact N1|split; [exact N2|split; [exact N3|exact N4]]]|].
      intros r Hr. rewrite N5 by exact Hr. f_equal. rewrite <- HD, Hq. reflexivity.
  - assert (Hq : forall i, query_distances o pts p i =
        great_circle_distance (pts p 0%nat) (pts p 1%nat) (o_adj o i 0%nat) (o_adj o i 1%nat)).
    { intros i. unfold coords_inv in Hinv. rewrite Hct in Hinv. destruct Hinv as (_ & Hc & _).
      unfold query_distances. rewrite Hct, Hc. reflexivity. }
    pose proof (kd_nearest (o_n o) 3 (unit_vectors (o_adj o)) k (unit_vectors pts p) _
                  (fun i => separation o pos (datum o i)) HkN
                   (HK (o_n o) 3%nat (unit_vectors (o_adj o)) k (unit_vectors pts p))) as HN.
    cbv zeta in HN. destruct HN as (N1 & N2 & N3 & N4 & N5).
    { intros i j _ _ Hle. rewrite <- !HD, !Hq. rewrite !euclid_unit in Hle. apply chord_order, Hle. }
    cbn [fst snd].
    split; [split; [exact N1|split; [exact N2|split; [exact N3|exact N4]]]|].
    intros r Hr. f_equal. rewrite <- HD, Hq. reflexivity.
Qed.

(** *** From windows to local kriging *)
Lemma window_result_local o k sel pos v s : coords_inv o -> valid_sel (o_n o) k sel ->
  window_result k (o_vg o) (data_distances o) eps (o_exact o) (o_values o)
    (fun r => separation o pos (datum o (sel r))) sel v s ->
  local_regular o k sel /\ local_estimate o k sel pos v s.
Proof.
  intros Hinv Hv [HN HE].
  assert (HG : forall i j, (i < k)%nat -> (j < k)%nat ->
     data_semivariance (o_vg o) (fun a b => data_distances o (sel a) (sel b)) i j = G_of o (sel i) (sel j)).
  { intros i j Hi Hj. rewrite (sel_semivariance (o_n o) k sel) by assumption. apply G_of_matrix, Hinv. }
  split.
  - apply (OK_regular_ext _ _ _ HG). apply nonsingular_regular, HN.
  - unfold local_estimate. refine (OK_estimate_ext _ _ _ _ _ _ _ _ _ HG _ _ HE).
    + intros i _. reflexivity.
    + intros i _. reflexivity.
Qed.

Lemma window_singular_local o k sel : coords_inv o -> valid_sel (o_n o) k sel ->
  ~ nonsingular (k + 1) (kriging_matrix k (o_vg o) (fun a b => data_distances o (sel a) (sel b))) ->
  ~ local_regular o k sel.
Proof.
  intros Hinv Hv HN HR. apply HN. apply regular_nonsingular.
  apply (OK_regular_ext _ (fun a b => G_of o (sel a) (sel b))); [|exact HR].
  intros i j Hi Hj. rewrite (sel_semivariance (o_n o) k sel) by assumption. symmetry. apply G_of_matrix, Hinv.
Qed.

(** Which backends make sense with a window *)
Definition window_backend (E : env) (o : obj) (b : string) : Prop :=
  b = "loop"%string \/
  (o_class o = OK2 /\ b = "C"%string /\ (e_cython E = true -> c_supported o)).

Definition window_size_ok (o : obj) (k : nat) : Prop := (2 <= k)%nat.

(** execute with a window, stripped of the dispatch *)
Definition window_values (E : env) (o : obj) (q : query) (k : nat) (l : located) (pts : mat) : res (vec * vec) :=
  if neighbours_error E o pts (l_npt l) k then Err IndexError else
  let bd := fun p => fst (neighbours E o pts k p) in
  let bd_idx := fun p => snd (neighbours E o pts k p) in
  if String.eqb (effective_backend E (q_backend q)) "loop" then
    exec_loop_moving_window (e_la E) (o_n o) k (l_npt l) (o_vg o) (e_vinf E (o_fun o) (o_params o))
      eps (o_exact o) (o_values o) (get_kriging_matrix o) bd (l_mask l) bd_idx
  else c_exec_loop_moving_window (e_la E) (e_lu E) (o_n o) k (l_npt l) (o_fun o) (o_params o)
         eps (o_exact o) (o_values o) (get_kriging_matrix o) (fun p r => as_real (bd p r)) (l_mask l) bd_idx.

Lemma execute_window_unfold E o q k : coords_inv o -> ordinary o -> q_window q = Some k -> (2 <= k)%nat ->
  (q_backend q = "loop"%string \/ (o_class o = OK2 /\ q_backend q = "C"%string)) ->
  execute E o q =
  do l <- locate (o_dim o) (q_style q) (q_pts q) (q_mask q) ;;
  do pts <- adjust_query o (q_int q) (l_at l) ;;
  do vs <- window_values E o q k l pts ;;
  Ok (finish (q_style q) l vs).
Proof.
  intros Hinv Hord HW Hk HB.
  destruct Hord as [Hc|Hc]; unfold execute; rewrite Hc; unfold execute2, execute3; rewrite HW.
  - assert (Hd : o_dim o = 2%nat) by (unfold o_dim; rewrite Hc; reflexivity).
    replace (locate (o_dim o)) with locate2 by (rewrite Hd; reflexivity).
    destruct (Nat.leb_spec k 1); [lia|].
    destruct (locate2 (q_style q) (q_pts q) (q_mask q)) as [l|e] eqn:EL; cbn [bind].
    2:{ destruct (negb (in_names (q_style q) ["grid"; "masked"; "points"]%string)) eqn:ES; [|reflexivity].
        unfold in_names in ES. cbn in ES. unfold locate2 in EL.
        destruct (String.eqb (q_style q) "grid"); [discriminate|].
        destruct (String.eqb (q_style q) "masked"); [discriminate|].
        destruct (String.eqb (q_style q) "points"); [discriminate|]. congruence. }
    pose proof (locate_style 2 _ _ _ l (or_introl eq_refl) EL) as HS. rewrite HS. cbn [negb].
    destruct (adjust_query o (q_int q) (l_at l)) as [pts|e]; cbn [bind]; [|reflexivity].
    unfold window_values, effective_backend.
    destruct HB as [HB|[_ HB]]; rewrite HB; cbn [String.eqb andb negb Ascii.eqb Bool.eqb];
      [reflexivity|]. destruct (e_cython E); cbn [String.eqb andb negb Ascii.eqb Bool.eqb]; reflexivity.
  - assert (Hd : o_dim o = 3%nat) by (unfold o_dim; rewrite Hc; reflexivity).
    replace (locate (o_dim o)) with locate3 by (rewrite Hd; reflexivity).
    destruct HB as [HB|[HB _]]; [|congruence].
    destruct (locate3 (q_style q) (q_pts q) (q_mask q)) as [l|e] eqn:EL; cbn [bind].
    2:{ destruct (negb (in_names (q_style q) ["grid"; "masked"; "points"]%string)) eqn:ES; [|reflexivity].
        unfold in_names in ES. cbn in ES. unfold locate3 in EL.
        destruct (String.eqb (q_style q) "grid"); [discriminate|].
        destruct (String.eqb (q_style q) "masked"); [discriminate|].
        destruct (String.eqb (q_style q) "points"); [discriminate|]. congruence. }
    pose proof (locate_style 3 _ _ _ l (or_intror eq_refl) EL) as HS. rewrite HS. cbn [negb].
    destruct (adjust_query o (q_int q) (l_at l)) as [pts|e]; cbn [bind]; [|reflexivity].
    destruct (Nat.eqb_spec k 0); [lia|]. destruct (Nat.eqb_spec k 1); [lia|].
    unfold window_values, effective_backend, neighbours_error. rewrite HB.
    cbn [String.eqb andb negb Ascii.eqb Bool.eqb].
    assert (Hct : o_ct o = Euclidean).
    { unfold coords_inv in Hinv. destruct (o_ct o); [reflexivity|]. destruct Hinv as (_ & Hc' & _). congruence. }
    rewrite Hct. reflexivity.
Qed.

Lemma neighbours_no_error E o ints at_ pts npt k : kd_ok (e_kd E) -> coords_inv o ->
  adjust_query o ints at_ = Ok pts -> (k <= o_n o)%nat -> neighbours_error E o pts npt k = false.
Proof.
  intros HK Hinv HQ HkN. unfold neighbours_error. destruct (o_ct o) eqn:Hct; [reflexivity|].
  apply not_true_iff_false. intros H. apply existsb_exists in H. destruct H as (p & _ & H).
  apply existsb_exists in H. destruct H as (r & Hr & H). apply in_seq in Hr.
  destruct (neighbours_spec E o ints at_ pts k p HK Hinv HQ HkN) as [(N1 & _) _].
  specialize (N1 r ltac:(lia)). apply negb_true_iff, Nat.ltb_ge in H. lia.
Qed.

(** Master lemma for windows of at most the number of data *)
Lemma window_values_spec E o q k l pts : env_ok E -> coords_inv o ->
  adjust_query o (q_int q) (l_at l) = Ok pts -> (k <= o_n o)%nat ->
  window_backend E o (q_backend q) ->
  let pos p := loc_of (o_dim o) (l_at l) p in
  let sel p := snd (neighbours E o pts k p) in
  match window_values E o q k l pts with
  | Ok (z, s) => forall p, (p < l_npt l)%nat -> l_mask l p = false ->
       nearest o k (pos p) (sel p) /\ local_regular o k (sel p) /\ local_estimate o k (sel p) (pos p) (z p) (s p)
  | Err e => (e = LinAlgError \/ e = ValueError) /\ exists p, (p < l_npt l)%nat /\ l_mask l p = false /\
       nearest o k (pos p) (sel p) /\ ~ local_regular o k (sel p)
  end.
Proof.
  intros (HL & _ & HK) Hinv HQ HkN HB pos sel.
  assert (HNs : forall p, nearest o k (pos p) (sel p) /\
     forall r, (r < k)%nat -> fst (neighbours E o pts k p) r = Some (separation o (pos p) (datum o (sel p r)))).
  { intros p. apply (neighbours_spec E o (q_int q) (l_at l) pts k p HK Hinv HQ HkN). }
  assert (Hv : forall p, valid_sel (o_n o) k (sel p)).
  { intros p. destruct (HNs p) as [(N1 & N2 & _) _]. split; assumption. }
  unfold window_values. rewrite (neighbours_no_error E o _ _ _ (l_npt l) k HK Hinv HQ HkN).
  assert (Hloop :
    match exec_loop_moving_window (e_la E) (o_n o) k (l_npt l) (o_vg o) (e_vinf E (o_fun o) (o_params o))
      eps (o_exact o) (o_values o) (get_kriging_matrix o) (fun p => fst (neighbours E o pts k p)) (l_mask l) sel with
    | Ok (z, s) => forall p, (p < l_npt l)%nat -> l_mask l p = false ->
       nearest o k (pos p) (sel p) /\ local_regular o k (sel p) /\ local_estimate o k (sel p) (pos p) (z p) (s p)
    | Err e => (e = LinAlgError \/ e = ValueError) /\ exists p, (p < l_npt l)%nat /\ l_mask l p = false /\
         nearest o k (pos p) (sel p) /\ ~ local_regular o k (sel p)
    end).
  { pose proof (loop_window_spec (e_la E) (o_n o) k (l_npt l) (o_vg o) (e_vinf E (o_fun o) (o_params o)) eps (o_exact o)
      (o_values o) (data_distances o) (fun p => fst (neighbours E o pts k p)) (l_mask l) sel
      (fun p r => separation o (pos p) (datum o (sel p r))) HL) as H.
    specialize (H (fun p _ _ => conj (Hv p) (proj2 (HNs p)))). unfold get_kriging_matrix.
    destruct (exec_loop_moving_window _ _ _ _ _ _ _ _ _ _ _ _ _) as [[z s]|e].
    - intros p Hp Hm. split; [apply HNs|]. apply window_result_local; [exact Hinv|apply Hv|]. apply H; assumption.
    - destruct H as [-> (p & Hp & Hm & H)]. split; [left; reflexivity|]. exists p. split; [exact Hp|].
      split; [exact Hm|]. split; [apply HNs|]. apply (window_singular_local o k (sel p) Hinv (Hv p) H). }
  destruct HB as [HB|(Hc & HB & HCy)]; rewrite HB; unfold effective_backend;
    cbn [String.eqb andb negb Ascii.eqb Bool.eqb]; [exact Hloop|].
  destruct (e_cython E); cbn [String.eqb andb negb Ascii.eqb Bool.eqb]; [|exact Hloop].
  destruct (c_supported_computes o (HCy eq_refl)) as (cf & Hcf & Hcv).
  unfold c_exec_loop_moving_window. rewrite Hcf. cbn [bind].
  set (bd := fun p r => as_real (fst (neighbours E o pts k p) r)).
  assert (Hbd : forall p r, (r < k)%nat -> bd p r = separation o (pos p) (datum o (sel p r))).
  { intros p r Hr. unfold bd. rewrite (proj2 (HNs p) r Hr). reflexivity. }
  pose proof (cw_loop_inv (e_la E) (e_lu E) (o_n o) k (cf (o_params o)) (o_vg o) eps (o_exact o) (o_values o)
     (data_distances o) bd (l_mask l) sel HL Hcv HkN (l_npt l)) as H.
  assert (Hpre : forall p, (p < l_npt l)%nat -> l_mask l p = false -> valid_sel (o_n o) k (sel p) /\
                   forall r, (r < k)%nat -> 0 <= bd p r).
  { intros p _ _. split; [apply Hv|]. intros r Hr. rewrite Hbd by exact Hr. apply separation_nonneg. }
  specialize (H Hpre w0). unfold get_kriging_matrix.
  match goal with |- match bind ?x _ with _ => _ end => change x with
    (foldM (cw_point (e_la E) (e_lu E) (o_n o) k (cf (o_params o)) eps (o_exact o) (o_values o)
       (kriging_matrix (o_n o) (o_vg o) (data_distances o)) bd (l_mask l) sel) (seq 0 (l_npt l)) w0) end.
  destruct (foldM _ (seq 0 (l_npt l)) w0) as [st|e]; cbn [bind].
  - intros p Hp Hm. split; [apply HNs|]. apply window_result_local; [exact Hinv|apply Hv|].
    destruct (H p Hp Hm) as [H1 H2]. split; [exact H1|].
    refine (OK_estimate_ext _ _ _ _ _ _ _ _ _ _ _ _ H2); intros i; intros; try reflexivity.
    unfold query_semivariance. rewrite Hbd by assumption. reflexivity.
  - destruct H as [-> (p & Hp & Hm & H)]. split; [right; reflexivity|]. exists p. split; [exact Hp|].
    split; [exact Hm|]. split; [apply HNs|]. apply (window_singular_local o k (sel p) Hinv (Hv p) H).
Qed.

(** cells of a windowed execute *)
Lemma window_cell E o q k r p pos : env_ok E -> coords_inv o -> ordinary o -> q_window q = Some k ->
  window_backend E o (q_backend q) -> (2 <= k <= o_n o)%nat -> execute E o q = Ok r -> cell (o_dim o) q p pos ->
  (p < shape_size (r_shape r))%nat /\
  exists l, locate (o_dim o) (q_style q) (q_pts q) (q_mask q) = Ok l /\
  if String.eqb (q_style q) "masked" && l_mask l p
  then r_value r p = None /\ r_variance r p = None
  else exists v s sel, r_value r p = Some v /\ r_variance r p = Some s /\
         nearest o k pos sel /\ local_regular o k sel /\ local_estimate o k sel pos v s.
Proof.
  intros HE Hinv Hord HW HB Hk H C.
  rewrite (execute_window_unfold E o q k Hinv Hord HW) in H;
    [|lia|destruct HB as [HB|(H1 & H2 & _)]; auto].
  bindok H. bindok H. bindok H. rename a into l, a0 into pts, a1 into vs. destruct vs as [z s].
  injection H as <-. cbn [r_shape finish].
  destruct (locate_cell _ _ _ _ _ (o_dim_cases o) E0 C) as [Hp Hpos].
  destruct (locate_facts _ _ _ _ _ (o_dim_cases o) E0) as [Hn Hm].
  split; [rewrite <- Hn; exact Hp|]. exists l. split; [reflexivity|]. cbn [r_value r_variance finish fst snd].
  pose proof (window_values_spec E o q k l pts HE Hinv E1 ltac:(lia) HB) as HV. cbv zeta in HV. rewrite E2 in HV.
  specialize (HV p Hp). rewrite Hpos in HV.
  destruct (String.eqb_spec (q_style q) "masked") as [Es|Es]; cbn [andb].
  - destruct (l_mask l p); [auto|]. destruct (HV eq_refl) as (H1 & H2 & H3).
    eexists _, _, _. split; [reflexivity|]. split; [reflexivity|]. split; [exact H1|]. split; [exact H2|exact H3].
  - destruct Hm as [Hm|Hm]; [contradiction|]. destruct (HV (Hm p)) as (H1 & H2 & H3).
    eexists _, _, _. split; [reflexivity|]. split; [reflexivity|]. split; [exact H1|]. split; [exact H2|exact H3].
Qed.

(** *** Windows larger than the data *)
Lemma foldM_never {A} (f : A -> nat -> res A) l (bad : nat) acc : In bad l ->
  (forall a, is_ok (f a bad) = false) -> is_ok (foldM f l acc) = false.
Proof.
  revert acc. induction l as [|i l IH]; intros acc Hin Hbad; [destruct Hin|]. cbn [foldM].
  destruct (Nat.eq_dec i bad) as [->|Hne].
  - specialize (Hbad acc). destruct (f acc bad); [discriminate|reflexivity].
  - destruct Hin as [->|Hin]; [contradiction|]. destruct (f acc i); cbn [bind]; [apply IH; assumption|reflexivity].
Qed.

Lemma padded_window_singular N k sel A : (N < k)%nat -> sel N = N -> ~ nonsingular (k + 1) (window_matrix k N sel A).
Proof.
  intros HNk Hs [B HB]. apply (equal_rows_singular (k + 1) (window_matrix k N sel A) N k); try lia.
  - intros c _. unfold window_matrix. destruct (Nat.ltb_spec N k); [|lia]. destruct (Nat.ltb_spec k k); [lia|].
    rewrite Hs. reflexivity.
  - exists B. exact HB.
Qed.

Lemma window_too_large E o q k r p pos l : env_ok E -> coords_inv o -> ordinary o -> q_window q = Some k ->
  (q_backend q = "loop"%string \/ (o_class o = OK2 /\ q_backend q = "C"%string)) ->
  (2 <= k)%nat -> (o_n o < k)%nat -> cell (o_dim o) q p pos ->
  locate (o_dim o) (q_style q) (q_pts q) (q_mask q) = Ok l -> l_mask l p = false ->
  execute E o q <> Ok r.
Proof.
  intros (HL & _ & HK) Hinv Hord HW HB Hk2 HNk C HLo Hmp H.
  rewrite (execute_window_unfold E o q k Hinv Hord HW Hk2 HB), HLo in H. cbn [bind] in H.
  bindok H. bindok H. rename a into pts. clear H.
  destruct (locate_cell _ _ _ _ _ (o_dim_cases o) HLo C) as [Hp _].
  unfold window_values in E1. destruct (neighbours_error E o pts (l_npt l) k) eqn:EN; [discriminate|].
  assert (Hpad : snd (neighbours E o pts k p) (o_n o) = o_n o).
  { unfold neighbours. destruct (o_ct o), (o_dim o) as [|[|[|d]]]; cbn [snd];
      match goal with |- snd (e_kd E ?a ?b ?c ?d ?e) _ = _ =>
        pose proof (HK a b c d e) as Hkd; unfold kd_spec in Hkd;
        destruct (e_kd E a b c d e) as [dist idx]; destruct Hkd as (_ & _ & _ & _ & Hkd); cbn [snd];
        apply (Hkd (o_n o)); lia end. }
  cbv zeta in E1.
  destruct (String.eqb (effective_backend E (q_backend q)) "loop").
  - unfold exec_loop_moving_window in E1.
    match type of E1 with foldM ?f ?L ?acc = Ok _ =>
      assert (HF : is_ok (foldM f L acc) = false); [|rewrite E1 in HF; discriminate] end.
    apply foldM_never with (bad := p); [apply unmasked_spec; auto|].
    intros [z s]. unfold scipy_solve. destruct (all_finite _ _); [|reflexivity].
    destruct (la_solve _ _ _ _) eqn:ES; [|reflexivity]. exfalso.
    apply (solve_some _ HL) in ES. destruct ES as [ES _].
    apply (padded_window_singular (o_n o) k _ _ HNk Hpad ES).
  - unfold c_exec_loop_moving_window in E1. bindok E1. bindok E1.
    match type of E3 with foldM ?f ?L ?acc = Ok _ =>
      assert (HF : is_ok (foldM f L acc) = false); [|rewrite E3 in HF; discriminate] end.
    apply foldM_never with (bad := p); [apply in_seq; lia|].
    intros st. rewrite cw_point_oob by assumption. reflexivity.
Qed.

(** With backend 'C' (2D, extension installed) an oversized window writes out of bounds. *)
Lemma window_too_large_C E o q k p pos l pts : env_ok E -> coords_inv o -> o_class o = OK2 -> o_ct o = Euclidean ->
  q_window q = Some k -> q_backend q = "C"%string -> e_cython E = true -> c_supported o ->
  (2 <= k)%nat -> (o_n o < k)%nat -> cell (o_dim o) q p pos ->
  locate (o_dim o) (q_style q) (q_pts q) (q_mask q) = Ok l -> l_mask l p = false ->
  adjust_query o (q_int q) (l_at l) = Ok pts ->
  execute E o q = Err UndefinedBehaviour.
Proof.
  intros (HL & _ & HK) Hinv Hc Hct HW HB HCy Hsup Hk2 HNk C HLo Hmp HA.
  rewrite (execute_window_unfold E o q k Hinv (or_introl Hc) HW Hk2 (or_intror (conj Hc HB))), HLo. cbn [bind].
  rewrite HA. cbn [bind]. unfold window_values, neighbours_error. rewrite Hct, HB. unfold effective_backend. rewrite HCy.
  cbn [String.eqb andb negb Ascii.eqb Bool.eqb].
  destruct (c_supported_computes o Hsup) as (cf & Hcf & _). unfold c_exec_loop_moving_window. rewrite Hcf. cbn [bind].
  destruct (locate_cell _ _ _ _ _ (o_dim_cases o) HLo C) as [Hp _].
  rewrite (foldM_err_in _ _ p _ UndefinedBehaviour); [reflexivity|apply in_seq; lia| |].
  - intros st i _. destruct (l_mask l i) eqn:EM; [left; unfold cw_point; rewrite EM; reflexivity|].
    right. apply cw_point_oob; assumption.
  - intros st. apply cw_point_oob; assumption.
Qed.
