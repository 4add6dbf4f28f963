(** Proofs: what a successful call of execute on a universal kriging object returns. *)
From Coq Require Import String FunctionalExtensionality.
From Verif Require Import Base Sums Matrix M_Variogram P_Variogram M_Geometry S_Geometry P_Geometry M_Kriging S_Kriging
  P_Kriging P_OKSpec M_Init M_Object M_Execute S_Execute P_Object P_Execute P_Cells P_Window P_WindowExec P_Master P_Det
  M_UK S_UK P_UK P_UK2.

(** *** the linear system *)
Lemma UA_row n m G F x i : (i < n)%nat ->
  mulv (n + m + 1) (UA n m G F) x i =
  - bsum n (fun j => x j * G i j) + bsum m (fun k => x (n + k)%nat * F k i) + x (n + m)%nat.
Proof.
  intros Hi. unfold mulv. rewrite !bsum_split. cbn [bsum]. rewrite <- bsum_opp.
  f_equal; [f_equal|].
  - apply bsum_ext; intros j Hj. unfold UA. rewrite (proj2 (Nat.ltb_lt i n) Hi), (proj2 (Nat.ltb_lt j n) Hj). ring.
  - apply bsum_ext; intros k Hk. unfold UA. rewrite (proj2 (Nat.ltb_lt i n) Hi), (proj2 (Nat.ltb_ge (n + k) n)) by lia.
    rewrite (proj2 (Nat.ltb_lt (n + k) (n + m))) by lia. replace (n + k - n)%nat with k by lia. ring.
  - unfold UA. rewrite (proj2 (Nat.ltb_lt i n) Hi), (proj2 (Nat.ltb_ge (n + m + 0) n)) by lia.
    rewrite (proj2 (Nat.ltb_ge (n + m + 0) (n + m))) by lia. rewrite Nat.add_0_r. ring.
Qed.
Lemma UA_row_drift n m G F x k : (k < m)%nat ->
  mulv (n + m + 1) (UA n m G F) x (n + k)%nat = bsum n (fun j => x j * F k j).
Proof.
  intros Hk. unfold mulv. rewrite !bsum_split. cbn [bsum].
  rewrite (bsum_0 m). 2:{ intros j Hj. unfold UA. rewrite !(proj2 (Nat.ltb_ge _ n)) by lia. ring. }
  unfold UA at 2. rewrite !(proj2 (Nat.ltb_ge _ n)) by lia.
  replace (bsum n (fun j => x j * F k j)) with (bsum n (fun i => UA n m G F (n + k)%nat i * x i)); [ring|].
  apply bsum_ext; intros j Hj. unfold UA. rewrite (proj2 (Nat.ltb_ge (n + k) n)) by lia. rewrite (proj2 (Nat.ltb_lt j n) Hj).
  rewrite (proj2 (Nat.ltb_lt (n + k) (n + m))) by lia. replace (n + k - n)%nat with k by lia. ring.
Qed.
Lemma UA_row_last n m G F x : mulv (n + m + 1) (UA n m G F) x (n + m)%nat = bsum n x.
Proof.
  unfold mulv. rewrite !bsum_split. cbn [bsum].
  rewrite (bsum_0 m). 2:{ intros j Hj. unfold UA. rewrite !(proj2 (Nat.ltb_ge _ n)) by lia. ring. }
  unfold UA at 2. rewrite !(proj2 (Nat.ltb_ge _ n)) by lia.
  rewrite (bsum_ext n (fun i => UA n m G F (n + m)%nat i * x i) x); [ring|].
  intros j Hj. unfold UA. rewrite (proj2 (Nat.ltb_ge (n + m) n)) by lia. rewrite (proj2 (Nat.ltb_lt j n) Hj).
  rewrite (proj2 (Nat.ltb_ge (n + m) (n + m))) by lia. ring.
Qed.

Lemma usystem_iff n m G F g f x :
  veq (n + m + 1) (mulv (n + m + 1) (UA n m G F) x) (Ub n m g f) <->
  UK_system n m G F g f x (- x (n + m)%nat) (fun k => - x (n + k)%nat).
Proof.
  assert (HO : forall i, bsum m (fun k => - x (n + k)%nat * F k i) = - bsum m (fun k => x (n + k)%nat * F k i)).
  { intros i. rewrite <- bsum_opp. apply bsum_ext; intros; ring. }
  split.
  - intros H. split; [|split].
    + intros i Hi. specialize (H i ltac:(lia)). rewrite UA_row in H by exact Hi. unfold Ub in H.
      rewrite (proj2 (Nat.ltb_lt i n) Hi) in H. rewrite HO. lra.
    + specialize (H (n + m)%nat ltac:(lia)). rewrite UA_row_last in H. unfold Ub in H.
      rewrite (proj2 (Nat.ltb_ge (n + m) n)) in H by lia. rewrite Nat.ltb_irrefl in H. exact H.
    + intros k Hk. specialize (H (n + k)%nat ltac:(lia)). rewrite UA_row_drift in H by exact Hk. unfold Ub in H.
      rewrite (proj2 (Nat.ltb_ge (n + k) n)) in H by lia. rewrite (proj2 (Nat.ltb_lt (n + k) (n + m))) in H by lia.
      replace (n + k - n)%nat with k in H by lia. exact H.
  - intros (H1 & H2 & H3) i Hi. unfold Ub. destruct (Nat.ltb_spec i n) as [Hn|Hn].
    + rewrite UA_row by exact Hn. specialize (H1 i Hn). rewrite HO in H1. lra.
    + destruct (Nat.ltb_spec i (n + m)) as [Hm|Hm].
      * replace i with (n + (i - n))%nat at 1 by lia. rewrite UA_row_drift by lia. apply H3. lia.
      * replace i with (n + m)%nat by lia. rewrite UA_row_last. exact H2.
Qed.

Definition pack (n m : nat) (w : vec) (mu : R) (nu : vec) : vec := fun k =>
  if Nat.ltb k n then w k else if Nat.ltb k (n + m) then - nu (k - n)%nat else - mu.
Lemma pack_system n m G F g f w mu nu : UK_system n m G F g f w mu nu ->
  UK_system n m G F g f (pack n m w mu nu) (- pack n m w mu nu (n + m)%nat) (fun k => - pack n m w mu nu (n + k)%nat).
Proof.
  intros (H1 & H2 & H3).
  assert (Hw : forall c : vec, bsum n (fun j => pack n m w mu nu j * c j) = bsum n (fun j => w j * c j)).
  { intros c. apply bsum_ext; intros j Hj. unfold pack. rewrite (proj2 (Nat.ltb_lt j n) Hj). reflexivity. }
  assert (Hn : forall c : vec, bsum m (fun k => - pack n m w mu nu (n + k)%nat * c k) = bsum m (fun k => nu k * c k)).
  { intros c. apply bsum_ext; intros k Hk. unfold pack. rewrite (proj2 (Nat.ltb_ge (n + k) n)) by lia.
    rewrite (proj2 (Nat.ltb_lt (n + k) (n + m))) by lia. replace (n + k - n)%nat with k by lia. ring. }
  split; [|split].
  - intros i Hi. rewrite Hw, (Hn (fun k => F k i)). unfold pack. rewrite (proj2 (Nat.ltb_ge (n + m) n)), Nat.ltb_irrefl by lia.
    rewrite Ropp_involutive. apply H1, Hi.
  - rewrite <- H2. apply bsum_ext; intros j Hj. unfold pack. rewrite (proj2 (Nat.ltb_lt j n) Hj). reflexivity.
  - intros k Hk. rewrite Hw. apply H3, Hk.
Qed.

Lemma UK_system_ext n m G G' F F' g g' f f' w w' mu nu nu' :
  (forall i j, (i < n)%nat -> (j < n)%nat -> G i j = G' i j) ->
  (forall k i, (k < m)%nat -> (i < n)%nat -> F k i = F' k i) ->
  veq n g g' -> veq m f f' -> veq n w w' -> veq m nu nu' ->
  UK_system n m G F g f w mu nu -> UK_system n m G' F' g' f' w' mu nu'.
Proof.
  intros HG HF Hg Hf Hw Hnu (H1 & H2 & H3). split; [|split].
  - intros i Hi. rewrite <- Hg by exact Hi. rewrite <- (H1 i Hi). f_equal. f_equal.
    + apply bsum_ext; intros j Hj. rewrite HG, Hw by assumption. reflexivity.
    + apply bsum_ext; intros k Hk. rewrite HF, Hnu by assumption. reflexivity.
  - rewrite <- H2. apply bsum_ext; intros j Hj. symmetry. apply Hw, Hj.
  - intros k Hk. rewrite <- Hf by exact Hk. rewrite <- (H3 k Hk). apply bsum_ext; intros j Hj. rewrite HF, Hw by assumption. reflexivity.
Qed.

(** Result at one point from a solution of the linear system. *)
Lemma upoint_estimate n m G F g f Z a_inv :
  veq (n + m + 1) (mulv (n + m + 1) (UA n m G F) (mulv (n + m + 1) a_inv (Ub n m g f))) (Ub n m g f) ->
  let x := mulv (n + m + 1) a_inv (Ub n m g f) in
  UK_system n m G F g f x (- x (n + m)%nat) (fun k => - x (n + k)%nat) /\
  upoint_value n (n + m + 1) a_inv (Ub n m g f) Z = bsum n (fun i => x i * Z i) /\
  upoint_variance (n + m + 1) a_inv (Ub n m g f) =
    bsum n (fun i => x i * g i) + bsum m (fun k => - x (n + k)%nat * f k) + - x (n + m)%nat.
Proof.
  intros H x. split; [apply usystem_iff, H|]. split; [reflexivity|].
  unfold upoint_variance. fold x. rewrite !bsum_split. cbn [bsum]. rewrite Nat.add_0_r.
  unfold Ub. rewrite (proj2 (Nat.ltb_ge (n + m) n)), Nat.ltb_irrefl by lia.
  f_equal; [f_equal|ring].
  - apply bsum_ext; intros i Hi. rewrite (proj2 (Nat.ltb_lt i n) Hi). ring.
  - apply bsum_ext; intros k Hk. rewrite (proj2 (Nat.ltb_ge (n + k) n)) by lia.
    rewrite (proj2 (Nat.ltb_lt (n + k) (n + m))) by lia. replace (n + k - n)%nat with k by lia. ring.
Qed.

(** *** the loop *)
Lemma uloop_gen (rhsf : nat -> res (vec * bool)) n size (a_inv : mat) (Z : vec) js : NoDup js -> forall z0 s0 w0,
  match foldM (fun '(zvalues, sigmasq, warn) j =>
      do (b, w) <- rhsf j ;;
      let x := mulv size a_inv b in
      Ok (upd zvalues j (bsum n (fun k => x k * Z k)),
          upd sigmasq j (bsum size (fun k => x k * - b k)), warn || w)) js (z0, s0, w0) with
  | Ok (z, s, w) =>
      (forall j, In j js -> exists b wj, rhsf j = Ok (b, wj) /\ z j = upoint_value n size a_inv b Z /\
          s j = upoint_variance size a_inv b) /\
      (forall j, ~ In j js -> z j = z0 j /\ s j = s0 j) /\
      (w = false <-> w0 = false /\ forall j b wj, In j js -> rhsf j = Ok (b, wj) -> wj = false)
  | Err e => exists j, In j js /\ rhsf j = Err e
  end.
Proof.
  induction js as [|j js IH]; intros Hnd z0 s0 w0; cbn [foldM].
  - split; [intros j []|]. split; [auto|]. split; [intros ->; split; [reflexivity|intros ? ? ? []]|intros [-> _]; reflexivity].
  - inversion Hnd as [|? ? Hj Hnd']; subst.
    destruct (rhsf j) as [[b wj]|e] eqn:ER; cbn [bind]; [|exists j; split; [left; reflexivity|exact ER]].
    specialize (IH Hnd' (upd z0 j (bsum n (fun k => mulv size a_inv b k * Z k)))
                  (upd s0 j (bsum size (fun k => mulv size a_inv b k * - b k))) (w0 || wj)).
    destruct (foldM _ js _) as [[[z s] w]|e].
    + destruct IH as (I1 & I2 & I3). split; [|split].
      * intros j' [<-|H]; [|apply I1, H]. exists b, wj. split; [exact ER|].
        destruct (I2 j Hj) as [-> ->]. rewrite !upd_same. split; reflexivity.
      * intros j' H. destruct (I2 j') as [-> ->]; [intros H'; apply H; right; exact H'|].
        rewrite !upd_other by (intros ->; apply H; left; reflexivity). auto.
      * rewrite I3. split.
        -- intros [H1 H2]. apply orb_false_iff in H1. destruct H1 as [H1 H1']. split; [exact H1|].
           intros j' b' wj' [<-|H] HR; [congruence|apply (H2 j' b' wj' H HR)].
        -- intros [H1 H2]. split; [rewrite H1, (H2 j b wj (or_introl eq_refl) ER); reflexivity|].
           intros j' b' wj' H HR. apply (H2 j' b' wj' (or_intror H) HR).
    + destruct IH as (j' & H1 & H2). exists j'. split; [right; exact H1|exact H2].
Qed.

(** *** a successful call *)
Definition UM (u : uobj) : mat := match uk_matrix u with Ok (a, _) => a | Err _ => zeros2 end.
Lemma UM_eq u : uk_matrix u = Ok (UM u, false).
Proof. unfold UM. destruct (uk_matrix_spec u) as (a & -> & _). reflexivity. Qed.
Definition mu_count (u : uobj) : nat := List.length (data_cols u).
Lemma UM_meq u : meq (o_n (u_obj u) + mu_count u + 1) (UM u)
  (UA (o_n (u_obj u)) (mu_count u) (data_semivariance (o_vg (u_obj u)) (data_distances (u_obj u))) (cols_F (data_cols u))).
Proof. unfold UM. destruct (uk_matrix_spec u) as (a & -> & H). rewrite n_withdrifts_cols in H. exact H. Qed.

(** specified drift values used at cell p *)
Definition used_specs (u : uobj) (q : query) (specs : list spec_arr) (gs : list vec) (p : nat) : list R :=
  if String.eqb (q_backend q) "vectorized" then map (fun s => spec_at q s p) specs else loop_specs (spec_row u) gs.

(** the right-hand side at cell p *)
Definition urhs (u : uobj) (q : query) (specs : list spec_arr) (gs : list vec) (p : nat) (pos : vec3) : vec :=
  Ub (o_n (u_obj u)) (mu_count u) (g_of (u_obj u) pos) (fun k => nth k (pos_terms u pos (used_specs u q specs gs p)) 0).

Lemma locate_coords dim q l p pos : dim = 2%nat \/ dim = 3%nat ->
  locate dim (q_style q) (q_pts q) (q_mask q) = Ok l -> cell dim q p pos ->
  l_at l p 0%nat = coord 0 pos /\ l_at l p 1%nat = coord 1 pos.
Proof. intros Hd HL C. rewrite (locate_row dim q l p pos Hd HL C). split; reflexivity. Qed.

Lemma query_frame u l pts q p pos : uinv u -> locate (o_dim (u_obj u)) (q_style q) (q_pts q) (q_mask q) = Ok l ->
  adjust_query (u_obj u) (q_int q) (l_at l) = Ok pts -> cell (o_dim (u_obj u)) q p pos ->
  let at_ := query_coords (o_dim (u_obj u)) (query_array (o_dim (u_obj u)) pts) p in
  (forall k, (k < o_dim (u_obj u))%nat -> at_ k = coord k (frame (u_obj u) pos)) /\
  third (o_dim (u_obj u)) (at_ 2%nat) = coord 2 (frame (u_obj u) pos).
Proof.
  intros HI HL HQ C at_. destruct (locate_cell _ q l p pos (o_dim_cases _) HL C) as [_ Hpos].
  unfold adjust_query in HQ. rewrite (ui_ct u HI) in HQ. apply adjust_int_float in HQ. destruct HQ as [_ HQ].
  destruct (frame_coord (u_obj u) (l_at l) pts (ui_ct u HI) HQ p) as [F1 F2]. rewrite Hpos in F1, F2. split.
  - intros k Hk. unfold at_. rewrite query_coords_array by (destruct (o_dim_cases (u_obj u)) as [E|E]; rewrite E in Hk; lia). apply F1, Hk.
  - unfold at_. rewrite query_coords_array by lia. exact F2.
Qed.

(** the location is in the range of the external drift grid *)
Definition ext_ok (u : uobj) (pos : vec3) : Prop :=
  forall arr ex ey zs, dr_ext (u_drift u) = Some (arr, ex, ey, zs) ->
    exists z, zscalar arr ex ey (coord 0 pos) (coord 1 pos) = Ok z.

(** drift values of the vectorized backend are those of the specification *)
Lemma vector_vals u l pts q specs gs zs p pos : uinv u -> locate (o_dim (u_obj u)) (q_style q) (q_pts q) (q_mask q) = Ok l ->
  spec_grids u (q_style q) (q_pts q) specs = Ok gs ->
  adjust_query (u_obj u) (q_int q) (l_at l) = Ok pts -> cell (o_dim (u_obj u)) q p pos ->
  ext_values (u_drift u) (l_npt l) (l_at l) = Ok zs ->
  map (fun v : vec => v p) (query_cols u (query_coords (o_dim (u_obj u)) (query_array (o_dim (u_obj u)) pts)) zs gs) =
  pos_terms u pos (map (fun s => spec_at q s p) specs).
Proof.
  intros HI HL HG HQ C HZ. rewrite query_cols_vals. destruct (query_frame u l pts q p pos HI HL HQ C) as [F1 F2].
  destruct (locate_cell _ q l p pos (o_dim_cases _) HL C) as [Hp _].
  rewrite (at_vals_pos u _ _ _ pos F1 F2).
  - unfold pos_terms. destruct (spec_grids_ok u q specs gs HG) as [(-> & ->)|(ds & -> & _ & _ & Hm)]; [reflexivity|].
    rewrite (Hm p). reflexivity.
  - intros arr ex ey z0 HE. unfold ext_values in HZ. rewrite HE in HZ.
    pose proof (zscalars_ok _ _ _ _ _ _ _ HZ p Hp) as G. cbv beta in G.
    destruct (locate_coords _ q l p pos (o_dim_cases _) HL C) as [G1 G2]. rewrite G1, G2 in G. exact G.
Qed.
Lemma loop_vals_spec u l pts q gs z p pos : uinv u -> locate (o_dim (u_obj u)) (q_style q) (q_pts q) (q_mask q) = Ok l ->
  adjust_query (u_obj u) (q_int q) (l_at l) = Ok pts -> cell (o_dim (u_obj u)) q p pos ->
  ext_value (u_drift u) (l_at l) p = Ok z ->
  loop_vals u (query_coords (o_dim (u_obj u)) (query_array (o_dim (u_obj u)) pts) p) z gs =
  pos_terms u pos (loop_specs (spec_row u) gs).
Proof.
  intros HI HL HQ C HZ. rewrite loop_vals_vals. destruct (query_frame u l pts q p pos HI HL HQ C) as [F1 F2].
  rewrite (at_vals_pos u _ _ _ pos F1 F2); [reflexivity|].
  intros arr ex ey z0 HE. unfold ext_value in HZ. rewrite HE in HZ.
  destruct (locate_coords _ q l p pos (o_dim_cases _) HL C) as [G1 G2]. rewrite G1, G2 in HZ. exact HZ.
Qed.

Lemma Ub_ext n m g g' f f' : veq n g g' -> veq m f f' -> veq (n + m + 1) (Ub n m g f) (Ub n m g' f').
Proof.
  intros Hg Hf k Hk. unfold Ub. destruct (Nat.ltb_spec k n); [rewrite Hg by assumption; reflexivity|].
  destruct (Nat.ltb_spec k (n + m)); [|reflexivity]. apply Hf. lia.
Qed.

Lemma nth_map_apply (cols : list vec) k p : nth k cols (fun _ => 0) p = nth k (map (fun v : vec => v p) cols) 0.
Proof. revert k. induction cols as [|v cols IH]; intros [|k]; cbn; try reflexivity. apply IH. Qed.

Lemma g_query o q l pts p pos : coords_inv o -> locate (o_dim o) (q_style q) (q_pts q) (q_mask q) = Ok l ->
  adjust_query o (q_int q) (l_at l) = Ok pts -> cell (o_dim o) q p pos ->
  query_semivariance (o_vg o) eps (o_exact o) (query_distances o pts p) = g_of o pos.
Proof.
  intros HC HL HQ C. destruct (locate_cell _ q l p pos (o_dim_cases _) HL C) as [_ Hpos].
  unfold g_of. f_equal. apply functional_extensionality. intros i.
  rewrite (query_distances_sep o (q_int q) (l_at l) pts p i HC HQ), Hpos. reflexivity.
Qed.

Definition uk_size (u : uobj) : nat := (o_n (u_obj u) + mu_count u + 1)%nat.

Record ucall (E : env) (u : uobj) (q : query) (specs : list spec_arr) (r : result) (l : located) (gs : list vec) (a_inv : mat) : Prop := {
  uc_style : bad_style (q_style q) = false;
  uc_locate : locate (o_dim (u_obj u)) (q_style q) (q_pts q) (q_mask q) = Ok l;
  uc_specs : spec_grids u (q_style q) (q_pts q) specs = Ok gs;
  uc_int : forallb (fun b => b) (q_int q) = false;
  uc_inv : invert (e_la E) (o_pinv (u_obj u)) (o_pinv_type (u_obj u)) (uk_size u) (UM u) = Ok a_inv;
  uc_backend : q_backend q = "vectorized"%string \/ q_backend q = "loop"%string;
  uc_shape : r_shape r = l_shape l;
  uc_masked : q_style q = "masked"%string -> forall p, l_mask l p = true -> r_value r p = None /\ r_variance r p = None;
  uc_cell : forall p pos, cell (o_dim (u_obj u)) q p pos -> ~ hidden (o_dim (u_obj u)) q p ->
    ext_ok u pos /\
    r_value r p = Some (upoint_value (o_n (u_obj u)) (uk_size u) a_inv (urhs u q specs gs p pos) (o_values (u_obj u))) /\
    r_variance r p = Some (upoint_variance (uk_size u) a_inv (urhs u q specs gs p pos)) }.

Lemma finish_shown dim q l z s p pos : dim = 2%nat \/ dim = 3%nat ->
  locate dim (q_style q) (q_pts q) (q_mask q) = Ok l -> cell dim q p pos -> ~ hidden dim q p ->
  (p < l_npt l)%nat /\ l_mask l p = false /\
  r_value (finish (q_style q) l (z, s)) p = Some (z p) /\ r_variance (finish (q_style q) l (z, s)) p = Some (s p).
Proof.
  intros Hd HL C NH. destruct (locate_cell _ q l p pos Hd HL C) as [Hp _].
  pose proof (cell_hidden_mask dim q l p pos Hd HL C) as HH.
  destruct (locate_facts dim _ _ _ l Hd HL) as [_ Hm].
  assert (HM : l_mask l p = false).
  { destruct (l_mask l p) eqn:EM; [|reflexivity]. exfalso. destruct Hm as [Hm|Hm]; [|rewrite Hm in EM; discriminate].
    apply NH, HH. rewrite Hm. reflexivity. }
  split; [exact Hp|]. split; [exact HM|]. cbn [finish r_value r_variance fst snd].
  destruct (String.eqb (q_style q) "masked"); rewrite ?HM; auto.
Qed.

Theorem execute_uk_call E u q specs r w : uinv u -> execute_uk E u q specs = Ok (r, w) ->
  w = false /\ exists l gs a_inv, ucall E u q specs r l gs a_inv.
Proof.
  intros HI H. unfold execute_uk in H. cbv zeta in H. fold (bad_style (q_style q)) in H.
  destruct (bad_style (q_style q)) eqn:EB; [discriminate|].
  rewrite UM_eq in H. cbn [bind] in H.
  change (match o_dim (u_obj u) with 2%nat => locate2 | _ => locate3 end) with (locate (o_dim (u_obj u))) in H.
  destruct (locate (o_dim (u_obj u)) (q_style q) (q_pts q) (q_mask q)) as [l|e] eqn:EL; cbn [bind] in H; [|discriminate].
  destruct (spec_grids u (q_style q) (q_pts q) specs) as [gs|e] eqn:EG; cbn [bind] in H; [|discriminate].
  destruct (adjust_query (u_obj u) (q_int q) (l_at l)) as [pts|e] eqn:EQ; cbn [bind] in H; [|discriminate].
  pose proof (spec_grids_length u q specs gs EG) as Hgs.
  assert (Hint : forallb (fun b => b) (q_int q) = false).
  { unfold adjust_query in EQ. rewrite (ui_ct u HI) in EQ. apply adjust_int_float in EQ. tauto. }
  destruct (String.eqb_spec (q_backend q) "vectorized") as [EV|NV].
  - pose proof (uk_exec_vector_spec (e_la E) u (l_npt l) (UM u) (query_distances (u_obj u) pts)
      (query_array (o_dim (u_obj u)) pts) (l_at l) gs Hgs) as HV. cbv zeta in HV.
    change (o_n (u_obj u) + List.length (data_cols u) + 1)%nat with (uk_size u) in HV.
    destruct (invert (e_la E) (o_pinv (u_obj u)) (o_pinv_type (u_obj u)) (uk_size u) (UM u)) as [a_inv|e] eqn:EI;
      [|rewrite HV in H; discriminate].
    destruct (ext_values (u_drift u) (l_npt l) (l_at l)) as [zv|e] eqn:EZ; [|rewrite HV in H; discriminate].
    destruct HV as (z & s & HV & Hzs). rewrite HV in H. cbn [bind] in H. injection H as <- <-. split; [reflexivity|].
    exists l, gs, a_inv. constructor; try assumption; try reflexivity.
    + left. exact EV.
    + intros HM p Hp. cbn [finish r_value r_variance fst snd]. rewrite HM. cbn. rewrite Hp. auto.
    + intros p pos C NH. destruct (finish_shown _ q l z s p pos (o_dim_cases _) EL C NH) as (Hp & HM & Hv & Hs).
      rewrite Hv, Hs. destruct (Hzs p Hp) as [-> ->].
      match goal with |- _ /\ Some (upoint_value _ _ _ ?b _) = _ /\ _ =>
        assert (HR : veq (uk_size u) b (urhs u q specs gs p pos)) end.
      { apply Ub_ext.
        - intros i _. rewrite (g_query (u_obj u) q l pts p pos (ui_coords u HI) EL EQ C). reflexivity.
        - intros k _. rewrite nth_map_apply. rewrite (vector_vals u l pts q specs gs zv p pos HI EL EG EQ C EZ).
          unfold used_specs. rewrite EV. reflexivity. }
      split; [|destruct (upoint_ext (o_n (u_obj u)) _ a_inv _ _ (o_values (u_obj u)) HR) as [-> ->]; split; reflexivity].
      intros arr ex ey z0 HE. unfold ext_values in EZ. rewrite HE in EZ. exists (zv p).
      pose proof (zscalars_ok _ _ _ _ _ _ _ EZ p Hp) as G. cbv beta in G.
      destruct (locate_coords _ q l p pos (o_dim_cases _) EL C) as [G1 G2]. rewrite G1, G2 in G. exact G.
  - destruct (String.eqb_spec (q_backend q) "loop") as [EV|NL]; [|discriminate].
    unfold uk_exec_loop in H. cbv zeta in H.
    replace (n_withdrifts u + 1)%nat with (uk_size u) in H by (rewrite n_withdrifts_cols; reflexivity).
    destruct (invert (e_la E) (o_pinv (u_obj u)) (o_pinv_type (u_obj u)) (uk_size u) (UM u)) as [a_inv|e] eqn:EI;
      [|discriminate]. cbn [bind] in H.
    pose proof (uloop_gen (fun j => uk_rhs_loop u (l_npt l) (query_distances (u_obj u) pts j)
         (query_array (o_dim (u_obj u)) pts) (l_at l) gs j) (o_n (u_obj u)) (uk_size u) a_inv (o_values (u_obj u))
         (unmasked (l_npt l) (l_mask l)) (unmasked_NoDup _ _) (fun _ => 0) (fun _ => 0) false) as HG.
    destruct (foldM _ _ _) as [[[z s] w']|e] in H, HG; [|discriminate].
    cbn [bind] in H. injection H as <- <-. destruct HG as (G1 & _ & G3).
    assert (HB : forall j, In j (unmasked (l_npt l) (l_mask l)) -> exists zj b,
        ext_value (u_drift u) (l_at l) j = Ok zj /\
        uk_rhs_loop u (l_npt l) (query_distances (u_obj u) pts j) (query_array (o_dim (u_obj u)) pts) (l_at l) gs j = Ok (b, false) /\
        veq (uk_size u) b (Ub (o_n (u_obj u)) (mu_count u)
           (query_semivariance (o_vg (u_obj u)) eps (o_exact (u_obj u)) (query_distances (u_obj u) pts j))
           (fun k => nth k (loop_vals u (query_coords (o_dim (u_obj u)) (query_array (o_dim (u_obj u)) pts) j) zj gs) 0))).
    { intros j Hj. destruct (G1 j Hj) as (b & wj & HR & _).
      pose proof (uk_rhs_loop_spec u (l_npt l) (query_distances (u_obj u) pts j) (query_array (o_dim (u_obj u)) pts) (l_at l) gs j Hgs) as HS.
      cbv zeta in HS. destruct (at_well _ _); [congruence|].
      destruct (ext_value (u_drift u) (l_at l) j) as [zj|e]; [|congruence].
      destruct HS as [HS1 HS2]. destruct HS2 as (b' & HR' & Hb').
      { destruct gs as [|g0 gs0]; [left; reflexivity|]. right.
        destruct (Nat.le_gt_cases (spec_row u + List.length (g0 :: gs0)) (l_npt l)) as [|Hgt]; [assumption|].
        rewrite HS1 in HR by (split; [discriminate|exact Hgt]). discriminate. }
      exists zj, b'. split; [reflexivity|]. split; [exact HR'|exact Hb']. }
    split.
    { apply G3. split; [reflexivity|]. intros j b wj Hj HR. destruct (HB j Hj) as (zj & b' & _ & HR' & _). cbv beta in HR. congruence. }
    exists l, gs, a_inv. constructor; try assumption; try reflexivity.
    + right. exact EV.
    + intros HM p Hp. cbn [finish r_value r_variance fst snd]. rewrite HM. cbn. rewrite Hp. auto.
    + intros p pos C NH. destruct (finish_shown _ q l z s p pos (o_dim_cases _) EL C NH) as (Hp & HM & Hv & Hs).
      rewrite Hv, Hs.
      assert (Hin : In p (unmasked (l_npt l) (l_mask l))).
      { unfold unmasked. apply filter_In. split; [apply in_seq; lia|rewrite HM; reflexivity]. }
      destruct (HB p Hin) as (zj & b & HZ & HR & Hb). destruct (G1 p Hin) as (b' & wj & HR' & -> & ->). cbv beta in HR'.
      assert (b' = b) as -> by congruence.
      assert (HRR : veq (uk_size u) b (urhs u q specs gs p pos)).
      { intros k Hk. rewrite (Hb k Hk). revert k Hk. apply Ub_ext.
        - intros i _. rewrite (g_query (u_obj u) q l pts p pos (ui_coords u HI) EL EQ C). reflexivity.
        - intros k _. rewrite (loop_vals_spec u l pts q gs zj p pos HI EL EQ C HZ).
          unfold used_specs. rewrite EV. reflexivity. }
      split; [|destruct (upoint_ext (o_n (u_obj u)) _ a_inv _ _ (o_values (u_obj u)) HRR) as [-> ->]; split; reflexivity].
      intros arr ex ey z0 HE. unfold ext_value in HZ. rewrite HE in HZ. exists zj.
      destruct (locate_coords _ q l p pos (o_dim_cases _) EL C) as [G1' G2']. rewrite G1', G2' in HZ. exact HZ.
Qed.
