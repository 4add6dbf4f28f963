(** Universal kriging: styles, shapes and masks (C18, C19). *)
From Coq Require Import String.
From Verif Require Import Base Sums Matrix M_Variogram M_Geometry S_Geometry M_Kriging S_Kriging M_Init M_Object
  M_Execute S_Execute P_Object P_Execute P_Cells P_Master P_Det P_OK P_Exec2 M_UK S_UK S_UK2 P_UK P_UK2 P_UK3 P_UK4 P_UK5 P_UK11.

Lemma uk_locate E u q specs r w : ureachable E u -> execute_uk E u q specs = Ok (r, w) ->
  exists l, locate (o_dim (u_obj u)) (q_style q) (q_pts q) (q_mask q) = Ok l /\ r_shape r = l_shape l.
Proof.
  intros HR HX. destruct (execute_uk_call E u q specs r w (ureachable_inv E u HR) HX) as (_ & l & gs & a & HC).
  exists l. split; [apply (uc_locate _ _ _ _ _ _ _ _ HC)|apply (uc_shape _ _ _ _ _ _ _ _ HC)].
Qed.

Lemma uk_entries E u q specs r w p : ureachable E u -> execute_uk E u q specs = Ok (r, w) -> (p < shape_size (r_shape r))%nat ->
  exists pos, cell (o_dim (u_obj u)) q p pos /\ forall pos', cell (o_dim (u_obj u)) q p pos' -> pos' = pos.
Proof.
  intros HR H Hp. set (o := u_obj u). destruct (uk_locate E u q specs r w HR H) as (l & HL & HS). rewrite HS in Hp. fold o in HL.
  destruct (locate_facts _ _ _ _ _ (o_dim_cases o) HL) as [Hn _]. rewrite <- Hn in Hp.
  destruct (locate_all_cells _ q l p (o_dim_cases o) HL Hp) as [pos C]. exists pos. split; [exact C|].
  intros pos' C'. destruct (locate_cell _ _ _ _ _ (o_dim_cases o) HL C) as [_ <-].
  destruct (locate_cell _ _ _ _ _ (o_dim_cases o) HL C') as [_ <-]. reflexivity.
Qed.

Lemma uk_shape E u q specs r w : ureachable E u -> execute_uk E u q specs = Ok (r, w) ->
  r_shape r = (if String.eqb (q_style q) "points" then [List.length (xs q)]
               else if Nat.eqb (o_dim (u_obj u)) 3 then [List.length (zs q); List.length (ys q); List.length (xs q)]
               else [List.length (ys q); List.length (xs q)]).
Proof.
  intros HR H. destruct (uk_locate E u q specs r w HR H) as (l & HL & ->). set (o := u_obj u) in *.
  destruct (o_dim_cases o) as [Hd|Hd]; rewrite Hd in *; cbn [locate Nat.eqb] in *.
  - unfold locate2 in HL.
    destruct (String.eqb_spec (q_style q) "masked") as [ES|ES]; [rewrite ES; cbn [String.eqb Ascii.eqb Bool.eqb]|].
    { destruct (q_mask q) as [[r0 c f|? ? ? ?]|]; try discriminate.
      destruct (Nat.eqb r0 _ && _); [injection HL as <-; reflexivity|].
      destruct (Nat.eqb r0 _ && _); [injection HL as <-; reflexivity|discriminate]. }
    destruct (String.eqb_spec (q_style q) "grid") as [EG|EG]; [rewrite EG; injection HL as <-; reflexivity|].
    destruct (String.eqb (q_style q) "points"); [|discriminate]. destruct (negb _); [discriminate|]. injection HL as <-. reflexivity.
  - unfold locate3 in HL.
    destruct (String.eqb_spec (q_style q) "masked") as [ES|ES]; [rewrite ES; cbn [String.eqb Ascii.eqb Bool.eqb]|].
    { destruct (q_mask q) as [[? ? ?|d0 d1 d2 f]|]; try discriminate.
      destruct (Nat.eqb d0 _ && _ && _); [injection HL as <-; reflexivity|].
      destruct (Nat.eqb d0 _ && _ && _); [injection HL as <-; reflexivity|discriminate]. }
    destruct (String.eqb_spec (q_style q) "grid") as [EG|EG]; [rewrite EG; injection HL as <-; reflexivity|].
    destruct (String.eqb (q_style q) "points"); [|discriminate]. destruct (_ && _); [discriminate|].
    destruct (_ || _); [discriminate|]. injection HL as <-. reflexivity.
Qed.

(** what a cell contains: nothing if hidden, numbers otherwise *)
Lemma uk_cell_content E u q specs r p pos : urun E u q specs r -> cell (o_dim (u_obj u)) q p pos ->
  (hidden (o_dim (u_obj u)) q p -> r_value r p = None /\ r_variance r p = None) /\
  (~ hidden (o_dim (u_obj u)) q p -> r_value r p <> None /\ r_variance r p <> None).
Proof.
  intros (HE & HR & w & HX) C. destruct (execute_uk_call E u q specs r w (ureachable_inv E u HR) HX) as (_ & l & gs & a & HC).
  pose proof (cell_hidden_mask _ q l p pos (o_dim_cases _) (uc_locate _ _ _ _ _ _ _ _ HC) C) as HH. split.
  - intros Hh. apply HH in Hh. apply andb_true_iff in Hh. destruct Hh as [H1 H2]. apply String.eqb_eq in H1.
    apply (uc_masked _ _ _ _ _ _ _ _ HC H1 p H2).
  - intros Hn. destruct (uc_cell _ _ _ _ _ _ _ _ HC p pos C Hn) as (_ & -> & ->). split; discriminate.
Qed.

Lemma uk_masks_hide E u q specs r r' p pos : urun E u q specs r -> urun E u (with_style q "grid") specs r' ->
  faithful_specs u q -> q_style q = "masked"%string -> cell (o_dim (u_obj u)) q p pos ->
  (hidden (o_dim (u_obj u)) q p -> r_value r p = None /\ r_variance r p = None) /\
  (~ hidden (o_dim (u_obj u)) q p ->
     r_value r p = r_value r' p /\ r_variance r p = r_variance r' p /\ r_value r p <> None /\ r_variance r p <> None).
Proof.
  intros HR HR' HF Hs C. destruct (uk_cell_content E u q specs r p pos HR C) as [HH HV]. split; [exact HH|].
  intros Hn. destruct (HV Hn) as [E1 E2].
  destruct (uk_location_only E u q (with_style q "grid") specs specs r r' p p pos HR HR' HF HF) as [E3 E4].
  - split; assumption.
  - split; [apply cell_grid_of_masked; assumption|apply not_hidden; discriminate].
  - intros _. reflexivity.
  - repeat split; assumption.
Qed.

Lemma uk_grid_is_points E u q q' specs specs' r r' i j k : urun E u q specs r -> urun E u q' specs' r' ->
  faithful_specs u q -> faithful_specs u q' ->
  o_dim (u_obj u) = 2%nat -> q_style q = "grid"%string -> q_style q' = "points"%string ->
  (i < List.length (ys q))%nat -> (j < List.length (xs q))%nat -> (k < List.length (xs q'))%nat ->
  rnth (xs q') k = rnth (xs q) j -> rnth (ys q') k = rnth (ys q) i ->
  specs_agree u q q' specs specs' (i * List.length (xs q) + j) k ->
  r_value r (i * List.length (xs q) + j)%nat = r_value r' k /\
  r_variance r (i * List.length (xs q) + j)%nat = r_variance r' k.
Proof.
  intros HR HR' HF HF' Hd Hs Hs' Hi Hj Hk Hx Hy HA.
  apply (uk_location_only E u q q' specs specs' r r' _ k (loc 2 (rnth (xs q) j) (rnth (ys q) i) 0) HR HR' HF HF'); [| |exact HA].
  - split; [|apply not_hidden; congruence]. rewrite Hd. apply cell_grid2; auto.
  - split; [|apply not_hidden; congruence]. rewrite Hd.
    replace (loc 2 (rnth (xs q) j) (rnth (ys q) i) 0) with (loc 2 (rnth (xs q') k) (rnth (ys q') k) (rnth (zs q') k)).
    + apply cell_point; assumption.
    + unfold loc. cbn [Nat.eqb]. rewrite Hx, Hy. reflexivity.
Qed.

Lemma uk_mask_errors E u q specs : ureachable E u -> q_style q = "masked"%string ->
  (q_mask q = None -> execute_uk E u q specs = Err OSErr) /\
  (forall r c f, o_dim (u_obj u) = 2%nat -> q_mask q = Some (Mask2 r c f) ->
     ~ (r = List.length (ys q) /\ c = List.length (xs q)) -> ~ (r = List.length (xs q) /\ c = List.length (ys q)) ->
     execute_uk E u q specs = Err ValueError) /\
  (forall a b c f, o_dim (u_obj u) = 3%nat -> q_mask q = Some (Mask3 a b c f) ->
     ~ (a = List.length (zs q) /\ b = List.length (ys q) /\ c = List.length (xs q)) ->
     ~ (a = List.length (xs q) /\ b = List.length (ys q) /\ c = List.length (zs q)) ->
     execute_uk E u q specs = Err ValueError).
Proof.
  intros _ Hs. set (o := u_obj u).
  assert (HG : forall e, locate (o_dim o) (q_style q) (q_pts q) (q_mask q) = Err e -> execute_uk E u q specs = Err e).
  { intros e He. unfold execute_uk. cbv zeta. rewrite UM_eq. cbn [bind]. 
    change (match o_dim (u_obj u) with 2%nat => locate2 | _ => locate3 end) with (locate (o_dim o)). rewrite He, Hs. reflexivity. }
  split; [|split].
  - intros Hm. apply HG. rewrite Hs, Hm. destruct (o_dim_cases o) as [-> | ->]; reflexivity.
  - intros r c f Hd Hm H1 H2. apply HG. rewrite Hs, Hm, Hd. cbn [locate]. unfold locate2. cbn [String.eqb Ascii.eqb Bool.eqb].
    change (size_of (q_pts q) 0) with (List.length (xs q)). change (size_of (q_pts q) 1) with (List.length (ys q)).
    destruct (Nat.eqb_spec r (List.length (ys q))), (Nat.eqb_spec c (List.length (xs q))); cbn [andb]; try tauto;
    destruct (Nat.eqb_spec r (List.length (xs q))), (Nat.eqb_spec c (List.length (ys q))); cbn [andb]; try tauto; reflexivity.
  - intros a b c f Hd Hm H1 H2. apply HG. rewrite Hs, Hm, Hd. cbn [locate]. unfold locate3. cbn [String.eqb Ascii.eqb Bool.eqb].
    change (size_of (q_pts q) 0) with (List.length (xs q)). change (size_of (q_pts q) 1) with (List.length (ys q)).
    change (size_of (q_pts q) 2) with (List.length (zs q)).
    destruct (Nat.eqb_spec a (List.length (zs q))), (Nat.eqb_spec b (List.length (ys q))), (Nat.eqb_spec c (List.length (xs q))); cbn [andb]; try tauto;
    destruct (Nat.eqb_spec a (List.length (xs q))), (Nat.eqb_spec c (List.length (zs q))); cbn [andb]; try tauto; try reflexivity;
    destruct (Nat.eqb_spec b (List.length (ys q))); try tauto; try reflexivity.
Qed.

Lemma uk_grid_is_points3 E u q q' specs specs' r r' kz i j k : urun E u q specs r -> urun E u q' specs' r' ->
  faithful_specs u q -> faithful_specs u q' ->
  o_dim (u_obj u) = 3%nat -> q_style q = "grid"%string -> q_style q' = "points"%string ->
  (kz < List.length (zs q))%nat -> (i < List.length (ys q))%nat -> (j < List.length (xs q))%nat -> (k < List.length (xs q'))%nat ->
  rnth (xs q') k = rnth (xs q) j -> rnth (ys q') k = rnth (ys q) i -> rnth (zs q') k = rnth (zs q) kz ->
  let p := ((kz * List.length (ys q) + i) * List.length (xs q) + j)%nat in
  specs_agree u q q' specs specs' p k ->
  r_value r p = r_value r' k /\ r_variance r p = r_variance r' k.
Proof.
  intros HR HR' HF HF' Hd Hs Hs' Hz Hi Hj Hk Hx Hy Hzz p HA.
  apply (uk_location_only E u q q' specs specs' r r' p k (loc 3 (rnth (xs q) j) (rnth (ys q) i) (rnth (zs q) kz)) HR HR' HF HF'); [| |exact HA].
  - split; [|apply not_hidden; congruence]. rewrite Hd. apply cell_grid3; auto.
  - split; [|apply not_hidden; congruence]. rewrite Hd.
    replace (loc 3 (rnth (xs q) j) (rnth (ys q) i) (rnth (zs q) kz)) with (loc 3 (rnth (xs q') k) (rnth (ys q') k) (rnth (zs q') k)).
    + apply cell_point; assumption.
    + unfold loc. cbn [Nat.eqb]. rewrite Hx, Hy, Hzz. reflexivity.
Qed.
