(** Proofs for C29-C33: statements in the form of Props_State, and examples. *)
From Coq Require Import String.
From Verif Require Import Base Sums Matrix M_Variogram M_Geometry S_Geometry M_Kriging S_Kriging M_Init M_Object M_Execute S_Execute
  M_UK S_UK S_State P_Object P_Data P_State P_State2 P_State3 P_State4 P_State5 P_State6
  M_Heap S_Heap M_HeapUK S_HeapUK P_Heap P_Heap2 P_Heap3 P_HeapUK P_Heap4 P_HeapUK2 Witness Witness3 P_UK8.

Lemma ex_update_scaled : exists o o',
  construct WE OK2 (two_args 1 0 0 3 true false) = Ok o /\ List.length (c_coords (two_args 1 0 0 3 true false)) = cdim OK2 /\
  update_variogram_model WE o (scaled (PList [1; 0]) 2) = (o', None) /\ o_scaling o 0%nat = 1 /\ o_scaling o' 0%nat = 2.
Proof.
  destruct (two_construct WE 1 0 0 3 true false) as [o Ho].
  destruct (two_fields _ _ _ _ _ _ _ _ Ho) as (Hre&Hinv&Hc&Hn&Hct&Hex&Hpi&Hf&Hp&Hvg&Hval&H0&H1&Hsep).
  assert (Hs : forall k, o_scaling o k = 1).
  { pose proof (construct_inv WE OK2 _ o Ho) as (ex & name & prm & fn & sc & an & f & vp & lags & sv & params & Hall).
    destruct Hall as (_&_&Hgs&_&_&_&_&_&_&_&_&_&_&_&_&_&_&_&_&_&_&_&Hcc). cbn in Hgs. injection Hgs as <- <- <- <- <-.
    destruct Hcc as [(_&_&_&Hs&_)|(E1&_)]; [rewrite Hs; reflexivity|discriminate E1]. }
  destruct (update_scaled o 2 Hn Hpi Hct Hs) as (o' & HU & _ & _ & Hs' & _); [lra|].
  exists o, o'. split; [exact Ho|]. split; [reflexivity|]. split; [exact HU|]. split; [apply Hs|]. rewrite Hs'. reflexivity.
Qed.

Lemma ex_rejected : exists o v, construct WE OK2 (two_args 1 0 0 3 true false) = Ok o /\ model_rejected WE o v.
Proof.
  destruct (two_construct WE 1 0 0 3 true false) as [o Ho]. 
  exists o, {| a_model := VName "sperical"; a_params := PNone; a_fun := FNone; a_nlags := 6%nat; a_weight := false; a_scaling := (fun _ => 1); a_angle := (fun _ => 0) |}.
  split; [exact Ho|]. left. exists "sperical"%string. split; [reflexivity|]. split; [|discriminate].
  intros H. repeat (destruct H as [H|H]; [discriminate H|]). exact H.
Qed.

Lemma in_step E c A us o : built E c A us o ->
    o_orig o = columns (c_coords A) /\ o_values o = rnth (c_values A) /\ o_n o = List.length (nth 0 (c_coords A) []) /\ o_class o = c /\
    (forall i j, data_distances o i j = separation o (datum o i) (datum o j)) /\
    (forall ints at_ pts p i, adjust_query o ints at_ = Ok pts ->
       query_distances o pts p i = separation o (loc_of (o_dim o) at_ p) (datum o i)).
Proof.
  intros HB. pose proof (built_based _ _ _ _ _ HB) as B. pose proof (ba_inv _ _ _ B) as I.
  split; [apply (ba_orig _ _ _ B)|]. split; [apply (ba_values _ _ _ B)|]. split; [apply (ba_n _ _ _ B)|]. split; [apply (ba_class _ _ _ B)|].
  split; [intros; apply data_distances_sep, I|]. intros. eapply query_distances_sep; eassumption.
Qed.

Lemma construct_alone E c A h : args_exist h A ->
    exists h' x, construct_h E c A h = (h', x) /\ only_adds h h' /\
      match x with
      | Ok x => construct E c (deref h A) = Ok (view h' x) /\ object_exists h' x /\
                (forall r, shared h' x r -> r = x_params x /\ keeps_list (g_v A) r)
      | Err e => construct E c (deref h A) = Err e
      end.
Proof.
  intros HA. destruct (construct_h_spec E c A h HA) as (h' & x & K & A1 & X). exists h', x. split; [exact K|]. split; [exact A1|].
  destruct x as [x|e]; [|exact X]. destruct (construct_private E c A h h' x HA K) as (X1 & X2 & X3). auto.
Qed.

Lemma update_alone E x v h : object_exists h x -> params_exist h (v_params v) ->
    match update_h E x v h with
    | (h', x', e) => only_adds h h' /\ object_exists h' x' /\ update_variogram_model E (view h x) (deref_v h v) = (view h' x', e) /\
        (forall r, shared h' x' r -> shared h x r \/ keeps_list v r)
    end.
Proof.
  intros HX HP. pose proof (update_h_spec E x v h HX HP) as U. destruct (update_h E x v h) as [[h' x'] e].
  destruct U as (A1 & X1 & U & R). split; [exact A1|]. split; [exact X1|]. split; [exact U|]. intros r [R1 R2].
  destruct (R r R1) as [F|[F|F]].
  - left. split; [exact F|]. rewrite <- R2. symmetry. apply A1. exact (proj1 (Forall_forall _ _) HX r F).
  - rewrite (fresh_user h h' r A1 F) in R2. discriminate R2.
  - right. exact F.
Qed.

Lemma later_changes E c A h h1 x es us h' x' :
    args_exist h A -> construct_h E c A h = (h1, Ok x) ->
    history E (h1, x) es us (h', x') -> (forall r c, In (Overwrites r c) es -> ~ kept_list (g_v A) es r) ->
    exists o, construct E c (deref h A) = Ok o /\ view h' x' = after_updates E us o.
Proof.
  intros HA HK HH HW. destruct (construct_private E c A h h1 x HA HK) as (X1 & X2 & X3).
  exists (view h1 x). split; [exact X1|].
  refine (proj1 (history_replay E (kept_list (g_v A) es) es h1 x us h' x' HH X2 _ HW _)).
  - intros r Hr. left. apply (X3 r Hr).
  - intros v r H1 H2. right. exists v. auto.
Qed.

Lemma uconstruct_alone E c A D h : args_exist h A -> drift_exists h D ->
    exists h' x, construct_uk_h E c A D h = (h', x) /\ only_adds h h' /\
      match x with
      | Ok x => construct_uk E c (deref h A) (deref_d h D) = Ok (uview h' x) /\
                (forall r, In r (urefs x) -> h_user h' r = true -> keeps_list (g_v A) r \/ t_fun D = Some r)
      | Err e => construct_uk E c (deref h A) (deref_d h D) = Err e
      end.
Proof.
  intros HA HD. destruct (construct_uk_h_spec E c A D h HA HD) as (h' & x & K & A1 & X). exists h', x. split; [exact K|]. split; [exact A1|].
  destruct x as [x|e]; [|exact X]. destruct X as (X1 & X2). split; [exact X1|]. intros r R1 R2.
  destruct (X2 r R1) as [_ [F|F]]; [|exact F]. rewrite (fresh_user h h' r A1 F) in R2. discriminate R2.
Qed.

Lemma uview_write x h r c : ~ In r (urefs x) -> uview (write r c h) x = uview h x.
Proof. intros H. apply uview_ext. intros r' Hr. cbn. apply put_other. intros ->. contradiction. Qed.

Lemma initialize_given fit ct ndim n X nv y model p f nlags w l1 l2 p' :
  initialize_variogram_model fit ct ndim n X nv y model (Some p) f nlags w = Ok (l1, l2, p') -> p' = p.
Proof.
  unfold initialize_variogram_model. intros H.
  assert (K : (if negb (Nat.eqb nv n) then
      match ct with
      | Euclidean => if Nat.leb n 1 then Err ValueError
                     else if Nat.eqb nlags 0 then Err ValueError else Err IndexError
      | Geographic => Err IndexError
      end
    else do ls <- experimental_variogram ct ndim n nlags X y ;;
      (if String.eqb model "linear" && negb (Nat.eqb (List.length p) 2) then Err ValueError
       else if (String.eqb model "power" || in_names model three_param_models) && negb (Nat.eqb (List.length p) 3) then Err ValueError
       else Ok (map fst ls, map snd ls, p))) = Ok (l1, l2, p')).
  { destruct ct, (Nat.eqb ndim 2); try discriminate H; exact H. }
  clear H. destruct (Nat.eqb nv n); cbn [negb] in K; [|destruct ct; [destruct (Nat.leb n 1), (Nat.eqb nlags 0)|]; discriminate K].
  bindok K. repeat match type of K with (if ?b then _ else _) = _ => destruct b; [discriminate K|] end.
  injection K as _ _ <-. reflexivity.
Qed.

Definition sph_heap : heap :=
  {| h_next := 4%nat;
     h_at := fun r => Row (match r with 0%nat => [0; 3] | 1%nat => [0; 4] | 2%nat => [0; 3] | 3%nat => [1; 2; 0] | _ => [] end);
     h_user := fun r => Nat.ltb r 4%nat |}.
Lemma sph_exist name : args_exist sph_heap (demo_args name).
Proof. split; [repeat constructor|]. split; cbn; lia. Qed.

Lemma ex_private : exists A h h1 x, args_exist h A /\ construct_h WE OK2 A h = (h1, Ok x) /\
  (forall r, ~ kept_list (g_v A) [Overwrites 0%nat (Row [7; 7]); Overwrites 3%nat (Row [5; 5; 5])] r) /\
  exists h' x', history WE (h1, x) [Overwrites 0%nat (Row [7; 7]); Overwrites 3%nat (Row [5; 5; 5])] [] (h', x') /\
    rd h' 3%nat = [5; 5; 5] /\ o_params (view h' x') = [1; 2; 0].
Proof.
  pose proof (sph_exist "spherical") as HA.
  assert (HN : forall r, ~ kept_list (g_v (demo_args "spherical")) [Overwrites 0%nat (Row [7; 7]); Overwrites 3%nat (Row [5; 5; 5])] r).
  { intros r [(s & H1 & H2 & H3)|(v & [Hv|[Hv|[]]] & _)]; try discriminate Hv. cbn in H1. injection H1 as <-. destruct H3 as [H3|[H3|H3]]; discriminate H3. }
  destruct (construct_alone WE OK2 (demo_args "spherical") sph_heap HA) as (h1 & x & K & A1 & X).
  set (A' := deref sph_heap (demo_args "spherical")) in *.
  destruct (construct_explicit WE A' "spherical" f_spherical [1; 2; 0] [0; 3] [0; 4]) as [o Ho]; try (cbn; reflexivity); try (cbn; lia).
  { exists true. reflexivity. }
  { repeat split; try reflexivity. cbn. repeat f_equal; lra. }
  destruct x as [x|e]; [|rewrite Ho in X; discriminate X]. destruct X as (X1 & X2 & X3).
  exists (demo_args "spherical"), sph_heap, h1, x. split; [exact HA|]. split; [exact K|]. split; [exact HN|].
  set (h' := write 3%nat (Row [5; 5; 5]) (write 0%nat (Row [7; 7]) h1)).
  assert (HU : forall r, (r < 4)%nat -> h_user h1 r = true).
  { intros r Hr. destruct A1 as (_ & H & _). rewrite (proj2 (H r ltac:(cbn; lia))). apply Nat.leb_le. lia. }
  assert (HH : history WE (h1, x) [Overwrites 0%nat (Row [7; 7]); Overwrites 3%nat (Row [5; 5; 5])] [] (h', x)).
  { apply (H_cons WE h1 x (Overwrites 0%nat (Row [7; 7])) _ [] _); [cbn; apply HU; lia|].
    apply (H_cons WE (write 0%nat (Row [7; 7]) h1) x (Overwrites 3%nat (Row [5; 5; 5])) [] [] _); [cbn; apply HU; lia|]. apply H_nil. }
  exists h', x. split; [exact HH|]. split; [reflexivity|].
  destruct (later_changes WE OK2 _ _ _ _ _ _ _ _ HA K HH (fun r _ _ => HN r)) as (o1 & C1 & V1).
  rewrite V1. cbn [after_updates fold_left]. fold A' in C1.
  pose proof (construct_inv WE OK2 _ o1 C1) as (ex & name & prm & fn & sc & an & f & vp & lags & sv & params & Hall).
  destruct Hall as (_&_&Hgs&_&HP&_&HI&_&_&_&_&_&_&_&Hpar&_). cbn in Hgs. injection Hgs as <- <- <- <- <-.
  rewrite Hpar. cbn in HP. injection HP as <-. 
  apply initialize_given in HI. rewrite HI. repeat f_equal; lra.
Qed.
