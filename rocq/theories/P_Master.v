(** Proofs: what every cell of a successful execute contains. *)
From Coq Require Import String.
From Verif Require Import Base Sums Matrix M_Variogram P_Variogram M_Geometry S_Geometry P_Geometry M_Kriging S_Kriging
  P_Kriging P_OKSpec M_Init M_Object M_Execute S_Execute P_Object P_Execute P_Cells P_Window P_WindowExec.

Lemma cell_hidden_mask dim q l p pos : dim = 2%nat \/ dim = 3%nat ->
  locate dim (q_style q) (q_pts q) (q_mask q) = Ok l -> cell dim q p pos ->
  (hidden dim q p <-> (String.eqb (q_style q) "masked" && l_mask l p)%bool = true).
Proof.
  intros Hd HL C. destruct (String.eqb_spec (q_style q) "masked") as [ES|ES]; cbn [andb].
  2:{ split; [intros H; inversion H; contradiction|discriminate]. }
  assert (U2 : forall i j i' j' n, (j < n)%nat -> (j' < n)%nat -> (i * n + j = i' * n + j')%nat -> i = i' /\ j = j').
  { intros i j i' j' n Hj Hj' He. destruct (div_mod_cell i j n Hj), (div_mod_cell i' j' n Hj'). split; congruence. }
  destruct Hd as [-> | ->]; cbn [locate] in HL.
  - unfold locate2 in HL. rewrite ES in HL. cbn [String.eqb Ascii.eqb Bool.eqb] in HL.
    destruct C as [p Hs|i j Hs _ Hi Hj|k i j Hs Hd]; [congruence| |discriminate].
    change (size_of (q_pts q) 1) with (List.length (ys q)) in HL.
    change (size_of (q_pts q) 0) with (List.length (xs q)) in HL.
    set (nx := List.length (xs q)) in *. set (ny := List.length (ys q)) in *.
    destruct (div_mod_cell i j nx Hj) as [D1 D2].
    assert (HM : l_mask l (i * nx + j)%nat = match q_mask q with Some m => mask_at2 m ny nx i j | None => false end).
    { destruct (q_mask q) as [[r c f|]|]; try discriminate. cbn [mask_at2].
      destruct (Nat.eqb r ny && Nat.eqb c nx).
      - injection HL as <-. cbn [l_mask]. unfold flatten2. rewrite D1, D2. reflexivity.
      - destruct (Nat.eqb r nx && Nat.eqb c ny); [|discriminate]. injection HL as <-. cbn [l_mask]. unfold flatten2.
        rewrite D1, D2. reflexivity. }
    rewrite HM. split.
    + intros H. remember (i * nx + j)%nat as pp eqn:Epp. destruct H as [i' j' m _ _ Hm Hi' Hj' Hv|? ? ? ? ? Hd]; [|discriminate].
      destruct (U2 _ _ _ _ _ Hj' Hj Epp) as [-> ->]. rewrite Hm. exact Hv.
    + destruct (q_mask q) as [m|] eqn:Em; [|discriminate]. intros H.
      eapply hidden2; try eassumption; reflexivity.
  - unfold locate3 in HL. rewrite ES in HL. cbn [String.eqb Ascii.eqb Bool.eqb] in HL.
    destruct C as [p Hs|i j Hs Hd|k i j Hs _ Hk Hi Hj]; [congruence|discriminate|].
    change (size_of (q_pts q) 1) with (List.length (ys q)) in HL.
    change (size_of (q_pts q) 0) with (List.length (xs q)) in HL.
    change (size_of (q_pts q) 2) with (List.length (zs q)) in HL.
    set (nx := List.length (xs q)) in *. set (ny := List.length (ys q)) in *. set (nz := List.length (zs q)) in *.
    destruct (flat3 k i j ny nx Hi Hj) as (D1 & D2 & D3).
    assert (HM : l_mask l ((k * ny + i) * nx + j)%nat = match q_mask q with Some m => mask_at3 m nz ny nx k i j | None => false end).
    { destruct (q_mask q) as [[|d0 d1 d2 f]|]; try discriminate. cbn [mask_at3].
      destruct (Nat.eqb d0 nz && Nat.eqb d1 ny && Nat.eqb d2 nx).
      - injection HL as <-. cbn [l_mask]. unfold flatten3. rewrite D1, D2, D3. reflexivity.
      - destruct (Nat.eqb d0 nx && Nat.eqb d2 nz && Nat.eqb d1 ny); [|discriminate]. injection HL as <-.
        cbn [l_mask]. unfold flatten3. rewrite D1, D2, D3. reflexivity. }
    rewrite HM. split.
    + intros H. remember ((k * ny + i) * nx + j)%nat as pp eqn:Epp.
      destruct H as [? ? ? ? Hd|k' i' j' m _ _ Hm Hk' Hi' Hj' Hv]; [discriminate|].
      destruct (U2 _ _ _ _ _ Hj' Hj Epp) as [E1 ->]. destruct (U2 _ _ _ _ _ Hi' Hi E1) as [-> ->].
      rewrite Hm. exact Hv.
    + destruct (q_mask q) as [m|] eqn:Em; [|discriminate]. intros H.
      eapply hidden3; try eassumption; reflexivity.
Qed.

Ltac ifd H :=
  match type of H with (if ?b then Err _ else _) = Ok _ => destruct b; [discriminate H|] end.

(** A successful execute used a known backend, and a usable window. *)
Lemma execute_ok_backend E o q r : ordinary o -> execute E o q = Ok r ->
  q_backend q = "vectorized"%string \/ q_backend q = "loop"%string \/ (o_class o = OK2 /\ q_backend q = "C"%string).
Proof.
  intros Hord H. unfold execute in H. destruct Hord as [Hc|Hc]; rewrite Hc in H.
  - unfold execute2 in H. ifd H. ifd H.
    bindok H. bindok H. bindok H. clear H. unfold effective_backend in E2. revert E2.
    destruct (String.eqb_spec (q_backend q) "C") as [EC|EC]; [right; right; auto|]. cbn [andb].
    destruct (String.eqb_spec (q_backend q) "loop") as [El|El]; [auto|].
    destruct (String.eqb_spec (q_backend q) "vectorized") as [Ev|Ev]; [auto|].
    intros E2; exfalso; revert E2. rewrite (proj2 (String.eqb_neq _ _) EC).
    destruct (q_window q); [|discriminate]. destruct (neighbours_error _ _ _ _ _); discriminate.
  - unfold execute3 in H. ifd H.
    bindok H. bindok H. bindok H. clear H. revert E2.
    destruct (String.eqb_spec (q_backend q) "loop") as [El|El]; [auto|].
    destruct (String.eqb_spec (q_backend q) "vectorized") as [Ev|Ev]; [auto|].
    intros E2; exfalso; revert E2. destruct (q_window q) as [k|]; [|discriminate]. destruct (Nat.eqb k 0); discriminate.
Qed.

Lemma execute_ok_window E o q r k : ordinary o -> q_window q = Some k -> execute E o q = Ok r ->
  (2 <= k)%nat /\ (q_backend q = "loop"%string \/ (o_class o = OK2 /\ q_backend q = "C"%string)).
Proof.
  intros Hord HW H.
  assert (Hb : q_backend q <> "vectorized"%string).
  { intros Ev. unfold execute in H. destruct Hord as [Hc|Hc]; rewrite Hc in H.
    - unfold execute2 in H. rewrite HW, Ev in H. ifd H. ifd H.
      bindok H. bindok H. cbn in H. destruct (neighbours_error _ _ _ _ _); discriminate.
    - unfold execute3 in H. rewrite HW, Ev in H. ifd H.
      bindok H. bindok H. cbn in H. destruct (Nat.eqb k 0); discriminate. }
  split.
  - unfold execute in H. destruct Hord as [Hc|Hc]; rewrite Hc in H.
    + unfold execute2 in H. rewrite HW in H. ifd H. destruct (Nat.leb_spec k 1); [discriminate|lia].
    + unfold execute3 in H. rewrite HW in H. ifd H. bindok H. bindok H. bindok H.
      destruct (Nat.eqb_spec k 0); [discriminate|]. destruct (String.eqb (q_backend q) "loop"); [|discriminate].
      destruct (Nat.eqb_spec k 1); [discriminate|lia].
  - destruct (execute_ok_backend E o q r Hord H) as [Hv|[Hl|Hl]]; [contradiction|auto|auto].
Qed.

Lemma execute_ok_ref E o q r : coords_inv o -> ordinary o -> faithful_backend E o q -> q_window q = None ->
  execute E o q = Ok r -> exists r', ref E o q = Ok r' /\ result_eq r r'.
Proof.
  intros Hinv Hord HF HW H.
  assert (HB : backend_ok E o (q_backend q)).
  { destruct (execute_ok_backend E o q r Hord H) as [Hb|[Hb|[Hc Hb]]]; unfold backend_ok; auto.
    right; right. split; [exact Hc|]. split; [exact Hb|]. intros Hcy. apply HF; assumption. }
  pose proof (execute_ref E o q Hinv Hord HW HB) as HR. destruct (ref E o q) as [r'|e]; [|congruence].
  destruct HR as (r'' & H1 & H2). exists r'. split; [reflexivity|]. congruence.
Qed.

Theorem execute_cells E o q r p pos : env_ok E -> coords_inv o -> ordinary o -> faithful_backend E o q ->
  execute E o q = Ok r -> cell (o_dim o) q p pos ->
  (p < shape_size (r_shape r))%nat /\
  (hidden (o_dim o) q p -> r_value r p = None /\ r_variance r p = None) /\
  (~ hidden (o_dim o) q p -> exists v s, r_value r p = Some v /\ r_variance r p = Some s /\
     (o_pinv o = false \/ q_window q <> None \/ solvable o pos -> kriged o q pos v s)).
Proof.
  intros HE Hinv Hord HF H C. unfold kriged. destruct (q_window q) as [k|] eqn:HW.
  - destruct (execute_ok_window E o q r k Hord HW H) as [Hk2 HB].
    assert (HWB : window_backend E o (q_backend q)).
    { destruct HB as [HB|[Hc HB]]; [left; exact HB|right]. split; [exact Hc|]. split; [exact HB|].
      intros Hcy. apply HF; assumption. }
    assert (HLo : exists l, locate (o_dim o) (q_style q) (q_pts q) (q_mask q) = Ok l /\
                  r_shape r = l_shape l /\ forall p, String.eqb (q_style q) "masked" && l_mask l p = true ->
                  r_value r p = None /\ r_variance r p = None).
    { pose proof H as H'. rewrite (execute_window_unfold E o q k Hinv Hord HW Hk2 HB) in H'. bindok H'. bindok H'. bindok H'.
      injection H' as <-. eexists; split; [reflexivity|]. split; [reflexivity|]. intros p' Hm.
      cbn [r_value r_variance finish fst snd]. apply andb_true_iff in Hm. destruct Hm as [-> ->]. auto. }
    destruct HLo as (l & HLo & Hsh & Hhid).
    destruct (locate_cell _ _ _ _ _ (o_dim_cases o) HLo C) as [Hp _].
    destruct (locate_facts _ _ _ _ _ (o_dim_cases o) HLo) as [Hn Hm].
    split; [rewrite Hsh, <- Hn; exact Hp|].
    pose proof (cell_hidden_mask _ q l p pos (o_dim_cases o) HLo C) as HH. split.
    + intros Hh. apply Hhid, HH, Hh.
    + intros Hh.
      assert (Hmk : String.eqb (q_style q) "masked" && l_mask l p = false) by (apply not_true_iff_false; intros Hx; apply Hh, HH, Hx).
      assert (Hml : l_mask l p = false).
      { destruct Hm as [Hm|Hm]; [|apply Hm]. rewrite Hm in Hmk. exact Hmk. }
      assert (HkN : (k <= o_n o)%nat).
      { destruct (Nat.le_gt_cases k (o_n o)) as [Hle|Hgt]; [exact Hle|exfalso].
        apply (window_too_large E o q k r p pos l HE Hinv Hord HW HB Hk2 Hgt C HLo Hml H). }
      destruct (window_cell E o q k r p pos HE Hinv Hord HW HWB (conj Hk2 HkN) H C) as (_ & l' & HLo' & HV).
      rewrite HLo in HLo'. injection HLo' as <-. rewrite Hmk in HV.
      destruct HV as (v & s & sel & H1 & H2 & H3 & H4 & H5). exists v, s. split; [exact H1|]. split; [exact H2|].
      intros _. split; [lia|]. exists sel. auto.
  - destruct (execute_ok_ref E o q r Hinv Hord HF HW H) as (r' & HR & Hsh & Heq).
    destruct HE as (HL & _). destruct (ref_cell E o q r' p pos HL Hinv HR C) as (Hp & l & HLo & HV).
    rewrite <- Hsh in Hp. split; [exact Hp|]. destruct (Heq p Hp) as [-> ->].
    pose proof (cell_hidden_mask _ q l p pos (o_dim_cases o) HLo C) as HH. split.
    + intros Hh. apply HH in Hh. rewrite Hh in HV. exact HV.
    + intros Hh. destruct (String.eqb (q_style q) "masked" && l_mask l p); [exfalso; apply Hh, HH; reflexivity|].
      destruct HV as (v & s & H1 & H2 & H3). exists v, s. split; [exact H1|]. split; [exact H2|].
      intros [Hi|[Hi|Hi]]; [apply H3; auto|contradiction|apply H3; auto].
Qed.

Lemma execute_regular E o q r : env_ok E -> coords_inv o -> ordinary o -> faithful_backend E o q ->
  q_window q = None -> o_pinv o = false -> execute E o q = Ok r -> regular o.
Proof.
  intros (HL & _) Hinv Hord HF HW Hp H. destruct (execute_ok_ref E o q r Hinv Hord HF HW H) as (r' & HR & _).
  apply (ref_ok_nopinv E o q r' HL Hinv Hp HR).
Qed.
