(** Proofs for C32. *)
From Coq Require Import String.
From Verif Require Import Base Sums Matrix M_Variogram M_Geometry P_Geometry M_Kriging M_Init M_Object M_Execute S_Execute P_Object P_State M_Heap S_Heap.

Lemma put_same {A} (f : ref -> A) r a : put f r a r = a.
Proof. unfold put. rewrite Nat.eqb_refl. reflexivity. Qed.
Lemma put_other {A} (f : ref -> A) r a r' : r' <> r -> put f r a r' = f r'.
Proof. intros H. unfold put. rewrite (proj2 (Nat.eqb_neq _ _) H). reflexivity. Qed.

Lemma adds_refl h : only_adds h h.
Proof. split; [lia|]. split; [intros; split; reflexivity|]. intros r H. lia. Qed.
Lemma adds_trans h h' h'' : only_adds h h' -> only_adds h' h'' -> only_adds h h''.
Proof.
  intros (A1 & A2 & A3) (B1 & B2 & B3). split; [lia|]. split.
  - intros r Hr. destruct (B2 r) as [-> ->]; [lia|]. apply A2, Hr.
  - intros r Hr. destruct (Nat.lt_ge_cases r (h_next h')) as [H|H].
    + destruct (B2 r H) as [_ ->]. apply A3. lia.
    + apply B3. lia.
Qed.
Lemma adds_rd h h' r : only_adds h h' -> (r < h_next h)%nat -> rd h' r = rd h r.
Proof. intros (_ & A & _) H. unfold rd. rewrite (proj1 (A r H)). reflexivity. Qed.
Lemma adds_tab h h' r : only_adds h h' -> (r < h_next h)%nat -> tab h' r = tab h r.
Proof. intros (_ & A & _) H. unfold tab. rewrite (proj1 (A r H)). reflexivity. Qed.
Lemma adds_funs h h' r : only_adds h h' -> (r < h_next h)%nat -> funs h' r = funs h r.
Proof. intros (_ & A & _) H. unfold funs. rewrite (proj1 (A r H)). reflexivity. Qed.
Lemma adds_map h h' rs : only_adds h h' -> Forall (fun r => (r < h_next h)%nat) rs -> map (rd h') rs = map (rd h) rs.
Proof. intros A H. apply map_ext_in. intros r Hr. apply adds_rd; [exact A|]. revert r Hr. apply Forall_forall, H. Qed.
Lemma adds_next h h' : only_adds h h' -> (h_next h <= h_next h')%nat.
Proof. intros (H & _). exact H. Qed.

Lemma alloc_spec c h : exists h', alloc c h = (h', Ok (h_next h)) /\ only_adds h h' /\ h_at h' (h_next h) = c /\ h_next h' = S (h_next h).
Proof.
  eexists. split; [reflexivity|]. split; [|split; [cbn; apply put_same|reflexivity]].
  split; [cbn; lia|]. split; cbn; intros r Hr.
  - rewrite !put_other by lia. split; reflexivity.
  - replace r with (h_next h) by lia. apply put_same.
Qed.

Definition fresh (h h' : heap) (r : ref) : Prop := (h_next h <= r < h_next h')%nat.
Lemma fresh_weaken h h0 h1 h' r : only_adds h h0 -> only_adds h1 h' -> fresh h0 h1 r -> fresh h h' r.
Proof. intros (A & _) (B & _) [C D]. unfold fresh. lia. Qed.
Lemma fresh_user h h' r : only_adds h h' -> fresh h h' r -> h_user h' r = false.
Proof. intros (_ & _ & A) H. apply A, H. Qed.

Lemma copy_spec r h : (r < h_next h)%nat -> exists h' a, copy r h = (h', Ok a) /\ only_adds h h' /\ fresh h h' a /\ h_at h' a = h_at h r.
Proof.
  intros Hr. unfold copy, hbind, look. destruct (alloc_spec (h_at h r) h) as (h' & -> & A & B & C).
  exists h', (h_next h). split; [reflexivity|]. split; [exact A|]. split; [unfold fresh; lia|exact B].
Qed.
Lemma copies_spec rs : forall h, Forall (fun r => (r < h_next h)%nat) rs ->
  exists h' l, copies rs h = (h', Ok l) /\ only_adds h h' /\ Forall (fresh h h') l /\ map (rd h') l = map (rd h) rs.
Proof.
  induction rs as [|r rs IH]; intros h HF.
  - exists h, []. split; [reflexivity|]. split; [apply adds_refl|]. split; [constructor|reflexivity].
  - inversion HF as [|? ? H1 H2]; subst. cbn [copies]. unfold hbind.
    destruct (copy_spec r h H1) as (h1 & a & -> & A1 & F1 & E1).
    destruct (IH h1) as (h2 & l & -> & A2 & F2 & E2).
    { apply Forall_forall. intros x Hx. pose proof (proj1 (Forall_forall _ _) H2 x Hx) as K. cbn beta in K. pose proof (adds_next _ _ A1). lia. }
    exists h2, (a :: l). split; [reflexivity|]. split; [apply (adds_trans _ _ _ A1 A2)|]. split.
    + constructor; [apply (fresh_weaken h h h1 h2 a (adds_refl h) A2 F1)|].
      apply Forall_forall. intros x Hx. apply (fresh_weaken h h1 h2 h2 x A1 (adds_refl h2)). revert x Hx. apply Forall_forall, F2.
    + cbn [map]. f_equal.
      * rewrite (adds_rd h1 h2 a A2) by apply F1. unfold rd. rewrite E1. reflexivity.
      * rewrite E2. apply adds_map; [exact A1|exact H2].
Qed.

(** adjusting an array that did not exist in [h0] *)
Lemma adjust_h_spec h0 int ndim X center sc an h : only_adds h0 h -> fresh h0 h X ->
  exists h' r, adjust_h int ndim X center sc an h = (h', r) /\ only_adds h0 h' /\
    match r with
    | Ok Y => fresh h0 h' Y /\ adjust_for_anisotropy int ndim (tab h X) center sc an = Ok (tab h' Y)
    | Err e => adjust_for_anisotropy int ndim (tab h X) center sc an = Err e
    end.
Proof.
  intros A F. unfold adjust_h, adjust_for_anisotropy.
  destruct int; [exists h, (Err TypeError); split; [reflexivity|]; split; [exact A|reflexivity]|].
  unfold hbind at 1. unfold look at 1. unfold hbind at 1. unfold store at 1.
  set (h1 := write X (Tab (fun i j => tab h X i j - center j)) h).
  assert (A1 : only_adds h0 h1).
  { destruct A as (B1 & B2 & B3). split; [exact B1|]. split; [|exact B3]. intros r Hr. cbn. rewrite put_other by (destruct F; lia). apply B2, Hr. }
  assert (T1 : tab h1 X = (fun i j => tab h X i j - center j)) by (unfold tab at 1; cbn; rewrite put_same; reflexivity).
  unfold hbind at 1, lift.
  destruct (stretch_rot ndim sc (fun k => an k * PI / 180)) as [[st rt]|e].
  2: { exists h1, (Err e). split; [reflexivity|]. split; [exact A1|reflexivity]. }
  cbn [bind]. unfold hbind at 1. unfold look at 1. rewrite T1. unfold hbind at 1.
  destruct (alloc_spec (Tab (trm (mulm ndim st (mulm ndim rt (trm (fun i j => tab h X i j - center j)))))) h1) as (h2 & -> & A2 & E2 & N2).
  unfold hbind, look, store, ret. set (Y := h_next h1).
  assert (T2 : tab h2 Y = trm (mulm ndim st (mulm ndim rt (trm (fun i j => tab h X i j - center j))))) by (unfold tab at 1; unfold Y; rewrite E2; reflexivity).
  rewrite T2. set (h3 := write _ _ h2).
  assert (FY : fresh h0 h2 Y) by (split; [apply (adds_next _ _ A1)|unfold Y; lia]).
  pose proof (adds_trans _ _ _ A1 A2) as A3.
  exists h3, (Ok Y). split; [reflexivity|]. split.
  { destruct A3 as (B1 & B2 & B3). split; [exact B1|]. split; [|exact B3]. intros r Hr. assert (HY : r <> Y) by (destruct FY; lia). change (h_at h3 r) with (put (h_at h2) Y (Tab (fun i j => trm (mulm ndim st (mulm ndim rt (trm (fun i j => tab h X i j - center j)))) i j + center j)) r). rewrite put_other by exact HY. apply B2, Hr. }
  split; [exact FY|]. f_equal. unfold tab. cbn. rewrite put_same. reflexivity.
Qed.

Lemma vstackT_spec rs h : exists h', vstackT rs h = (h', Ok (h_next h)) /\ only_adds h h' /\ fresh h h' (h_next h) /\ tab h' (h_next h) = columns (map (rd h) rs).
Proof.
  unfold vstackT, hbind, look. destruct (alloc_spec (Tab (columns (map (rd h) rs))) h) as (h' & -> & A & B & C).
  exists h'. split; [reflexivity|]. split; [exact A|]. split; [unfold fresh; lia|]. unfold tab. rewrite B. reflexivity.
Qed.

(** parameter lists: the returned list is either new or the user's own *)
Definition kept (name : string) (p : hparams) (r : ref) : Prop :=
  p = HList r /\ (name = "linear" \/ name = "power" \/ name = "custom")%string.
Lemma params_h_spec name p h : params_exist h p ->
  exists h' x, make_parameter_list_h name p h = (h', x) /\ only_adds h h' /\
    match x with
    | Ok None => make_parameter_list name (deref_params h p) = Ok None
    | Ok (Some r) => make_parameter_list name (deref_params h p) = Ok (Some (rd h' r)) /\ (r < h_next h')%nat /\ (fresh h h' r \/ kept name p r) /\ (forall r0, kept name p r0 -> r = r0)
    | Err e => make_parameter_list name (deref_params h p) = Err e
    end.
Proof.
  intros HP. destruct p as [|d|r|].
  - exists h, (Ok None). split; [reflexivity|]. split; [apply adds_refl|reflexivity].
  - unfold make_parameter_list_h, hbind, lift. cbn [deref_params]. destruct (make_parameter_list name (PDict d)) as [[l|]|e].
    + destruct (alloc_spec (Row l) h) as (h' & -> & A & B & C). exists h', (Ok (Some (h_next h))).
      split; [reflexivity|]. split; [exact A|]. split; [unfold rd; rewrite B; reflexivity|]. split; [lia|]. split; [left; unfold fresh; lia|]. intros r0 [K _]. discriminate K.
    + exists h, (Ok None). split; [reflexivity|]. split; [apply adds_refl|reflexivity].
    + exists h, (Err e). split; [reflexivity|]. split; [apply adds_refl|reflexivity].
  - cbn in HP. cbn [deref_params make_parameter_list]. unfold make_parameter_list_h. unfold hbind at 1. unfold look at 1.
    destruct (String.eqb_spec name "linear") as [->|].
    { destruct (negb (Nat.eqb (List.length (rd h r)) 2)); [exists h, (Err ValueError)|exists h, (Ok (Some r))];
        (split; [reflexivity|]); (split; [apply adds_refl|]); [reflexivity|].
      split; [reflexivity|]. split; [exact HP|]. split; [right; split; [reflexivity|]; auto|]. intros r0 [K _]. injection K as <-. reflexivity. }
    destruct (String.eqb_spec name "power") as [->|].
    { destruct (negb (Nat.eqb (List.length (rd h r)) 3)); [exists h, (Err ValueError)|exists h, (Ok (Some r))];
        (split; [reflexivity|]); (split; [apply adds_refl|]); [reflexivity|].
      split; [reflexivity|]. split; [exact HP|]. split; [right; split; [reflexivity|]; auto|]. intros r0 [K _]. injection K as <-. reflexivity. }
    destruct (in_names name three_param_models) eqn:ETP.
    { destruct (negb (Nat.eqb (List.length (rd h r)) 3)).
      - exists h, (Err ValueError). split; [reflexivity|]. split; [apply adds_refl|reflexivity].
      - set (l := rd h r). unfold hbind. destruct (alloc_spec (Row [rnth l 0 - rnth l 2; rnth l 1; rnth l 2]) h) as (h' & -> & A & B & C).
        exists h', (Ok (Some (h_next h))).
        split; [reflexivity|]. split; [exact A|]. split; [unfold rd at 1; rewrite B; reflexivity|]. split; [lia|]. split; [left; unfold fresh; lia|]. intros r0 [_ [K|[K|K]]]; subst name; [congruence|congruence|discriminate ETP]. }
    destruct (String.eqb_spec name "custom") as [->|].
    { exists h, (Ok (Some r)). split; [reflexivity|]. split; [apply adds_refl|].
      split; [reflexivity|]. split; [exact HP|]. split; [right; split; [reflexivity|]; auto|]. intros r0 [K _]. injection K as <-. reflexivity. }
    exists h, (Err ValueError). split; [reflexivity|]. split; [apply adds_refl|reflexivity].
  - exists h, (Err TypeError). split; [reflexivity|]. split; [apply adds_refl|reflexivity].
Qed.

Lemma resolve_h_spec E c ct v h : params_exist h (v_params v) ->
  exists h' x, resolve_gs_h E c ct v h = (h', x) /\ only_adds h h' /\
    match x with
    | Ok (name, p, fn, sc, an) => resolve_gs E c ct (deref_v h v) = Ok (name, deref_params h' p, fn, sc, an) /\ params_exist h' p /\
        (forall r, p = HList r -> fresh h h' r \/ (v_model v = VName name /\ v_params v = HList r)) /\
        (forall s, v_model v = VName s -> name = s /\ p = v_params v)
    | Err e => resolve_gs E c ct (deref_v h v) = Err e
    end.
Proof.
  intros HP. unfold resolve_gs_h. destruct (v_model v) as [s|m] eqn:EM.
  - exists h, (Ok (s, v_params v, v_fun v, v_scaling v, v_angle v)). split; [reflexivity|]. split; [apply adds_refl|].
    split; [unfold resolve_gs; cbn [deref_v a_model]; rewrite EM; reflexivity|]. split; [exact HP|].
    split; [intros r Hr; right; split; [reflexivity|exact Hr]|]. intros s0 Hs. injection Hs as <-. split; reflexivity.
  - unfold hbind at 1. unfold look at 1. unfold hbind at 1, lift.
    assert (HR : (exists e, resolve_gs E c ct (deref_v h v) = Err e) \/ exists name fn sc an, resolve_gs E c ct (deref_v h v) = Ok (name, PList [], fn, sc, an)).
    { unfold resolve_gs. cbn [deref_v a_model]. rewrite EM. destruct (validate_gstools E m); cbn [bind]; [|eauto].
      destruct (match c with OK2 => _ | UK2 => _ | OK3 => _ | UK3 => _ end); cbn [bind]; eauto 10. }
    destruct HR as [[e HR]|(name & fn & sc & an & HR)]; rewrite HR.
    + exists h, (Err e). split; [reflexivity|]. split; [apply adds_refl|reflexivity].
    + unfold hbind. destruct (alloc_spec (Row []) h) as (h' & -> & A & B & C). unfold ret.
      exists h', (Ok (name, HList (h_next h), fn, sc, an)). split; [reflexivity|]. split; [exact A|].
      split; [cbn [deref_params]; unfold rd; rewrite B; reflexivity|]. split; [cbn; lia|].
      split; [intros r Hr; left; injection Hr as <-; unfold fresh; lia|]. discriminate.
Qed.

Lemma initialize_some fit ct ndim n X ny y name p f nlags w lags sv params :
  initialize_variogram_model fit ct ndim n X ny y name (Some p) f nlags w = Ok (lags, sv, params) -> params = p.
Proof.
  unfold initialize_variogram_model. intros H.
  repeat match type of H with
  | bind ?e _ = _ => destruct e; cbn [bind] in H; try discriminate H
  | (if ?b then _ else _) = _ => destruct b; try discriminate H
  | match ?b with _ => _ end = _ => destruct b; try discriminate H
  end; congruence.
Qed.

Lemma initialize_h_spec E ct ndim n X ny y name vp f nlags w h :
  (forall r, vp = Some r -> (r < h_next h)%nat) ->
  exists h' x, initialize_h E ct ndim n X ny y name vp f nlags w h = (h', x) /\ only_adds h h' /\
    match x with
    | Ok (lags, sv, r) => initialize_variogram_model (e_fit E) ct ndim n X ny y name (option_map (rd h) vp) f nlags w = Ok (lags, sv, rd h' r) /\
        (r < h_next h')%nat /\ (fresh h h' r \/ vp = Some r) /\ (forall r0, vp = Some r0 -> r = r0)
    | Err e => initialize_variogram_model (e_fit E) ct ndim n X ny y name (option_map (rd h) vp) f nlags w = Err e
    end.
Proof.
  intros HV. unfold initialize_h. unfold hbind at 1. unfold look. unfold hbind at 1, lift.
  destruct (initialize_variogram_model (e_fit E) ct ndim n X ny y name (option_map (rd h) vp) f nlags w) as [[[lags sv] params]|e] eqn:EI.
  2: { exists h, (Err e). split; [reflexivity|]. split; [apply adds_refl|reflexivity]. }
  destruct vp as [r|].
  - cbn [option_map] in EI. apply initialize_some in EI. subst params.
    exists h, (Ok (lags, sv, r)). split; [reflexivity|]. split; [apply adds_refl|]. split; [reflexivity|]. split; [apply HV; reflexivity|]. split; [auto|]. intros r0 K. injection K as <-. reflexivity.
  - unfold hbind. destruct (alloc_spec (Row params) h) as (h' & -> & A & B & C). unfold ret.
    exists h', (Ok (lags, sv, h_next h)). split; [reflexivity|]. split; [exact A|].
    split; [unfold rd; rewrite B; reflexivity|]. split; [lia|]. split; [left; unfold fresh; lia|discriminate].
Qed.
