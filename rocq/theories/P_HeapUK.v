(** C32 for universal kriging. *)
From Coq Require Import String.
From Verif Require Import Base Sums Matrix M_Variogram M_Geometry P_Geometry M_Kriging M_Init M_Object M_Execute S_Execute P_Object P_State M_UK M_Heap S_Heap M_HeapUK S_HeapUK P_Heap P_Heap2 P_Heap3.

Lemma adds_wells h h' r : only_adds h h' -> (r < h_next h)%nat -> wells h' r = wells h r.
Proof. intros (_ & A & _) H. unfold wells. rewrite (proj1 (A r H)). reflexivity. Qed.

Lemma deref_d_adds h h' D : only_adds h h' -> drift_exists h D -> deref_d h' D = deref_d h D.
Proof.
  intros A (H1 & H2 & H3 & H4 & H5 & H6). unfold deref_d.
  replace (option_map (fun p => (fst p, wells h' (snd p))) (t_point D)) with (option_map (fun p => (fst p, wells h (snd p))) (t_point D)).
  2: { destruct (t_point D) as [[b r]|]; [|reflexivity]. cbn in *. rewrite (adds_wells h h' r A H1). reflexivity. }
  replace (option_map (fun p => (fst p, tab h' (snd p))) (t_ext D)) with (option_map (fun p => (fst p, tab h (snd p))) (t_ext D)).
  2: { destruct (t_ext D) as [[[a b] r]|]; [|reflexivity]. cbn in *. rewrite (adds_tab h h' r A H2). reflexivity. }
  replace (option_map (rd h') (t_ext_x D)) with (option_map (rd h) (t_ext_x D)).
  2: { destruct (t_ext_x D) as [r|]; [|reflexivity]. cbn in *. rewrite (adds_rd h h' r A H3). reflexivity. }
  replace (option_map (rd h') (t_ext_y D)) with (option_map (rd h) (t_ext_y D)).
  2: { destruct (t_ext_y D) as [r|]; [|reflexivity]. cbn in *. rewrite (adds_rd h h' r A H4). reflexivity. }
  replace (option_map (map (rd h')) (t_spec D)) with (option_map (map (rd h)) (t_spec D)).
  2: { destruct (t_spec D) as [ts|]; [|reflexivity]. cbn. rewrite (adds_map h h' ts A (H5 ts eq_refl)). reflexivity. }
  replace (option_map (funs h') (t_fun D)) with (option_map (funs h) (t_fun D)).
  2: { destruct (t_fun D) as [r|]; [|reflexivity]. cbn in *. rewrite (adds_funs h h' r A H6). reflexivity. }
  reflexivity.
Qed.
Lemma drift_exists_adds h h' D : only_adds h h' -> drift_exists h D -> drift_exists h' D.
Proof.
  intros A. pose proof (adds_next _ _ A) as L. intros (H1 & H2 & H3 & H4 & H5 & H6).
  assert (K : forall o, olt h o -> olt h' o) by (intros [r|]; cbn; lia).
  unfold drift_exists. split; [auto|]. split; [auto|]. split; [auto|]. split; [auto|]. split; [|auto].
  intros ts Hts. apply (Forall_lt_mono h h' _ L), (H5 ts Hts).
Qed.

Lemma external_h_spec D o h : drift_exists h D ->
  exists h' x, init_external_h D o h = (h', x) /\ only_adds h h' /\
    match x with
    | Ok (a, x, y, zs) => init_external (deref_d h D) o = Ok (tab h' a, rd h' x, rd h' y, zs) /\ fresh h h' a /\ fresh h h' x /\ fresh h h' y
    | Err e => init_external (deref_d h D) o = Err e
    end.
Proof.
  intros (_ & H2 & H3 & H4 & _). unfold init_external_h, init_external. cbn [deref_d d_ext d_ext_x d_ext_y].
  destruct (t_ext D) as [[[rows cols] f]|]; cbn [option_map fst snd] in *; [|done_err; apply adds_refl].
  destruct (t_ext_x D) as [ex|]; cbn [option_map] in *; [|destruct (t_ext_y D); done_err; apply adds_refl].
  destruct (t_ext_y D) as [ey|]; cbn [option_map] in *; [|done_err; apply adds_refl]. cbn in H2, H3, H4.
  bind1. unfold look at 1. bind1. unfold look at 1. bind1. unfold look at 1.
  set (arrp := if negb (Nat.eqb rows (List.length (rd h ey))) || negb (Nat.eqb cols (List.length (rd h ex))) then
      if Nat.eqb rows (List.length (rd h ex)) && Nat.eqb cols (List.length (rd h ey)) then Ok (trm (tab h f)) else Err ValueError else Ok (tab h f)).
  set (arrh := if negb (Nat.eqb rows (List.length (rd h ey))) || negb (Nat.eqb cols (List.length (rd h ex))) then
      if Nat.eqb rows (List.length (rd h ex)) && Nat.eqb cols (List.length (rd h ey)) then alloc (Tab (trm (tab h f))) else raise ValueError else alloc (Tab (tab h f))).
  assert (HA : exists h1 a, arrh h = (h1, a) /\ only_adds h h1 /\ match a with Ok a => arrp = Ok (tab h1 a) /\ fresh h h1 a | Err e => arrp = Err e end).
  { unfold arrh, arrp. destruct (negb _ || negb _); [destruct (_ && _); [|done_err; apply adds_refl]|];
      (match goal with |- context [alloc ?c h] => destruct (alloc_spec c h) as (h1 & -> & A1 & T1 & N1) end;
       exists h1, (Ok (h_next h)); split; [reflexivity|]; split; [exact A1|]; split; [unfold tab at 2; rewrite T1; reflexivity|unfold fresh; lia]). }
  clearbody arrp arrh. destruct HA as (h1 & a & HA & A1 & X1). bind1. rewrite HA.
  destruct a as [a|e]; [|rewrite X1; done_err; exact A1]. destruct X1 as [-> F1]. cbn [bind].
  pose proof (adds_next _ _ A1) as L1.
  bind1. destruct (copy_spec ex h1 ltac:(lia)) as (h2 & x & -> & A2 & F2 & E2). pose proof (adds_next _ _ A2) as L2.
  bind1. destruct (copy_spec ey h2 ltac:(lia)) as (h3 & y & -> & A3 & F3 & E3). pose proof (adds_next _ _ A3) as L3.
  bind1. unfold look at 1. bind1. unfold look at 1. bind1. unfold look at 1. bind1. unfold lift at 1.
  assert (TA : tab h3 a = tab h1 a) by (apply adds_tab; [exact (adds_trans _ _ _ A2 A3)|apply F1]).
  assert (TX : rd h3 x = rd h ex).
  { rewrite (adds_rd h2 h3 x A3) by apply F2. unfold rd at 1. rewrite E2. change (rd h1 ex = rd h ex). apply adds_rd; [exact A1|exact H3]. }
  assert (TY : rd h3 y = rd h ey).
  { unfold rd at 1. rewrite E3. change (rd h2 ey = rd h ey). rewrite (adds_rd h1 h2 ey A2) by lia. apply adds_rd; [exact A1|exact H4]. }
  rewrite TA, TX, TY.
  pose proof (adds_trans _ _ _ A1 (adds_trans _ _ _ A2 A3)) as A03.
  destruct (zscalars (tab h1 a) (rd h ex) (rd h ey) (o_n o) _ _) as [zs|e]; cbn [bind]; [|done_err; exact A03].
  exists h3, (Ok (a, x, y, zs)). split; [reflexivity|]. split; [exact A03|]. cbv beta iota. rewrite TA, TX, TY. split; [reflexivity|].
  split; [exact (fresh_weaken h h h1 h3 a (adds_refl h) (adds_trans _ _ _ A2 A3) F1)|].
  split; [exact (fresh_weaken h h1 h2 h3 x A1 A3 F2)|exact (fresh_weaken h h2 h3 h3 y (adds_trans _ _ _ A1 A2) (adds_refl h3) F3)].
Qed.

Lemma wells_h_spec D o h : drift_exists h D ->
  exists h' x, init_wells_h D o h = (h', x) /\ only_adds h h' /\
    match x with
    | Ok r => init_wells (deref_d h D) o = Ok (wells h' r) /\ fresh h h' r
    | Err e => init_wells (deref_d h D) o = Err e
    end.
Proof.
  intros (H1 & _). unfold init_wells_h, init_wells. cbn [deref_d d_point].
  destruct (t_point D) as [[it p]|]; cbn [option_map fst snd] in *; [|done_err; apply adds_refl]. cbn in H1.
  bind1. destruct (copy_spec p h H1) as (h1 & c & -> & A1 & F1 & E1). bind1. unfold look at 1.
  replace (wells h1 c) with (wells h p) by (unfold wells; rewrite E1; reflexivity).
  destruct (wells h p) as [|w0 ws]; [done_err; exact A1|]. set (rows := w0 :: ws).
  bind1. destruct (alloc_spec (Wells []) h1) as (h2 & -> & A2 & T2 & N2). cbv zeta.
  set (P := fun i j => match nth i rows (0, 0, 0) with (x, y, _) => match j with 0%nat => x | _ => y end end).
  bind1. destruct (alloc_spec (Tab P) h2) as (h3 & -> & A3 & T3 & N3).
  pose proof (adds_next _ _ A1) as L1. pose proof (adds_next _ _ A2) as L2. pose proof (adds_next _ _ A3) as L3.
  assert (F3 : fresh h2 h3 (h_next h2)) by (unfold fresh; lia).
  bind1. destruct (adjust_h_spec h2 it 2 (h_next h2) (o_center o) (o_scaling o) (o_angle o) h3 A3 F3) as (h4 & y & -> & A4 & Y4).
  assert (TP : tab h3 (h_next h2) = P) by (unfold tab; rewrite T3; reflexivity). rewrite TP in Y4.
  pose proof (adds_trans _ _ _ A1 (adds_trans _ _ _ A2 A4)) as A04.
  destruct y as [Y|e]; [|rewrite Y4; done_err; exact A04]. destruct Y4 as [FY Y4]. rewrite Y4. cbn [bind].
  bind1. unfold look at 1. bind1. unfold store at 1, ret. set (arr := h_next h1).
  set (W := Wells _). pose proof (adds_next _ _ A4) as L4.
  exists (write arr W h4), (Ok arr). split; [reflexivity|].
  assert (FA : fresh h h4 arr) by (unfold fresh, arr; lia).
  split; [|split].
  - destruct A04 as (B1 & B2 & B3). split; [exact B1|]. split; [|exact B3]. intros r Hr.
    change (h_at (write arr W h4) r) with (put (h_at h4) arr W r). rewrite put_other by (destruct FA; lia). apply B2, Hr.
  - unfold wells. change (h_at (write arr W h4) arr) with (put (h_at h4) arr W arr). rewrite put_same. reflexivity.
  - exact FA.
Qed.

Lemma specified_h_spec n ts : forall h, Forall (fun r => (r < h_next h)%nat) ts ->
  exists h' x, specified_h n ts h = (h', x) /\ only_adds h h' /\
    match x with
    | Ok rs => mapM (fun t => if negb (Nat.eqb (List.length t) n) then Err ValueError else Ok (rnth t)) (map (rd h) ts)
                 = Ok (map (fun r => rnth (rd h' r)) rs) /\ Forall (fresh h h') rs
    | Err e => mapM (fun t => if negb (Nat.eqb (List.length t) n) then Err ValueError else Ok (rnth t)) (map (rd h) ts) = Err e
    end.
Proof.
  induction ts as [|t ts IH]; intros h HF.
  - exists h, (Ok []). split; [reflexivity|]. split; [apply adds_refl|]. split; [reflexivity|constructor].
  - inversion HF as [|? ? H1 H2]; subst. cbn [specified_h map mapM].
    bind1. destruct (copy_spec t h H1) as (h1 & r & -> & A1 & F1 & E1). bind1. unfold look at 1.
    replace (rd h1 r) with (rd h t) by (unfold rd; rewrite E1; reflexivity).
    destruct (negb (Nat.eqb (List.length (rd h t)) n)); cbn [bind]; [done_err; exact A1|].
    destruct (IH h1 (Forall_lt_mono h h1 ts (adds_next _ _ A1) H2)) as (h2 & x & K & A2 & X2). bind1. rewrite K.
    rewrite (adds_map h h1 ts A1 H2) in X2. pose proof (adds_trans _ _ _ A1 A2) as A02.
    destruct x as [rs|e]; [|rewrite X2; done_err; exact A02]. destruct X2 as [-> F2]. cbn [bind].
    exists h2, (Ok (r :: rs)). split; [reflexivity|]. split; [exact A02|]. split.
    + cbn [map]. f_equal. f_equal. f_equal. rewrite (adds_rd h1 h2 r A2) by apply F1. unfold rd. rewrite E1. reflexivity.
    + constructor; [exact (fresh_weaken h h h1 h2 r (adds_refl h) A2 F1)|].
      eapply Forall_impl; [|exact F2]. intros x Hx. exact (fresh_weaken h h1 h2 h2 x A1 (adds_refl h2) Hx).
Qed.

Lemma init_specified_h_spec D o h : drift_exists h D ->
  exists h' x, init_specified_h D o h = (h', x) /\ only_adds h h' /\
    match x with
    | Ok rs => init_specified (deref_d h D) o = Ok (map (fun r => rnth (rd h' r)) rs) /\ Forall (fresh h h') rs
    | Err e => init_specified (deref_d h D) o = Err e
    end.
Proof.
  intros (_ & _ & _ & _ & H5 & _). unfold init_specified_h, init_specified. cbn [deref_d d_spec].
  destruct (t_spec D) as [[|t ts]|]; cbn [option_map map]; try (done_err; apply adds_refl).
  exact (specified_h_spec (o_n o) (t :: ts) h (H5 _ eq_refl)).
Qed.

Lemma functional_h_spec D h : drift_exists h D ->
  exists x, init_functional_h D h = (h, x) /\
    match x with
    | Ok r => init_functional (deref_d h D) = Ok (funs h r) /\ t_fun D = Some r /\ (r < h_next h)%nat
    | Err e => init_functional (deref_d h D) = Err e
    end.
Proof.
  intros (_ & _ & _ & _ & _ & H6). unfold init_functional_h, init_functional. cbn [deref_d d_fun].
  destruct (t_fun D) as [r|]; cbn [option_map]; [|eexists; split; reflexivity]. cbn in H6.
  bind1. unfold look. destruct (funs h r) as [|f0 fs] eqn:EF; [eexists; split; reflexivity|].
  exists (Ok r). split; [reflexivity|]. cbv beta iota. rewrite EF. split; [reflexivity|]. split; [reflexivity|exact H6].
Qed.

Theorem init_drift_h_spec c D o h : drift_exists h D ->
  exists h' x, init_drift_h c D o h = (h', x) /\ only_adds h h' /\
    match x with
    | Ok d => init_drift c (deref_d h D) o = Ok (view_drift h' d) /\
              (forall r, In r (drift_refs d) -> (r < h_next h')%nat /\ (fresh h h' r \/ t_fun D = Some r))
    | Err e => init_drift c (deref_d h D) o = Err e
    end.
Proof.
  intros HD. unfold init_drift_h, init_drift. cbv zeta. cbn [deref_d d_terms].
  (* external *)
  set (b1 := (match c with UK2 => true | _ => false end) && in_names "external_Z" (t_terms D)).
  assert (S1 : exists h1 x, opt_drift_h b1 (init_external_h D o) h = (h1, x) /\ only_adds h h1 /\
    match x with Ok e => opt_drift b1 (init_external (deref_d h D) o) =
        Ok (option_map (fun p => match p with (a, x, y, zs) => (tab h1 a, rd h1 x, rd h1 y, zs) end) e) /\
        forall r, In r (match e with Some (a, x, y, _) => [a; x; y] | None => [] end) -> fresh h h1 r
    | Err e => opt_drift b1 (init_external (deref_d h D) o) = Err e end).
  { unfold opt_drift_h, opt_drift. destruct b1; [|exists h, (Ok None); split; [reflexivity|]; split; [apply adds_refl|]; split; [reflexivity|intros r []]].
    destruct (external_h_spec D o h HD) as (h1 & x & K & A & X). bind1. rewrite K. destruct x as [[[[a x] y] zs]|e]; [|rewrite X; done_err; exact A].
    destruct X as (-> & F1 & F2 & F3). exists h1, (Ok (Some (a, x, y, zs))). split; [reflexivity|]. split; [exact A|]. split; [reflexivity|].
    intros r [<-|[<-|[<-|[]]]]; assumption. }
  destruct S1 as (h1 & x1 & K1 & A1 & X1). fold b1. bind1. rewrite K1. destruct x1 as [e1|e]; [|rewrite X1; done_err; exact A1].
  destruct X1 as [X1 R1]. rewrite X1. cbn [bind]. clear K1 X1.
  pose proof (drift_exists_adds h h1 D A1 HD) as HD1. rewrite <- (deref_d_adds h h1 D A1 HD).
  (* wells *)
  set (b2 := (match c with UK2 => true | _ => false end) && in_names "point_log" (t_terms D)).
  assert (S2 : exists h2 x, opt_drift_h b2 (init_wells_h D o) h1 = (h2, x) /\ only_adds h1 h2 /\
    match x with Ok w => opt_drift b2 (init_wells (deref_d h1 D) o) = Ok (option_map (wells h2) w) /\
        forall r, In r (olist w) -> fresh h1 h2 r
    | Err e => opt_drift b2 (init_wells (deref_d h1 D) o) = Err e end).
  { unfold opt_drift_h, opt_drift. destruct b2; [|exists h1, (Ok None); split; [reflexivity|]; split; [apply adds_refl|]; split; [reflexivity|intros r []]].
    destruct (wells_h_spec D o h1 HD1) as (h2 & x & K & A & X). bind1. rewrite K. destruct x as [r|e]; [|rewrite X; done_err; exact A].
    destruct X as (-> & F1). exists h2, (Ok (Some r)). split; [reflexivity|]. split; [exact A|]. split; [reflexivity|].
    intros r' [<-|[]]. assumption. }
  destruct S2 as (h2 & x2 & K2 & A2 & X2). fold b2. bind1. rewrite K2. pose proof (adds_trans _ _ _ A1 A2) as A02.
  destruct x2 as [w2|e]; [|rewrite X2; done_err; exact A02].
  destruct X2 as [X2 R2]. rewrite X2. cbn [bind]. clear K2 X2.
  pose proof (drift_exists_adds h1 h2 D A2 HD1) as HD2. rewrite <- (deref_d_adds h1 h2 D A2 HD1).
  (* specified *)
  set (b3 := in_names "specified" (t_terms D)).
  assert (S3 : exists h3 x, opt_drift_h b3 (init_specified_h D o) h2 = (h3, x) /\ only_adds h2 h3 /\
    match x with Ok w => opt_drift b3 (init_specified (deref_d h2 D) o) = Ok (option_map (map (fun r => rnth (rd h3 r))) w) /\
        forall r, In r (match w with Some l => l | None => [] end) -> fresh h2 h3 r
    | Err e => opt_drift b3 (init_specified (deref_d h2 D) o) = Err e end).
  { unfold opt_drift_h, opt_drift. destruct b3; [|exists h2, (Ok None); split; [reflexivity|]; split; [apply adds_refl|]; split; [reflexivity|intros r []]].
    destruct (init_specified_h_spec D o h2 HD2) as (h3 & x & K & A & X). bind1. rewrite K. destruct x as [r|e]; [|rewrite X; done_err; exact A].
    destruct X as (-> & F1). exists h3, (Ok (Some r)). split; [reflexivity|]. split; [exact A|]. split; [reflexivity|].
    intros r' Hr. exact (proj1 (Forall_forall _ _) F1 r' Hr). }
  destruct S3 as (h3 & x3 & K3 & A3 & X3). fold b3. bind1. rewrite K3. pose proof (adds_trans _ _ _ A02 A3) as A03.
  destruct x3 as [s3|e]; [|rewrite X3; done_err; exact A03].
  destruct X3 as [X3 R3]. rewrite X3. cbn [bind]. clear K3 X3.
  pose proof (drift_exists_adds h2 h3 D A3 HD2) as HD3. rewrite <- (deref_d_adds h2 h3 D A3 HD2).
  (* functional *)
  set (b4 := in_names "functional" (t_terms D)).
  assert (S4 : exists x, opt_drift_h b4 (init_functional_h D) h3 = (h3, x) /\
    match x with Ok w => opt_drift b4 (init_functional (deref_d h3 D)) = Ok (option_map (funs h3) w) /\
        forall r, In r (olist w) -> t_fun D = Some r /\ (r < h_next h3)%nat
    | Err e => opt_drift b4 (init_functional (deref_d h3 D)) = Err e end).
  { unfold opt_drift_h, opt_drift. destruct b4; [|exists (Ok None); split; [reflexivity|]; split; [reflexivity|intros r []]].
    destruct (functional_h_spec D h3 HD3) as (x & K & X). bind1. rewrite K. destruct x as [r|e]; [|rewrite X; eexists; split; reflexivity].
    destruct X as (-> & F1 & F2). exists (Ok (Some r)). split; [reflexivity|]. split; [reflexivity|]. intros r' [<-|[]]. split; assumption. }
  destruct S4 as (x4 & K4 & X4). fold b4. bind1. rewrite K4.
  destruct x4 as [f4|e]; [|rewrite X4; done_err; exact A03].
  destruct X4 as [X4 R4]. rewrite X4. cbn [bind]. clear K4 X4.
  eexists h3, (Ok _). split; [reflexivity|]. split; [exact A03|]. split.
  - f_equal. unfold view_drift. cbn [y_linear y_wells y_ext y_spec y_fun]. f_equal.
    + destruct w2 as [r|]; [|reflexivity]. cbn. f_equal. symmetry. apply adds_wells; [exact A3|apply R2; left; reflexivity].
    + destruct e1 as [[[[a x] y] zs]|]; [|reflexivity]. cbn [option_map]. pose proof (adds_trans _ _ _ A2 A3) as A13.
      rewrite (adds_tab h1 h3 a A13) by (apply R1; left; reflexivity).
      rewrite (adds_rd h1 h3 x A13) by (apply R1; right; left; reflexivity).
      rewrite (adds_rd h1 h3 y A13) by (apply R1; right; right; left; reflexivity). reflexivity.
  - intros r Hr. unfold drift_refs in Hr. cbn [y_linear y_wells y_ext y_spec y_fun] in Hr.
    apply in_app_or in Hr. destruct Hr as [Hr|Hr]; [destruct (R4 r Hr); auto|].
    apply in_app_or in Hr. destruct Hr as [Hr|Hr].
    { assert (F : fresh h h3 r) by exact (fresh_weaken h h1 h2 h3 r A1 A3 (R2 r Hr)). split; [apply F|left; exact F]. }
    apply in_app_or in Hr. destruct Hr as [Hr|Hr].
    { assert (F : fresh h h3 r) by exact (fresh_weaken h h h1 h3 r (adds_refl h) (adds_trans _ _ _ A2 A3) (R1 r Hr)). split; [apply F|left; exact F]. }
    assert (F : fresh h h3 r) by exact (fresh_weaken h h2 h3 h3 r A02 (adds_refl h3) (R3 r Hr)). split; [apply F|left; exact F].
Qed.

Theorem construct_uk_h_spec E c A D h : args_exist h A -> drift_exists h D ->
  exists h' x, construct_uk_h E c A D h = (h', x) /\ only_adds h h' /\
    match x with
    | Ok x => construct_uk E c (deref h A) (deref_d h D) = Ok (uview h' x) /\
              (forall r, In r (urefs x) -> (r < h_next h')%nat /\ (fresh h h' r \/ keeps_list (g_v A) r \/ t_fun D = Some r))
    | Err e => construct_uk E c (deref h A) (deref_d h D) = Err e
    end.
Proof.
  intros HA HD. unfold construct_uk_h, construct_uk.
  destruct (construct_h_spec E c A h HA) as (h1 & x & K1 & A1 & X1). bind1. rewrite K1.
  destruct x as [x|e]; [|rewrite X1; done_err; exact A1]. destruct X1 as (X1 & EX & RX & _). rewrite X1. cbn [bind].
  bind1. unfold look at 1. rewrite <- (deref_d_adds h h1 D A1 HD).
  destruct (init_drift_h_spec c D (view h1 x) h1 (drift_exists_adds h h1 D A1 HD)) as (h2 & d & K2 & A2 & X2). bind1. rewrite K2.
  pose proof (adds_trans _ _ _ A1 A2) as A02.
  destruct d as [d|e]; [|rewrite X2; done_err; exact A02]. destruct X2 as [X2 R2]. rewrite X2. cbn [bind].
  eexists h2, (Ok _). split; [reflexivity|]. split; [exact A02|]. split.
  - unfold uview. cbn [xu_obj xu_drift]. rewrite (view_adds h1 h2 x A2 EX). reflexivity.
  - intros r Hr. unfold urefs in Hr. cbn [xu_obj xu_drift] in Hr. apply in_app_or in Hr. destruct Hr as [Hr|Hr].
    + pose proof (proj1 (Forall_forall _ _) EX r Hr) as L. cbn beta in L. pose proof (adds_next _ _ A2). split; [lia|].
      destruct (RX r Hr) as [F|F]; [left; exact (fresh_weaken h h h1 h2 r (adds_refl h) A2 F)|right; left; exact F].
    + destruct (R2 r Hr) as [L [F|F]]; [|auto]. split; [exact L|]. left. exact (fresh_weaken h h1 h2 h2 r A1 (adds_refl h2) F).
Qed.

Lemma uview_ext h h' x : (forall r, In r (urefs x) -> h_at h' r = h_at h r) -> uview h' x = uview h x.
Proof.
  intros H. unfold uview. f_equal.
  - apply view_ext. intros r Hr. apply H. unfold urefs. apply in_or_app. left. exact Hr.
  - assert (K : forall r, In r (drift_refs (xu_drift x)) -> h_at h' r = h_at h r) by (intros r Hr; apply H; unfold urefs; apply in_or_app; right; exact Hr).
    destruct (xu_drift x) as [lin w e s f]. unfold drift_refs in K. cbn [y_wells y_ext y_spec y_fun] in K. unfold view_drift. cbn [y_linear y_wells y_ext y_spec y_fun]. f_equal.
    + destruct w as [r|]; [|reflexivity]. cbn. unfold wells. rewrite K; [reflexivity|]. apply in_or_app. right. left. reflexivity.
    + destruct e as [[[[a y] z] zs]|]; [|reflexivity]. cbn [option_map].
      unfold tab, rd. rewrite !K; [reflexivity| | |]; (apply in_or_app; right; apply in_or_app; right; apply in_or_app; left); cbn; auto.
    + destruct s as [l|]; [|reflexivity]. cbn. f_equal. apply map_ext_in. intros r Hr. unfold rd. rewrite K; [reflexivity|].
      apply in_or_app; right; apply in_or_app; right; apply in_or_app; right. exact Hr.
    + destruct f as [r|]; [|reflexivity]. cbn. unfold funs. rewrite K; [reflexivity|]. left. reflexivity.
Qed.
