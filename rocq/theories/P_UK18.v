(** Which drift arguments are accepted, and which calls of execute return. *)
From Coq Require Import String.
From Verif Require Import Base Sums Matrix M_Variogram M_Geometry S_Geometry M_Kriging S_Kriging M_Init M_Object M_Execute S_Execute M_UK S_UK S_Valid S_Bilinear S_Drift
  P_Object P_Kriging P_Psd P_Psd2 P_Valid P_Valid2 P_Dup P_OKSpec P_OK P_Det P_Exec2 P_Cells P_Execute P_Master P_Options
  P_Geometry P_Bilinear P_UK P_UK2 P_UK3 P_UK4 P_UK5 P_UK6 P_Valid3.

(** ---- constructor ---- *)
Lemma construct_given E c A o : List.length (c_coords A) = cdim c -> construct E c A = Ok o ->
  o_n o = List.length (c_values A) /\ o_orig o = columns (c_coords A).
Proof.
  intros HL H. destruct (construct_accepts E c A o HL H) as (_&_&_&_&Hlen&_).
  destruct (construct_inv E c A o H) as (ex & name & prm & fn & sc & an & f & vp & lags & sv & params & Hall).
  destruct Hall as (_&_&_&_&_&_&_&_&_&_&_&_&_&_&_&Hn&Ho&_). split; [|exact Ho]. rewrite Hn. apply Hlen.
  apply nth_In. rewrite HL. destruct c; cbn; lia.
Qed.

Lemma zscalars_total arr ex ey n x y : (forall i, (i < n)%nat -> within ex (x i) /\ within ey (y i)) ->
  exists zs, zscalars arr ex ey n x y = Ok zs.
Proof.
  intros H. destruct (zscalars arr ex ey n x y) as [zs|e] eqn:EZ; [eauto|]. exfalso.
  destruct (zscalars_err _ _ _ _ _ _ _ EZ) as (_ & p & Hp & HZ).
  destruct (zscalar_accepts arr ex ey (x p) (y p)) as [H1 _]. destruct (H1 (H p Hp)) as [v Hv]. congruence.
Qed.
Lemma zscalars_within arr ex ey n x y zs : zscalars arr ex ey n x y = Ok zs ->
  forall i, (i < n)%nat -> within ex (x i) /\ within ey (y i).
Proof.
  intros H i Hi. destruct (zscalar_accepts arr ex ey (x i) (y i)) as [_ H2].
  pose proof (zscalars_ok _ _ _ _ _ _ _ H i Hi) as G.
  destruct (Classical_Prop.classic (within ex (x i) /\ within ey (y i))) as [Hw|Hw]; [exact Hw|]. rewrite (H2 Hw) in G. discriminate.
Qed.

Lemma given_columns A i k : columns (c_coords A) i k = given A k i.
Proof. reflexivity. Qed.

Lemma init_external_iff A D o : o_n o = List.length (c_values A) -> o_orig o = columns (c_coords A) ->
  (external_ok A D -> exists x, init_external D o = Ok x) /\ (~ external_ok A D -> init_external D o = Err ValueError).
Proof.
  intros Hn Ho. unfold init_external. rewrite Ho, Hn. split.
  - intros (rows & cols & f & ex & ey & -> & -> & -> & HS & HW).
    assert (HA : exists arr, (if negb (Nat.eqb rows (List.length ey)) || negb (Nat.eqb cols (List.length ex)) then
                   if Nat.eqb rows (List.length ex) && Nat.eqb cols (List.length ey)
                   then Ok (trm f) else Err ValueError
                 else Ok f) = Ok arr).
    { destruct (negb _ || negb _) eqn:EN; [|eauto]. destruct HS as [[-> ->]|[-> ->]]; rewrite !Nat.eqb_refl in *; cbn [negb orb andb] in *; [discriminate|eauto]. }
    destruct HA as [arr ->]. cbn [bind].
    destruct (zscalars_total arr ex ey (List.length (c_values A)) (fun i => columns (c_coords A) i 0%nat) (fun i => columns (c_coords A) i 1%nat) HW) as [zs ->].
    cbn [bind]. eauto.
  - intros H. destruct (d_ext D) as [[[rows cols] f]|] eqn:E1; [|reflexivity].
    destruct (d_ext_x D) as [ex|] eqn:E2; [|reflexivity]. destruct (d_ext_y D) as [ey|] eqn:E3; [|reflexivity].
    destruct (if negb (Nat.eqb rows (List.length ey)) || negb (Nat.eqb cols (List.length ex)) then _ else _) as [arr|e] eqn:EA; cbn [bind].
    + destruct (zscalars _ _ _ _ _ _) as [zs|e] eqn:EZ; cbn [bind].
      * exfalso. apply H. exists rows, cols, f, ex, ey. split; [assumption|]. split; [assumption|]. split; [assumption|]. split.
        -- destruct (Nat.eqb_spec rows (List.length ey)), (Nat.eqb_spec cols (List.length ex)); cbn [negb orb] in EA; auto;
           destruct (Nat.eqb_spec rows (List.length ex)), (Nat.eqb_spec cols (List.length ey)); cbn [andb] in EA; try discriminate; auto.
        -- exact (zscalars_within _ _ _ _ _ _ _ EZ).
      * destruct (zscalars_err _ _ _ _ _ _ _ EZ) as [-> _]. reflexivity.
    + destruct (negb _ || negb _); [|discriminate]. destruct (_ && _); [discriminate|]. injection EA as <-. reflexivity.
Qed.
Lemma init_wells_iff D o :
  (wells_ok D -> exists x, init_wells D o = Ok x) /\
  (d_point D = None -> init_wells D o = Err ValueError) /\
  (forall b, d_point D = Some (b, []) -> init_wells D o = Err IndexError) /\
  (forall w ws, d_point D = Some (true, w :: ws) -> init_wells D o = Err TypeError).
Proof.
  unfold init_wells. split; [|split; [|split]].
  - intros (w & ws & ->).
    match goal with |- context [adjust_for_anisotropy false 2 ?X ?c ?s ?a] => destruct (adjust_supported 2 X c s a (or_introl eq_refl)) as [Y HY]; rewrite HY end.
    cbn [bind]. eauto.
  - intros ->. reflexivity.
  - intros b ->. destruct b; reflexivity.
  - intros w ws ->. reflexivity.
Qed.
Lemma init_specified_iff A D o : o_n o = List.length (c_values A) ->
  (specified_ok A D -> exists x, init_specified D o = Ok x) /\
  (d_spec D = None -> init_specified D o = Err TypeError) /\
  (d_spec D <> None -> ~ specified_ok A D -> init_specified D o = Err ValueError).
Proof.
  intros Hn. unfold init_specified. rewrite Hn. split; [|split].
  - intros (t & ts & -> & H). revert H. generalize (t :: ts). clear. intros l. induction l as [|x l IH]; intros H; cbn [mapM]; [eauto|].
    rewrite (H x (or_introl eq_refl)), Nat.eqb_refl. cbn [negb bind]. destruct IH as [r ->]; [intros y Hy; apply H; right; exact Hy|]. cbn [bind]. eauto.
  - intros ->. reflexivity.
  - intros Hne H. destruct (d_spec D) as [[|t ts]|] eqn:ED; [reflexivity| |congruence].
    destruct (mapM _ (t :: ts)) as [r|e] eqn:EM.
    + exfalso. apply H. exists t, ts. split; [exact ED|]. apply P_UK2.mapM_ok in EM. revert EM. generalize (t :: ts). clear. intros l EM x Hx.
      induction EM as [|a b l l' Hab _ IH]; [destruct Hx|]. destruct Hx as [<-|Hx]; [|apply IH, Hx].
      destruct (Nat.eqb_spec (List.length a) (List.length (c_values A))); [assumption|discriminate].
    + f_equal. apply (P_UK6.mapM_err (fun t : list R => if negb (Nat.eqb (List.length t) (List.length (c_values A))) then Err ValueError else Ok (rnth t))
        ValueError (t :: ts) e); [|exact EM]. intros x e' Hx. destruct (negb _); congruence.
Qed.
Lemma init_functional_iff D :
  (functional_ok D -> exists x, init_functional D = Ok x) /\
  (d_fun D = None -> init_functional D = Err TypeError) /\
  (d_fun D = Some [] -> init_functional D = Err ValueError).
Proof.
  unfold init_functional. split; [|split].
  - intros (f & fs & ->). eauto.
  - intros ->. reflexivity.
  - intros ->. reflexivity.
Qed.

(** the requested term fails / does not fail *)
Lemma opt_drift_ok {A} b (x : res A) : (b = true -> exists a, x = Ok a) -> exists y, opt_drift b x = Ok y.
Proof. intros H. unfold opt_drift. destruct b; [|eauto]. destruct (H eq_refl) as [a ->]. cbn [bind]. eauto. Qed.
Lemma opt_drift_err {A} b (x : res A) e : b = true -> x = Err e -> opt_drift b x = Err e.
Proof. intros -> ->. reflexivity. Qed.

Section Construct.
  Variables (E : env) (c : kclass) (A : cargs) (D : dargs) (o : obj).
  Hypothesis HL : List.length (c_coords A) = cdim c.
  Hypothesis HO : construct E c A = Ok o.
  Let ext := c = UK2 /\ asked D "external_Z" = true.
  Let wel := c = UK2 /\ asked D "point_log" = true.
  Let spc := asked D "specified" = true.
  Let fnc := asked D "functional" = true.

  Lemma two_and t : (match c with UK2 => true | _ => false end && in_names t (d_terms D))%bool = true <-> c = UK2 /\ asked D t = true.
  Proof. unfold asked, in_names. destruct c; cbn [andb]; split; try discriminate; intros H; try (destruct H; discriminate); auto; apply H. Qed.

  Let E1 : (ext -> external_ok A D) ->
    exists y, opt_drift ((match c with UK2 => true | _ => false end) && in_names "external_Z" (d_terms D)) (init_external D o) = Ok y.
  Proof.
    intros H. apply opt_drift_ok. intros Hb. apply two_and in Hb. destruct (construct_given E c A o HL HO) as [Hn Ho].
    apply (proj1 (init_external_iff A D o Hn Ho)), H, Hb.
  Qed.
  Let E2 : (wel -> wells_ok D) ->
    exists y, opt_drift ((match c with UK2 => true | _ => false end) && in_names "point_log" (d_terms D)) (init_wells D o) = Ok y.
  Proof. intros H. apply opt_drift_ok. intros Hb. apply two_and in Hb. apply (proj1 (init_wells_iff D o)), H, Hb. Qed.
  Let E3 : (spc -> specified_ok A D) -> exists y, opt_drift (in_names "specified" (d_terms D)) (init_specified D o) = Ok y.
  Proof.
    intros H. apply opt_drift_ok. intros Hb. destruct (construct_given E c A o HL HO) as [Hn _].
    apply (proj1 (init_specified_iff A D o Hn)), H, Hb.
  Qed.
  Let E4 : (fnc -> functional_ok D) -> exists y, opt_drift (in_names "functional" (d_terms D)) (init_functional D) = Ok y.
  Proof. intros H. apply opt_drift_ok. intros Hb. apply (proj1 (init_functional_iff D)), H, Hb. Qed.

  Lemma drift_decides :
    (ext -> ~ external_ok A D -> construct_uk E c A D = Err ValueError) /\
    ((ext -> external_ok A D) ->
      (wel -> d_point D = None -> construct_uk E c A D = Err ValueError) /\
      (forall b, wel -> d_point D = Some (b, []) -> construct_uk E c A D = Err IndexError) /\
      (forall w ws, wel -> d_point D = Some (true, w :: ws) -> construct_uk E c A D = Err TypeError) /\
      ((wel -> wells_ok D) ->
        (spc -> d_spec D = None -> construct_uk E c A D = Err TypeError) /\
        (spc -> d_spec D <> None -> ~ specified_ok A D -> construct_uk E c A D = Err ValueError) /\
        ((spc -> specified_ok A D) ->
          (fnc -> d_fun D = None -> construct_uk E c A D = Err TypeError) /\
          (fnc -> d_fun D = Some [] -> construct_uk E c A D = Err ValueError) /\
          ((fnc -> functional_ok D) -> exists u, construct_uk E c A D = Ok u)))).
  Proof.
    destruct (construct_given E c A o HL HO) as [Hn Ho].
    unfold construct_uk. rewrite HO. cbn [bind]. unfold init_drift. cbv zeta. split.
    { intros H1 H2. rewrite (opt_drift_err _ _ ValueError); [reflexivity|apply two_and, H1|].
      apply (proj2 (init_external_iff A D o Hn Ho)), H2. }
    intros H1. destruct (E1 H1) as [y1 ->]. cbn [bind].
    destruct (init_wells_iff D o) as (_ & W1 & W2 & W3).
    split; [intros H2 H3; rewrite (opt_drift_err _ _ ValueError); [reflexivity|apply two_and, H2|auto]|].
    split; [intros b H2 H3; rewrite (opt_drift_err _ _ IndexError); [reflexivity|apply two_and, H2|eauto]|].
    split; [intros w ws H2 H3; rewrite (opt_drift_err _ _ TypeError); [reflexivity|apply two_and, H2|eauto]|].
    intros H2. destruct (E2 H2) as [y2 ->]. cbn [bind].
    destruct (init_specified_iff A D o Hn) as (_ & S1 & S2).
    split; [intros H3 H4; rewrite (opt_drift_err _ _ TypeError); [reflexivity|exact H3|auto]|].
    split; [intros H3 H4 H5; rewrite (opt_drift_err _ _ ValueError); [reflexivity|exact H3|auto]|].
    intros H3. destruct (E3 H3) as [y3 ->]. cbn [bind].
    destruct (init_functional_iff D) as (_ & F1 & F2).
    split; [intros H4 H5; rewrite (opt_drift_err _ _ TypeError); [reflexivity|exact H4|auto]|].
    split; [intros H4 H5; rewrite (opt_drift_err _ _ ValueError); [reflexivity|exact H4|auto]|].
    intros H4. destruct (E4 H4) as [y4 ->]. cbn [bind]. eauto.
  Qed.
End Construct.

Lemma wells_cases D : wells_ok D \/ d_point D = None \/ (exists b, d_point D = Some (b, [])) \/ (exists w ws, d_point D = Some (true, w :: ws)).
Proof.
  unfold wells_ok. destruct (d_point D) as [[b [|w ws]]|]; [right; right; left; eauto| |auto].
  destruct b; [right; right; right; eauto|left; eauto].
Qed.
Lemma functional_cases D : functional_ok D \/ d_fun D = None \/ d_fun D = Some [].
Proof. unfold functional_ok. destruct (d_fun D) as [[|f fs]|]; [auto|left; eauto|auto]. Qed.

Theorem construct_uk_iff E c A D : List.length (c_coords A) = cdim c ->
  ((exists u, construct_uk E c A D = Ok u) <-> (exists o, construct E c A = Ok o) /\ complete_drifts c A D).
Proof.
  intros HL. split.
  - intros [u Hu]. destruct (construct E c A) as [o|e] eqn:HO; [|unfold construct_uk in Hu; rewrite HO in Hu; discriminate].
    split; [eauto|]. destruct (drift_decides E c A D o HL HO) as (D1 & D2).
    assert (X1 : c = UK2 /\ asked D "external_Z" = true -> external_ok A D).
    { intros H. apply Classical_Prop.NNPP. intros Hn. rewrite (D1 H Hn) in Hu. discriminate. }
    destruct (D2 X1) as (W1 & W2 & W3 & D3).
    assert (X2 : c = UK2 /\ asked D "point_log" = true -> wells_ok D).
    { intros H. destruct (wells_cases D) as [G|[G|[(b & G)|(w & ws & G)]]]; [exact G|exfalso..].
      - rewrite (W1 H G) in Hu. discriminate.
      - rewrite (W2 b H G) in Hu. discriminate.
      - rewrite (W3 w ws H G) in Hu. discriminate. }
    destruct (D3 X2) as (S1 & S2 & D4).
    assert (X3 : asked D "specified" = true -> specified_ok A D).
    { intros H. apply Classical_Prop.NNPP. intros Hn. destruct (d_spec D) eqn:ES.
      - rewrite (S2 H ltac:(discriminate) Hn) in Hu. discriminate.
      - rewrite (S1 H eq_refl) in Hu. discriminate. }
    destruct (D4 X3) as (F1 & F2 & _).
    constructor; auto. intros H. destruct (functional_cases D) as [G|[G|G]]; [exact G|exfalso..].
    + rewrite (F1 H G) in Hu. discriminate.
    + rewrite (F2 H G) in Hu. discriminate.
  - intros [[o HO] [C1 C2 C3 C4]]. destruct (drift_decides E c A D o HL HO) as (_ & D2).
    destruct D2 as (_ & _ & _ & D3); [intros [H1 H2]; auto|].
    destruct D3 as (_ & _ & D4); [intros [H1 H2]; auto|].
    destruct D4 as (_ & _ & D5); [auto|]. apply D5, C4.
Qed.

Lemma construct_uk_base E c A D e : construct E c A = Err e -> construct_uk E c A D = Err e.
Proof. intros H. unfold construct_uk. rewrite H. reflexivity. Qed.

(** only the five names, and only whether they occur, matter *)
Theorem terms_only E c A D ts : (forall t, In t drift_names -> (In t (d_terms D) <-> In t ts)) ->
  construct_uk E c A (with_terms D ts) = construct_uk E c A D.
Proof.
  intros H. unfold construct_uk. destruct (construct E c A) as [o|e]; [|reflexivity]. cbn [bind].
  assert (HI : forall t, In t drift_names -> in_names t ts = in_names t (d_terms D)).
  { intros t Ht. specialize (H t Ht). unfold in_names.
    destruct (existsb (String.eqb t) ts) eqn:E1, (existsb (String.eqb t) (d_terms D)) eqn:E2; try reflexivity; exfalso.
    - apply existsb_exists in E1 as (x & Hx & Ex). apply String.eqb_eq in Ex. subst x.
      apply H in Hx. apply Bool.not_true_iff_false in E2. apply E2. apply existsb_exists. exists t. split; [exact Hx|apply String.eqb_refl].
    - apply existsb_exists in E2 as (x & Hx & Ex). apply String.eqb_eq in Ex. subst x.
      apply H in Hx. apply Bool.not_true_iff_false in E1. apply E1. apply existsb_exists. exists t. split; [exact Hx|apply String.eqb_refl]. }
  unfold init_drift. cbv zeta. cbn [with_terms d_terms].
  rewrite !HI by (unfold drift_names; cbn; tauto).
  reflexivity.
Qed.
(** UniversalKriging3D ignores external_Z and point_log *)
Theorem terms_3d E A D ts : (forall t, In t ["regional_linear"; "specified"; "functional"]%string -> (In t (d_terms D) <-> In t ts)) ->
  construct_uk E UK3 A (with_terms D ts) = construct_uk E UK3 A D.
Proof.
  intros H. unfold construct_uk. destruct (construct E UK3 A) as [o|e]; [|reflexivity]. cbn [bind].
  assert (HI : forall t, In t ["regional_linear"; "specified"; "functional"]%string -> in_names t ts = in_names t (d_terms D)).
  { intros t Ht. specialize (H t Ht). apply Bool.eq_iff_eq_true. rewrite !in_names_In. tauto. }
  unfold init_drift. cbv zeta. cbn [with_terms d_terms andb].
  rewrite !HI by (cbn; tauto). reflexivity.
Qed.
