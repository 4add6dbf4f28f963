(** Examples for C82: three data with a linear trend requested in three ways; a
    functional drift in other units; a constant drift function. *)
From Coq Require Import String ClassicalEpsilon.
From Verif Require Import Base Sums Matrix M_Variogram P_Variogram M_Geometry S_Geometry P_Geometry M_Kriging S_Kriging
  P_Kriging P_OKSpec M_Init M_Object M_Execute S_Execute P_Object P_Execute P_Cells P_Window P_WindowExec P_Master P_Det P_OK
  P_Similar P_Data Witness M_UK S_UK S_UK2 P_UK P_UK2 P_UK3 P_UK4 P_UK5 P_UK6 P_UK7 Witness3 S_Bilinear P_Bilinear P_UK8 P_UK9 P_UK12 P_UK17 P_UK19
  S_Drift S_Span P_Span P_Span2.

Definition xy_args : dargs :=
  {| d_terms := ["functional"%string]; d_point := None; d_ext := None; d_ext_x := None; d_ext_y := None; d_spec := None;
     d_fun := Some [fun x _ _ => x; fun _ y _ => y] |}.
Definition coord_args : dargs :=
  {| d_terms := ["specified"%string]; d_point := None; d_ext := None; d_ext_x := None; d_ext_y := None;
     d_spec := Some [[0; 1; 0]; [0; 0; 1]]; d_fun := None |}.
Definition coord_specs (x y : R) : list spec_arr := [Spec1 1 (fun _ => x); Spec1 1 (fun _ => y)].

Lemma tri_u D d specs x y gsv : (forall o, construct WE UK2 (tri_args [1; 3; 4]) = Ok o -> init_drift UK2 D o = Ok d) ->
  (forall o, (forall p, snd p = 0 -> frame o p = p) -> o_dim o = 2%nat -> (forall i, datum o i = (rnth [0; 1; 0] i, rnth [0; 0; 1] i, 0)) ->
     specs_fit {| u_obj := o; u_drift := d |} specs /\
     spec_grids {| u_obj := o; u_drift := d |} "points" [[x]; [y]] specs = Ok gsv /\ dr_ext d = None /\
     List.length (drift_terms {| u_obj := o; u_drift := d |} (one_point x y "vectorized") specs) = 2%nat /\
     forall i, (i < 3)%nat -> F_of (drift_terms {| u_obj := o; u_drift := d |} (one_point x y "vectorized") specs) 0%nat i = rnth [0; 1; 0] i /\
       F_of (drift_terms {| u_obj := o; u_drift := d |} (one_point x y "vectorized") specs) 1%nat i = rnth [0; 0; 1] i) ->
  exists u r, ubuilt WE UK2 (tri_args [1; 3; 4]) D [] u /\ u_drift u = d /\ urun WE u (one_point x y "vectorized") specs r /\
    shown (u_obj u) (one_point x y "vectorized") 0 (x, y, 0) /\ uregular u (one_point x y "vectorized") specs /\
    o_scaling (u_obj u) 0%nat = 1 /\ o_dim (u_obj u) = 2%nat.
Proof.
  intros HDr HSpec. destruct (tri_construct [1; 3; 4] eq_refl) as [o Ho].
  set (u := {| u_obj := o; u_drift := d |}).
  assert (HC : construct_uk WE UK2 (tri_args [1; 3; 4]) D = Ok u).
  { unfold construct_uk. rewrite Ho. cbn [bind]. rewrite (HDr o Ho). reflexivity. }
  assert (HR : ureachable WE u) by exact (ur_new WE UK2 (tri_args [1; 3; 4]) D u (or_introl eq_refl) eq_refl HC).
  destruct (construct_inv WE UK2 _ o Ho) as (ex & name & prm & fn & sc & an & f & vp & lags & sv & params & Hall).
  destruct Hall as (_&Hex'&Hgs&Hf'&Hmp&_&Hini&_&Hc'&Hpi'&_&Hexo&_&Hfo&Hpo&Hn'&Horig&Hval'&_&_&_&_&Hct').
  cbn in Hex', Hgs, Hn', Horig, Hval', Hpi'. injection Hex' as <-. injection Hgs as <- <- <- <- <-.
  destruct Hct' as [(_ & Hct' & _ & Hs' & Ha' & _)|(Hg & _)]; [|discriminate].
  assert (Hd : o_dim (u_obj u) = 2%nat) by (unfold o_dim, u; cbn; rewrite Hc'; reflexivity).
  assert (HD : forall i, datum (u_obj u) i = (rnth [0; 1; 0] i, rnth [0; 0; 1] i, 0)).
  { intros i. unfold datum, loc. rewrite Hd. cbn [u u_obj Nat.eqb]. rewrite Horig. reflexivity. }
  assert (HFr : forall p, snd p = 0 -> frame (u_obj u) p = p).
  { intros [[px py] pz] Hp. cbn in Hp. subst pz. apply frame_id; try assumption; reflexivity. }
  destruct (HSpec (u_obj u) HFr Hd HD) as (HSF & HGr & HEx & HLen & HFF). fold u in HSF, HGr, HLen, HFF.
  change {| u_obj := u_obj u; u_drift := d |} with u in HSF, HGr, HLen, HFF.
  set (q := one_point x y "vectorized") in *.
  assert (HL : exists l, locate (o_dim (u_obj u)) "points" [[x]; [y]] None = Ok l) by (rewrite Hd; cbn; eauto).
  destruct HL as [l HL].
  destruct (u_succeeds true None u q specs l gsv) as [_ HX]; try assumption; try reflexivity.
  - unfold UA_spec. rewrite HLen. replace (o_n (u_obj u)) with 3%nat by (symmetry; exact Hn').
    exists (inv32 (G_of (u_obj u))). apply inv32_ok; [intros; apply G_of_diag|intros; apply G_of_sym|exact HFF].
  - destruct HX as [r Hr]; [reflexivity|exact HEx|].
    exists u, r. split; [split; [reflexivity|]; exists u; split; [exact HC|reflexivity]|]. split; [reflexivity|].
    split; [split; [apply wit_env_ok|]; split; [exact HR|]; exists false; exact Hr|].
    split; [apply one_point_shown_u; exact Hc'|]. split; [left; exact Hpi'|]. split; [cbn; rewrite Hs'; reflexivity|exact Hd].
Qed.

Ltac frame_data HF Hd HD := intros i Hi; unfold F_of; cbn [nth spatial t_data]; rewrite ?HD, ?HF by reflexivity; split; reflexivity.

Lemma ex_linear_three_ways x y : exists E A u u' u'' q r r' r'',
  ubuilt E UK2 A lin_args [] u /\ ubuilt E UK2 A xy_args [] u' /\ ubuilt E UK2 A coord_args [] u'' /\
  urun E u q [] r /\ urun E u' q [] r' /\ urun E u'' q (coord_specs x y) r'' /\
  shown (u_obj u) q 0 (x, y, 0) /\ shown (u_obj u'') q 0 (x, y, 0) /\ uregular u' q [] /\ uregular u'' q (coord_specs x y) /\
  linear_as_functions UK2 lin_args xy_args /\ faithful_specs u q /\
  asks_only lin_args "regional_linear" /\ asks_only coord_args "specified" /\ d_spec coord_args = Some (c_coords A) /\
  coordinate_arrays 2 q (coord_specs x y) 0 (x, y, 0) /\ q_backend q = "vectorized"%string /\
  o_scaling (u_obj u) 0%nat = 1 /\ o_dim (u_obj u) = 2%nat.
Proof.
  destruct (tri_u lin_args {| dr_linear := true; dr_wells := None; dr_ext := None; dr_spec := None; dr_fun := None |} [] x y [])
    as (u & r & HB & HD & HR & HS & HG & Hsc & Hdim).
  { intros; reflexivity. }
  { intros o HF Hd HDat. split; [intros K; contradiction|]. split; [reflexivity|]. split; [reflexivity|].
    unfold drift_terms, linear_terms, well_terms, ext_terms, spec_terms, fun_terms. cbn [u_obj u_drift dr_linear dr_wells dr_ext dr_spec dr_fun opt_list]. rewrite Hd.
    cbn [seq map app]. split; [reflexivity|]. frame_data HF Hd HDat. }
  destruct (tri_u xy_args {| dr_linear := false; dr_wells := None; dr_ext := None; dr_spec := None; dr_fun := Some [fun x _ _ => x; fun _ y _ => y] |} [] x y [])
    as (u' & r' & HB' & HD' & HR' & HS' & HG' & _).
  { intros; reflexivity. }
  { intros o HF Hd HDat. split; [intros K; contradiction|]. split; [reflexivity|]. split; [reflexivity|].
    unfold drift_terms, linear_terms, well_terms, ext_terms, spec_terms, fun_terms. cbn [u_obj u_drift dr_linear dr_wells dr_ext dr_spec dr_fun opt_list map app].
    split; [reflexivity|]. frame_data HF Hd HDat. }
  destruct (tri_u coord_args {| dr_linear := false; dr_wells := None; dr_ext := None; dr_spec := Some [rnth [0; 1; 0]; rnth [0; 0; 1]]; dr_fun := None |} (coord_specs x y) x y [fun _ => x; fun _ => y])
    as (u'' & r'' & HB'' & HD'' & HR'' & HS'' & HG'' & _).
  { intros o Ho. destruct (construct_inv WE UK2 _ o Ho) as (ex & name & prm & fn & sc & an & f & vp & lags & sv & params & Hall).
    destruct Hall as (_&_&_&_&_&_&_&_&_&_&_&_&_&_&_&Hn'&_). unfold init_drift, init_specified, coord_args. cbn. rewrite Hn'. reflexivity. }
  { intros o HF Hd HDat. split; [intros _; reflexivity|]. split; [reflexivity|]. split; [reflexivity|].
    unfold drift_terms, linear_terms, well_terms, ext_terms, spec_terms, fun_terms, coord_specs.
    cbn [u_obj u_drift dr_linear dr_wells dr_ext dr_spec dr_fun opt_list map app combine]. split; [reflexivity|].
    intros i Hi. unfold F_of. cbn. split; reflexivity. }
  exists WE, (tri_args [1; 3; 4]), u, u', u'', (one_point x y "vectorized"), r, r', r''.
  split; [exact HB|]. split; [exact HB'|]. split; [exact HB''|]. split; [exact HR|]. split; [exact HR'|]. split; [exact HR''|].
  split; [exact HS|]. split; [exact HS''|]. split; [exact HG'|]. split; [exact HG''|].
  split. { constructor; try reflexivity. intros t [<-|[<-|[<-|[]]]]; reflexivity. }
  split; [left; reflexivity|].
  split; [intros t [<-|[<-|[<-|[<-|[<-|[]]]]]]; reflexivity|]. split; [intros t [<-|[<-|[<-|[<-|[<-|[]]]]]]; reflexivity|].
  split; [reflexivity|]. split; [reflexivity|]. split; [reflexivity|]. split; [exact Hsc|exact Hdim].
Qed.

Definition fx2 : R -> R -> R -> R := fun x _ _ => 2 * x + 5.
Lemma ex_units : exists E A D D' u u' q r r',
  ubuilt E UK2 A D [] u /\ ubuilt E UK2 A D' [] u' /\ other_units D D' /\ specified_units D D' q q [] [] 0 0 /\
  urun E u q [] r /\ urun E u' q [] r' /\ faithful_specs u q /\ faithful_specs u' q /\
  shown (u_obj u) q 0 (1, 1, 0) /\ shown (u_obj u') q 0 (1, 1, 0) /\ uregular u' q [] /\ D' <> D.
Proof.
  destruct (pair_u 0 0 3 4 1 0 5 7 fx) as (u & HB & Ho & HC & HD & HX); [unfold fx; lra|].
  destruct (pair_u 0 0 3 4 1 0 5 7 fx2) as (u' & HB' & Ho' & HC' & HD' & HX'); [unfold fx2; lra|].
  destruct (pair_point u 1 1 HX) as [r Hr]. destruct (pair_point u' 1 1 HX') as [r' Hr'].
  destruct (pair_fields _ _ _ _ _ _ _ _ _ Ho) as (Hc & _). destruct (pair_fields _ _ _ _ _ _ _ _ _ Ho') as (Hc' & _).
  exists WE, (pair_args 0 0 3 4 1 0 5 7), (fun_args fx), (fun_args fx2), u, u', (one_point 1 1 "vectorized"), r, r'.
  split; [exact HB|]. split; [exact HB'|].
  split. { constructor; cbn; try exact I; try reflexivity; [split; intros; discriminate|]. constructor; [|constructor]. exists 2, 5. split; [lra|]. intros; reflexivity. }
  split; [exact I|]. split; [exact Hr|]. split; [exact Hr'|]. split; [exact (pair_faithful _ _ _ HD)|]. split; [exact (pair_faithful _ _ _ HD')|].
  split; [apply one_point_shown_u, Hc|]. split; [apply one_point_shown_u, Hc'|]. split; [exact (pair_regular _ _ _ _ _ _ _ _ _ _ Ho')|].
  intros HE. injection HE as HE. assert (X : fx2 0 0 0 = fx 0 0 0) by (rewrite HE; reflexivity). unfold fx2, fx in X. lra.
Qed.

Definition one_fun : R -> R -> R -> R := fun _ _ _ => 1.
Lemma ex_constant : exists E u q, env_ok E /\ ureachable E u /\ o_pinv (u_obj u) = false /\ q_backend q = "vectorized"%string /\
  good_query (u_obj u) q /\ good_specs u q [] /\ dr_fun (u_drift u) = Some [one_fun].
Proof.
  destruct (pair_construct 0 0 3 4 1 0 5 7) as [o Ho]. destruct (pair_fields _ _ _ _ _ _ _ _ _ Ho) as (Hc & _ & Hpi & _).
  exists WE, {| u_obj := o; u_drift := one_drift one_fun |}, (one_point 1 1 "vectorized").
  split; [apply wit_env_ok|]. split.
  { apply (ur_new WE UK2 (pair_args 0 0 3 4 1 0 5 7) (fun_args one_fun)); [left; reflexivity|reflexivity|]. unfold construct_uk. rewrite Ho. reflexivity. }
  split; [exact Hpi|]. split; [reflexivity|]. split.
  { split; [|intros _; left; reflexivity]. right. left. split; [reflexivity|]. split; [reflexivity|]. intros H. unfold o_dim in H. cbn in H. rewrite Hc in H. discriminate. }
  split; [intros ds Hds; discriminate|reflexivity].
Qed.
