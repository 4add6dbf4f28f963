From Coq Require Import String.
From Verif Require Import Base Sums Matrix M_Variogram M_Geometry S_Geometry M_Kriging S_Kriging M_Init M_Object M_Execute S_Execute
  S_Valid M_UK S_UK S_Line S_Update P_Object P_Execute P_Cells P_OK P_Far P_Data P_Data2 P_Linear P_UK4 P_UK5 P_Update P_Update2.

Lemma initialize_params fit ct ndim n X m y name p f nlags w a b c :
  initialize_variogram_model fit ct ndim n X m y name (Some p) f nlags w = Ok (a, b, c) -> c = p.
Proof.
  unfold initialize_variogram_model. intros H.
  destruct ct; [|destruct (Nat.eqb ndim 2); [|discriminate]]; (destruct (negb (Nat.eqb m n)) in H; [repeat (match type of H with context [if ?b then _ else _] => destruct b end); discriminate|]);
  (destruct (experimental_variogram _ ndim n nlags X y) in H; cbn [bind] in H; [|discriminate]);
  (destruct (_ && _)%bool in H; [discriminate|]); (destruct (_ && _)%bool in H; [discriminate|]); injection H as _ _ H; congruence.
Qed.

Lemma appended_nth (ls ls' : list (list R)) k i : Forall2 (fun l l' => exists x, l' = (l ++ [x])%list) ls ls' ->
  (forall l, In l ls -> (i < List.length l)%nat) -> rnth (nth k ls' []) i = rnth (nth k ls []) i.
Proof.
  intros H. revert k. induction H as [|l l' ls ls' (x & ->) _ IH]; intros k HL; [reflexivity|].
  destruct k; cbn [nth]; [|apply IH; intros; apply HL; right; assumption].
  unfold rnth. apply app_nth1, HL. left; reflexivity.
Qed.

Theorem constructor_adds E c A A' o o' : appended A A' -> c_coords A <> [] -> construct E c A = Ok o -> construct E c A' = Ok o' -> explicit_params (c_v A) -> adds o o'.
Proof.
  intros [HC (z & HZ) Hv Hct Hx] Hne H H' Hexp.
  pose proof (construct_datum E c A o) as HD. pose proof (construct_datum E c A' o') as HD'.
  destruct (construct_orig E c A o H) as (_ & _ & HVo & Hn0 & HnV & HSL). destruct (construct_orig E c A' o' H') as (_ & _ & HVo' & _ & HnV' & _).
  destruct (construct_inv E c A o H) as (ex & name & prm & fn & sc & an & f & vp & lags & sv & params & Hall).
  destruct Hall as (_&Hex&Hgs&Hf&Hmp&_&Hini&_&Hc&_&_&Hxo&_&Hfo&Hpo&_&_&_&_&_&_&_&Ha).
  destruct (construct_inv E c A' o' H') as (ex' & name' & prm' & fn' & sc' & an' & f' & vp' & lags' & sv' & params' & Hall').
  destruct Hall' as (_&Hex'&Hgs'&Hf'&Hmp'&_&Hini'&_&Hc'&_&_&Hxo'&_&Hfo'&Hpo'&_&_&_&_&_&_&_&Ha').
  rewrite Hv, Hct in *. rewrite Hgs in Hgs'. injection Hgs' as <- <- <- <- <-.
  rewrite Hf in Hf'. injection Hf' as <-. rewrite Hmp in Hmp'. injection Hmp' as <-.
  destruct (make_explicit _ _ _ (resolve_explicit _ _ _ _ _ _ _ _ _ Hexp Hgs) Hmp) as [p0 ->].
  apply initialize_params in Hini. apply initialize_params in Hini'.
  assert (HX : o_ct o' = o_ct o /\ o_scaling o' = o_scaling o /\ o_angle o' = o_angle o).
  { destruct Ha as [(Hx1 & Ht & _ & Hs & Hag & _)|(Hx1 & _ & Ht & _ & Hs & Hag & _)];
    destruct Ha' as [(Hx' & Ht' & _ & Hs' & Hag' & _)|(Hx' & _ & Ht' & _ & Hs' & Hag' & _)]; try congruence; repeat split; congruence. }
  destruct HX as (X1 & X2 & X3).
  assert (Hnn : o_n o' = S (o_n o)) by (rewrite HnV, HnV', HZ, app_length; cbn; lia).
  constructor.
  - constructor; try congruence; try (rewrite Hnn; intros; lia); try (intros; assumption).
    intros i Hi. rewrite (HD i H), (HD' i H'). unfold input.
    assert (HLL : forall l, In l (c_coords A) -> (i < List.length l)%nat).
    { intros l Hl. destruct (In_nth _ _ [] Hl) as (j & Hj & <-). rewrite (same_length_nth _ j HSL Hj), <- Hn0. exact Hi. }
    rewrite !(appended_nth (c_coords A) (c_coords A') _ i HC HLL). reflexivity.
  - exact Hnn.
  - intros i Hi. rewrite HVo, HVo', HZ. unfold rnth. apply app_nth1. lia.
Qed.

(** universal kriging *)
Section UAdd.
Variables (E : env) (u u' : uobj) (qP q q' : query) (sP s s' : list spec_arr) (rP r r' : result) (pP p p' : nat) (pos : vec3).
Hypothesis HA : adds (u_obj u) (u_obj u').
Hypothesis HRP : urun E u qP sP rP.
Hypothesis HR : urun E u q s r.
Hypothesis HR' : urun E u' q' s' r'.
Hypothesis HSP : shown (u_obj u) qP pP (new_place (u_obj u) (u_obj u')).
Hypothesis HS : shown (u_obj u) q p pos.
Hypothesis HS' : shown (u_obj u') q' p' pos.
Hypothesis FP : faithful_specs u qP.
Hypothesis FQ : faithful_specs u q.
Hypothesis FQ' : faithful_specs u' q'.
Hypothesis RP : uregular u qP sP.
Hypothesis RG : uregular u q s.
Hypothesis RG' : uregular u' q' s'.
Hypothesis HAw : o_exact (u_obj u) = true -> away (u_obj u) (new_place (u_obj u) (u_obj u')).
Hypothesis HD : drift_adds (o_n (u_obj u)) (new_place (u_obj u) (u_obj u')) pos (drift_terms u q s) p (drift_terms u qP sP) pP (drift_terms u' q' s') p'.

Theorem u_one_more : exists vP vaP v va lam, r_value rP pP = Some vP /\ r_variance rP pP = Some vaP /\ r_value r p = Some v /\ r_variance r p = Some va /\ vaP <> 0 /\
    r_value r' p' = Some (v + lam * (new_value (u_obj u) (u_obj u') - vP)) /\ r_variance r' p' = Some (va - lam² * vaP).
Proof.
  pose proof HA as [HM Hn HV]. destruct HD as (L1 & L2 & HT).
  pose proof (uregular_get _ _ _ _ _ HR' RG') as UR'.
  destruct (uk_cells E u qP sP rP pP _ HRP HSP (uregular_well_posed _ _ _ _ _ RP) FP) as (vP & vaP & V1 & V2 & (w1 & mu1 & nu1 & S1 & e1 & e2)).
  destruct (uk_cells E u q s r p _ HR HS (uregular_well_posed _ _ _ _ _ RG) FQ) as (v & va & V3 & V4 & (w2 & mu2 & nu2 & S2 & e3 & e4)).
  destruct (uk_cells E u' q' s' r' p' _ HR' HS' (uregular_well_posed _ _ _ _ _ RG') FQ') as (v' & va' & V5 & V6 & (w3 & mu3 & nu3 & S3 & e5 & e6)).
  set (ts := drift_terms u q s) in *. set (tsP := drift_terms u qP sP) in *. set (ts' := drift_terms u' q' s') in *. clearbody ts tsP ts'.
  rewrite L2 in S1, e2. rewrite L1, Hn in S3, e6, UR'. rewrite Hn in e5.
  set (n := o_n (u_obj u)) in *. set (m := List.length ts) in *.
  assert (S1' : UK_system n m (G_of (u_obj u)) (F_of ts) (g_of (u_obj u) (new_place (u_obj u) (u_obj u'))) (f_of tsP pP (new_place (u_obj u) (u_obj u'))) w1 mu1 nu1).
  { destruct S1 as (A & B & C). split; [|split]; [|exact B|].
    - intros i Hi. rewrite <- (A i Hi). f_equal. f_equal. apply bsum_ext; intros k Hk. unfold F_of. destruct (HT k Hk) as (_ & X & _ & _). rewrite (X i Hi). reflexivity.
    - intros k Hk. rewrite <- (C k Hk). apply bsum_ext; intros i Hi. unfold F_of. destruct (HT k Hk) as (_ & X & _ & _). rewrite (X i Hi). reflexivity. }
  destruct (add_estimate n m (G_of (u_obj u)) (G_of (u_obj u')) (F_of ts) (F_of ts') (g_of (u_obj u) (new_place (u_obj u) (u_obj u'))) (f_of tsP pP (new_place (u_obj u) (u_obj u')))
     (md_G _ _ HM) (new_row _ _ HA HAw) (G_of_diag (u_obj u') n)
     ltac:(intros k i Hk Hi; unfold F_of; apply (HT k Hk); exact Hi) ltac:(intros k Hk; unfold F_of, f_of; apply (HT k Hk)) (fun i j _ _ => G_of_sym (u_obj u) i j)
     w1 nu1 mu1 S1' (g_of (u_obj u) pos) (f_of ts p pos) w2 mu2 nu2 (g_of (u_obj u') pos) (f_of ts' p' pos) (o_values (u_obj u)) (o_values (u_obj u')) w3 mu3 nu3
     UR' S2 S3 (md_g _ _ HM pos) ltac:(intros k Hk; unfold f_of; apply (HT k Hk)) HV) as (Q1 & Q2 & Q3).
  exists vP, vaP, v, va, (w3 n). split; [exact V1|]. split; [exact V2|]. split; [exact V3|]. split; [exact V4|].
  split; [rewrite e2; exact Q1|]. split; [rewrite V5, e5, e3, e1; f_equal; exact Q2|]. rewrite V6, e6, e4, e2. f_equal. unfold Rsqr. exact Q3.
Qed.

Theorem u_predicted_datum : r_value rP pP = Some (new_value (u_obj u) (u_obj u')) -> r_value r' p' = r_value r p.
Proof.
  intros HV. destruct u_one_more as (vP & vaP & v & va & lam & A & _ & B & _ & _ & C & _). rewrite HV in A. injection A as A. rewrite B, C, A. f_equal. ring.
Qed.
End UAdd.

(** the drift values at the data are those of call (q0, s0); at cells, of the call itself *)
Theorem u_surface u q0 s0 : let ts := drift_terms u q0 s0 in
  UK_regular (o_n (u_obj u)) (List.length ts) (G_of (u_obj u)) (F_of ts) ->
  exists c a b, bsum (o_n (u_obj u)) c = 0 /\ (forall k, (k < List.length ts)%nat -> bsum (o_n (u_obj u)) (fun i => c i * F_of ts k i) = 0) /\
  forall E q s r p pos, urun E u q s r -> shown (u_obj u) q p pos -> faithful_specs u q ->
    (List.length (drift_terms u q s) = List.length ts /\ forall k i, (k < List.length ts)%nat -> (i < o_n (u_obj u))%nat -> F_of (drift_terms u q s) k i = F_of ts k i) ->
    r_value r p = Some (a + bsum (List.length ts) (fun k => b k * f_of (drift_terms u q s) p pos k) + bsum (o_n (u_obj u)) (fun i => c i * g_of (u_obj u) pos i)).
Proof.
  intros ts RG. destruct (dual_form (o_n (u_obj u)) (List.length ts) (G_of (u_obj u)) (F_of ts) (o_values (u_obj u)) (fun i j _ _ => G_of_sym (u_obj u) i j) RG) as (c & a & b & Hc & Hf & H).
  exists c, a, b. split; [exact Hc|]. split; [exact Hf|]. intros E q s r p pos HR HS HF (HL & HEq).
  assert (SYS : forall w mu nu, UK_system (o_n (u_obj u)) (List.length (drift_terms u q s)) (G_of (u_obj u)) (F_of (drift_terms u q s)) (g_of (u_obj u) pos) (f_of (drift_terms u q s) p pos) w mu nu <->
                         UK_system (o_n (u_obj u)) (List.length ts) (G_of (u_obj u)) (F_of ts) (g_of (u_obj u) pos) (f_of (drift_terms u q s) p pos) w mu nu).
  { intros w mu nu. rewrite HL. unfold UK_system. split; intros (A & B & C); (split; [|split]; [|exact B|]).
    - intros i Hi. rewrite <- (A i Hi). f_equal. f_equal. apply bsum_ext; intros k Hk. rewrite HEq by assumption. reflexivity.
    - intros k Hk. rewrite <- (C k Hk). apply bsum_ext; intros i Hi. rewrite HEq by assumption. reflexivity.
    - intros i Hi. rewrite <- (A i Hi). f_equal. f_equal. apply bsum_ext; intros k Hk. rewrite HEq by assumption. reflexivity.
    - intros k Hk. rewrite <- (C k Hk). apply bsum_ext; intros i Hi. rewrite HEq by assumption. reflexivity. }
  destruct (RG (g_of (u_obj u) pos) (f_of (drift_terms u q s) p pos)) as (w0 & mu0 & nu0 & S0 & _).
  assert (WP : uwell_posed u q s p pos) by (right; exists w0, mu0, nu0; apply SYS, S0).
  destruct (uk_cells E u q s r p pos HR HS WP HF) as (v & va & V & _ & (w & mu & nu & SS & e & _)). rewrite V, e. f_equal. apply SYS in SS. apply (H _ _ _ _ _ SS).
Qed.
