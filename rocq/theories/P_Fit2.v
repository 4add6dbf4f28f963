(** Proofs for C34-C37. *)
From Coq Require Import String Permutation FunctionalExtensionality.
From Verif Require Import Base Sums Matrix M_Variogram M_Geometry S_Geometry P_Geometry M_Kriging S_Kriging M_Init M_Object M_Execute S_Execute
  S_Fit P_Binning P_Object P_Fit.

Lemma initialize_points fit ct ndim n X nv y model p f nlags w l1 l2 p' :
  initialize_variogram_model fit ct ndim n X nv y model p f nlags w = Ok (l1, l2, p') ->
  exists ls, experimental_variogram ct ndim n nlags X y = Ok ls /\ l1 = map fst ls /\ l2 = map snd ls /\
    (p = None -> calculate_variogram_model fit l1 l2 model f w = Ok p').
Proof.
  unfold initialize_variogram_model. intros H.
  match type of H with
    match ct with _ => _ end = Ok _ => idtac
  end.
  assert (K : exists c, (if negb (Nat.eqb nv n) then Err c else
    do ls <- experimental_variogram ct ndim n nlags X y ;;
    match p with
    | Some p =>
        if String.eqb model "linear" && negb (Nat.eqb (List.length p) 2) then Err ValueError
        else if in_names model ("power"%string :: three_param_models) && negb (Nat.eqb (List.length p) 3)
        then Err ValueError
        else Ok (map fst ls, map snd ls, p)
    | None =>
        if String.eqb model "custom" then Err ValueError
        else match map fst ls with
             | [] => Err ValueError
             | _ => do p <- calculate_variogram_model fit (map fst ls) (map snd ls) model f w ;;
                    Ok (map fst ls, map snd ls, p)
             end
    end) = Ok (l1, l2, p')).
  { destruct ct, (Nat.eqb ndim 2); try discriminate H; destruct (negb (Nat.eqb nv n));
      try (destruct (Nat.leb n 1), (Nat.eqb nlags 0); discriminate H); try discriminate H; exists ValueError; exact H. }
  clear H. destruct K as [c K]. destruct (negb (Nat.eqb nv n)); [discriminate K|]. bindok K.
  exists a. split; [reflexivity|].
  destruct p as [p|].
  - repeat match type of K with (if ?b then _ else _) = _ => destruct b; [discriminate K|] end.
    injection K as <- <- <-. repeat split; try reflexivity. discriminate.
  - destruct (String.eqb model "custom"); [discriminate K|].
    destruct (map fst a) eqn:EA; [discriminate K|]. rewrite <- EA in *. bindok K. injection K as <- <- <-.
    split; [reflexivity|]. split; [reflexivity|]. intros _. assumption.
Qed.

Theorem experimental_of_object E c A o nlags : construct E c A = Ok o -> List.length (c_coords A) = cdim c ->
  nlags = a_nlags (c_v A) -> (1 <= nlags)%nat ->
  exists dmin dmax members,
    extremes (o_n o) (sep o) dmin dmax /\ classes (o_n o) (sep o) dmin dmax nlags members /\
    (forall i j, (i < j < o_n o)%nat -> exists k, (k < nlags)%nat /\ In (i, j) (members k) /\
        forall k', (k' < nlags)%nat -> In (i, j) (members k') -> k' = k) /\
    list_sum (map (fun k => List.length (members k)) (seq 0 nlags)) = (o_n o * (o_n o - 1) / 2)%nat /\
    experimental (o_n o) (sep o) (o_values o) nlags members (o_lags o) (o_semivariance o).
Proof.
  intros HC HL -> Hn. pose proof (reachable_inv E o (reach_new E c A o HL HC)) as HI.
  pose proof (construct_inv E c A o HC) as (ex & name & prm & fn & sc & an & f & vp & lags & sv & params & Hall).
  destruct Hall as (_&_&_&_&_&_&HV&_&Hcl&_&_&_&_&_&_&_&_&Hval&Hlag&Hsv&_).
  apply initialize_points in HV. destruct HV as (ls & HX & H1 & H2 & _).
  destruct (experimental_inv _ _ _ _ _ _ _ HX) as (dmin & dmax & HE & HP).
  assert (HD : (fun i j => distance (o_ct o) (cdim c) (o_adj o i) (o_adj o j)) = sep o).
  { apply functional_extensionality; intros i. apply functional_extensionality; intros j.
    rewrite <- Hcl. exact (data_distances_sep o i j HI). }
  rewrite HD in HE, HP. set (M := members_of (o_ct o) (o_n o) (sep o) dmin dmax (a_nlags (c_v A))) in *.
  exists dmin, dmax, M. split; [exact HE|]. split; [apply members_classes, HE|].
  destruct (members_once (o_ct o) (o_n o) (sep o) dmin dmax (a_nlags (c_v A)) HE Hn) as [O1 O2].
  split; [exact O1|]. split; [exact O2|]. rewrite Hlag, Hsv, Hval, H1, H2. exact HP.
Qed.

(** *** C36 *)
Lemma amax_in l : l <> [] -> In (amax l) l /\ forall v, In v l -> v <= amax l.
Proof.
  intros H. unfold amax. destruct (amax_gen Rops l) as [m|] eqn:E; [apply amax_spec, E|]. destruct l; [contradiction|discriminate E].
Qed.
Lemma amin_in l : l <> [] -> In (amin l) l /\ forall v, In v l -> amin l <= v.
Proof.
  intros H. unfold amin. destruct (amin_gen Rops l) as [m|] eqn:E; [apply amin_spec, E|]. destruct l; [contradiction|discriminate E].
Qed.
Lemma increasing_range l : increasing l -> l <> [] -> (amin l < amax l <-> (2 <= List.length l)%nat).
Proof.
  intros HI HL. destruct (amax_in l HL) as [X1 X2], (amin_in l HL) as [N1 N2]. split.
  - intros H. destruct l as [|a [|b l]]; [contradiction| |cbn; lia]. destruct X1 as [X1|[]], N1 as [N1|[]]. lra.
  - intros H. pose proof (HI 0%nat 1%nat ltac:(lia) ltac:(lia)).
    pose proof (X2 (rnth l 1) ltac:(apply nth_In; lia)). pose proof (N2 (rnth l 0) ltac:(apply nth_In; lia)). lra.
Qed.


Lemma within2 a b l1 l2 u1 u2 : l1 <= a -> l2 <= b -> match u1 with Some u => a <= u | None => True end ->
  match u2 with Some u => b <= u | None => True end -> within [a; b] [l1; l2] [u1; u2].
Proof.
  intros. split; [reflexivity|]. intros k Hk. cbn in Hk. destruct k as [|[|k]]; [| |lia]; cbn; split; auto.
Qed.
Lemma within3 a b c l1 l2 l3 u1 u2 u3 : l1 <= a -> l2 <= b -> l3 <= c -> match u1 with Some u => a <= u | None => True end ->
  match u2 with Some u => b <= u | None => True end -> match u3 with Some u => c <= u | None => True end ->
  within [a; b; c] [l1; l2; l3] [u1; u2; u3].
Proof.
  intros. split; [reflexivity|]. intros k Hk. cbn in Hk. destruct k as [|[|[|k]]]; [| | |lia]; cbn; split; auto.
Qed.

Lemma residuals_some f w x y p : x <> [] -> (w = true -> amin x < amax x) -> exists r, variogram_residuals f w x y p = Some r.
Proof.
  intros Hx Hw. unfold variogram_residuals. destruct w; [|eauto]. destruct (Reqb_spec (amax x) (amin x)); [|eauto]. specialize (Hw eq_refl). lra.
Qed.
Lemma residuals_none f x y p : x <> [] -> ~ amin x < amax x -> variogram_residuals f true x y p = None.
Proof.
  intros Hx Hw. unfold variogram_residuals. destruct (Reqb_spec (amax x) (amin x)); [reflexivity|].
  destruct (amax_in x Hx) as [X1 X2], (amin_in x Hx) as [N1 N2]. specialize (N2 _ X1). lra.
Qed.

Lemma Rleb_t a b : a <= b -> Rleb a b = true. Proof. apply Rleb_true. Qed.
Lemma Rltb_t a b : a < b -> Rltb a b = true. Proof. apply Rltb_true. Qed.

Lemma calculate_spec fit lags sv name f weight : lags <> [] -> List.length sv = List.length lags -> increasing lags ->
  (forall d, In d lags -> 0 <= d) -> (forall v, In v sv -> 0 <= v) -> In name fitted_models ->
  (fit_possible name weight lags sv ->
     exists p, calculate_variogram_model fit lags sv name f weight = Ok p /\ (optimiser_ok fit -> bounded_params name lags sv p)) /\
  (~ fit_possible name weight lags sv -> calculate_variogram_model fit lags sv name f weight = Err ValueError).
Proof.
  intros HL HLen HI HD HV HN.
  assert (HS : sv <> []) by (intros ->; destruct lags; [contradiction|discriminate HLen]).
  destruct (amax_in sv HS) as [SX1 SX2], (amin_in sv HS) as [SN1 SN2].
  destruct (amax_in lags HL) as [LX1 LX2], (amin_in lags HL) as [LN1 LN2].
  pose proof (HV _ SN1) as V0. pose proof (SN2 _ SX1) as V1. pose proof (HD _ LN1) as D0. pose proof (LN2 _ LX1) as D1.
  pose proof (increasing_range lags HI HL) as HR.
  assert (PV : (exists v, In v sv /\ 0 < v) <-> 0 < amax sv).
  { split; [intros (v & H1 & H2); specialize (SX2 v H1); lra|]. intros H. exists (amax sv). auto. }
  assert (PD : (exists v, In v lags /\ 0 < v) <-> 0 < amax lags).
  { split; [intros (v & H1 & H2); specialize (LX2 v H1); lra|]. intros H. exists (amax lags). auto. }
  unfold fit_possible. rewrite PV, PD, <- HR.
  assert (BP : forall p, (name = "linear"%string /\ List.length p = 2%nat /\ 0 <= rnth p 0 /\ 0 <= rnth p 1 <= amax sv) \/
   (name = "power"%string /\ List.length p = 3%nat /\ 0 <= rnth p 0 /\ / 1000 <= rnth p 1 <= 1999 / 1000 /\ 0 <= rnth p 2 <= amax sv) \/
   (In name ["gaussian"; "spherical"; "exponential"; "hole-effect"]%string /\ List.length p = 3%nat /\
      0 <= rnth p 0 <= 10 * amax sv /\ 0 <= rnth p 1 <= amax lags /\ 0 <= rnth p 2 <= amax sv) -> bounded_params name lags sv p).
  { intros p H. exists (amax sv), (amax lags). split; [auto|]. split; [auto|exact H]. }
  assert (RS : forall p, (weight = true -> amin lags < amax lags) -> exists r, variogram_residuals f weight lags sv p = Some r)
    by (intros; apply residuals_some; assumption).
  unfold calculate_variogram_model, start_guess, fit_bounds, slope_guess.
  destruct HN as [<-|[<-|HN]].
  - cbn [String.eqb Ascii.eqb Bool.eqb]. split.
    + intros (P1 & P2 & _). specialize (P2 (or_introl eq_refl)).
      destruct (Reqb_spec (amax lags) (amin lags)) as [E|_]; [lra|].
      set (s := (amax sv - amin sv) / (amax lags - amin lags)).
      assert (Hs : 0 <= s) by (unfold s, Rdiv; apply Rmult_le_pos; [lra|left; apply Rinv_0_lt_compat; lra]).
      unfold least_squares. cbn [combine forallb lt_ub le_ub]. rewrite (Rltb_t 0 (amax sv)) by lra. cbn [andb negb].
      rewrite !Rleb_t by lra. cbn [andb negb drop_nan flat_map app].
      destruct (RS [s; amin sv] (fun _ => P2)) as [r ->]. eexists. split; [reflexivity|]. intros HO.
      destruct (HO (variogram_residuals f weight lags sv) [s; amin sv] [0; 0] [None; Some (amax sv)]) as [W1 W2]; [apply within2; cbn; auto; lra|].
      apply BP. left. split; [reflexivity|]. split; [exact W1|].
      pose proof (W2 0%nat ltac:(cbn; lia)) as [A1 _]. pose proof (W2 1%nat ltac:(cbn; lia)) as [B1 B2]. cbn in A1, B1, B2. auto.
    + intros NP. unfold least_squares. cbn [combine forallb lt_ub le_ub].
      destruct (Rltb_spec 0 (amax sv)) as [P1|_]; [|reflexivity]. cbn [andb negb].
      destruct (Reqb_spec (amax lags) (amin lags)) as [E|E]; [reflexivity|]. exfalso. apply NP. split; [exact P1|].
      split; [intros _; lra|]. intros [H|[H|[H|[H|[]]]]]; discriminate H.
  - cbn [String.eqb Ascii.eqb Bool.eqb]. split.
    + intros (P1 & P2 & _). specialize (P2 (or_intror (or_introl eq_refl))).
      destruct (Reqb_spec (amax lags) (amin lags)) as [E|_]; [lra|].
      set (s := (amax sv - amin sv) / (amax lags - amin lags)).
      assert (Hs : 0 <= s) by (unfold s, Rdiv; apply Rmult_le_pos; [lra|left; apply Rinv_0_lt_compat; lra]).
      unfold least_squares. cbn [combine forallb lt_ub le_ub]. rewrite !Rltb_t by lra. cbn [andb negb].
      rewrite !Rleb_t by lra. cbn [andb negb drop_nan flat_map app].
      destruct (RS [s; 11 / 10; amin sv] (fun _ => P2)) as [r ->]. eexists. split; [reflexivity|]. intros HO.
      destruct (HO (variogram_residuals f weight lags sv) [s; 11 / 10; amin sv] [0; 1 / 1000; 0] [None; Some (1999 / 1000); Some (amax sv)]) as [W1 W2]; [apply within3; cbn; auto; lra|].
      apply BP. right; left. split; [reflexivity|]. split; [exact W1|].
      pose proof (W2 0%nat ltac:(cbn; lia)) as [A1 _]. pose proof (W2 1%nat ltac:(cbn; lia)) as [B1 B2]. pose proof (W2 2%nat ltac:(cbn; lia)) as [C1 C2].
      cbn in A1, B1, B2, C1, C2. repeat split; lra.
    + intros NP. unfold least_squares. cbn [combine forallb lt_ub le_ub].
      destruct (Rltb_spec 0 (amax sv)) as [P1|_]; [|rewrite !andb_false_r; reflexivity]. rewrite !Rltb_t by lra. cbn [andb negb].
      destruct (Reqb_spec (amax lags) (amin lags)) as [E|E]; [reflexivity|]. exfalso. apply NP. split; [exact P1|].
      split; [intros _; lra|]. intros [H|[H|[H|[H|[]]]]]; discriminate H.
  - replace (String.eqb name "linear") with false by (destruct HN as [<-|[<-|[<-|[<-|[]]]]]; reflexivity).
    replace (String.eqb name "power") with false by (destruct HN as [<-|[<-|[<-|[<-|[]]]]]; reflexivity).
    assert (HNN : name <> "linear"%string /\ name <> "power"%string) by (destruct HN as [<-|[<-|[<-|[<-|[]]]]]; split; discriminate).
    split.
    + intros (P1 & P2 & P3). specialize (P3 HN).
      unfold least_squares. cbn [combine forallb lt_ub le_ub]. rewrite !Rltb_t by lra. cbn [andb negb].
      rewrite !Rleb_t by lra. cbn [andb negb drop_nan flat_map app].
      destruct (RS [amax sv - amin sv; / 4 * amax lags; amin sv]) as [r ->]; [intros W; apply P2; auto|]. eexists. split; [reflexivity|]. intros HO.
      destruct (HO (variogram_residuals f weight lags sv) [amax sv - amin sv; / 4 * amax lags; amin sv] [0; 0; 0] [Some (10 * amax sv); Some (amax lags); Some (amax sv)]) as [W1 W2]; [apply within3; cbn; auto; lra|].
      apply BP. right; right. split; [exact HN|]. split; [exact W1|].
      pose proof (W2 0%nat ltac:(cbn; lia)) as [A1 A2]. pose proof (W2 1%nat ltac:(cbn; lia)) as [B1 B2]. pose proof (W2 2%nat ltac:(cbn; lia)) as [C1 C2].
      cbn in A1, A2, B1, B2, C1, C2. repeat split; lra.
    + intros NP. unfold least_squares. cbn [combine forallb lt_ub le_ub].
      destruct (Rltb_spec 0 (amax sv)) as [P1|_]; [|rewrite !andb_false_r; reflexivity].
      destruct (Rltb_spec 0 (amax lags)) as [P3|_]; [|rewrite !andb_false_r; reflexivity].
      rewrite !Rltb_t by lra. cbn [andb negb]. rewrite !Rleb_t by lra. cbn [andb negb].
      destruct weight; [|exfalso; apply NP; split; [exact P1|]; split; [intros [H|[H|H]]; [destruct HNN; contradiction|destruct HNN; contradiction|discriminate H]|auto]].
      destruct (Rlt_dec (amin lags) (amax lags)) as [H|H]; [exfalso; apply NP; auto|].
      rewrite residuals_none by assumption. reflexivity.
Qed.

(** *** C37 *)
Lemma lsum_map_div l s : lsum (map (fun w => w / s) l) = lsum l / s.
Proof. induction l as [|a l IH]; [unfold lsum; cbn; unfold Rdiv; ring|]. change (a / s + lsum (map (fun w => w / s) l) = (a + lsum l) / s). rewrite IH. unfold Rdiv. ring. Qed.
Lemma lsum_pos l : l <> [] -> (forall v, In v l -> 0 < v) -> 0 < lsum l.
Proof.
  induction l as [|a l IH]; intros H HP; [contradiction|]. change (0 < a + lsum l). pose proof (HP a (or_introl eq_refl)).
  destruct l as [|b l]; [unfold lsum; cbn; lra|]. specialize (IH ltac:(discriminate) (fun v Hv => HP v (or_intror Hv))). lra.
Qed.

Lemma rnth_map (f : R -> R) l i : (i < List.length l)%nat -> rnth (map f l) i = f (rnth l i).
Proof. intros H. unfold rnth. rewrite (nth_indep _ 0 (f 0)) by (rewrite map_length; exact H). apply map_nth. Qed.

Theorem weights_spec x : (exists a b, In a x /\ In b x /\ a <> b) ->
  let w := lag_weights x in
  List.length w = List.length x /\ (forall v, In v w -> 0 < v) /\ lsum w = 1 /\
  forall i j, (i < List.length x)%nat -> (j < List.length x)%nat -> rnth x i < rnth x j -> rnth w j < rnth w i.
Proof.
  intros (a & b & Ha & Hb & Hab) w. unfold w, lag_weights. clear w.
  assert (HX : x <> []) by (intros ->; contradiction).
  destruct (amax_in x HX) as [X1 X2], (amin_in x HX) as [N1 N2].
  assert (HR : 0 < amax x - amin x).
  { pose proof (X2 a Ha). pose proof (X2 b Hb). pose proof (N2 a Ha). pose proof (N2 b Hb). destruct (Rtotal_order a b) as [H3|[H3|H3]]; lra. }
  set (dr := amax x - amin x) in *. set (k := 21972 / 10000 / (/ 10 * dr)). set (x0 := 7 / 10 * dr + amin x).
  assert (Hk : 0 < k) by (unfold k, Rdiv; apply Rmult_lt_0_compat; [lra|apply Rinv_0_lt_compat; lra]).
  set (f := fun v => 1 / (1 + exp (- k * (x0 - v)))).
  assert (Hf : forall v, 0 < f v).
  { intros v. unfold f. pose proof (exp_pos (- k * (x0 - v))). unfold Rdiv. rewrite Rmult_1_l. apply Rinv_0_lt_compat. lra. }
  assert (HP : 0 < lsum (map f x)).
  { apply lsum_pos; [intros H; apply map_eq_nil in H; contradiction|]. intros v Hv. apply in_map_iff in Hv. destruct Hv as (u & <- & _). apply Hf. }
  set (s := lsum (map f x)) in *.
  split; [rewrite !map_length; reflexivity|]. split; [|split].
  - intros v Hv. rewrite map_map in Hv. apply in_map_iff in Hv. destruct Hv as (u & <- & _).
    apply Rmult_lt_0_compat; [apply Hf|apply Rinv_0_lt_compat, HP].
  - rewrite lsum_map_div. fold s. unfold Rdiv. apply Rinv_r. lra.
  - intros i j Hi Hj H. rewrite map_map. rewrite !(rnth_map (fun v => f v / s)) by assumption.
    apply Rmult_lt_compat_r; [apply Rinv_0_lt_compat, HP|]. unfold f, Rdiv. rewrite !Rmult_1_l.
    pose proof (exp_pos (- k * (x0 - rnth x i))). pose proof (exp_pos (- k * (x0 - rnth x j))).
    apply Rinv_lt_contravar; [apply Rmult_lt_0_compat; lra|]. apply Rplus_lt_compat_l, exp_increasing.
    replace (- k * (x0 - rnth x i)) with (k * (rnth x i - x0)) by ring. replace (- k * (x0 - rnth x j)) with (k * (rnth x j - x0)) by ring.
    apply Rmult_lt_compat_l; lra.
Qed.

Lemma in_combine_nth {A B} (l : list A) (l' : list B) a b d d' : List.length l = List.length l' ->
  In (a, b) (combine l l') <-> exists k, (k < List.length l)%nat /\ nth k l d = a /\ nth k l' d' = b.
Proof.
  intros HL. split.
  - intros H. apply (In_nth _ _ (d, d')) in H. destruct H as (k & Hk & E). rewrite combine_length in Hk. rewrite combine_nth in E by exact HL.
    injection E as E1 E2. exists k. split; [lia|auto].
  - intros (k & Hk & <- & <-). rewrite <- combine_nth by exact HL. apply nth_In. rewrite combine_length. lia.
Qed.

Theorem residuals_zero f weight x y p r : List.length x = List.length y -> variogram_residuals f weight x y p = Some r ->
  List.length r = List.length x /\
  ((forall v, In v r -> v = 0) <-> forall k, (k < List.length x)%nat -> fcall f p (rnth x k) = rnth y k).
Proof.
  intros HL H. unfold variogram_residuals in H.
  set (diff := map (fun '(xi, yi) => fcall f p xi - yi) (combine x y)) in *.
  assert (LD : List.length diff = List.length x) by (unfold diff; rewrite map_length, combine_length; lia).
  assert (ND : forall k, (k < List.length x)%nat -> rnth diff k = fcall f p (rnth x k) - rnth y k).
  { intros k Hk. unfold rnth, diff. set (h := fun '(xi, yi) => fcall f p xi - yi).
    rewrite (nth_indep _ 0 (h (0, 0))) by (rewrite map_length, combine_length; lia).
    rewrite (map_nth h), combine_nth by exact HL. reflexivity. }
  destruct weight.
  - destruct (Reqb_spec (amax x) (amin x)) as [E|NE]; [discriminate H|]. injection H as <-.
    destruct x as [|x1 xr]; [unfold diff; cbn; split; [reflexivity|split; [intros _ k Hk; lia|intros _ v []]]|].
    assert (HX : x1 :: xr <> []) by discriminate.
    destruct (amax_in _ HX) as [X1 X2], (amin_in _ HX) as [N1 N2].
    destruct (weights_spec (x1 :: xr)) as (W1 & W2 & _); [exists (amax (x1 :: xr)), (amin (x1 :: xr)); auto|].
    set (x := x1 :: xr) in *. set (w := lag_weights x) in *.
    assert (LC : List.length diff = List.length w) by lia.
    split; [rewrite map_length, combine_length; lia|]. split.
    + intros Hz k Hk. enough (rnth diff k = 0) by (rewrite ND in H by exact Hk; lra).
      assert (HI : In (rnth diff k, rnth w k) (combine diff w)) by (apply (in_combine_nth diff w _ _ 0 0 LC); exists k; repeat split; lia).
      pose proof (Hz (rnth diff k * rnth w k)) as Z. 
      assert (rnth diff k * rnth w k = 0) by (apply Z; apply in_map_iff; exists (rnth diff k, rnth w k); auto).
      assert (0 < rnth w k) by (apply W2, nth_In; lia). destruct (Rmult_integral _ _ H); [assumption|lra].
    + intros Hz v Hv. apply in_map_iff in Hv. destruct Hv as ((d, u) & <- & Hin).
      apply (in_combine_nth diff w _ _ 0 0 LC) in Hin. destruct Hin as (k & Hk & E1 & E2).
      change (rnth diff k = d) in E1. rewrite ND, Hz in E1 by lia. rewrite <- E1. ring.
  - injection H as <-. split; [exact LD|]. split.
    + intros Hz k Hk. pose proof (Hz (rnth diff k) ltac:(apply nth_In; lia)) as E. rewrite ND in E by exact Hk. lra.
    + intros Hz v Hv. apply (In_nth _ _ 0) in Hv. destruct Hv as (k & Hk & <-). change (rnth diff k = 0). rewrite ND, Hz by lia. ring.
Qed.
