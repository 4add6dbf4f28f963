(** A concrete environment and concrete kriging objects: they show that the
    hypotheses of the theorems can be met.  The environment's linear algebra is
    obtained by classical choice (ClassicalEpsilon; only the non-vacuity examples
    depend on that axiom), its neighbour search is an insertion sort, its optimiser
    returns the starting point. *)
From Coq Require Import String ClassicalEpsilon.
From Verif Require Import Base Sums Matrix M_Variogram P_Variogram M_Geometry S_Geometry P_Geometry M_Kriging S_Kriging
  P_Kriging P_OKSpec M_Init M_Object M_Execute S_Execute P_Object P_Execute P_Cells P_Window P_WindowExec P_Master P_Det P_OK.

(** *** Linear algebra *)
Definition choose {A} (P : A -> Prop) : option A :=
  match excluded_middle_informative (exists x, P x) with
  | left H => Some (proj1_sig (constructive_indefinite_description P H))
  | right _ => None
  end.
Lemma choose_some {A} (P : A -> Prop) x : choose P = Some x -> P x.
Proof.
  unfold choose. destruct (excluded_middle_informative _) as [H|H]; [|discriminate].
  intros E. injection E as <-. apply proj2_sig.
Qed.
Lemma choose_none {A} (P : A -> Prop) : choose P = None -> ~ exists x, P x.
Proof. unfold choose. destruct (excluded_middle_informative _) as [H|H]; [discriminate|]. auto. Qed.

Definition wit_la : linalg := {|
  la_inv := fun n A => choose (is_inverse n A);
  la_pinv := fun _ n A => choose (is_pinv n A);
  la_solve := fun n A b => option_map (fun B => mulv n B b) (choose (is_inverse n A));
  la_lstsq := fun n A b => option_map (fun P => mulv n P b) (choose (is_pinv n A)) |}.

Lemma wit_la_ok : linalg_ok wit_la.
Proof.
  constructor; cbn.
  - intros n A B H. apply (choose_some _ _ H).
  - intros n A H [B HB]. apply (choose_none _ H). exists B. exact HB.
  - intros _ n A P H. apply (choose_some _ _ H).
  - intros n A b x H. destruct (choose (is_inverse n A)) as [B|] eqn:E; [|discriminate]. injection H as <-.
    apply choose_some in E. split; [exists B; exact E|]. apply inverse_solves, E.
  - intros n A b H [B HB]. destruct (choose (is_inverse n A)) as [B'|] eqn:E; [discriminate|].
    apply (choose_none _ E). exists B. exact HB.
  - intros n A b x H. destruct (choose (is_pinv n A)) as [P|] eqn:E; [|discriminate]. injection H as <-.
    exists P. split; [apply (choose_some _ _ E)|]. intros i _. reflexivity.
Qed.

(** *** Neighbour search by insertion sort *)
Fixpoint ins (d : nat -> R) (i : nat) (l : list nat) : list nat :=
  match l with
  | [] => [i]
  | j :: l' => if Rleb (d i) (d j) then i :: l else j :: ins d i l'
  end.
Definition isort (d : nat -> R) (l : list nat) : list nat := fold_right (ins d) [] l.

Lemma ins_perm d i l : Permutation.Permutation (i :: l) (ins d i l).
Proof.
  induction l as [|j l IH]; cbn; [reflexivity|]. destruct (Rleb (d i) (d j)); [reflexivity|].
  rewrite Permutation.perm_swap. constructor. exact IH.
Qed.
Lemma isort_perm d l : Permutation.Permutation l (isort d l).
Proof. induction l as [|i l IH]; cbn; [reflexivity|]. rewrite <- ins_perm. constructor. exact IH. Qed.

Fixpoint sorted (d : nat -> R) (l : list nat) : Prop :=
  match l with
  | [] => True
  | i :: l' => (forall j, In j l' -> d i <= d j) /\ sorted d l'
  end.
Lemma ins_sorted d i l : sorted d l -> sorted d (ins d i l).
Proof.
  induction l as [|j l IH]; cbn; [tauto|]. intros [H1 H2].
  destruct (Rleb_spec (d i) (d j)) as [Hle|Hle]; cbn.
  - split; [|split; assumption]. intros x [<-|Hx]; [exact Hle|]. specialize (H1 x Hx). lra.
  - split; [|apply IH, H2]. intros x Hx. apply (Permutation.Permutation_in x (Permutation.Permutation_sym (ins_perm d i l))) in Hx.
    destruct Hx as [<-|Hx]; [lra|apply H1, Hx].
Qed.
Lemma isort_sorted d l : sorted d (isort d l).
Proof. induction l as [|i l IH]; cbn; [exact I|apply ins_sorted, IH]. Qed.
Lemma sorted_nth d l z : sorted d l -> forall a b, (a <= b)%nat -> (b < List.length l)%nat -> d (nth a l z) <= d (nth b l z).
Proof.
  induction l as [|i l IH]; cbn [sorted List.length]; [intros _ a b _ Hb; lia|]. intros [H1 H2] a b Hab Hb.
  destruct a as [|a], b as [|b]; cbn [nth]; try lra; try lia.
  - apply H1. apply nth_In. lia.
  - apply IH; [exact H2|lia|lia].
Qed.

Definition wit_kd (N dim : nat) (data : mat) (k : nat) (q : vec) : (nat -> xdist) * (nat -> nat) :=
  let s := isort (fun i => euclid dim q (data i)) (seq 0 N) in
  ((fun a => if Nat.ltb a N then Some (euclid dim q (data (nth a s N))) else None),
   (fun a => nth a s N)).

Lemma wit_kd_ok : kd_ok wit_kd.
Proof.
  intros N dim data k q. unfold wit_kd, kd_spec. set (d := fun i => euclid dim q (data i)).
  set (s := isort d (seq 0 N)).
  pose proof (isort_perm d (seq 0 N)) as HP. fold s in HP.
  assert (Hlen : List.length s = N) by (rewrite <- (Permutation.Permutation_length HP); apply seq_length).
  assert (Hin : forall a, (a < N)%nat -> (nth a s N < N)%nat).
  { intros a Ha. assert (In (nth a s N) (seq 0 N)).
    { apply (Permutation.Permutation_in _ (Permutation.Permutation_sym HP)). apply nth_In. lia. }
    apply in_seq in H. lia. }
  assert (Hnd : NoDup s) by (apply (Permutation.Permutation_NoDup HP), seq_NoDup).
  assert (Hso : sorted d s) by apply isort_sorted.
  split; [|split; [|split; [|split]]].
  - intros a _ Ha. split; [apply Hin, Ha|]. destruct (Nat.ltb_spec a N); [reflexivity|lia].
  - intros a b _ _ Ha Hb HE. apply (proj1 (NoDup_nth s N) Hnd); lia || assumption.
  - intros a b Hab _ Hb. apply (sorted_nth d s N Hso); lia.
  - intros j a Hj Hno Ha HaN.
    assert (Hjs : In j s) by (apply (Permutation.Permutation_in _ HP), in_seq; lia).
    destruct (In_nth s j N Hjs) as (b & Hb & Hbj).
    assert (Hbk : (k <= b)%nat) by (destruct (Nat.le_gt_cases k b) as [|Hlt]; [assumption|exfalso; apply (Hno b Hlt Hbj)]).
    rewrite <- Hbj. apply (sorted_nth d s N Hso); lia.
  - intros a _ HaN. split; [apply nth_overflow; lia|]. destruct (Nat.ltb_spec a N); [lia|reflexivity].
Qed.

Definition wit_env (cython : bool) (gs : option (nat * nat)) : env :=
  {| e_la := wit_la; e_lu := fun a => a; e_fit := fun _ x0 _ _ => x0; e_kd := wit_kd;
     e_vinf := fun _ _ => None; e_cython := cython; e_gstools := gs |}.
Lemma wit_env_ok cython gs : env_ok (wit_env cython gs).
Proof. split; [exact wit_la_ok|]. split; [intros fn x0 lb ub H; exact H|exact wit_kd_ok]. Qed.

(** *** Constructing objects with explicit variogram parameters *)
Lemma experimental_ok (O : numops) nlags (dg : list (num O * num O)) : dg <> [] -> exists l, experimental_gen O nlags dg = Ok l.
Proof. destruct dg as [|[d g] dg]; [congruence|]. intros _. unfold experimental_gen. cbn. eauto. Qed.

Lemma pairs_nonempty ct n : (2 <= n)%nat -> pairs ct n <> [].
Proof.
  intros Hn. destruct ct; cbn; unfold pairs_euclid, pairs_geo.
  - destruct n as [|[|n]]; [lia|lia|]. cbn. discriminate.
  - destruct n as [|[|n]]; [lia|lia|]. cbn. discriminate.
Qed.

Lemma center_ok l : (0 < List.length l)%nat -> exists c, center_of l = Ok c.
Proof. destruct l; cbn; [lia|eauto]. Qed.
Lemma mapM_ok {A B} (f : A -> res B) l : (forall x, In x l -> exists y, f x = Ok y) -> exists ys, mapM f l = Ok ys.
Proof.
  induction l as [|x l IH]; intros H; cbn; [eauto|].
  destruct (H x (or_introl eq_refl)) as [y ->]. destruct IH as [ys ->]; [intros; apply H; right; assumption|]. cbn. eauto.
Qed.

(** Explicit parameters of the right length for a built-in model. *)
Definition explicit (name : string) (prm : user_params) (f : pyfun) (p : list R) : Prop :=
  dict_get variogram_dict name = Some f /\ make_parameter_list name prm = Ok (Some p) /\
  List.length p = (if String.eqb name "linear" then 2%nat else 3%nat).

Lemma initialize_explicit fit ct ndim n X y name f p nlags weight :
  (ct = Geographic -> ndim = 2%nat) -> (2 <= n)%nat ->
  dict_get variogram_dict name = Some f ->
  List.length p = (if String.eqb name "linear" then 2%nat else 3%nat) ->
  exists lags sv, initialize_variogram_model fit ct ndim n X n y name (Some p) f nlags weight = Ok (lags, sv, p).
Proof.
  intros Hg Hn Hd Hp. unfold initialize_variogram_model.
  destruct (experimental_ok Rops nlags (pair_data ct ndim n X y)) as [ls Hls].
  { unfold pair_data. intros E. apply map_eq_nil in E. apply (pairs_nonempty ct n Hn E). }
  unfold experimental_variogram. rewrite Hls, Nat.eqb_refl. cbn [negb bind].
  assert (HC : (String.eqb name "linear" && negb (Nat.eqb (List.length p) 2) = false)%bool).
  { destruct (String.eqb name "linear"); [rewrite Hp; reflexivity|reflexivity]. }
  assert (HC2 : (in_names name ("power"%string :: three_param_models) && negb (Nat.eqb (List.length p) 3) = false)%bool).
  { destruct (String.eqb_spec name "linear") as [->|Hne]; [reflexivity|]. rewrite Hp. apply andb_false_r. }
  rewrite HC, HC2. destruct ct; [|rewrite (Hg eq_refl); cbn [Nat.eqb]]; eauto.
Qed.

Lemma construct_explicit E A name f p x y : 
  c_pinv_type A = "pinv"%string -> (exists b, c_exact A = Some b) -> c_ct A = "euclidean"%string ->
  c_coords A = [x; y] -> List.length x = List.length y -> List.length (c_values A) = List.length x -> (2 <= List.length x)%nat ->
  a_model (c_v A) = VName name -> explicit name (a_params (c_v A)) f p -> c_stat A = false ->
  exists o, construct E OK2 A = Ok o.
Proof.
  intros Hpt [b Hb] Hct Hco Hxy Hv Hn Hm (Hd & Hmp & Hl) Hst.
  unfold construct. rewrite Hpt, Hb, Hct, Hco, Hst. cbn [class_ct]. unfold resolve_gs. rewrite Hm. cbn [bind].
  unfold resolve_fun. rewrite Hd. cbn [bind in_names pinv_types existsb String.eqb Ascii.eqb Bool.eqb orb negb].
  destruct (mapM_ok center_of [x; y]) as [cs Hcs].
  { intros l [<-|[<-|[]]]; apply center_ok; lia. }
  rewrite Hcs. cbn [bind same_length forallb]. rewrite Hxy, Nat.eqb_refl. cbn [andb negb cdim].
  destruct (adjust_supported 2 (columns [x; y]) (rnth cs) (a_scaling (c_v A)) (a_angle (c_v A)) (or_introl eq_refl)) as [Y HY].
  rewrite HY. cbn [bind]. rewrite Hmp. cbn [bind nth]. rewrite ?Hxy, ?Nat.eqb_refl. cbn [andb negb].
  rewrite Hv, Hxy.
  destruct (initialize_explicit (e_fit E) Euclidean 2 (List.length y) Y (rnth (c_values A)) name f p (a_nlags (c_v A)) (a_weight (c_v A)))
    as (lags & sv & Hi); try assumption; [intros; discriminate|lia|].
  rewrite Hi. cbn [bind]. eauto.
Qed.

(** *** A concrete object: two data, 5 apart *)
Definition two_args (slope nugget z0 z1 : R) (exact pinv : bool) : cargs :=
  {| c_coords := [[0; 3]; [0; 4]]; c_values := [z0; z1];
     c_v := {| a_model := VName "linear"; a_params := PList [slope; nugget]; a_fun := FNone;
               a_nlags := 6; a_weight := false; a_scaling := (fun _ => 1); a_angle := (fun _ => 0) |};
     c_verbose := false; c_plotting := false; c_stat := false; c_ct := "euclidean";
     c_exact := Some exact; c_pinv := pinv; c_pinv_type := "pinv" |}.

Lemma two_construct E slope nugget z0 z1 exact pinv : exists o,
  construct E OK2 (two_args slope nugget z0 z1 exact pinv) = Ok o.
Proof.
  apply (construct_explicit E _ "linear" f_linear [slope; nugget] [0; 3] [0; 4]); cbn; try reflexivity; try lia; eauto.
  repeat split; reflexivity.
Qed.

Lemma two_fields E slope nugget z0 z1 exact pinv o :
  construct E OK2 (two_args slope nugget z0 z1 exact pinv) = Ok o ->
  reachable E o /\ coords_inv o /\ o_class o = OK2 /\ o_n o = 2%nat /\ o_ct o = Euclidean /\ o_exact o = exact /\ o_pinv o = pinv /\
  o_fun o = f_linear /\ o_params o = [slope; nugget] /\
  (forall d, o_vg o d = slope * d + nugget) /\ o_values o = rnth [z0; z1] /\
  datum o 0%nat = (0, 0, 0) /\ datum o 1%nat = (3, 4, 0) /\
  forall p q, separation o p q = sqrt ((lon p - lon q)² + (lat p - lat q)²).
Proof.
  intros H.
  assert (Hre : reachable E o) by (refine (reach_new E OK2 (two_args slope nugget z0 z1 exact pinv) o _ H); reflexivity).
  split; [exact Hre|].
  split; [apply (reachable_inv E o Hre)|].
  destruct (construct_inv E OK2 _ o H) as (ex & name & prm & fn & sc & an & f & vp & lags & sv & params & Hall).
  destruct Hall as (_&Hex&Hgs&Hf&Hmp&_&Hini&_&Hc&Hpi&_&Hexo&_&Hfo&Hpo&Hn&Horig&Hval&_&_&_&_&Hct).
  cbn in Hex, Hgs, Hn, Horig, Hval, Hpi. injection Hex as <-. injection Hgs as <- <- <- <- <-.
  cbn in Hf. injection Hf as <-. cbn in Hmp. injection Hmp as <-.
  destruct Hct as [(_ & Hct & _ & Hs & Ha & _)|(Hg & _)]; [|discriminate].
  assert (Hpar : params = [slope; nugget]).
  { unfold initialize_variogram_model in Hini. rewrite Hct in Hini. cbn [cdim Nat.eqb] in Hini. rewrite Hn in Hini. cbn [List.length two_args c_values Nat.eqb negb] in Hini.
    bindok Hini. cbn in Hini. injection Hini as _ _ <-. reflexivity. }
  rewrite Hpar in Hpo.
  assert (Hdim : o_dim o = 2%nat) by (unfold o_dim; rewrite Hc; reflexivity).
  assert (Hvg : forall d, o_vg o d = slope * d + nugget).
  { intros d. unfold o_vg. rewrite Hfo, Hpo. reflexivity. }
  assert (Hd0 : datum o 0%nat = (0, 0, 0)) by (unfold datum, loc; rewrite Hdim, Horig; reflexivity).
  assert (Hd1 : datum o 1%nat = (3, 4, 0)) by (unfold datum, loc; rewrite Hdim, Horig; reflexivity).
  repeat (split; [first [assumption|reflexivity]|]).
  intros [[x y] z] [[u v] w]. unfold separation, lon, lat. rewrite Hct, Hdim, Hs, Ha. cbn [Nat.eqb fst snd].
  unfold aniso2, rad, dot3, sub3. cbv zeta. replace (0 * PI / 180) with 0 by (field). rewrite cos_0, sin_0. f_equal. unfold Rsqr. ring.
Qed.

Lemma two_regular_gen (G : mat) c : G 0%nat 0%nat = 0 -> G 1%nat 1%nat = 0 -> G 0%nat 1%nat = c -> G 1%nat 0%nat = c -> c <> 0 ->
  OK_regular 2 G.
Proof.
  intros G0 G1 Hc Hc' Hg g.
  set (w0 := / 2 + (g 1%nat - g 0%nat) / (2 * c)).
  set (w1 := / 2 - (g 1%nat - g 0%nat) / (2 * c)).
  exists (fun i => match i with 0%nat => w0 | _ => w1 end), ((g 0%nat + g 1%nat) / 2 - c / 2).
  split.
  - split.
    + intros i Hi. destruct i as [|[|i]]; [| |lia]; cbn [bsum].
      * rewrite G0, Hc. unfold w0, w1. field. exact Hg.
      * rewrite G1, Hc'. unfold w0, w1. field. exact Hg.
    + cbn [bsum]. unfold w0, w1. field. exact Hg.
  - intros w' mu' [H1 H2]. cbn [bsum] in H2. pose proof (H1 0%nat ltac:(lia)) as A0. pose proof (H1 1%nat ltac:(lia)) as A1.
    cbn [bsum] in A0, A1. rewrite G0, Hc in A0. rewrite G1, Hc' in A1.
    assert (D : w' 0%nat - w' 1%nat = (g 1%nat - g 0%nat) / c).
    { apply (Rmult_eq_reg_l c); [|exact Hg]. replace (c * ((g 1%nat - g 0%nat) / c)) with (g 1%nat - g 0%nat) by (field; exact Hg). lra. }
    assert (W0 : w' 0%nat = w0).
    { unfold w0. replace ((g 1%nat - g 0%nat) / (2 * c)) with ((g 1%nat - g 0%nat) / c / 2) by (field; exact Hg). lra. }
    assert (W1 : w' 1%nat = w1).
    { unfold w1. replace ((g 1%nat - g 0%nat) / (2 * c)) with ((g 1%nat - g 0%nat) / c / 2) by (field; exact Hg). lra. }
    split.
    + intros i Hi. destruct i as [|[|i]]; [exact W0|exact W1|lia].
    + assert (H : mu' = g 0%nat - w' 1%nat * c) by lra. rewrite W1 in H. unfold w1 in H. rewrite H. field. exact Hg.
Qed.
Lemma two_regular o : o_n o = 2%nat -> G_of o 0%nat 1%nat <> 0 -> regular o.
Proof.
  intros Hn Hg. unfold regular. rewrite Hn.
  apply (two_regular_gen _ (G_of o 0%nat 1%nat)); try apply G_of_diag; try reflexivity; [apply G_of_sym|exact Hg].
Qed.

(** sqrt (3^2 + 4^2) = 5 *)
Lemma sqrt_25 : sqrt ((0 - 3)² + (0 - 4)²) = 5.
Proof. replace ((0 - 3)² + (0 - 4)²) with (5 * 5) by (unfold Rsqr; ring). apply sqrt_square. lra. Qed.

Lemma two_G E slope nugget z0 z1 exact pinv o :
  construct E OK2 (two_args slope nugget z0 z1 exact pinv) = Ok o -> G_of o 0%nat 1%nat = slope * 5 + nugget.
Proof.
  intros H. destruct (two_fields _ _ _ _ _ _ _ _ H) as (_&_&_&_&_&_&_&_&_&Hvg&_&H0&H1&Hs).
  unfold G_of, data_semivariance. cbn [Nat.eqb]. rewrite Hvg, Hs, H0, H1. unfold lon, lat. cbn [fst snd]. rewrite sqrt_25. reflexivity.
Qed.

(** points query at (x, y) *)
Definition one_point (x y : R) (b : string) : query :=
  {| q_style := "points"; q_pts := [[x]; [y]]; q_int := [false; false]; q_mask := None; q_backend := b; q_window := None |}.
Lemma one_point_cell o x y b : o_class o = OK2 -> shown o (one_point x y b) 0 (x, y, 0).
Proof.
  intros Hc. unfold shown, o_dim. rewrite Hc. split.
  - apply (cell_point 2 (one_point x y b) 0 eq_refl). cbn. lia.
  - intros H. inversion H; discriminate.
Qed.

Lemma two_run slope nugget z0 z1 exact x y cython gs : 0 < slope * 5 + nugget ->
  exists o r, construct (wit_env cython gs) OK2 (two_args slope nugget z0 z1 exact false) = Ok o /\
    run (wit_env cython gs) o (one_point x y "vectorized") r.
Proof.
  intros Hg. set (E := wit_env cython gs). destruct (two_construct E slope nugget z0 z1 exact false) as [o Ho].
  destruct (two_fields _ _ _ _ _ _ _ _ Ho) as (Hre&Hinv&Hc&Hn&Hct&Hex&Hpi&_).
  assert (Hord : ordinary o) by (left; exact Hc).
  assert (HR : regular o) by (apply two_regular; [exact Hn|rewrite (two_G _ _ _ _ _ _ _ _ Ho); lra]).
  assert (HL : exists l, locate (o_dim o) "points" [[x]; [y]] None = Ok l).
  { unfold o_dim. rewrite Hc. cbn. eauto. }
  destruct HL as [l HL].
  destruct (execute_succeeds E o (one_point x y "vectorized") l (wit_env_ok cython gs) Hinv Hord eq_refl Hpi) as [r Hr];
    [left; reflexivity|exact HR|exact HL|reflexivity|].
  exists o, r. split; [exact Ho|]. split; [apply wit_env_ok|]. split; [exact Hre|]. split; [exact Hord|].
  split; [intros Hb; discriminate Hb|exact Hr].
Qed.
