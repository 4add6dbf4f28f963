(** Proofs: kriging with the pseudo-inverse (C74). *)
From Coq Require Import String.
From Verif Require Import Base Sums Matrix M_Variogram P_Variogram M_Geometry S_Geometry P_Geometry M_Kriging S_Kriging
  P_Kriging P_OKSpec M_Init M_Object M_Execute S_Execute P_Object P_Execute P_Cells P_Window P_WindowExec P_Master P_Det P_OK P_Dup P_Options P_Linear
  M_UK S_UK S_UK2 P_UK P_UK2 P_UK3 P_UK4 P_UK11 S_Drift P_UK19 P_Pinv S_Pinv Witness.

(** ** least squares *)
Lemma mulv_sub n A x y i : mulv n A (fun j => x j - y j) i = mulv n A x i - mulv n A y i.
Proof. unfold mulv. rewrite <- bsum_minus. apply bsum_ext; intros; ring. Qed.
Lemma dot_mulv n A x y : dot n (mulv n A x) y = dot n x (mulv n (trm A) y).
Proof.
  unfold dot, mulv, trm. rewrite (bsum_ext n _ (fun i => bsum n (fun j => A i j * x j * y i))) by (intros; rewrite <- bsum_scal_r; reflexivity).
  rewrite bsum_swap. apply bsum_ext; intros j _. rewrite <- bsum_scal. apply bsum_ext; intros; ring.
Qed.
Lemma dot_sq n x : dot n x x = bsum n (fun i => (x i)²).
Proof. reflexivity. Qed.

Lemma pinv_least_squares n A P b y : is_pinv n A P ->
  let x := mulv n P b in let r := fun z i => mulv n A z i - b i in
  dot n (r x) (r x) <= dot n (r y) (r y) /\
  (dot n (r y) (r y) = dot n (r x) (r x) -> dot n x x <= dot n y y).
Proof.
  intros (P1 & P2 & P3 & P4) x r. set (d := fun i => y i - x i).
  assert (HX : forall i, (i < n)%nat -> mulv n A x i = mulv n (mulm n A P) b i) by (intros; apply mulv_mulm; assumption).
  assert (HT : forall i, (i < n)%nat -> mulv n (trm A) (mulv n A x) i = mulv n (trm A) b i).
  { intros i Hi. rewrite (mulv_ext n (trm A) (trm A) _ (mulv n (mulm n A P) b) (meq_refl _ _) HX i Hi), (mulv_mulm n _ _ _ i Hi).
    apply (mulv_ext n _ _ b b); [|intros k _; reflexivity|exact Hi].
    intros k l Hk Hl. rewrite <- (trm_mulm n (mulm n A P) A k l Hk Hl) || idtac.
    transitivity (mulm n (trm A) (trm (mulm n A P)) k l).
    { apply mulm_ext; [apply meq_refl|apply meq_sym, P3|exact Hk|exact Hl]. }
    rewrite <- (trm_mulm n (mulm n A P) A k l Hk Hl). unfold trm. rewrite (mulm_assoc n A P A l k Hl Hk). apply P1; assumption. }
  assert (HC : dot n (mulv n A d) (r x) = 0).
  { rewrite dot_mulv. apply bsum_0; intros i Hi. unfold r. rewrite mulv_sub, HT by exact Hi. ring. }
  assert (HE : dot n (r y) (r y) = dot n (mulv n A d) (mulv n A d) + dot n (r x) (r x)).
  { transitivity (dot n (mulv n A d) (mulv n A d) + 2 * dot n (mulv n A d) (r x) + dot n (r x) (r x)); [|rewrite HC; ring].
    unfold dot. rewrite <- bsum_scal, <- !bsum_plus. apply bsum_ext; intros i Hi. unfold d. rewrite mulv_sub. unfold r. ring. }
  pose proof (dot_self_nonneg n (mulv n A d)) as H0. split; [lra|]. intros HEq.
  assert (HAd : forall i, (i < n)%nat -> mulv n A d i = 0) by (apply dot_self_zero; lra).
  assert (HPAd : forall i, (i < n)%nat -> mulv n (mulm n P A) d i = 0).
  { intros i Hi. rewrite <- (mulv_mulm n P A d i Hi). unfold mulv at 1. apply bsum_0; intros k Hk. rewrite HAd by exact Hk. ring. }
  assert (HPAx : forall i, (i < n)%nat -> mulv n (mulm n P A) x i = x i).
  { intros i Hi. unfold x. rewrite (mulv_mulm n _ _ _ i Hi). apply (mulv_ext n _ _ b b); [|intros k _; reflexivity|exact Hi].
    intros k l Hk Hl. rewrite (mulm_assoc n P A P k l Hk Hl). apply P2; assumption. }
  assert (Hxd : dot n x d = 0).
  { rewrite (dot_ext n x d (mulv n (mulm n P A) x) d); [|intros i Hi; symmetry; apply HPAx, Hi|intros i _; reflexivity].
    rewrite dot_mulv. apply bsum_0; intros i Hi.
    rewrite (mulv_ext n _ (mulm n P A) d d P4 (fun k _ => eq_refl) i Hi), HPAd by exact Hi. ring. }
  assert (HY : dot n y y = dot n x x + 2 * dot n x d + dot n d d).
  { unfold dot. rewrite <- bsum_scal, <- !bsum_plus. apply bsum_ext; intros i _. unfold d. ring. }
  pose proof (dot_self_nonneg n d). lra.
Qed.

Lemma bsum_nm1 n m f : bsum (n + m + 1) f = bsum n f + bsum m (fun k => f (n + k)%nat) + f (n + m)%nat.
Proof. rewrite bsum_add1, bsum_split. reflexivity. Qed.

(** the UK system *)
Definition upack (n m : nat) (w : vec) (mu : R) (nu : vec) : vec := fun i =>
  if Nat.ltb i n then w i else if Nat.ltb i (n + m) then - nu (i - n)%nat else - mu.
Lemma upack_w n m w mu nu i : (i < n)%nat -> upack n m w mu nu i = w i.
Proof. intros H. unfold upack. destruct (Nat.ltb_spec i n); [reflexivity|lia]. Qed.
Lemma upack_nu n m w mu nu k : (k < m)%nat -> upack n m w mu nu (n + k)%nat = - nu k.
Proof.
  intros H. unfold upack. destruct (Nat.ltb_spec (n + k) n); [lia|]. destruct (Nat.ltb_spec (n + k) (n + m)); [|lia].
  replace (n + k - n)%nat with k by lia. reflexivity.
Qed.
Lemma upack_mu n m w mu nu : upack n m w mu nu (n + m)%nat = - mu.
Proof. unfold upack. destruct (Nat.ltb_spec (n + m) n); [lia|]. destruct (Nat.ltb_spec (n + m) (n + m)); [lia|reflexivity]. Qed.

Lemma misfit_upack n m G F g f w mu nu :
  let r := fun i => mulv (n + m + 1) (UA n m G F) (upack n m w mu nu) i - Ub n m g f i in
  dot (n + m + 1) r r = UK_misfit n m G F g f w mu nu.
Proof.
  intros r. unfold dot, UK_misfit. rewrite bsum_nm1. f_equal; [f_equal|].
  - apply bsum_ext; intros i Hi. unfold r. rewrite UA_row by exact Hi. rewrite upack_mu.
    rewrite (bsum_ext n (fun j => upack n m w mu nu j * G i j) (fun j => w j * G i j)) by (intros; rewrite upack_w by assumption; reflexivity).
    rewrite (bsum_ext m (fun k => upack n m w mu nu (n + k)%nat * F k i) (fun k => - (nu k * F k i))) by (intros; rewrite upack_nu by assumption; ring).
    rewrite bsum_opp. unfold Ub. destruct (Nat.ltb_spec i n); [|lia]. unfold Rsqr. ring.
  - apply bsum_ext; intros k Hk. unfold r. rewrite UA_row_drift by exact Hk.
    rewrite (bsum_ext n (fun j => upack n m w mu nu j * F k j) (fun j => w j * F k j)) by (intros; rewrite upack_w by assumption; reflexivity).
    unfold Ub. destruct (Nat.ltb_spec (n + k) n); [lia|]. destruct (Nat.ltb_spec (n + k) (n + m)); [|lia].
    replace (n + k - n)%nat with k by lia. reflexivity.
  - unfold r. rewrite UA_row_last. rewrite (bsum_ext n _ w) by (intros; apply upack_w; assumption).
    unfold Ub. destruct (Nat.ltb_spec (n + m) n); [lia|]. destruct (Nat.ltb_spec (n + m) (n + m)); [lia|]. reflexivity.
Qed.
Lemma length_upack n m w mu nu : dot (n + m + 1) (upack n m w mu nu) (upack n m w mu nu) = UK_length n m w mu nu.
Proof.
  unfold dot, UK_length. rewrite bsum_nm1, upack_mu. f_equal; [f_equal|unfold Rsqr; ring].
  - apply bsum_ext; intros; rewrite upack_w by assumption; reflexivity.
  - apply bsum_ext; intros; rewrite upack_nu by assumption; unfold Rsqr; ring.
Qed.
Lemma upack_back n m x i : (i < n + m + 1)%nat -> upack n m x (- x (n + m)%nat) (fun k => - x (n + k)%nat) i = x i.
Proof.
  intros Hi. unfold upack. destruct (Nat.ltb_spec i n); [reflexivity|]. destruct (Nat.ltb_spec i (n + m)).
  - rewrite Ropp_involutive. f_equal. lia.
  - rewrite Ropp_involutive. f_equal. lia.
Qed.

Lemma UK_pinv_least_squares n m G F g f P : is_pinv (n + m + 1) (UA n m G F) P ->
  let x := mulv (n + m + 1) P (Ub n m g f) in UK_least_squares n m G F g f x (- x (n + m)%nat) (fun k => - x (n + k)%nat).
Proof.
  intros HP x w' mu' nu'. pose proof (pinv_least_squares _ _ P (Ub n m g f) (upack n m w' mu' nu') HP) as H. cbv zeta in H. fold x in H.
  cbv beta in H. rewrite misfit_upack, length_upack in H. rewrite <- !(length_upack n m x), <- !(misfit_upack n m G F g f x). cbv zeta.
  set (x' := upack n m x (- x (n + m)%nat) (fun k => - x (n + k)%nat)).
  assert (HX : veq (n + m + 1) x' x) by (intros i Hi; apply upack_back, Hi).
  rewrite (dot_ext _ x' x' x x HX HX).
  set (r1 := fun i => mulv (n + m + 1) (UA n m G F) x' i - Ub n m g f i).
  assert (Hr : veq (n + m + 1) r1 (fun i => mulv (n + m + 1) (UA n m G F) x i - Ub n m g f i)).
  { intros i Hi. unfold r1. rewrite (mulv_ext _ _ _ x' x (meq_refl _ _) HX i Hi). reflexivity. }
  rewrite (dot_ext _ r1 r1 _ _ Hr Hr). exact H.
Qed.

(** the ordinary kriging system is the one without drift *)
Lemma OK_UK_least_squares n G F g f w mu nu : UK_least_squares n 0 G F g f w mu nu -> OK_least_squares n G g w mu.
Proof.
  intros H w' mu'. specialize (H w' mu' nu). unfold UK_misfit, UK_length in H. cbn [bsum] in H. unfold OK_misfit, OK_length.
  assert (E : forall a b, bsum n (fun i => (bsum n (fun j => a j * G i j) + 0 + b - g i)²) = bsum n (fun i => (bsum n (fun j => a j * G i j) + b - g i)²)).
  { intros a b. apply bsum_ext; intros; f_equal; ring. }
  rewrite !E, !Rplus_0_r in H. exact H.
Qed.
Lemma OK_pinv_least_squares n G g P : is_pinv (n + 1) (UA n 0 G (fun _ _ => 0)) P ->
  let x := mulv (n + 1) P (Ub n 0 g (fun _ => 0)) in OK_least_squares n G g x (- x n).
Proof.
  intros HP x. pose proof (UK_pinv_least_squares n 0 G (fun _ _ => 0) g (fun _ => 0) P) as H. rewrite !Nat.add_0_r in H. specialize (H HP).
  cbv zeta in H. exact (OK_UK_least_squares _ _ _ _ _ _ _ _ H).
Qed.

(** ** what execute returns *)
Theorem ordinary_least_squares E o q r p pos : run E o q r -> q_window q = None -> shown o q p pos ->
  exists w mu, OK_least_squares (o_n o) (G_of o) (g_of o pos) w mu /\
    r_value r p = Some (bsum (o_n o) (fun i => w i * o_values o i)) /\
    r_variance r p = Some (bsum (o_n o) (fun i => w i * g_of o pos i) + mu).
Proof.
  intros HR HW [C Hh]. destruct (run_inv _ _ _ _ HR) as (HE & Hinv & Hord & HF & H).
  destruct (execute_ok_ref E o q r Hinv Hord HF HW H) as (r1 & HRf & Hsh & Heq).
  destruct (ref_value E o q r1 p pos HRf C Hh) as (a & HI & Hv & Hs). apply (invert_is_pinv _ _ _ _ _ _ (proj1 HE)) in HI.
  set (n := o_n o) in *. set (g := g_of o pos) in *.
  assert (HM : meq (n + 1) (get_kriging_matrix o) (UA n 0 (G_of o) (fun _ _ => 0))).
  { intros i j Hi Hj. unfold get_kriging_matrix, UA. fold n. rewrite Nat.add_0_r.
    destruct (Nat.ltb_spec i n) as [Li|Li]; destruct (Nat.ltb_spec j n) as [Lj|Lj].
    - rewrite km_entry by assumption. rewrite (G_of_matrix o Hinv). reflexivity.
    - replace j with n by lia. apply km_col, Li.
    - replace i with n by lia. apply km_row, Lj.
    - replace i with n by lia. replace j with n by lia. apply km_corner. }
  assert (HB : veq (n + 1) (rhs_spec n g) (Ub n 0 g (fun _ => 0))).
  { intros i Hi. unfold rhs_spec, Ub. rewrite Nat.add_0_r. destruct (Nat.eqb_spec i n); destruct (Nat.ltb_spec i n); try lia; reflexivity. }
  pose proof (OK_pinv_least_squares n (G_of o) g a (is_pinv_ext _ _ _ _ HM HI)) as HLS. cbv zeta in HLS.
  set (x := mulv (n + 1) a (rhs_spec n g)) in *.
  assert (HX : forall i, mulv (n + 1) a (Ub n 0 g (fun _ => 0)) i = x i) by (intros i; symmetry; apply mulv_ext_r, HB).
  exists x, (- x n). split.
  { intros w' mu'. specialize (HLS w' mu'). rewrite HX in HLS.
    replace (mulv (n + 1) a (Ub n 0 g (fun _ => 0))) with x in HLS; [exact HLS|].
    apply FunctionalExtensionality.functional_extensionality. intros i. symmetry. apply HX. }
  destruct (ref_cell E o q r1 p pos (proj1 HE) Hinv HRf C) as [Hp _]. rewrite <- Hsh in Hp. destruct (Heq p Hp) as [-> ->]. rewrite Hv, Hs.
  split; [reflexivity|]. f_equal. apply variance_expand.
Qed.

Theorem universal_least_squares E u q specs r p pos : urun E u q specs r -> faithful_specs u q -> shown (u_obj u) q p pos ->
  let ts := drift_terms u q specs in let n := o_n (u_obj u) in let m := List.length ts in
  exists w mu nu, UK_least_squares n m (G_of (u_obj u)) (F_of ts) (g_of (u_obj u) pos) (f_of ts p pos) w mu nu /\
    r_value r p = Some (bsum n (fun i => w i * o_values (u_obj u) i)) /\
    r_variance r p = Some (bsum n (fun i => w i * g_of (u_obj u) pos i) + bsum m (fun k => nu k * f_of ts p pos k) + mu).
Proof.
  intros HR HF HS ts n m. destruct (ucell_pinv E u q specs r p pos HR HS HF) as (P & HP & Hv & Hs & _). cbv zeta in HP, Hv, Hs.
  fold ts n m in HP, Hv, Hs. pose proof (UK_pinv_least_squares n m _ _ (g_of (u_obj u) pos) (f_of ts p pos) P HP) as HLS. cbv zeta in HLS.
  set (x := mulv (n + m + 1) P (Ub n m (g_of (u_obj u) pos) (f_of ts p pos))) in *.
  exists x, (- x (n + m)%nat), (fun k => - x (n + k)%nat). split; [exact HLS|]. split; [exact Hv|]. rewrite Hs. f_equal.
  rewrite bsum_nm1. f_equal; [f_equal|].
  - apply bsum_ext; intros i Hi. unfold Ub. destruct (Nat.ltb_spec i n); [ring|lia].
  - apply bsum_ext; intros k Hk. unfold Ub. destruct (Nat.ltb_spec (n + k) n); [lia|]. destruct (Nat.ltb_spec (n + k) (n + m)); [|lia].
    replace (n + k - n)%nat with k by lia. ring.
  - unfold Ub. destruct (Nat.ltb_spec (n + m) n); [lia|]. destruct (Nat.ltb_spec (n + m) (n + m)); [lia|]. ring.
Qed.

(** ** execute returns *)
Lemma svd_invert E t n A : svd_converges E -> exists B, invert (e_la E) true t n A = Ok B.
Proof. intros [H _]. unfold invert. destruct (la_pinv _ _ _ _) eqn:EP; [eauto|]. exfalso. exact (H _ _ _ EP). Qed.

Theorem pseudo_execute E o q : svd_converges E -> reachable E o -> ordinary o -> o_pinv o = true -> q_window q = None ->
  good_query o q -> available E o (q_backend q) -> exists r, execute E o q = Ok r.
Proof.
  intros HSv Hre Hord HP HW HQ HB. destruct (good_locate o q HQ) as [l HL]. destruct (good_adjust o q l HQ) as [pts Hpts].
  pose proof (reachable_inv E o Hre) as Hinv.
  pose proof (execute_ref E o q Hinv Hord HW HB) as Href. unfold ref in Href. rewrite HL in Href. cbn [bind] in Href. rewrite Hpts in Href. cbn [bind] in Href.
  rewrite HP in Href. destruct (svd_invert E (o_pinv_type o) (o_n o + 1) (get_kriging_matrix o) HSv) as [B HBi]. rewrite HBi in Href.
  cbn [bind] in Href. destruct Href as (r & Hr & _). eauto.
Qed.

Theorem pseudo_vectorized_iff E u q specs : svd_converges E -> ureachable E u -> o_pinv (u_obj u) = true -> q_backend q = "vectorized"%string ->
  ((exists r w, execute_uk E u q specs = Ok (r, w)) <->
   good_query (u_obj u) q /\ good_specs u q specs /\ (forall p pos, cell (o_dim (u_obj u)) q p pos -> in_grid u pos)).
Proof.
  intros HSv HR Hpi HB. pose proof (ureachable_inv E u HR) as HI. split.
  - intros (r & w & H). pose proof H as HX. unfold execute_uk in H. cbv zeta in H.
    destruct (in_names (q_style q) ["grid"; "masked"; "points"]%string) eqn:ES; cbn [negb] in H; [|discriminate].
    apply in_names_In in ES. rewrite UM_eq in H. cbn [bind] in H.
    change (match o_dim (u_obj u) with 2%nat => locate2 | _ => locate3 end) with (locate (o_dim (u_obj u))) in H.
    destruct (locate _ _ _ _) as [l|] eqn:HL; cbn [bind] in H; [|discriminate].
    destruct (spec_grids u (q_style q) (q_pts q) specs) as [gs|] eqn:EG; cbn [bind] in H; [|discriminate].
    destruct (adjust_query (u_obj u) (q_int q) (l_at l)) as [pts|] eqn:EQ; cbn [bind] in H; [|discriminate].
    split; [apply (locate_good (u_obj u) q l HL); intros Hct; apply (adjust_query_ints _ _ _ _ EQ Hct)|].
    split; [apply (spec_grids_iff E u q specs HR ES); eauto|].
    apply (ext_values_iff u q l HL). rewrite HB in H. cbn [String.eqb Ascii.eqb Bool.eqb] in H.
    pose proof (uk_exec_vector_spec (e_la E) u (l_npt l) (UM u) (query_distances (u_obj u) pts)
        (query_array (o_dim (u_obj u)) pts) (l_at l) gs (spec_grids_length u q specs gs EG)) as HV. cbv zeta in HV.
    destruct (invert _ _ _ _ _) as [a_inv|]; [|rewrite HV in H; discriminate].
    destruct (ext_values _ _ _) as [zv|]; [eauto|rewrite HV in H; discriminate].
  - intros (HQ & HS & HX). destruct (good_locate (u_obj u) q HQ) as [l HL]. destruct (good_adjust (u_obj u) q l HQ) as [pts Hpts].
    pose proof (good_style (u_obj u) q HQ) as ES. destruct (proj2 (spec_grids_iff E u q specs HR ES) HS) as [gs EG].
    destruct (proj2 (ext_values_iff u q l HL) HX) as [zv EZ].
    apply in_names_In in ES. unfold style_names in ES. unfold execute_uk. cbv zeta. rewrite ES, UM_eq. cbn [negb bind].
    change (match o_dim (u_obj u) with 2%nat => locate2 | _ => locate3 end) with (locate (o_dim (u_obj u))).
    rewrite HL. cbn [bind]. rewrite EG. cbn [bind]. rewrite Hpts. cbn [bind]. rewrite HB. cbn [String.eqb Ascii.eqb Bool.eqb].
    pose proof (uk_exec_vector_spec (e_la E) u (l_npt l) (UM u) (query_distances (u_obj u) pts)
      (query_array (o_dim (u_obj u)) pts) (l_at l) gs (spec_grids_length u q specs gs EG)) as HV. cbv zeta in HV.
    change (o_n (u_obj u) + List.length (data_cols u) + 1)%nat with (uk_size u) in HV. rewrite Hpi in HV.
    destruct (svd_invert E (o_pinv_type (u_obj u)) (uk_size u) (UM u) HSv) as [b Hb].
    rewrite Hb, EZ in HV. destruct HV as (z & s & -> & _). cbn [bind]. eauto.
Qed.

Theorem pseudo_loop_iff E u q specs : svd_converges E -> ureachable E u -> o_pinv (u_obj u) = true -> q_backend q = "loop"%string ->
  ((exists r w, execute_uk E u q specs = Ok (r, w)) <->
   good_query (u_obj u) q /\ good_specs u q specs /\
   (forall p pos, shown (u_obj u) q p pos ->
      in_grid u pos /\ not_at_well u pos /\
      (dr_spec (u_drift u) <> None -> (rows_through_specified u <= cells (o_dim (u_obj u)) q)%nat))).
Proof.
  intros HSv HR Hpi HB. pose proof (ureachable_inv E u HR) as HI. split.
  - intros (r & w & H). pose proof H as HX. unfold execute_uk in H. cbv zeta in H.
    destruct (in_names (q_style q) ["grid"; "masked"; "points"]%string) eqn:ES; cbn [negb] in H; [|discriminate].
    apply in_names_In in ES. rewrite UM_eq in H. cbn [bind] in H.
    change (match o_dim (u_obj u) with 2%nat => locate2 | _ => locate3 end) with (locate (o_dim (u_obj u))) in H.
    destruct (locate _ _ _ _) as [l|] eqn:HL; cbn [bind] in H; [|discriminate].
    destruct (spec_grids u (q_style q) (q_pts q) specs) as [gs|] eqn:EG; cbn [bind] in H; [|discriminate].
    destruct (adjust_query (u_obj u) (q_int q) (l_at l)) as [pts|] eqn:EQ; cbn [bind] in H; [|discriminate].
    split; [apply (locate_good (u_obj u) q l HL); intros Hct; apply (adjust_query_ints _ _ _ _ EQ Hct)|].
    split; [apply (spec_grids_iff E u q specs HR ES); eauto|].
    intros p pos [C NH].
    rewrite HB in H. cbn [String.eqb Ascii.eqb Bool.eqb] in H. unfold uk_exec_loop in H. cbv zeta in H.
    destruct (invert _ _ _ _ _) as [a_inv|]; cbn [bind] in H; [|discriminate].
    match type of H with context [mulv ?sz a_inv _] =>
      pose proof (uloop_gen (fun j => uk_rhs_loop u (l_npt l) (query_distances (u_obj u) pts j)
         (query_array (o_dim (u_obj u)) pts) (l_at l) gs j) (o_n (u_obj u)) sz a_inv (o_values (u_obj u))
         (unmasked (l_npt l) (l_mask l)) (unmasked_NoDup _ _) (fun _ => 0) (fun _ => 0) false) as HG end.
    destruct (foldM _ _ _) as [[[z s] w1]|e''] in HG, H; [|discriminate]. clear H. destruct HG as (G1 & _).
    destruct (finish_shown _ q l (fun _ => 0) (fun _ => 0) p pos (o_dim_cases _) HL C NH) as (Hp & Hm & _).
    destruct (G1 p) as (b & wj & HRhs & _).
    { unfold unmasked. apply filter_In. split; [apply in_seq; lia|]. rewrite Hm. reflexivity. }
    pose proof (uk_rhs_loop_spec u (l_npt l) (query_distances (u_obj u) pts p) (query_array (o_dim (u_obj u)) pts) (l_at l) gs p
      (spec_grids_length u q specs gs EG)) as HS. cbv zeta in HS. cbv beta in HRhs.
    destruct (at_well (u_drift u) _) eqn:EW; [congruence|].
    destruct (ext_value (u_drift u) (l_at l) p) as [zz|] eqn:EZ; [|congruence]. destruct HS as [HS _].
    split; [apply (ext_value_iff u q l p pos HL C); eauto|]. split; [apply (at_well_iff u q l pts p pos HI HL EQ C); exact EW|].
    intros Hsp. rewrite rows_through, <- (locate_npt _ q l (o_dim_cases _) HL).
    pose proof (spec_grids_length u q specs gs EG) as Hgs. rewrite <- Hgs.
    destruct (Nat.le_gt_cases (spec_row u + List.length gs) (l_npt l)) as [Hle|Hgt]; [exact Hle|]. exfalso.
    rewrite HS in HRhs; [discriminate|]. split; [|exact Hgt].
    intros ->. cbn in Hgs. destruct (dr_spec (u_drift u)) as [ds|] eqn:ED; [|congruence].
    apply (ureachable_specs E u ds HR ED). destruct ds; [reflexivity|discriminate].
  - intros (HQ & HS & HX). destruct (good_locate (u_obj u) q HQ) as [l HL]. destruct (good_adjust (u_obj u) q l HQ) as [pts Hpts].
    pose proof (good_style (u_obj u) q HQ) as ES. destruct (proj2 (spec_grids_iff E u q specs HR ES) HS) as [gs EG].
    apply in_names_In in ES. unfold style_names in ES. unfold execute_uk. cbv zeta. rewrite ES, UM_eq. cbn [negb bind].
    change (match o_dim (u_obj u) with 2%nat => locate2 | _ => locate3 end) with (locate (o_dim (u_obj u))).
    rewrite HL. cbn [bind]. rewrite EG. cbn [bind]. rewrite Hpts. cbn [bind]. rewrite HB. cbn [String.eqb Ascii.eqb Bool.eqb].
    unfold uk_exec_loop. cbv zeta. replace (n_withdrifts u + 1)%nat with (uk_size u) by (rewrite n_withdrifts_cols; reflexivity). rewrite Hpi.
    destruct (svd_invert E (o_pinv_type (u_obj u)) (uk_size u) (UM u) HSv) as [a_inv Hb].
    rewrite Hb. cbn [bind].
    pose proof (uloop_gen (fun j => uk_rhs_loop u (l_npt l) (query_distances (u_obj u) pts j)
         (query_array (o_dim (u_obj u)) pts) (l_at l) gs j) (o_n (u_obj u)) (uk_size u) a_inv (o_values (u_obj u))
         (unmasked (l_npt l) (l_mask l)) (unmasked_NoDup _ _) (fun _ => 0) (fun _ => 0) false) as HG.
    destruct (foldM _ _ _) as [[[z s] w1]|e''] in HG |- *; [cbn [bind]; eauto|]. exfalso.
    destruct HG as (j & Hj & HRhs). unfold unmasked in Hj. apply filter_In in Hj as [Hj Hm]. apply in_seq in Hj.
    destruct (locate_all_cells _ q l j (o_dim_cases _) HL ltac:(lia)) as (pos & HC).
    assert (HSh : shown (u_obj u) q j pos).
    { split; [exact HC|]. rewrite (cell_hidden_mask _ q l j pos (o_dim_cases _) HL HC). destruct (l_mask l j); [discriminate|].
      rewrite andb_false_r. discriminate. }
    destruct (HX j pos HSh) as (X1 & X2 & X3).
    pose proof (uk_rhs_loop_spec u (l_npt l) (query_distances (u_obj u) pts j) (query_array (o_dim (u_obj u)) pts) (l_at l) gs j
      (spec_grids_length u q specs gs EG)) as HSp. cbv zeta in HSp. cbv beta in HRhs.
    rewrite (proj2 (at_well_iff u q l pts j pos HI HL Hpts HC) X2) in HSp.
    destruct (proj2 (ext_value_iff u q l j pos HL HC) X1) as [zz EZ]. rewrite EZ in HSp. destruct HSp as [_ HSp].
    destruct HSp as (b & Hb' & _); [|congruence].
    pose proof (spec_grids_length u q specs gs EG) as Hgs.
    destruct (dr_spec (u_drift u)) as [ds|] eqn:ED; [right|left; destruct gs; [reflexivity|discriminate]].
    specialize (X3 ltac:(discriminate)). rewrite rows_through, ED, <- (locate_npt _ q l (o_dim_cases _) HL), <- Hgs in X3. exact X3.
Qed.

(** ** constructors and updates *)
Lemma svd_krige1 E n vg d bd y : svd_converges E -> exists v, krige1 (e_la E) n vg d bd y true = Ok v.
Proof. intros [_ H]. unfold krige1. cbv zeta. destruct (la_lstsq _ _ _ _) eqn:EL; [eauto|]. exfalso. exact (H _ _ _ EL). Qed.
Lemma svd_statistics E ct nd n X y vg : svd_converges E -> exists s, all_statistics (e_la E) ct nd n X y vg true = Ok s.
Proof.
  intros HS. unfold all_statistics, find_statistics.
  assert (HM : exists l, mapM (stat_entry (e_la E) ct nd X y vg true) (seq 0 n) = Ok l).
  { apply Witness.mapM_ok. intros i _. unfold stat_entry. destruct (Nat.eqb i 0); [eauto|]. unfold krige_first.
    match goal with |- context [krige1 (e_la E) ?a ?b ?c ?d ?e true] => destruct (svd_krige1 E a b c d e HS) as [[k ss] ->] end.
    cbn [bind]. destruct (Rltb (Rabs ss) eps); eauto. }
  destruct HM as [l ->]. cbn [bind]. eauto.
Qed.

Lemma bind_nola {A B} (a : res A) (f : A -> res B) : a <> Err LinAlgError -> (forall x, f x <> Err LinAlgError) -> bind a f <> Err LinAlgError.
Proof. intros Ha Hf. destruct a as [x|e]; cbn; [apply Hf|congruence]. Qed.
Ltac nola := repeat match goal with
  | |- Ok _ <> _ => discriminate
  | |- Err ?e <> _ => discriminate
  | |- bind _ _ <> _ => apply bind_nola; [|intros ?]
  | |- (match ?x with _ => _ end) <> _ => destruct x
  end.
Lemma gs_no_la E c ct v : resolve_gs E c ct v <> Err LinAlgError.
Proof. unfold resolve_gs, validate_gstools. nola. Qed.
Lemma fun_no_la name f : resolve_fun name f <> Err LinAlgError.
Proof. unfold resolve_fun. nola. Qed.
Lemma params_no_la name prm : make_parameter_list name prm <> Err LinAlgError.
Proof. unfold make_parameter_list. nola. Qed.
Lemma init_no_la fit ct nd n X nv y model p f nl w : initialize_variogram_model fit ct nd n X nv y model p f nl w <> Err LinAlgError.
Proof. unfold initialize_variogram_model, experimental_variogram, experimental_gen, calculate_variogram_model, least_squares. nola. Qed.
Lemma adjust_no_la b nd X c s a : adjust_for_anisotropy b nd X c s a <> Err LinAlgError.
Proof. unfold adjust_for_anisotropy, stretch_rot. cbv zeta. nola. Qed.
Lemma mapM_no_la {A B} (f : A -> res B) l : (forall x, f x <> Err LinAlgError) -> mapM f l <> Err LinAlgError.
Proof. intros H. induction l as [|x l IH]; cbn; [discriminate|]. apply bind_nola; [apply H|intros y]. apply bind_nola; [exact IH|intros; discriminate]. Qed.
Lemma center_no_la l : center_of l <> Err LinAlgError.
Proof. unfold center_of. nola. Qed.

(** pseudo_inv=True changes the outcome of the constructor only by turning LinAlgError
    into success *)
Theorem pseudo_construct E c A t : svd_converges E -> In (c_pinv_type A) pinv_types -> In t pinv_types ->
  ((exists o, construct E c A = Ok o) \/ construct E c A = Err LinAlgError -> exists o, construct E c (with_pinv A true t) = Ok o) /\
  (forall e, construct E c A = Err e -> e <> LinAlgError -> construct E c (with_pinv A true t) = Err e).
Proof.
  intros HSv HT HT'. assert (HIn : forall x, In x pinv_types -> in_names x pinv_types = true) by (intros x Hx; apply in_names_In, Hx).
  unfold construct. cbn [with_pinv c_coords c_values c_v c_verbose c_plotting c_stat c_ct c_exact c_pinv c_pinv_type].
  rewrite (HIn _ HT), (HIn _ HT'). cbn [negb]. destruct (c_exact A) as [ex|]; [|split; [intros [[o H]|H]; discriminate|auto]].
  pose proof (gs_no_la E c (class_ct c (c_ct A)) (c_v A)) as N1. destruct (resolve_gs _ _ _ _) as [[[[[name prm] fn] sc] an]|e]; cbn [bind];
    [|split; [intros [[o H]|H]; congruence|auto]].
  pose proof (fun_no_la name fn) as N2. destruct (resolve_fun name fn) as [f|e]; cbn [bind]; [|split; [intros [[o H]|H]; congruence|auto]].
  match goal with |- context [bind (if (class_ct c (c_ct A) =? "euclidean")%string then ?x else ?y) _] =>
    assert (N3 : (if (class_ct c (c_ct A) =? "euclidean")%string then x else y) <> Err LinAlgError);
    [|destruct (if (class_ct c (c_ct A) =? "euclidean")%string then x else y) as [[[[[ct' ce] sc'] an'] Xa]|e]] end;
    [| |cbn [bind]; split; [intros [[o H]|H]; congruence|auto]].
  { destruct (String.eqb _ "euclidean"); [|destruct (String.eqb _ "geographic"); discriminate].
    apply bind_nola; [apply mapM_no_la, center_no_la|intros cs]. destruct (negb _); [discriminate|].
    apply bind_nola; [apply adjust_no_la|intros; discriminate]. }
  cbn [bind]. pose proof (params_no_la name prm) as N4. destruct (make_parameter_list name prm) as [vp|e]; cbn [bind];
    [|split; [intros [[o H]|H]; congruence|auto]].
  destruct (negb (same_length (c_coords A))); [split; [intros [[o H]|H]; discriminate|auto]|].
  match goal with |- context [initialize_variogram_model ?a ?b ?c ?d ?e ?f ?g ?h ?i ?j ?k ?l] =>
    pose proof (init_no_la a b c d e f g h i j k l) as N5; destruct (initialize_variogram_model a b c d e f g h i j k l) as [[[lags sv] params]|e0] end;
    cbn [bind]; [|split; [intros [[o H]|H]; congruence|auto]].
  split.
  - intros _. destruct c, (c_stat A); cbn [bind]; eauto;
    match goal with |- context [all_statistics (e_la E) ?a ?b ?c ?d ?e ?f true] => destruct (svd_statistics E a b c d e f HSv) as [s ->] end; cbn [bind]; eauto.
  - intros e H He. exfalso. assert (NS : forall a b n X y g pi, all_statistics (e_la E) a b n X y g pi = Err e -> False).
    { intros a b n X y g pi H0. unfold all_statistics, find_statistics in H0.
      destruct (mapM _ _) as [l0|e1] eqn:EM; cbn [bind] in H0; [discriminate|]. injection H0 as ->.
      assert (HG : forall l, mapM (stat_entry (e_la E) a b X y g pi) l = Err e -> False); [|exact (HG _ EM)].
      induction l as [|i l IH]; cbn; [discriminate|]. unfold stat_entry at 1. destruct (Nat.eqb i 0); cbn [bind].
      - destruct (mapM _ l); cbn [bind]; [discriminate|exact IH].
      - unfold krige_first, krige1. cbv zeta.
        match goal with |- context [match (if pi then ?u else ?v) with Some _ => _ | None => _ end] => destruct (if pi then u else v) end; cbn [bind]; [|congruence].
        destruct (Rltb _ eps); cbn [bind]; (destruct (mapM _ l); cbn [bind]; [discriminate|exact IH]). }
    destruct c, (c_stat A); cbn [bind] in H; try discriminate;
    match type of H with context [all_statistics (e_la E) ?a ?b ?n ?d ?f ?g ?pi] => destruct (all_statistics (e_la E) a b n d f g pi) eqn:ES; cbn [bind] in H; [discriminate|];
      injection H as ->; exact (NS _ _ _ _ _ _ _ ES) end.
Qed.

Theorem pseudo_update E o v : svd_converges E -> o_pinv o = true -> snd (update_variogram_model E o v) <> Some LinAlgError.
Proof.
  intros HSv HP. unfold update_variogram_model. cbv zeta.
  match goal with |- context [resolve_gs ?a ?b ?c ?d] => pose proof (gs_no_la a b c d) as N1; destruct (resolve_gs a b c d) as [[[[[name prm] fn] sc] an]|e]; [|cbn; congruence] end.
  pose proof (fun_no_la name fn) as N2. destruct (resolve_fun name fn) as [f|e]; [|cbn; congruence].
  match goal with |- context [match (if ?b then ?x else ?y) with _ => _ end] =>
    assert (N3 : snd (if b then x else y) <> Some LinAlgError /\ o_pinv (fst (if b then x else y)) = true);
    [|destruct (if b then x else y) as [o1 [e|]]] end.
  { destruct (aniso_differs _ _ _ _ _); [|split; [discriminate|exact HP]].
    destruct (o_ct _); [|split; [discriminate|exact HP]].
    match goal with |- context [adjust_for_anisotropy ?a ?b ?c ?d ?e ?g] => pose proof (adjust_no_la a b c d e g) as N; destruct (adjust_for_anisotropy a b c d e g) end;
      (split; [cbn; congruence|exact HP]). }
  { destruct N3. cbn in *. exact H. }
  destruct N3 as [_ N3]. cbn [fst] in N3. pose proof (params_no_la name prm) as N4. destruct (make_parameter_list name prm) as [vp|e]; [|cbn; congruence].
  match goal with |- context [initialize_variogram_model ?a ?b ?c ?d ?e ?f ?g ?h ?i ?j ?k ?l] =>
    pose proof (init_no_la a b c d e f g h i j k l) as N5; destruct (initialize_variogram_model a b c d e f g h i j k l) as [[[lags sv] params]|e0]; [|cbn; congruence] end.
  match goal with |- context [all_statistics (e_la E) ?a ?b ?n ?d ?f ?g ?pi] => replace pi with true; destruct (svd_statistics E a b n d f g HSv) as [s ->] end.
  cbn. discriminate.
Qed.
