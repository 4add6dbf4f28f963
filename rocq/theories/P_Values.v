(** Proofs: data values of any type (M_Values.v). *)
From Coq Require Import String FunctionalExtensionality.
From Verif Require Import Base Sums Matrix M_Variogram P_Variogram M_Geometry S_Geometry M_Kriging S_Kriging
  P_Kriging M_Init M_Object M_Execute S_Execute P_Object P_Execute P_Cells P_Window P_WindowExec P_Master P_OK M_Values.

(** ---- the R instance is the model used before ---- *)
Definition to_result (r : result_v Rval) : result :=
  {| r_shape := rv_shape r; r_value := rv_value r; r_variance := rv_variance r |}.
Definition map_res {A B} (f : A -> B) (x : res A) : res B := match x with Ok a => Ok (f a) | Err e => Err e end.

Lemma map_res_bind {A B C} (f : B -> C) (x : res A) (g : A -> res B) :
  map_res f (bind x g) = bind x (fun a => map_res f (g a)).
Proof. destruct x; reflexivity. Qed.

Lemma vsum_R n f : vsum Rval n f = bsum n f.
Proof. induction n; cbn; [reflexivity|]. rewrite IHn. reflexivity. Qed.

Lemma exec_vector_R L pi pit n npt vg e ex Z a bd :
  exec_vector_v Rval L pi pit n npt vg e ex Z a bd = exec_vector L pi pit n npt vg e ex Z a bd.
Proof.
  unfold exec_vector_v, exec_vector. destruct (invert _ _ _ _ _); cbn [bind]; [|reflexivity].
  f_equal. f_equal. apply functional_extensionality. intros j. apply vsum_R.
Qed.
Lemma fold_left_ext' {A B} (f g : A -> B -> A) l : (forall a b, f a b = g a b) -> forall a, fold_left f l a = fold_left g l a.
Proof. intros H. induction l; intros a'; cbn; [reflexivity|]. rewrite H. apply IHl. Qed.
Lemma exec_loop_R L pi pit n npt vg e ex Z a bd mask :
  exec_loop_v Rval L pi pit n npt vg e ex Z a bd mask = exec_loop L pi pit n npt vg e ex Z a bd mask.
Proof.
  unfold exec_loop_v, exec_loop. destruct (invert _ _ _ _ _); cbn [bind]; [|reflexivity].
  f_equal. apply fold_left_ext'. intros [z s] j. cbv zeta. rewrite vsum_R. reflexivity.
Qed.
Lemma mw_R L N k npt vg vi e ex Z a bd mask idx :
  exec_loop_moving_window_v Rval L N k npt vg vi e ex Z a bd mask idx = exec_loop_moving_window L N k npt vg vi e ex Z a bd mask idx.
Proof.
  unfold exec_loop_moving_window_v, exec_loop_moving_window. apply P_Window.foldM_ext; intros [z s] j _; cbv zeta.
  all: destruct (scipy_solve _ _ _ _); cbn [bind]; [|reflexivity]; destruct (forallb _ _); [|reflexivity]; rewrite vsum_R; reflexivity.
Qed.
Lemma foldM_sim {S T X} (h : S -> T) (f : S -> X -> res S) (g : T -> X -> res T) l :
  (forall s x, In x l -> g (h s) x = map_res h (f s x)) -> forall s, foldM g l (h s) = map_res h (foldM f l s).
Proof.
  induction l as [|x l IH]; intros H s; cbn [foldM]; [reflexivity|].
  rewrite H by (left; reflexivity). destruct (f s x); cbn [map_res bind]; [|reflexivity].
  apply IH. intros. apply H. right. assumption.
Qed.
Lemma fold_sim {S T X} (h : S -> T) (f : S -> X -> S) (g : T -> X -> T) l :
  (forall s x, In x l -> g (h s) x = h (f s x)) -> forall s, fold_left g l (h s) = h (fold_left f l s).
Proof.
  induction l as [|x l IH]; intros H s; cbn [fold_left]; [reflexivity|].
  rewrite H by (left; reflexivity). apply IH. intros. apply H. right. assumption.
Qed.

Definition cst (s : cstate_v Rval) : cstate := {| cz := czv s; cs := csv s; cx := cxv s; cb := cbv_ s |}.
Definition wst (s : wstate_v Rval) : wstate := {| wz := wzv s; ws := wsv s; wx := wxv s; wtmp := wtmpv s; wb := wbv s; wa := wav s |}.
Lemma c_exec_loop_R L pi pit n npt f params e ex Z a bd mask :
  c_exec_loop_v Rval L pi pit n npt f params e ex Z a bd mask = c_exec_loop L pi pit n npt f params e ex Z a bd mask.
Proof.
  unfold c_exec_loop_v, c_exec_loop. destruct (get_variogram_model _); cbn [bind]; [|reflexivity].
  destruct (invert _ _ _ _ _); cbn [bind]; [|reflexivity]. cbv zeta.
  match goal with |- Ok (czv ?s, _) = Ok (cz ?t, _) => assert (H : t = cst s) end.
  { change {| cz := fun _ => 0; cs := fun _ => 0; cx := fun _ => 0; cb := fun _ => 0 |}
      with (cst {| czv := fun _ => v0 Rval; csv := fun _ => 0; cxv := fun _ => 0; cbv_ := fun _ => 0 |}).
    apply fold_sim. intros s i _. unfold c_point, c_point_v. destruct (mask i); reflexivity. }
  rewrite H. reflexivity.
Qed.
Lemma c_mw_R L lu N k npt f params e ex Z a bd mask idx :
  c_exec_loop_moving_window_v Rval L lu N k npt f params e ex Z a bd mask idx
  = c_exec_loop_moving_window L lu N k npt f params e ex Z a bd mask idx.
Proof.
  unfold c_exec_loop_moving_window_v, c_exec_loop_moving_window. destruct (get_variogram_model _) as [cf|]; cbn [bind]; [|reflexivity].
  change w0 with (wst (w0_v Rval)).
  rewrite (foldM_sim wst (cw_point_v Rval L lu N k (cf params) e ex Z a bd mask idx)).
  { destruct (foldM _ _ _); reflexivity. }
  intros s i _. unfold cw_point, cw_point_v. destruct (mask i); [reflexivity|]. cbv zeta. cbn [wa wx wtmp wb wst].
  repeat (match goal with |- bind ?x _ = map_res _ (bind ?x _) => destruct x; cbn [bind]; [|reflexivity] end).
  destruct (negb _); [reflexivity|]. destruct (dgesv _ _ _ _ _) as [[M' x]|]; [|reflexivity].
  match goal with |- bind ?x _ = map_res _ (bind ?y _) => change x with y; destruct y; reflexivity end.
Qed.

Lemma finish_R style l vs : finish style l vs = to_result (finish_v Rval style l vs).
Proof. reflexivity. Qed.
Theorem execute_R E o q : execute E o q = map_res to_result (execute_v Rval E o (o_values o) q).
Proof.
  unfold execute, execute_v. destruct (o_class o); try reflexivity.
  - unfold execute2, execute2_v. destruct (negb _); [reflexivity|]. destruct (match q_window q with Some _ => _ | None => _ end); [reflexivity|].
    destruct (locate2 _ _ _); cbn [bind]; [|reflexivity]. destruct (adjust_query _ _ _); cbn [bind]; [|reflexivity].
    rewrite map_res_bind. change (map_res to_result (Ok ?x)) with (Ok (to_result x)).
    destruct (q_window q) as [k|].
    + destruct (neighbours_error _ _ _ _ _); [reflexivity|]. destruct (String.eqb _ _); [rewrite mw_R; reflexivity|].
      destruct (String.eqb _ _); [rewrite c_mw_R; reflexivity|reflexivity].
    + destruct (String.eqb _ _); [rewrite exec_vector_R; reflexivity|]. destruct (String.eqb _ _); [rewrite exec_loop_R; reflexivity|].
      destruct (String.eqb _ _); [rewrite c_exec_loop_R; reflexivity|reflexivity].
  - unfold execute3, execute3_v. destruct (negb _); [reflexivity|].
    destruct (locate3 _ _ _); cbn [bind]; [|reflexivity]. destruct (adjust_query _ _ _); cbn [bind]; [|reflexivity].
    rewrite map_res_bind. change (map_res to_result (Ok ?x)) with (Ok (to_result x)).
    destruct (q_window q) as [k|].
    + destruct (Nat.eqb k 0); [reflexivity|]. destruct (String.eqb _ _); [|reflexivity]. destruct (Nat.eqb k 1); [reflexivity|]. rewrite mw_R; reflexivity.
    + destruct (String.eqb _ _); [rewrite exec_vector_R; reflexivity|]. destruct (String.eqb _ _); [rewrite exec_loop_R; reflexivity|reflexivity].
Qed.

(** ---- homomorphisms ---- *)
Record hom (A B : valg) (h : V A -> V B) : Prop := {
  h_0 : h (v0 A) = v0 B;
  h_add : forall x y, h (vadd A x y) = vadd B (h x) (h y);
  h_mul : forall w x, h (vmul A w x) = vmul B w (h x) }.

Section Hom.
Variables (A B : valg) (h : V A -> V B).
Hypothesis H : hom A B h.
Notation hz z := (fun i : nat => h (z i)).
Definition hp (p : (nat -> V A) * vec) : (nat -> V B) * vec := (hz (fst p), snd p).

Lemma hom_vsum n f : vsum B n (hz f) = h (vsum A n f).
Proof. induction n; cbn; [symmetry; apply H|]. rewrite IHn, (h_add _ _ _ H). reflexivity. Qed.
Lemma hom_c_vsum n f : c_vsum B n (hz f) = h (c_vsum A n f).
Proof. unfold c_vsum. rewrite <- (h_0 _ _ _ H). apply fold_sim. intros. symmetry. apply H. Qed.
Lemma hom_upd z i v : (fun j => h (upd z i v j)) = upd (hz z) i (h v).
Proof. apply functional_extensionality. intros j. unfold upd. destruct (Nat.eqb j i); reflexivity. Qed.
Lemma hom_zero : (fun _ : nat => v0 B) = hz (fun _ : nat => v0 A).
Proof. cbv beta. rewrite (h_0 _ _ _ H). reflexivity. Qed.

Lemma zero_pair : ((fun _ : nat => v0 B), (fun _ : nat => 0)) = hp ((fun _ : nat => v0 A), (fun _ : nat => 0)).
Proof. unfold hp. cbn [fst snd]. rewrite (h_0 _ _ _ H). reflexivity. Qed.

Lemma exec_vector_h L pi pit n npt vg e ex Z a bd :
  exec_vector_v B L pi pit n npt vg e ex (hz Z) a bd = map_res hp (exec_vector_v A L pi pit n npt vg e ex Z a bd).
Proof.
  unfold exec_vector_v. destruct (invert _ _ _ _ _); cbn [bind map_res]; [|reflexivity].
  f_equal. unfold hp. cbn [fst snd]. f_equal. apply functional_extensionality. intros j. rewrite <- hom_vsum.
  f_equal. apply functional_extensionality. intros k. symmetry. apply H.
Qed.
Lemma vsum_mul n x Z : vsum B n (fun k => vmul B (x k) (h (Z k))) = h (vsum A n (fun k => vmul A (x k) (Z k))).
Proof. rewrite <- hom_vsum. f_equal. apply functional_extensionality. intros k. symmetry. apply H. Qed.
Lemma c_vsum_mul n x Z : c_vsum B n (fun k => vmul B (x k) (h (Z k))) = h (c_vsum A n (fun k => vmul A (x k) (Z k))).
Proof. rewrite <- hom_c_vsum. f_equal. apply functional_extensionality. intros k. symmetry. apply H. Qed.
Lemma exec_loop_h L pi pit n npt vg e ex Z a bd mask :
  exec_loop_v B L pi pit n npt vg e ex (hz Z) a bd mask = map_res hp (exec_loop_v A L pi pit n npt vg e ex Z a bd mask).
Proof.
  unfold exec_loop_v. destruct (invert _ _ _ _ _); cbn [bind map_res]; [|reflexivity]. f_equal.
  rewrite zero_pair.
  apply fold_sim. intros [z s] j _. unfold hp. cbn [fst snd]. cbv zeta. rewrite hom_upd, vsum_mul. reflexivity.
Qed.
Lemma mw_h L N k npt vg vi e ex Z a bd mask idx :
  exec_loop_moving_window_v B L N k npt vg vi e ex (hz Z) a bd mask idx
  = map_res hp (exec_loop_moving_window_v A L N k npt vg vi e ex Z a bd mask idx).
Proof.
  unfold exec_loop_moving_window_v. rewrite zero_pair.
  apply foldM_sim. intros [z s] j _. unfold hp. cbn [fst snd]. cbv zeta.
  destruct (scipy_solve _ _ _ _); cbn [bind map_res]; [|reflexivity]. destruct (forallb _ _); [|reflexivity].
  cbn [map_res fst snd]. rewrite hom_upd, (vsum_mul k _ (fun r => Z (idx j r))). reflexivity.
Qed.
Definition hc (s : cstate_v A) : cstate_v B := {| czv := hz (czv s); csv := csv s; cxv := cxv s; cbv_ := cbv_ s |}.
Definition hw (s : wstate_v A) : wstate_v B :=
  {| wzv := hz (wzv s); wsv := wsv s; wxv := wxv s; wtmpv := wtmpv s; wbv := wbv s; wav := wav s |}.
Lemma c_exec_loop_h L pi pit n npt f params e ex Z a bd mask :
  c_exec_loop_v B L pi pit n npt f params e ex (hz Z) a bd mask = map_res hp (c_exec_loop_v A L pi pit n npt f params e ex Z a bd mask).
Proof.
  unfold c_exec_loop_v. destruct (get_variogram_model _) as [cf|]; cbn [bind map_res]; [|reflexivity].
  destruct (invert _ _ _ _ _) as [ai|]; cbn [bind map_res]; [|reflexivity]. cbv zeta.
  assert (H0 : {| czv := fun _ : nat => v0 B; csv := fun _ => 0; cxv := fun _ => 0; cbv_ := fun _ => 0 |}
    = hc {| czv := fun _ => v0 A; csv := fun _ => 0; cxv := fun _ => 0; cbv_ := fun _ => 0 |})
    by (unfold hc; cbn [czv csv cxv cbv_]; rewrite (h_0 _ _ _ H); reflexivity).
  rewrite H0.
  rewrite (fold_sim hc (c_point_v A n (cf params) e ex Z ai bd mask)); [reflexivity|].
  intros s i _. unfold c_point_v. destruct (mask i); [reflexivity|]. cbv zeta. unfold hc. cbn [czv csv cxv cbv_].
  rewrite hom_upd, c_vsum_mul. reflexivity.
Qed.
Lemma c_mw_h L lu N k npt f params e ex Z a bd mask idx :
  c_exec_loop_moving_window_v B L lu N k npt f params e ex (hz Z) a bd mask idx
  = map_res hp (c_exec_loop_moving_window_v A L lu N k npt f params e ex Z a bd mask idx).
Proof.
  unfold c_exec_loop_moving_window_v. destruct (get_variogram_model _) as [cf|]; cbn [bind map_res]; [|reflexivity].
  assert (HW : w0_v B = hw (w0_v A)) by (unfold w0_v, hw; cbn [wzv wsv wxv wtmpv wbv wav]; rewrite (h_0 _ _ _ H); reflexivity).
  rewrite HW, (foldM_sim hw (cw_point_v A L lu N k (cf params) e ex Z a bd mask idx)).
  { destruct (foldM _ _ _); reflexivity. }
  intros s i _. unfold cw_point_v. destruct (mask i); [reflexivity|]. cbv zeta. cbn [wav wxv wtmpv wbv hw].
  repeat (match goal with |- bind ?x _ = map_res _ (bind ?x _) => destruct x; cbn [bind]; [|reflexivity] end).
  destruct (negb _); [reflexivity|]. destruct (dgesv _ _ _ _ _) as [[M' x]|]; [|reflexivity].
  rewrite <- (h_0 _ _ _ H).
  rewrite (foldM_sim h (fun acc k => do z <- rd_v A N Z (idx i k) ;; Ok (vadd A acc (vmul A (x k) z)))).
  - destruct (foldM _ _ _); cbn [bind map_res]; [|reflexivity]. unfold hw. cbn [wzv wsv wxv wtmpv wbv wav]. rewrite hom_upd. reflexivity.
  - intros acc j _. unfold rd_v. destruct (Nat.ltb _ _); cbn [bind map_res]; [|reflexivity]. rewrite (h_add _ _ _ H), (h_mul _ _ _ H). reflexivity.
Qed.
Definition hr (r : result_v A) : result_v B :=
  {| rv_shape := rv_shape r; rv_value := fun p => option_map h (rv_value r p); rv_variance := rv_variance r |}.
Lemma finish_h style l vs : finish_v B style l (hp vs) = hr (finish_v A style l vs).
Proof.
  unfold finish_v, hr. cbn [rv_shape rv_value rv_variance hp fst snd]. f_equal.
  apply functional_extensionality. intros p. destruct (String.eqb _ _); [destruct (l_mask l p)|]; reflexivity.
Qed.
Lemma bind_map {X Y W} (f : X -> Y) (x : res X) (g : Y -> res W) : bind (map_res f x) g = bind x (fun a => g (f a)).
Proof. destruct x; reflexivity. Qed.
Lemma fin_map style l x : bind (map_res hp x) (fun vs => Ok (finish_v B style l vs)) = bind x (fun vs => Ok (hr (finish_v A style l vs))).
Proof. destruct x; cbn [map_res bind]; [rewrite finish_h|]; reflexivity. Qed.
Theorem execute_h E o Z q : execute_v B E o (hz Z) q = map_res hr (execute_v A E o Z q).
Proof.
  unfold execute_v. destruct (o_class o); try reflexivity.
  - unfold execute2_v. destruct (negb _); [reflexivity|]. destruct (match q_window q with Some _ => _ | None => _ end); [reflexivity|].
    destruct (locate2 _ _ _); cbn [bind]; [|reflexivity]. destruct (adjust_query _ _ _); cbn [bind]; [|reflexivity].
    rewrite map_res_bind. change (map_res hr (Ok ?x)) with (Ok (hr x)).
    destruct (q_window q) as [k|].
    + destruct (neighbours_error _ _ _ _ _); [reflexivity|]. destruct (String.eqb _ _); [rewrite mw_h, fin_map; reflexivity|].
      destruct (String.eqb _ _); [rewrite c_mw_h, fin_map; reflexivity|reflexivity].
    + destruct (String.eqb _ _); [rewrite exec_vector_h, fin_map; reflexivity|].
      destruct (String.eqb _ _); [rewrite exec_loop_h, fin_map; reflexivity|].
      destruct (String.eqb _ _); [rewrite c_exec_loop_h, fin_map; reflexivity|reflexivity].
  - unfold execute3_v. destruct (negb _); [reflexivity|].
    destruct (locate3 _ _ _); cbn [bind]; [|reflexivity]. destruct (adjust_query _ _ _); cbn [bind]; [|reflexivity].
    rewrite map_res_bind. change (map_res hr (Ok ?x)) with (Ok (hr x)).
    destruct (q_window q) as [k|].
    + destruct (Nat.eqb k 0); [reflexivity|]. destruct (String.eqb _ _); [|reflexivity]. destruct (Nat.eqb k 1); [reflexivity|].
      rewrite mw_h, fin_map; reflexivity.
    + destruct (String.eqb _ _); [rewrite exec_vector_h, fin_map; reflexivity|].
      destruct (String.eqb _ _); [rewrite exec_loop_h, fin_map; reflexivity|reflexivity].
Qed.
End Hom.
