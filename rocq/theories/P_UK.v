(** Proofs: the universal kriging system assembled by the code. *)
From Coq Require Import String FunctionalExtensionality.
From Verif Require Import Base Sums Matrix M_Variogram P_Variogram M_Geometry S_Geometry P_Geometry M_Kriging S_Kriging
  P_Kriging P_OKSpec M_Init M_Object M_Execute S_Execute P_Object P_Execute P_Cells P_Window P_WindowExec P_Master P_Det M_UK S_UK.

(** *** folds *)
Lemma foldM_app {A B} (f : B -> A -> res B) l1 l2 s : foldM f (l1 ++ l2) s = bind (foldM f l1 s) (foldM f l2).
Proof.
  revert s. induction l1 as [|x l1 IH]; intros s; cbn; [reflexivity|].
  destruct (f s x); cbn; [apply IH|reflexivity].
Qed.
Lemma foldM_map {A B C} (f : B -> A -> res B) (g : C -> A) l s :
  foldM (fun s x => f s (g x)) l s = foldM f (map g l) s.
Proof.
  revert s. induction l as [|x l IH]; intros s; cbn; [reflexivity|].
  destruct (f s (g x)); cbn; [apply IH|reflexivity].
Qed.
Lemma foldM_ext {A B} (f f' : B -> A -> res B) l : (forall s x, In x l -> f s x = f' s x) -> forall s, foldM f l s = foldM f' l s.
Proof.
  induction l as [|x l IH]; intros H s; cbn; [reflexivity|].
  rewrite H by (left; reflexivity). destruct (f' s x); cbn; [apply IH; intros; apply H; right; assumption|reflexivity].
Qed.
Lemma each_map {A B C} (f : B -> A -> res B) (g : C -> A) x s :
  each x (fun s w => f s (g w)) s = foldM f (map g (opt_list x)) s.
Proof. destruct x; cbn; [apply foldM_map|reflexivity]. Qed.

(** *** closed forms *)
Definition UA (n m : nat) (G : mat) (F : mat) : mat := fun i j =>
  if Nat.ltb i n then
    if Nat.ltb j n then - G i j else if Nat.ltb j (n + m) then F (j - n)%nat i else 1
  else if Nat.ltb j n then (if Nat.ltb i (n + m) then F (i - n)%nat j else 1) else 0.
Definition Ub (n m : nat) (g f : vec) : vec := fun k =>
  if Nat.ltb k n then - g k else if Nat.ltb k (n + m) then f (k - n)%nat else 1.

Definition W (size n : nat) := fun (s : mat * nat) v => write_drift size n v s.

Lemma write_all size n cols : forall (a0 : mat) i0, (n <= i0)%nat -> (i0 + List.length cols <= size)%nat ->
  exists a : mat, foldM (W size n) cols (a0, i0) = Ok (a, i0 + List.length cols)%nat /\
    (forall r c, (r < n)%nat -> (i0 <= c < i0 + List.length cols)%nat -> a r c = nth (c - i0) cols (fun _ => 0) r) /\
    (forall r c, (c < n)%nat -> (i0 <= r < i0 + List.length cols)%nat -> a r c = nth (r - i0) cols (fun _ => 0) c) /\
    (forall r c, ~ ((r < n)%nat /\ (i0 <= c < i0 + List.length cols)%nat) ->
                 ~ ((c < n)%nat /\ (i0 <= r < i0 + List.length cols)%nat) -> a r c = a0 r c).
Proof.
  induction cols as [|v cols IH]; intros a0 i0 Hn Hs; cbn [foldM List.length].
  - exists a0. rewrite Nat.add_0_r. split; [reflexivity|]. split; [intros; lia|]. split; [intros; lia|reflexivity].
  - cbn [List.length] in Hs. unfold W at 1, write_drift at 1. destruct (Nat.ltb_spec i0 size) as [H|H]; [|lia]. cbn [bind].
    set (a1 := (fun r c => if Nat.eqb r i0 && Nat.ltb c n then v c else if Nat.ltb r n && Nat.eqb c i0 then v r else a0 r c) : mat).
    destruct (IH a1 (S i0) ltac:(lia) ltac:(lia)) as (a & HF & H1 & H2 & H3).
    exists a. split; [replace (i0 + S (List.length cols))%nat with (S i0 + List.length cols)%nat by lia; exact HF|].
    split; [|split].
    + intros r c Hr Hc. destruct (Nat.eq_dec c i0) as [->|Hne].
      * rewrite H3 by lia. unfold a1. rewrite Nat.sub_diag. cbn [nth].
        destruct (Nat.eqb_spec r i0); [lia|]. cbn [andb]. rewrite (proj2 (Nat.ltb_lt r n) Hr), Nat.eqb_refl. reflexivity.
      * rewrite H1 by lia. replace (c - i0)%nat with (S (c - S i0)) by lia. reflexivity.
    + intros r c Hc Hr. destruct (Nat.eq_dec r i0) as [->|Hne].
      * rewrite H3 by lia. unfold a1. rewrite Nat.sub_diag. cbn [nth].
        rewrite Nat.eqb_refl, (proj2 (Nat.ltb_lt c n) Hc). reflexivity.
      * rewrite H2 by lia. replace (r - i0)%nat with (S (r - S i0)) by lia. reflexivity.
    + intros r c Ha Hb. rewrite H3 by lia. unfold a1.
      destruct (Nat.eqb_spec r i0), (Nat.ltb_spec c n), (Nat.ltb_spec r n), (Nat.eqb_spec c i0); cbn [andb]; try reflexivity; lia.
Qed.

Definition Pt (size : nat) := fun (s : mat * nat) v => put size v s.
Lemma put_all size cols : forall (b0 : mat) i0, (i0 + List.length cols <= size)%nat ->
  exists b : mat, foldM (Pt size) cols (b0, i0) = Ok (b, i0 + List.length cols)%nat /\
    (forall p c, (i0 <= c < i0 + List.length cols)%nat -> b p c = nth (c - i0) cols (fun _ => 0) p) /\
    (forall p c, ~ (i0 <= c < i0 + List.length cols)%nat -> b p c = b0 p c).
Proof.
  induction cols as [|v cols IH]; intros b0 i0 Hs; cbn [foldM List.length].
  - exists b0. rewrite Nat.add_0_r. split; [reflexivity|]. split; [intros; lia|reflexivity].
  - cbn [List.length] in Hs. unfold Pt at 1, put at 1. destruct (Nat.ltb_spec i0 size) as [H|H]; [|lia]. cbn [bind].
    set (b1 := (fun p k => if Nat.eqb k i0 then v p else b0 p k) : mat).
    destruct (IH b1 (S i0) ltac:(lia)) as (b & HF & H1 & H2).
    exists b. split; [replace (i0 + S (List.length cols))%nat with (S i0 + List.length cols)%nat by lia; exact HF|].
    split.
    + intros p c Hc. destruct (Nat.eq_dec c i0) as [->|Hne].
      * rewrite H2 by lia. unfold b1. rewrite Nat.sub_diag, Nat.eqb_refl. reflexivity.
      * rewrite H1 by lia. replace (c - i0)%nat with (S (c - S i0)) by lia. reflexivity.
    + intros p c Hc. rewrite H2 by lia. unfold b1. destruct (Nat.eqb_spec c i0); [lia|reflexivity].
Qed.

Definition Pt1 (size : nat) := fun (s : vec * nat) v => put1 size v s.
Lemma put1_all size vals : forall (b0 : vec) i0, (i0 + List.length vals <= size)%nat ->
  exists b : vec, foldM (Pt1 size) vals (b0, i0) = Ok (b, i0 + List.length vals)%nat /\
    (forall c, (i0 <= c < i0 + List.length vals)%nat -> b c = nth (c - i0) vals 0) /\
    (forall c, ~ (i0 <= c < i0 + List.length vals)%nat -> b c = b0 c).
Proof.
  induction vals as [|v vals IH]; intros b0 i0 Hs; cbn [foldM List.length].
  - exists b0. rewrite Nat.add_0_r. split; [reflexivity|]. split; [intros; lia|reflexivity].
  - cbn [List.length] in Hs. unfold Pt1 at 1, put1 at 1. destruct (Nat.ltb_spec i0 size) as [H|H]; [|lia]. cbn [bind].
    destruct (IH (upd b0 i0 v) (S i0) ltac:(lia)) as (b & HF & H1 & H2).
    exists b. split; [replace (i0 + S (List.length vals))%nat with (S i0 + List.length vals)%nat by lia; exact HF|].
    split.
    + intros c Hc. destruct (Nat.eq_dec c i0) as [->|Hne].
      * rewrite H2 by lia. rewrite upd_same, Nat.sub_diag. reflexivity.
      * rewrite H1 by lia. replace (c - i0)%nat with (S (c - S i0)) by lia. reflexivity.
    + intros c Hc. rewrite H2 by lia. apply upd_other. lia.
Qed.

(** *** the matrix *)
Definition data_cols (u : uobj) : list vec :=
  let o := u_obj u in let d := u_drift u in
  (if dr_linear d then map (fun k i => o_adj o i k) (axes (o_dim o)) else []) ++
  map (fun w i => well_term w (o_adj o i 0%nat) (o_adj o i 1%nat)) (opt_list (dr_wells d)) ++
  (match dr_ext d with Some (_, _, _, zs) => [zs] | None => [] end) ++
  opt_list (dr_spec d) ++
  map (fun f i => call_drift (o_dim o) f (o_adj o i)) (opt_list (dr_fun d)).

Lemma axes_length o : List.length (axes (o_dim o)) = o_dim o.
Proof. destruct (o_dim_cases o) as [-> | ->]; reflexivity. Qed.
Lemma olen_opt {A} (x : option (list A)) : olen x = List.length (opt_list x).
Proof. destruct x; reflexivity. Qed.

Lemma n_withdrifts_cols u : n_withdrifts u = (o_n (u_obj u) + List.length (data_cols u))%nat.
Proof.
  unfold n_withdrifts, data_cols. rewrite !app_length, !map_length, !olen_opt.
  destruct (dr_linear (u_drift u)); rewrite ?map_length, ?axes_length; destruct (dr_ext (u_drift u)) as [[[[? ?] ?] ?]|]; cbn [List.length]; lia.
Qed.

Definition cols_F (cols : list vec) : mat := fun k i => nth k cols (fun _ => 0) i.

Lemma uk_matrix_spec u : exists a, uk_matrix u = Ok (a, false) /\
  meq (n_withdrifts u + 1) a
    (UA (o_n (u_obj u)) (List.length (data_cols u)) (data_semivariance (o_vg (u_obj u)) (data_distances (u_obj u)))
        (cols_F (data_cols u))).
Proof.
  set (o := u_obj u). set (d := u_drift u). set (n := o_n o). set (m := List.length (data_cols u)).
  set (a0 := fill_diagonal 0 (set_block n (fun i j => - o_vg o (data_distances o i j)) zeros2)).
  assert (Hnw : n_withdrifts u = (n + m)%nat) by apply n_withdrifts_cols.
  assert (HM : uk_matrix u = bind (foldM (W (n + m + 1) n) (data_cols u) (a0, n)) (fun s =>
    let '(a, i) := s in
    let nw := (n + m)%nat in
    let warn := negb (Nat.eqb i nw) in
    let a : mat := fun r c => if Nat.eqb r nw && Nat.ltb c n then 1 else a r c in
    let a : mat := fun r c => if Nat.ltb r n && Nat.eqb c nw then 1 else a r c in
    let a : mat := fun r c => if (Nat.leb n r && Nat.leb r nw) && (Nat.leb n c && Nat.leb c nw) then 0 else a r c in
    Ok (a, warn))).
  { unfold uk_matrix. cbv zeta. rewrite Hnw. fold o d n. fold a0. unfold data_cols. fold o d.
    rewrite !foldM_app.
    assert (HL : (if dr_linear d
       then foldM (fun s k => write_drift (n + m + 1) n (fun i => o_adj o i k) s) (axes (o_dim o)) (a0, n)
       else Ok (a0, n)) =
      foldM (W (n + m + 1) n) (if dr_linear d then map (fun k i => o_adj o i k) (axes (o_dim o)) else []) (a0, n)).
    { destruct (dr_linear d); [|reflexivity]. apply (foldM_map (W (n + m + 1) n) (fun k i => o_adj o i k)). }
    rewrite HL. clear HL. destruct (foldM (W (n + m + 1) n) _ (a0, n)) as [s1|e]; cbn [bind]; [|reflexivity].
    assert (HE : each (dr_wells d) (fun s w => write_drift (n + m + 1) n (fun i => well_term w (o_adj o i 0%nat) (o_adj o i 1%nat)) s) s1
      = foldM (W (n + m + 1) n) (map (fun w i => well_term w (o_adj o i 0%nat) (o_adj o i 1%nat)) (opt_list (dr_wells d))) s1)
      by exact (each_map (W (n + m + 1) n) (fun w i => well_term w (o_adj o i 0%nat) (o_adj o i 1%nat)) (dr_wells d) s1).
    rewrite HE. clear HE.
    rewrite foldM_app.
    destruct (foldM (W (n + m + 1) n) _ s1) as [s2|e]; cbn [bind]; [|reflexivity].
    assert (HX : (match dr_ext d with Some (_, _, _, zs) => write_drift (n + m + 1) n zs s2 | None => Ok s2 end) =
      foldM (W (n + m + 1) n) (match dr_ext d with Some (_, _, _, zs) => [zs] | None => [] end) s2).
    { destruct (dr_ext d) as [[[[? ?] ?] zs]|]; [|reflexivity]. cbn [foldM]. unfold W.
      destruct (write_drift (n + m + 1) n zs s2); reflexivity. }
    rewrite HX, foldM_app. clear HX. destruct (foldM (W (n + m + 1) n) _ s2) as [s3|e]; cbn [bind]; [|reflexivity].
    replace (each (dr_spec d) (fun s v => write_drift (n + m + 1) n v s) s3) with (foldM (W (n + m + 1) n) (opt_list (dr_spec d)) s3)
      by (destruct (dr_spec d); reflexivity).
    rewrite foldM_app.
    destruct (foldM (W (n + m + 1) n) _ s3) as [s4|e]; cbn [bind]; [|reflexivity].
    assert (HE : each (dr_fun d) (fun s f => write_drift (n + m + 1) n (fun i => call_drift (o_dim o) f (o_adj o i)) s) s4
      = foldM (W (n + m + 1) n) (map (fun f i => call_drift (o_dim o) f (o_adj o i)) (opt_list (dr_fun d))) s4)
      by exact (each_map (W (n + m + 1) n) (fun f i => call_drift (o_dim o) f (o_adj o i)) (dr_fun d) s4).
    rewrite HE. reflexivity. }
  destruct (write_all (n + m + 1) n (data_cols u) a0 n (Nat.le_refl n) ltac:(fold m; lia)) as (a & HF & H1 & H2 & H3).
  fold m in HF, H1, H2, H3.
  rewrite HM, HF. cbn [bind]. rewrite Nat.eqb_refl. cbn [negb]. eexists. split; [reflexivity|].
  rewrite Hnw. intros i j Hi Hj. unfold UA, cols_F. fold m.
  destruct (Nat.leb_spec n i) as [Hni|Hni], (Nat.leb_spec n j) as [Hnj|Hnj];
    destruct (Nat.leb_spec i (n + m)); try lia; destruct (Nat.leb_spec j (n + m)); try lia; cbn [andb];
    destruct (Nat.ltb_spec i n); try lia; destruct (Nat.ltb_spec j n); try lia; cbn [andb]; rewrite ?andb_false_r, ?andb_true_r.
  - reflexivity.
  - destruct (Nat.eqb_spec i (n + m)) as [->|Hne].
    + rewrite (proj2 (Nat.ltb_ge _ _) (Nat.le_refl _)). reflexivity.
    + rewrite (proj2 (Nat.ltb_lt i (n + m)) ltac:(lia)). apply H2; lia.
  - destruct (Nat.eqb_spec j (n + m)) as [->|Hne].
    + rewrite (proj2 (Nat.ltb_ge _ _) (Nat.le_refl _)). reflexivity.
    + rewrite (proj2 (Nat.ltb_lt j (n + m)) ltac:(lia)). apply H1; lia.
  - destruct (Nat.eqb_spec i (n + m)); [lia|]. destruct (Nat.eqb_spec j (n + m)); [lia|]. cbn [andb].
    rewrite H3 by lia. unfold a0, fill_diagonal, set_block, data_semivariance.
    destruct (Nat.eqb_spec i j); [ring|]. rewrite !(proj2 (Nat.ltb_lt _ _)) by assumption. reflexivity.
Qed.

(** *** right-hand sides *)
Definition query_cols (u : uobj) (at_ : nat -> vec) (zs : vec) (gs : list vec) : list vec :=
  let o := u_obj u in let d := u_drift u in
  (if dr_linear d then map (fun k p => at_ p k) (axes (o_dim o)) else []) ++
  map (fun w p => well_term w (at_ p 0%nat) (at_ p 1%nat)) (opt_list (dr_wells d)) ++
  (match dr_ext d with Some _ => [zs] | None => [] end) ++
  (match dr_spec d with Some _ => gs | None => [] end) ++
  map (fun f p => call_drift (o_dim o) f (at_ p)) (opt_list (dr_fun d)).

Lemma query_cols_length u at_ zs gs : List.length gs = olen (dr_spec (u_drift u)) ->
  List.length (query_cols u at_ zs gs) = List.length (data_cols u).
Proof.
  intros H. unfold query_cols, data_cols. rewrite !app_length, !map_length, <- !olen_opt, <- H.
  destruct (dr_linear (u_drift u)), (dr_ext (u_drift u)) as [[[[? ?] ?] ?]|], (dr_spec (u_drift u)); rewrite ?map_length;
    cbn [List.length olen] in *; lia.
Qed.

Definition upoint_value (n size : nat) (a_inv : mat) (b Z : vec) : R := bsum n (fun k => mulv size a_inv b k * Z k).
Definition upoint_variance (size : nat) (a_inv : mat) (b : vec) : R := bsum size (fun k => mulv size a_inv b k * - b k).

Lemma upoint_ext n size a_inv b b' Z : veq size b b' ->
  upoint_value n size a_inv b Z = upoint_value n size a_inv b' Z /\ upoint_variance size a_inv b = upoint_variance size a_inv b'.
Proof.
  intros H. unfold upoint_value, upoint_variance. split; apply bsum_ext; intros k Hk; rewrite (mulv_ext_r size a_inv b b' k H); [reflexivity|].
  rewrite H by exact Hk. reflexivity.
Qed.

Lemma uk_rhs_vector_eq n npt vg ex bd p k : (p < npt)%nat -> (k < n)%nat ->
  uk_rhs_vector n npt vg ex bd p k = - query_semivariance vg eps ex (bd p) k.
Proof.
  intros Hp Hk. unfold uk_rhs_vector, query_semivariance.
  destruct ex; cbn [andb]; rewrite ?andb_true_r, ?andb_false_r.
  2:{ rewrite (proj2 (Nat.ltb_lt k n) Hk). reflexivity. }
  destruct (existsb _ _) eqn:EZ.
  - rewrite (proj2 (Nat.ltb_lt k n) Hk). cbn [andb]. destruct (Rleb _ _); [ring|reflexivity].
  - rewrite (proj2 (Nat.ltb_lt k n) Hk).
    assert (HA : any_zero eps n (bd p) = false).
    { destruct (any_zero eps n (bd p)) eqn:EA; [|reflexivity]. rewrite <- EZ. symmetry. apply existsb_exists.
      exists p. split; [apply in_seq; lia|exact EA]. }
    rewrite (any_zero_false eps n (bd p) HA k Hk). reflexivity.
Qed.

Definition ext_values (d : drift) (npt : nat) (orig : mat) : res vec :=
  match dr_ext d with
  | Some (arr, ex, ey, _) => zscalars arr ex ey npt (fun p => orig p 0%nat) (fun p => orig p 1%nat)
  | None => Ok (fun _ => 0)
  end.

Lemma uk_exec_vector_spec L u npt a bd xyz orig gs : List.length gs = olen (dr_spec (u_drift u)) ->
  let o := u_obj u in
  let n := o_n o in
  let m := List.length (data_cols u) in
  match invert L (o_pinv o) (o_pinv_type o) (n + m + 1) a with
  | Err e => uk_exec_vector L u npt a bd xyz orig gs = Err e
  | Ok a_inv =>
    match ext_values (u_drift u) npt orig with
    | Err e => uk_exec_vector L u npt a bd xyz orig gs = Err e
    | Ok zs =>
      exists z s, uk_exec_vector L u npt a bd xyz orig gs = Ok (z, s, false) /\
        forall p, (p < npt)%nat ->
          let b := Ub n m (query_semivariance (o_vg o) eps (o_exact o) (bd p))
                     (fun k => nth k (query_cols u (query_coords (o_dim o) xyz) zs gs) (fun _ => 0) p) in
          z p = upoint_value n (n + m + 1) a_inv b (o_values o) /\ s p = upoint_variance (n + m + 1) a_inv b
    end
  end.
Proof.
  intros Hgs o n m. set (d := u_drift u) in *.
  assert (Hnw : n_withdrifts u = (n + m)%nat) by apply n_withdrifts_cols.
  unfold uk_exec_vector. cbv zeta. rewrite Hnw. fold o d n.
  destruct (invert L (o_pinv o) (o_pinv_type o) (n + m + 1) a) as [a_inv|e]; cbn [bind]; [|reflexivity].
  set (at_ := query_coords (o_dim o) xyz).
  set (b0 := uk_rhs_vector n npt (o_vg o) (o_exact o) bd).
  set (size := (n + m + 1)%nat).
  (* all columns but the external one never fail *)
  set (c1 := (if dr_linear d then map (fun k p => at_ p k) (axes (o_dim o)) else []) : list vec).
  set (c2 := map (fun w p => well_term w (at_ p 0%nat) (at_ p 1%nat)) (opt_list (dr_wells d)) : list vec).
  set (c4 := match dr_spec d with Some _ => gs | None => [] end : list vec).
  set (c5 := map (fun f p => call_drift (o_dim o) f (at_ p)) (opt_list (dr_fun d)) : list vec).
  assert (HL : (if dr_linear d then foldM (fun s k => put size (fun p => at_ p k) s) (axes (o_dim o)) (b0, n) else Ok (b0, n))
             = foldM (Pt size) c1 (b0, n)).
  { unfold c1. destruct (dr_linear d); [|reflexivity]. exact (foldM_map (Pt size) (fun k p => at_ p k) _ _). }
  assert (HW : forall s, each (dr_wells d) (fun s w => put size (fun p => well_term w (at_ p 0%nat) (at_ p 1%nat)) s) s = foldM (Pt size) c2 s).
  { intros s. exact (each_map (Pt size) (fun w p => well_term w (at_ p 0%nat) (at_ p 1%nat)) (dr_wells d) s). }
  assert (HS : forall s, (match dr_spec d with Some _ => foldM (fun s v => put size v s) gs s | None => Ok s end) = foldM (Pt size) c4 s).
  { intros s. unfold c4. destruct (dr_spec d); reflexivity. }
  assert (HU : forall s, each (dr_fun d) (fun s f => put size (fun p => call_drift (o_dim o) f (at_ p)) s) s = foldM (Pt size) c5 s).
  { intros s. exact (each_map (Pt size) (fun f p => call_drift (o_dim o) f (at_ p)) (dr_fun d) s). }
  assert (Hlen : forall zs, List.length (query_cols u at_ zs gs) = m) by (intros; apply query_cols_length; exact Hgs).
  assert (Hcols : forall zs, query_cols u at_ zs gs = c1 ++ c2 ++ (match dr_ext d with Some _ => [zs] | None => [] end) ++ c4 ++ c5) by reflexivity.
  rewrite HL.
  destruct (put_all size (c1 ++ c2) b0 n) as (b12 & H12 & _).
  { specialize (Hlen (fun _ => 0)). rewrite Hcols in Hlen. rewrite !app_length in Hlen. rewrite app_length. unfold size. lia. }
  rewrite foldM_app in H12.
  destruct (foldM (Pt size) c1 (b0, n)) as [s1|e] eqn:E1; [|discriminate H12]. cbn [bind] in *. rewrite HW.
  rewrite H12. cbn [bind].
  assert (HX : (match dr_ext d with
     | Some (arr, ex, ey, _) =>
         do zs <- zscalars arr ex ey npt (fun p => orig p 0%nat) (fun p => orig p 1%nat);; put size zs (b12, (n + @List.length vec (c1 ++ c2))%nat)
     | None => Ok (b12, (n + @List.length vec (c1 ++ c2))%nat) end : res (mat * nat))
     = bind (ext_values d npt orig) (fun zs => foldM (Pt size) (match dr_ext d with Some _ => [zs] | None => [] end) (b12, (n + @List.length vec (c1 ++ c2))%nat))).
  { unfold ext_values. destruct (dr_ext d) as [[[[arr ex] ey] z0]|]; [|reflexivity].
    destruct (zscalars _ _ _ _ _ _); cbn [bind foldM]; [|reflexivity]. unfold Pt. destruct (put _ _ _); reflexivity. }
  rewrite HX. clear HX. destruct (ext_values d npt orig) as [zs|e]; cbn [bind]; [|reflexivity].
  destruct (put_all size (query_cols u at_ zs gs) b0 n) as (b & HB & Hb1 & Hb2).
  { rewrite Hlen. unfold size. lia. }
  rewrite Hlen in HB, Hb1, Hb2.
  rewrite Hcols in HB. rewrite (app_assoc c1 c2), foldM_app in HB. rewrite foldM_app, E1 in HB. cbn [bind] in HB. rewrite H12 in HB.
  cbn [bind] in HB. rewrite foldM_app in HB.
  set (ce := match dr_ext d with Some _ => [zs] | None => [] end) in *.
  destruct (foldM (Pt size) ce (b12, (n + @List.length vec (c1 ++ c2))%nat)) as [s3|e]; [|discriminate HB]. cbn [bind] in *. rewrite HS.
  rewrite foldM_app in HB.
  destruct (foldM (Pt size) c4 s3) as [s4|e]; [|discriminate HB]. cbn [bind] in *. rewrite HU.
  rewrite HB. cbn [bind]. rewrite Nat.eqb_refl. cbn [negb]. eexists _, _. split; [reflexivity|].
  intros p Hp. cbv zeta.
  apply (upoint_ext n size a_inv (fun k => if Nat.eqb k (n + m) then 1 else b p k)).
  intros k Hk. unfold Ub. destruct (Nat.eqb_spec k (n + m)) as [->|Hne].
  - rewrite (proj2 (Nat.ltb_ge (n + m) n)) by lia. rewrite Nat.ltb_irrefl. reflexivity.
  - unfold size in Hk. destruct (Nat.ltb_spec k n) as [H|H].
    + rewrite Hb2 by lia. unfold b0. apply uk_rhs_vector_eq; assumption.
    + rewrite (proj2 (Nat.ltb_lt k (n + m))) by lia. apply Hb1. lia.
Qed.

(** the loop *)
Fixpoint loop_specs (i : nat) (gs : list vec) : list R :=
  match gs with [] => [] | v :: gs' => v i :: loop_specs (S i) gs' end.
Lemma loop_specs_length gs : forall i, List.length (loop_specs i gs) = List.length gs.
Proof. induction gs; intros i; cbn; [reflexivity|rewrite IHgs; reflexivity]. Qed.

Lemma spec_loop_eq size npt gs : forall b i, (gs = [] \/ i + List.length gs <= npt)%nat ->
  foldM (fun s (v : vec) => let '(b, i) := s in if Nat.ltb i npt then put1 size (v i) (b, i) else Err IndexError) gs (b, i)
  = foldM (Pt1 size) (loop_specs i gs) (b, i).
Proof.
  induction gs as [|v gs IH]; intros b i H; cbn [foldM loop_specs]; [reflexivity|].
  destruct H as [H|H]; [discriminate|]. cbn [List.length] in H.
  destruct (Nat.ltb_spec i npt); [|lia]. unfold Pt1 at 1. unfold put1. destruct (Nat.ltb i size) eqn:EI; cbn [bind]; [|reflexivity].
  apply IH. destruct gs; [left; reflexivity|right; cbn [List.length] in *; lia].
Qed.

Lemma spec_loop_err size npt gs : forall b i, gs <> [] -> (npt < i + List.length gs)%nat -> (i + List.length gs <= size)%nat ->
  foldM (fun s (v : vec) => let '(b, i) := s in if Nat.ltb i npt then put1 size (v i) (b, i) else Err IndexError) gs (b, i)
  = Err IndexError.
Proof.
  induction gs as [|v gs IH]; intros b i Hne H Hs; [contradiction|]. cbn [foldM]. cbn [List.length] in *.
  destruct (Nat.ltb_spec i npt); [|reflexivity]. unfold put1 at 1. destruct (Nat.ltb_spec i size); [|lia]. cbn [bind].
  apply IH; [|lia|lia]. intros ->. cbn in H. lia.
Qed.

(** matrix row of the first specified drift *)
Definition spec_row (u : uobj) : nat :=
  let d := u_drift u in
  (o_n (u_obj u) + (if dr_linear d then o_dim (u_obj u) else 0) + olen (dr_wells d)
   + match dr_ext d with Some _ => 1 | None => 0 end)%nat.

Definition loop_vals (u : uobj) (at_ : vec) (z : R) (gs : list vec) : list R :=
  let o := u_obj u in let d := u_drift u in
  (if dr_linear d then map at_ (axes (o_dim o)) else []) ++
  map (fun w => well_term w (at_ 0%nat) (at_ 1%nat)) (opt_list (dr_wells d)) ++
  (match dr_ext d with Some _ => [z] | None => [] end) ++
  (match dr_spec d with Some _ => loop_specs (spec_row u) gs | None => [] end) ++
  map (fun f => call_drift (o_dim o) f at_) (opt_list (dr_fun d)).

Lemma loop_vals_length u at_ z gs : List.length gs = olen (dr_spec (u_drift u)) ->
  List.length (loop_vals u at_ z gs) = List.length (data_cols u).
Proof.
  intros H. rewrite <- (query_cols_length u (fun _ => at_) (fun _ => z) gs H). unfold loop_vals, query_cols.
  rewrite !app_length, !map_length.
  destruct (dr_linear (u_drift u)), (dr_ext (u_drift u)), (dr_spec (u_drift u)); rewrite ?map_length, ?loop_specs_length; reflexivity.
Qed.

(** without specified drift these are the entries of the vectorized columns *)
Lemma loop_vals_cols u at_ zs gs j : dr_spec (u_drift u) = None ->
  loop_vals u (at_ j) (zs j) gs = map (fun v : vec => v j) (query_cols u at_ zs gs).
Proof.
  intros H. unfold loop_vals, query_cols. rewrite H, !map_app, !map_map.
  destruct (dr_linear (u_drift u)), (dr_ext (u_drift u)); rewrite ?map_map; reflexivity.
Qed.

Definition ext_value (d : drift) (orig : mat) (j : nat) : res R :=
  match dr_ext d with
  | Some (arr, ex, ey, _) => zscalar arr ex ey (orig j 0%nat) (orig j 1%nat)
  | None => Ok 0
  end.
Definition at_well (d : drift) (at_ : vec) : bool :=
  existsb (fun w => Reqb (well_dist w (at_ 0%nat) (at_ 1%nat)) 0) (opt_list (dr_wells d)).

Lemma wells_fold size at_ ws : existsb (fun w => Reqb (well_dist w (at_ 0%nat) (at_ 1%nat)) 0) ws = false ->
  forall s, foldM (fun s w => if Reqb (well_dist w (at_ 0%nat) (at_ 1%nat)) 0 then Err TypeError
             else put1 size (well_term w (at_ 0%nat) (at_ 1%nat)) s) ws s
  = foldM (Pt1 size) (map (fun w => well_term w (at_ 0%nat) (at_ 1%nat)) ws) s.
Proof.
  intros H s. rewrite <- (foldM_map (Pt1 size) (fun w => well_term w (at_ 0%nat) (at_ 1%nat)) ws s).
  apply foldM_ext. intros s' w Hw. destruct (Reqb (well_dist w (at_ 0%nat) (at_ 1%nat)) 0) eqn:ER; [|reflexivity].
  exfalso. rewrite <- not_true_iff_false in H. apply H. apply existsb_exists. exists w. auto.
Qed.

Lemma wells_fold_err size at_ ws : existsb (fun w => Reqb (well_dist w (at_ 0%nat) (at_ 1%nat)) 0) ws = true ->
  forall b i, (i + List.length ws <= size)%nat ->
  foldM (fun s w => if Reqb (well_dist w (at_ 0%nat) (at_ 1%nat)) 0 then Err TypeError
             else put1 size (well_term w (at_ 0%nat) (at_ 1%nat)) s) ws (b, i) = Err TypeError.
Proof.
  induction ws as [|w ws IH]; intros H b i Hi; cbn in H; [discriminate|]. cbn [foldM].
  destruct (Reqb (well_dist w (at_ 0%nat) (at_ 1%nat)) 0); [reflexivity|]. cbn [orb] in H. cbn [List.length] in Hi.
  unfold put1 at 1. destruct (Nat.ltb_spec i size); [|lia]. cbn [bind]. apply IH; [exact H|lia].
Qed.

Lemma uk_rhs_loop_spec u npt bd xyz orig gs j : List.length gs = olen (dr_spec (u_drift u)) ->
  let o := u_obj u in
  let n := o_n o in
  let m := List.length (data_cols u) in
  let at_ := query_coords (o_dim o) xyz j in
  if at_well (u_drift u) at_ then uk_rhs_loop u npt bd xyz orig gs j = Err TypeError
  else match ext_value (u_drift u) orig j with
  | Err e => uk_rhs_loop u npt bd xyz orig gs j = Err e
  | Ok z =>
    ((gs <> [] /\ npt < spec_row u + List.length gs)%nat -> uk_rhs_loop u npt bd xyz orig gs j = Err IndexError) /\
    ((gs = [] \/ spec_row u + List.length gs <= npt)%nat ->
    exists b, uk_rhs_loop u npt bd xyz orig gs j = Ok (b, false) /\
      veq (n + m + 1) b (Ub n m (query_semivariance (o_vg o) eps (o_exact o) bd) (fun k => nth k (loop_vals u at_ z gs) 0)))
  end.
Proof.
  intros Hgs o n m at_. set (d := u_drift u) in *.
  assert (Hnw : n_withdrifts u = (n + m)%nat) by apply n_withdrifts_cols.
  unfold uk_rhs_loop. cbv zeta. rewrite Hnw. fold o d n. fold at_.
  set (size := (n + m + 1)%nat).
  match goal with |- context [foldM _ _ (?bb, n)] => set (b0 := bb) end.
  set (c1 := if dr_linear d then map at_ (axes (o_dim o)) else []).
  set (c2 := map (fun w => well_term w (at_ 0%nat) (at_ 1%nat)) (opt_list (dr_wells d))).
  set (c4 := match dr_spec d with Some _ => loop_specs (spec_row u) gs | None => [] end).
  set (c5 := map (fun f => call_drift (o_dim o) f at_) (opt_list (dr_fun d))).
  assert (Hlen : forall z, List.length (loop_vals u at_ z gs) = m) by (intros; apply loop_vals_length; exact Hgs).
  assert (Hcols : forall z, loop_vals u at_ z gs = c1 ++ c2 ++ (match dr_ext d with Some _ => [z] | None => [] end) ++ c4 ++ c5) by reflexivity.
  assert (HL : (if dr_linear d then foldM (fun s k => put1 size (at_ k) s) (axes (o_dim o)) (b0, n) else Ok (b0, n))
             = foldM (Pt1 size) c1 (b0, n)).
  { unfold c1. destruct (dr_linear d); [|reflexivity]. exact (foldM_map (Pt1 size) at_ _ _). }
  rewrite HL. clear HL.
  assert (Hc12 : (n + List.length (c1 ++ c2) <= size)%nat).
  { specialize (Hlen 0). rewrite Hcols in Hlen. rewrite !app_length in Hlen. rewrite app_length. unfold size. lia. }
  destruct (put1_all size c1 b0 n) as (b1 & H1 & _); [rewrite app_length in Hc12; lia|].
  rewrite H1. cbn [bind].
  destruct (at_well d at_) eqn:EW.
  { unfold at_well in EW. destruct (dr_wells d) as [ws|] eqn:Ews; cbn [opt_list existsb each] in *; [|discriminate EW].
    rewrite (wells_fold_err size at_ ws EW); [reflexivity|]. unfold c2 in Hc12. rewrite app_length, map_length in Hc12. lia. }
  assert (HW : each (dr_wells d) (fun s w => if Reqb (well_dist w (at_ 0%nat) (at_ 1%nat)) 0 then Err TypeError
             else put1 size (well_term w (at_ 0%nat) (at_ 1%nat)) s) (b1, (n + List.length c1)%nat) = foldM (Pt1 size) c2 (b1, (n + List.length c1)%nat)).
  { unfold at_well in EW. unfold c2. destruct (dr_wells d) as [ws|]; cbn [opt_list each map foldM] in *; [|reflexivity].
    apply wells_fold. exact EW. }
  rewrite HW. clear HW.
  destruct (put1_all size (c1 ++ c2) b0 n Hc12) as (b12 & H12 & _).
  rewrite foldM_app, H1 in H12. cbn [bind] in H12. rewrite H12. cbn [bind].
  assert (HX : (match dr_ext d with
     | Some (arr, ex, ey, _) => do z <- zscalar arr ex ey (orig j 0%nat) (orig j 1%nat) ;; put1 size z (b12, (n + List.length (c1 ++ c2))%nat)
     | None => Ok (b12, (n + List.length (c1 ++ c2))%nat) end : res (vec * nat))
     = bind (ext_value d orig j) (fun z => foldM (Pt1 size) (match dr_ext d with Some _ => [z] | None => [] end) (b12, (n + List.length (c1 ++ c2))%nat))).
  { unfold ext_value. destruct (dr_ext d) as [[[[arr ex] ey] z0]|]; [|reflexivity].
    destruct (zscalar _ _ _ _ _); cbn [bind foldM]; [|reflexivity]. unfold Pt1. destruct (put1 _ _ _); reflexivity. }
  rewrite HX. clear HX. destruct (ext_value d orig j) as [z|e]; cbn [bind]; [|reflexivity].
  destruct (put1_all size (loop_vals u at_ z gs) b0 n) as (b & HB & Hb1 & Hb2).
  { rewrite Hlen. unfold size. lia. }
  rewrite Hlen in HB, Hb1, Hb2.
  rewrite Hcols in HB. rewrite (app_assoc c1 c2), foldM_app in HB. rewrite foldM_app, H1 in HB. cbn [bind] in HB. rewrite H12 in HB.
  cbn [bind] in HB. rewrite foldM_app in HB.
  set (ce := match dr_ext d with Some _ => [z] | None => [] end) in *.
  destruct (put1_all size ce b12 (n + List.length (c1 ++ c2))) as (b3 & H3 & _).
  { specialize (Hlen z). rewrite Hcols in Hlen. fold ce in Hlen. rewrite !app_length in Hlen. rewrite app_length. unfold size. lia. }
  rewrite H3 in HB |- *. cbn [bind] in *.
  assert (Hrow : (n + List.length (c1 ++ c2) + List.length ce)%nat = spec_row u).
  { unfold spec_row. fold d o n. unfold c1, c2, ce. rewrite app_length, map_length, <- olen_opt.
    destruct (dr_linear d), (dr_ext d); rewrite ?map_length, ?axes_length; cbn [List.length]; lia. }
  rewrite Hrow in *.
  split.
  { intros [Hne Hlt]. destruct (dr_spec d) as [ds|]; [|destruct gs; [contradiction|discriminate Hgs]].
    rewrite spec_loop_err; [reflexivity|exact Hne|exact Hlt|].
    specialize (Hlen z). rewrite Hcols in Hlen. fold ce in Hlen. rewrite !app_length in Hlen. unfold c4 in Hlen.
    rewrite loop_specs_length in Hlen. rewrite <- Hrow, app_length. unfold size. lia. }
  intros Hsp.
  assert (HS : (match dr_spec d with
      | Some _ => foldM (fun s (v : vec) => let '(b, i) := s in if Nat.ltb i npt then put1 size (v i) (b, i) else Err IndexError) gs (b3, spec_row u)
      | None => Ok (b3, spec_row u) end : res (vec * nat)) = foldM (Pt1 size) c4 (b3, spec_row u)).
  { unfold c4. destruct (dr_spec d) as [ds|]; [|reflexivity]. apply spec_loop_eq. exact Hsp. }
  rewrite HS. clear HS. rewrite foldM_app in HB.
  destruct (foldM (Pt1 size) c4 (b3, spec_row u)) as [s4|e]; [|discriminate HB]. cbn [bind] in *.
  assert (HU : each (dr_fun d) (fun s f => put1 size (call_drift (o_dim o) f at_) s) s4 = foldM (Pt1 size) c5 s4).
  { exact (each_map (Pt1 size) (fun f => call_drift (o_dim o) f at_) (dr_fun d) s4). }
  rewrite HU. rewrite HB. cbn [bind]. rewrite Nat.eqb_refl. cbn [negb]. eexists. split; [reflexivity|].
  intros k Hk. unfold Ub. destruct (Nat.eq_dec k (n + m)) as [->|Hne].
  - rewrite upd_same. rewrite (proj2 (Nat.ltb_ge (n + m) n)) by lia. rewrite Nat.ltb_irrefl. reflexivity.
  - rewrite upd_other by lia. destruct (Nat.ltb_spec k n) as [H|H].
    + rewrite Hb2 by lia. unfold b0, query_semivariance.
      destruct (o_exact o); rewrite ?andb_true_r, ?andb_false_r; cbn [andb].
      * destruct (any_zero eps n bd) eqn:EZ; rewrite (proj2 (Nat.ltb_lt k n) H); cbn [andb].
        -- destruct (Rleb _ _); [ring|reflexivity].
        -- rewrite (any_zero_false eps n bd EZ k H). reflexivity.
      * rewrite (proj2 (Nat.ltb_lt k n) H). reflexivity.
    + rewrite (proj2 (Nat.ltb_lt k (n + m))) by lia. apply Hb1. lia.
Qed.
