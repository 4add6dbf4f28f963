(** PROOFS: C47, C48. *)
From Coq Require Import String Ascii ZArith QArith Qround Qpower Qabs Qfield Lia List.
From Verif Require Import Base M_Text S_Text P_Text M_AscGrid S_AscGrid P_AscGrid P_AscGrid2 P_AscGrid3 M_Zmap S_Zmap P_Zmap P_Zmap2.
From Coq Require Import Lqa.
Import ListNotations.
Open Scope string_scope.
Open Scope Q_scope.

Lemma ztext_value nd c : exists d, decimal (ztext nd c) = Some d /\
  match c with Num q => (Qabs q < 1000000 -> four_decimals q d) /\ (1000000 <= Qabs q -> eight_digits q d) | _ => eight_digits nd d end.
Proof.
  destruct c as [q| |]; cbn [ztext].
  - destruct (Qle_bool million (Qabs q)) eqn:E.
    + apply Qle_bool_iff in E. unfold million in E. destruct (decimal_sci 7 q ltac:(lia)) as (d & D & V). exists d. split; [assumption|].
      split; [intros; lra|]. intros _. now apply sci_eight.
    + assert (L : Qabs q < 1000000). { apply Qnot_le_lt. intros K. apply Qle_bool_iff in K. unfold million in E. congruence. }
      exists (fixed_value 4 q). split; [apply decimal_fixed; lia|]. split; [|intros; lra]. intros _. apply fixed_nearest. reflexivity.
  - destruct (decimal_sci 7 nd ltac:(lia)) as (d & D & V). exists d. split; [assumption|]. now apply sci_eight.
  - destruct (decimal_sci 7 nd ltac:(lia)) as (d & D & V). exists d. split; [assumption|]. now apply sci_eight.
Qed.

Definition zv (fl : Q -> Q) (nd : Q) (c : cell) : Q := match parse_float fl (ztext nd c) with Some v => v | None => 0 end.
Lemma zv_parse fl nd c : parse_float fl (ztext nd c) = Some (zv fl nd c).
Proof. unfold zv. destruct (ztext_value nd c) as (d & D & _). unfold parse_float. rewrite D. reflexivity. Qed.
Lemma zv_back fl nd c : zcell_back fl nd c (zv fl nd (fill nd c)).
Proof.
  destruct (ztext_value nd (fill nd c)) as (d & D & V). unfold zv, parse_float. rewrite D. cbn [option_map].
  destruct c as [q| |]; cbn [fill zcell_back] in *.
  - exists d. split; [reflexivity|exact V]. - exists d. auto. - exists d. split; [reflexivity|exact V].
Qed.

(** cells in file order *)
Definition cells (z : grid cell) : list cell :=
  List.concat (map (fun n => map (fun m => g_at z m n) (rev (seq 0 (g_rows z)))) (seq 0 (g_cols z))).
Lemma concat_len {A} (f : nat -> list A) k : (forall n, List.length (f n) = k) -> forall c a, List.length (List.concat (map f (seq a c))) = (c * k)%nat.
Proof. intros H. induction c as [|c IH]; intros a; [reflexivity|]. cbn [seq map List.concat]. rewrite app_length, H, IH. lia. Qed.
Lemma concat_nth {A} (f : nat -> list A) k (d : A) : (forall n, List.length (f n) = k) -> forall c a n i, (n < c)%nat -> (i < k)%nat ->
  nth (n * k + i) (List.concat (map f (seq a c))) d = nth i (f (a + n)%nat) d.
Proof.
  intros H. induction c as [|c IH]; intros a n i Hn Hi; [lia|]. cbn [seq map List.concat]. destruct n as [|n].
  - cbn [mult plus]. rewrite app_nth1 by (rewrite H; lia). now rewrite Nat.add_0_r.
  - rewrite app_nth2 by (rewrite H; cbn; lia). rewrite H. replace (S n * k + i - k)%nat with (n * k + i)%nat by (cbn; lia).
    rewrite IH by lia. f_equal. f_equal. lia.
Qed.
Lemma cells_len z : List.length (cells z) = (g_rows z * g_cols z)%nat.
Proof. unfold cells. rewrite (concat_len _ (g_rows z)); [lia|]. intros. now rewrite map_length, rev_length, seq_length. Qed.
Lemma cells_nth z m n d : (m < g_rows z)%nat -> (n < g_cols z)%nat -> nth (n * g_rows z + (g_rows z - 1 - m)) (cells z) d = g_at z m n.
Proof.
  intros Hm Hn. unfold cells. rewrite (concat_nth _ (g_rows z)); [|intros; now rewrite map_length, rev_length, seq_length|assumption|lia].
  rewrite (nth_indep _ d (g_at z 0%nat (0 + n)%nat)) by (rewrite map_length, rev_length, seq_length; lia).
  rewrite (map_nth (fun m0 => g_at z m0 (0 + n)%nat)), nth_rev_seq by lia. f_equal. lia.
Qed.

(** the reader on a whole file *)
Lemma body_read_z fl nd z s : r_line s = (-1)%Z -> r_iv s = 0%nat -> r_data s = repeat None (g_rows z * g_cols z) ->
  read_lines fl (lines (zmap_body nd z)) s = Ok (with_data s (g_rows z * g_cols z) (map (fun c => Some (zv fl nd c)) (cells z))).
Proof.
  intros R I D. destruct (body_items nd z) as (l & L1 & L2 & L3 & L4). rewrite <- L1.
  destruct (body_structure l "" [] L2 ltac:(constructor) good_0 ltac:(auto) L4) as (ls & E1 & E2 & E3). unfold lines. rewrite E1.
  rewrite read_data_lines by assumption. rewrite E2. cbn [app]. rewrite L3.
  replace (List.concat _) with (map (ztext nd) (cells z)).
  2:{ unfold cells. rewrite concat_map, map_map. f_equal. apply map_ext. intros n. now rewrite map_map. }
  rewrite I, D. rewrite <- cells_len.
  assert (S := store_all fl (map (ztext nd) (cells z)) (map (zv fl nd) (cells z)) []).
  rewrite map_length in S. cbn [List.length app plus] in S. rewrite S.
  - cbn [bind fst snd]. rewrite map_map. reflexivity.
  - clear. induction (cells z) as [|c cs IH]; cbn [map].
    + constructor.
    + constructor; [apply zv_parse|exact IH].
Qed.

Lemma write_zmap_inv fl fstr name date time x y z nd cs t : write_zmap fl fstr name date time x y z nd cs = (Some t, Ok tt) ->
  (2 <= List.length x)%nat /\ (2 <= List.length y)%nat /\ uniform_check fl x = true /\ uniform_check fl y = true /\
  t = zmap_header fstr name date time cs (List.length y) (List.length x) (qnth x 0)
        (fl (qnth x 0 + fl (inject_Z (Z.of_nat (List.length x) - 1) * spacing fl x))) (qnth y 0)
        (fl (qnth y 0 + fl (inject_Z (Z.of_nat (List.length y) - 1) * spacing fl y))) (spacing fl x) nd ++ zmap_body nd (filled z nd).
Proof.
  unfold write_zmap. intros H.
  destruct (_ || _)%bool eqn:E1 in H; [discriminate|]. apply orb_false_elim in E1 as [A1 A2]. apply Nat.eqb_neq in A1, A2.
  destruct (_ || _)%bool eqn:E1 in H; [discriminate|]. apply orb_false_elim in E1 as [B1 B2]. apply Nat.eqb_neq in B1, B2.
  destruct (uniform_check fl x); [|discriminate]. destruct (uniform_check fl y); [|discriminate]. cbn [andb negb] in H.
  destruct (two_dim z); [|discriminate]. injection H as <-. repeat split; lia.
Qed.

Lemma fl_text_all fl fstr (l : list Q) : (forall v, In v l -> float_text fl (fstr v) v) -> forall v, In v l -> fstr v <> "" /\ chars plain (fstr v) = true.
Proof. intros H v Hv. destruct (float_text_plain _ _ _ (H v Hv)) as (A & B & _). auto. Qed.

Lemma read_written_z fl fstr junk name date time x y z nd cs t :
  write_zmap fl fstr name date time x y z nd cs = (Some t, Ok tt) ->
  g_rows z = List.length y -> g_cols z = List.length x -> header_numbers fl fstr x y nd ->
  no_newline name -> no_newline date -> no_newline time -> no_newline cs ->
  exists g vnd x0 hx y0 hy,
    read_zmap fl junk t =
      (do xs <- zmap_axis fl x0 hx (Z.of_nat (List.length x)) ;; do ys <- zmap_axis fl y0 hy (Z.of_nat (List.length y)) ;;
       Ok {| zm_grid := g; zm_x := snd xs; zm_y := snd ys; zm_cellsize := (fst xs, fst ys); zm_nodata := vnd; zm_coord := " " ++ before_colon cs |}) /\
    zgrid_back fl z nd g /\ vnd == nd /\ x0 == qnth x 0 /\ y0 == qnth y 0 /\
    hx == fl (qnth x 0 + fl (inject_Z (Z.of_nat (List.length x) - 1) * spacing fl x)) /\
    hy == fl (qnth y 0 + fl (inject_Z (Z.of_nat (List.length y) - 1) * spacing fl y)).
Proof.
  intros W GR GC HN N1 N2 N3 N4. apply write_zmap_inv in W as (Lx & Ly & Ux & Uy & ->).
  unfold header_numbers in HN. change (Qabs (fl (qnth x 1 - qnth x 0))) with (spacing fl x) in HN. change (Qabs (fl (qnth y 1 - qnth y 0))) with (spacing fl y) in HN.
  set (hix := fl (qnth x 0 + _)) in *. set (hiy := fl (qnth y 0 + _)) in *.
  pose proof (fl_text_all fl fstr _ HN) as FP.
  assert (T : forall v, In v [nd; qnth x 0; hix; qnth y 0; hiy; spacing fl x] -> exists v', parse_float fl (fstr v) = Some v' /\ v' == v).
  { intros v Hv. destruct (float_text_plain _ _ _ (HN v Hv)) as (_ & _ & K). exact K. }
  destruct (T nd ltac:(cbn; tauto)) as (vnd & Pnd & End). destruct (T (qnth x 0) ltac:(cbn; tauto)) as (x0 & Px0 & Ex0).
  destruct (T hix ltac:(cbn; tauto)) as (hx & Phx & Ehx). destruct (T (qnth y 0) ltac:(cbn; tauto)) as (y0 & Py0 & Ey0).
  destruct (T hiy ltac:(cbn; tauto)) as (hy & Phy & Ehy).
  unfold read_zmap. rewrite header_lines_ok by (assumption || (intros v Hv; apply FP, Hv)).
  rewrite (header_read fl fstr name date time cs _ _ _ _ _ _ _ _ _ vnd x0 hx y0 hy) by assumption.
  rewrite body_read_z; [|reflexivity|reflexivity|cbn [r_data filled g_rows g_cols]; now rewrite GR, GC].
  cbn [bind with_data r_nx r_ny r_data r_ox r_mx r_oy r_my r_nodata r_coord].
  rewrite map_length, cells_len. cbn [filled g_rows g_cols]. rewrite GR, GC.
  replace (Z.of_nat (List.length x) * Z.of_nat (List.length y) =? Z.of_nat (List.length y * List.length x))%Z with true by (symmetry; apply Z.eqb_eq; lia).
  cbn [negb]. replace (Z.of_nat (List.length x) <? 0)%Z with false by (symmetry; apply Z.ltb_ge; lia).
  replace (Z.of_nat (List.length y) <? 0)%Z with false by (symmetry; apply Z.ltb_ge; lia). cbn [orb]. rewrite !Nat2Z.id.
  exists {| g_rows := List.length y; g_cols := List.length x;
            g_at := fun m n => match nth (n * List.length y + (List.length y - 1 - m)) (map (fun c => Some (zv fl nd c)) (cells (filled z nd))) None with
                               | Some q => q | None => junk (n * List.length y + (List.length y - 1 - m))%nat end |}, vnd, x0, hx, y0, hy.
  split; [reflexivity|]. split; [|auto 10].
  split; [symmetry; exact GR|]. split; [symmetry; exact GC|]. intros m n Hm Hn. cbn [g_at].
  rewrite (nth_indep _ None (Some (zv fl nd Masked))).
  2:{ rewrite map_length, cells_len. cbn [filled g_rows g_cols]. rewrite <- GR.
      assert ((n * g_rows z + (g_rows z - 1 - m) < S n * g_rows z)%nat) by (cbn; lia).
      assert (S n * g_rows z <= g_cols z * g_rows z)%nat by (apply Nat.mul_le_mono_r; lia). lia. }
  rewrite (map_nth (fun c => Some (zv fl nd c))). rewrite <- GR. change (g_rows z) with (g_rows (filled z nd)). rewrite cells_nth by assumption.
  cbn [filled g_at]. apply zv_back.
Qed.

Lemma zmap_axis_exact o mx n s o' : (2 <= n)%nat -> ~ s == 0 -> o' == o -> mx == o + inject_Z (Z.of_nat n - 1) * s ->
  exists d x, zmap_axis exact o' mx (Z.of_nat n) = Ok (d, x) /\ d == s /\ progression x n o s.
Proof.
  intros Hn Hs Ho Hm. unfold zmap_axis. replace (Z.of_nat n =? 1)%Z with false by (symmetry; apply Z.eqb_neq; lia).
  set (d := exact (exact (mx - o') / inject_Z (Z.of_nat n - 1))).
  assert (Hd : d == s).
  { unfold d, exact. rewrite Hm, Ho. field. unfold Qeq. cbn. lia. }
  destruct (arange_exact o' d (exact (o' + exact (inject_Z (Z.of_nat n) * d))) n) as (x & X1 & X2 & X3).
  - rewrite Hd. assumption. - reflexivity.
  - rewrite X1. cbn [bind]. exists d, x. split; [reflexivity|]. split; [assumption|]. split; [assumption|].
    intros i Hi. rewrite X3 by assumption. now rewrite Hd, Ho.
Qed.

Theorem zmap_round_trip fstr junk name date time x y z nd cs fx fy sx sy :
  even_axis x (g_cols z) fx sx -> even_axis y (g_rows z) fy sy -> header_numbers exact fstr x y nd ->
  no_newline name -> no_newline date -> no_newline time -> no_newline cs ->
  exists t m, write_zmap exact fstr name date time x y z nd cs = (Some t, Ok tt) /\ read_zmap exact junk t = Ok m /\
    zgrid_back exact z nd (zm_grid m) /\ zm_nodata m == nd /\
    progression (zm_x m) (g_cols z) fx sx /\ progression (zm_y m) (g_rows z) fy sy /\
    fst (zm_cellsize m) == sx /\ snd (zm_cellsize m) == sy /\ zm_coord m = " " ++ before_colon cs.
Proof.
  intros X Y HN N1 N2 N3 N4.
  assert (LX : List.length x = g_cols z) by apply X. assert (LY : List.length y = g_rows z) by apply Y.
  assert (W : exists t, write_zmap exact fstr name date time x y z nd cs = (Some t, Ok tt)).
  { unfold write_zmap. rewrite (even_check _ _ _ _ X), (even_check _ _ _ _ Y), LX, LY. destruct X as (Hx & _). destruct Y as (Hy & _).
    replace (g_cols z =? 1)%nat with false by (symmetry; apply Nat.eqb_neq; lia). replace (g_rows z =? 1)%nat with false by (symmetry; apply Nat.eqb_neq; lia).
    replace (g_cols z =? 0)%nat with false by (symmetry; apply Nat.eqb_neq; lia). replace (g_rows z =? 0)%nat with false by (symmetry; apply Nat.eqb_neq; lia).
    cbn [orb andb negb]. unfold two_dim.
    replace (g_cols z =? 1)%nat with false by (symmetry; apply Nat.eqb_neq; lia). replace (g_rows z =? 1)%nat with false by (symmetry; apply Nat.eqb_neq; lia).
    cbn [orb negb]. eexists. reflexivity. }
  destruct W as (t & W).
  destruct (read_written_z exact fstr junk name date time x y z nd cs t W (eq_sym LY) (eq_sym LX) HN N1 N2 N3 N4)
    as (g & vnd & x0 & hx & y0 & hy & R & G & E1 & E2 & E3 & E4 & E5).
  destruct (even_first _ _ _ _ X) as [X0 X1]. destruct (even_first _ _ _ _ Y) as [Y0 Y1].
  destruct (zmap_axis_exact fx hx (List.length x) sx x0) as (dx & xs & A1 & A2 & A3).
  { rewrite LX. apply X. } { destruct X as (_ & S & _). lra. } { now rewrite E2. }
  { rewrite E4. unfold exact. change (spacing (fun q => q) x) with (first_step x). now rewrite X0, X1. }
  destruct (zmap_axis_exact fy hy (List.length y) sy y0) as (dy & ys & B1 & B2 & B3).
  { rewrite LY. apply Y. } { destruct Y as (_ & S & _). lra. } { now rewrite E3. }
  { rewrite E5. unfold exact. change (spacing (fun q => q) y) with (first_step y). now rewrite Y0, Y1. }
  rewrite A1, B1 in R. cbn [bind fst snd] in R.
  eexists t, _. split; [exact W|]. split; [exact R|]. cbn [zm_grid zm_nodata zm_x zm_y zm_cellsize zm_coord fst snd].
  rewrite LX in A3. rewrite LY in B3. auto 10.
Qed.

(** values in any arithmetic *)
Theorem zmap_values fl fstr junk name date time x y z nd cs t m :
  write_zmap fl fstr name date time x y z nd cs = (Some t, Ok tt) ->
  g_rows z = List.length y -> g_cols z = List.length x -> header_numbers fl fstr x y nd ->
  no_newline name -> no_newline date -> no_newline time -> no_newline cs ->
  read_zmap fl junk t = Ok m ->
  zgrid_back fl z nd (zm_grid m) /\ zm_nodata m == nd /\ zm_coord m = " " ++ before_colon cs.
Proof.
  intros W GR GC HN N1 N2 N3 N4 R.
  destruct (read_written_z fl fstr junk name date time x y z nd cs t W GR GC HN N1 N2 N3 N4)
    as (g & vnd & x0 & hx & y0 & hy & R' & G & E1 & _). rewrite R' in R.
  destruct (zmap_axis fl x0 hx _) as [xs|]; [|discriminate]. cbn [bind] in R. destruct (zmap_axis fl y0 hy _) as [ys|]; [|discriminate]. cbn [bind] in R.
  injection R as <-. auto.
Qed.

Lemma before_no_colon s : no_colon s -> before_colon s = s.
Proof.
  induction s as [|c s IH]; intros H; [reflexivity|]. cbn. destruct (Ascii.eqb_spec c ":") as [->|_]; [exfalso; now apply (H 0%nat)|].
  f_equal. apply IH. intros i. exact (H (S i)).
Qed.
