(** PROOFS: ASCII grid files. *)
From Coq Require Import String Ascii ZArith QArith Qround Qpower Qabs Qfield Lia List.
From Verif Require Import Base M_Text S_Text P_Text M_AscGrid.
From Coq Require Import Lqa.
Import ListNotations.
Open Scope string_scope.
Open Scope Z_scope.

Lemma concat_cons a l : String.concat "" (a :: l) = a ++ String.concat "" l.
Proof. destruct l; cbn; [now rewrite app_s_nil|reflexivity]. Qed.

Lemma words_ljust w t : t <> "" -> chars nosp t = true -> words (ljust w t) = [t].
Proof.
  intros H K. unfold ljust. destruct (w - String.length t)%nat as [|k].
  - rewrite app_s_nil. now apply words_last.
  - rewrite <- (app_s_nil (spaces (S k))). rewrite words_tok by (assumption || lia). reflexivity.
Qed.
Lemma chars_ljust P w t : P " "%char = true -> chars P (ljust w t) = chars P t.
Proof. intros H. unfold ljust. rewrite chars_app, (chars_spaces P _ H). apply andb_true_r. Qed.

(** a header line *)
Lemma header_words k n w t : k <> "" -> chars nosp k = true -> (0 < n)%nat -> t <> "" -> chars numchar t = true ->
  words (k ++ spaces n ++ ljust w t) = [k; t].
Proof. intros. rewrite words_tok by assumption. rewrite words_ljust; [reflexivity|assumption|now apply numchar_nosp]. Qed.
Lemma header_nonl k w t : chars nonl k = true -> chars numchar t = true -> chars nonl (k ++ ljust w t) = true.
Proof. intros H K. rewrite chars_app, chars_ljust by reflexivity. now rewrite H, (numchar_nonl _ K). Qed.

(** ** the body *)
Definition cellchar (c : ascii) : bool := (numchar c || Ascii.eqb c "n" || Ascii.eqb c "a")%bool.
Lemma cellchar_ok c : cellchar c = true -> nosp c = true /\ nonl c = true /\ Ascii.eqb c "#" = false.
Proof. destruct c as [[][][][][][][][]]; intros H; try discriminate H; repeat split; reflexivity. Qed.
Lemma cell_chars c : chars cellchar (asc_text c) = true.
Proof.
  destruct c as [q| |]; try reflexivity. cbn [asc_text]. apply (chars_imp numchar); [|apply chars_fixed].
  intros a H. unfold cellchar. now rewrite H.
Qed.
Lemma cell_ne c : asc_text c <> "".
Proof. destruct c as [q| |]; try discriminate. apply fixed_ne. Qed.

Definition narrow (c : cell) : Prop := (String.length (asc_text c) < 16)%nat.

Lemma row_words (f : nat -> cell) l : (forall n, In n l -> narrow (f n)) ->
  words (String.concat "" (map (fun n => asc_field (f n)) l)) = map (fun n => asc_text (f n)) l.
Proof.
  induction l as [|n l IH]; intros H; [reflexivity|].
  cbn [map]. rewrite concat_cons. unfold asc_field at 1, ljust. rewrite app_s_assoc.
  rewrite words_tok; [|apply cell_ne| |].
  - f_equal. apply IH. intros; apply H; now right.
  - apply (chars_imp cellchar); [|apply cell_chars]. intros c K. now apply cellchar_ok in K.
  - specialize (H n (or_introl eq_refl)). unfold narrow in H. lia.
Qed.

Lemma chars_concat P (l : list string) : (forall s, In s l -> chars P s = true) -> chars P (String.concat "" l) = true.
Proof.
  induction l as [|a l IH]; intros H; [reflexivity|]. rewrite concat_cons, chars_app, H, IH; auto.
  - intros; apply H; now right.
  - now left.
Qed.
Definition rowchar (c : ascii) : bool := (cellchar c || Ascii.eqb c " ")%bool.
Lemma row_chars z m : chars rowchar (asc_row z m) = true.
Proof.
  apply chars_concat. intros s H. apply in_map_iff in H as (n & <- & _). unfold asc_field. rewrite chars_ljust by reflexivity.
  apply (chars_imp cellchar); [|apply cell_chars]. intros c K. unfold rowchar. now rewrite K.
Qed.
Lemma rowchar_ok c : rowchar c = true -> nonl c = true /\ Ascii.eqb c "#" = false.
Proof.
  unfold rowchar. intros H. apply orb_prop in H as [H|H]; [apply cellchar_ok in H; tauto|].
  apply Ascii.eqb_eq in H. subst. split; reflexivity.
Qed.
Lemma row_nonl z m : chars nonl (asc_row z m) = true.
Proof. apply (chars_imp rowchar); [|apply row_chars]. intros c H. now apply rowchar_ok. Qed.
Lemma cut_id s : chars (fun c => negb (Ascii.eqb c "#")) s = true -> cut_comment s = s.
Proof. induction s as [|c s IH]; [reflexivity|]. cbn. destruct (Ascii.eqb c "#"); [discriminate|]. cbn. intros H. now rewrite IH. Qed.
Lemma row_cut z m : cut_comment (asc_row z m) = asc_row z m.
Proof. apply cut_id. apply (chars_imp rowchar); [|apply row_chars]. intros c H. apply rowchar_ok in H as [_ ->]. reflexivity. Qed.
Lemma row_ne z m : (0 < g_cols z)%nat -> asc_row z m <> "".
Proof.
  intros H E. unfold asc_row in E. destruct (g_cols z) as [|c]; [lia|]. cbn [seq map] in E. rewrite concat_cons in E.
  apply (f_equal String.length) in E. rewrite length_app in E. unfold asc_field, ljust in E. rewrite length_app in E.
  pose proof (cell_ne (g_at z m 0%nat)) as K. destruct (asc_text (g_at z m 0%nat)); [now destruct K|]. cbn [String.length] in E. lia.
Qed.

Lemma rev_seq_S k : rev (seq 0 (S k)) = k :: rev (seq 0 k).
Proof. rewrite seq_S, rev_app_distr. reflexivity. Qed.

Lemma body_lines (f : nat -> string) k : (forall m, chars nonl (f m) = true) -> (forall m, f m <> "") ->
  lines (String.concat "" (map (fun m => f m ++ (if (m =? 0)%nat then "" else nl)) (rev (seq 0 k)))) = map f (rev (seq 0 k)).
Proof.
  intros H K. induction k as [|k IH]; [reflexivity|].
  rewrite rev_seq_S. cbn [map]. rewrite concat_cons. destruct k as [|k].
  - cbn. rewrite !app_s_nil. now apply lines_last.
  - cbn [Nat.eqb]. rewrite app_s_assoc, lines_cons by apply H. now rewrite IH.
Qed.

Definition cell_value (fl : Q -> Q) (c : cell) : option Q := parse_float fl (asc_text c).
Definition raw_rows (fl : Q -> Q) (z : grid cell) : list (list (option Q)) :=
  map (fun m => map (fun n => cell_value fl (g_at z m n)) (seq 0 (g_cols z))) (rev (seq 0 (g_rows z))).

Definition all_narrow (z : grid cell) : Prop := forall m n, (m < g_rows z)%nat -> (n < g_cols z)%nat -> narrow (g_at z m n).

Lemma filter_all {A} (P : A -> bool) l : (forall a, In a l -> P a = true) -> filter P l = l.
Proof. induction l as [|a l IH]; intros H; [reflexivity|]. cbn. rewrite H by now left. f_equal. apply IH. intros; apply H; now right. Qed.

Lemma body_read fl z : all_narrow z -> (0 < g_rows z)%nat -> (0 < g_cols z)%nat ->
  genfromtxt fl (lines (asc_body z)) 0 = Ok (raw_rows fl z).
Proof.
  intros W HR HC. unfold asc_body. rewrite body_lines; [|intros; apply row_nonl|intros; now apply row_ne].
  unfold genfromtxt. rewrite map_map.
  set (ws := fun m => map (fun n => asc_text (g_at z m n)) (seq 0 (g_cols z))).
  replace (map (fun x => words (cut_comment (asc_row z x))) (rev (seq 0 (g_rows z)))) with (map ws (rev (seq 0 (g_rows z)))).
  2:{ apply map_ext_in. intros m Hm. apply in_rev in Hm. apply in_seq in Hm. rewrite row_cut. unfold asc_row. symmetry. apply row_words.
      intros n Hn. apply in_seq in Hn. apply W; lia. }
  assert (L : forall m, List.length (ws m) = g_cols z) by (intros; unfold ws; now rewrite map_length, seq_length).
  rewrite filter_all.
  2:{ intros w Hw. apply in_map_iff in Hw as (m & <- & _). specialize (L m). destruct (ws m); [cbn in L; lia|reflexivity]. }
  rewrite Nat.sub_0_r, firstn_all.
  replace (List.length (hd [] (map ws (rev (seq 0 (g_rows z)))))) with (g_cols z).
  2:{ destruct (g_rows z) as [|k]; [lia|]. rewrite rev_seq_S. cbn [map hd]. now rewrite L. }
  replace (forallb _ _) with true.
  - unfold raw_rows. f_equal. rewrite map_map. apply map_ext. intros m. unfold ws. rewrite map_map. reflexivity.
  - symmetry. apply forallb_forall. intros w Hw. apply in_map_iff in Hw as (m & <- & _). rewrite L. apply Nat.eqb_refl.
Qed.

Definition out_grid (fl : Q -> Q) (z : grid cell) : grid (option Q) :=
  {| g_rows := g_rows z; g_cols := g_cols z; g_at := fun m n => nth n (nth (g_rows z - 1 - m) (raw_rows fl z) []) None |}.

Lemma raw_len fl z : List.length (raw_rows fl z) = g_rows z.
Proof. unfold raw_rows. now rewrite map_length, rev_length, seq_length. Qed.
Lemma raw_hd fl z : (0 < g_rows z)%nat -> List.length (hd [] (raw_rows fl z)) = g_cols z.
Proof. intros H. unfold raw_rows. destruct (g_rows z) as [|k]; [lia|]. rewrite rev_seq_S. cbn [map hd]. now rewrite map_length, seq_length. Qed.

Lemma shape_ok fl z nrows ncols : (2 <= g_rows z)%nat -> (2 <= g_cols z)%nat ->
  check_shape nrows ncols (raw_rows fl z) =
  if (nrows =? Z.of_nat (g_rows z)) && (ncols =? Z.of_nat (g_cols z)) then Ok (out_grid fl z) else Err OSErr.
Proof.
  intros HR HC. unfold check_shape. rewrite raw_len, raw_hd by lia.
  replace (g_rows z =? 1)%nat with false by (symmetry; apply Nat.eqb_neq; lia).
  replace (g_rows z =? 0)%nat with false by (symmetry; apply Nat.eqb_neq; lia).
  replace (g_cols z =? 1)%nat with false by (symmetry; apply Nat.eqb_neq; lia). cbn [andb orb]. reflexivity.
Qed.

Lemma nth_rev_seq k i : (i < k)%nat -> nth i (rev (seq 0 k)) 0%nat = (k - 1 - i)%nat.
Proof. intros H. rewrite rev_nth by now rewrite seq_length. rewrite seq_length, seq_nth by lia. lia. Qed.

Lemma out_at fl z m n : (m < g_rows z)%nat -> (n < g_cols z)%nat -> g_at (out_grid fl z) m n = cell_value fl (g_at z m n).
Proof.
  intros Hm Hn. cbn [out_grid g_at]. unfold raw_rows.
  set (F := fun m0 => map (fun n0 => cell_value fl (g_at z m0 n0)) (seq 0 (g_cols z))).
  rewrite (nth_indep _ [] (F 0%nat)) by (rewrite map_length, rev_length, seq_length; lia).
  rewrite map_nth, nth_rev_seq by lia. replace (g_rows z - 1 - (g_rows z - 1 - m))%nat with m by lia. unfold F.
  rewrite (nth_indep _ None (cell_value fl (g_at z m 0%nat))) by (rewrite map_length, seq_length; lia).
  rewrite (map_nth (fun n0 => cell_value fl (g_at z m n0))), seq_nth by lia. reflexivity.
Qed.

(** ** header lines written by write_asc_grid *)
Lemma step_int fl k n N rest h f : (0 < n)%nat -> k <> "" -> chars nosp k = true -> keyword k = Some f -> (f = Ncols \/ f = Nrows) ->
  read_header fl ((k ++ spaces n ++ n10 N) :: rest) h =
  let h' := match f, h with
            | Ncols, Build_hdr a b c d e g i j l m => Build_hdr (Some (Z.of_nat N)) b c d e g i j l m
            | _, Build_hdr a b c d e g i j l m => Build_hdr a (Some (Z.of_nat N)) c d e g i j l m end in
  if complete h' then Ok (h', rest) else read_header fl rest h'.
Proof.
  intros Hn K1 K2 Hk Hf. cbn [read_header]. unfold n10. rewrite header_words; [|assumption..|apply int_ne|apply chars_int].
  rewrite Hk. destruct h. destruct Hf as [-> | ->]; cbn [set_field]; rewrite parse_fmt_int; reflexivity.
Qed.
Lemma step_num fl k n q rest h f h' : (0 < n)%nat -> k <> "" -> chars nosp k = true -> keyword k = Some f ->
  (forall v, parse_float fl v = Some (fl (fixed_value 2 q)) -> set_field fl f v h = Ok h') ->
  read_header fl ((k ++ spaces n ++ f10 q) :: rest) h = if complete h' then Ok (h', rest) else read_header fl rest h'.
Proof.
  intros Hn K1 K2 Hk Hs. cbn [read_header]. unfold f10. rewrite header_words; [|assumption..|apply fixed_ne|apply chars_fixed].
  rewrite Hk, (Hs (fmt_fixed 2 q)); [reflexivity|]. unfold parse_float. rewrite decimal_fixed by lia. reflexivity.
Qed.

Lemma app_mid k n t s : (k ++ spaces n ++ t) ++ s = k ++ spaces n ++ t ++ s.
Proof. now rewrite !app_s_assoc. Qed.

Definition header1_lines (nrows ncols : nat) (x0 y0 dx dy no_data : Q) : list string :=
  ["NCOLS" ++ spaces 10 ++ n10 ncols; "NROWS" ++ spaces 10 ++ n10 nrows; "XLLCENTER" ++ spaces 6 ++ f10 x0;
   "YLLCENTER" ++ spaces 6 ++ f10 y0; "DX" ++ spaces 13 ++ f10 dx; "DY" ++ spaces 13 ++ f10 dy; "NODATA_VALUE" ++ spaces 3 ++ f10 no_data].
Definition header2_lines (nrows ncols : nat) (xc yc cs no_data : Q) : list string :=
  ["NCOLS" ++ spaces 10 ++ n10 ncols; "NROWS" ++ spaces 10 ++ n10 nrows; "XLLCORNER" ++ spaces 6 ++ f10 xc;
   "YLLCORNER" ++ spaces 6 ++ f10 yc; "CELLSIZE" ++ spaces 7 ++ f10 cs; "NODATA_VALUE" ++ spaces 3 ++ f10 no_data].

Lemma line_ok k n w t s : chars nonl k = true -> chars numchar t = true ->
  lines (k ++ spaces n ++ ljust w t ++ nl ++ s) = (k ++ spaces n ++ ljust w t) :: lines s.
Proof.
  intros H K. replace (k ++ spaces n ++ ljust w t ++ nl ++ s) with ((k ++ spaces n ++ ljust w t) ++ nl ++ s) by now rewrite !app_s_assoc.
  apply lines_cons. rewrite !chars_app, chars_ljust, (chars_spaces nonl) by reflexivity. now rewrite H, (numchar_nonl _ K).
Qed.

Lemma header1_ok nrows ncols x0 y0 dx dy no_data s :
  lines (asc_header1 nrows ncols x0 y0 dx dy no_data ++ s) = (header1_lines nrows ncols x0 y0 dx dy no_data ++ lines s)%list.
Proof.
  unfold asc_header1, header1_lines.
  change "NCOLS          " with ("NCOLS" ++ spaces 10). change "NROWS          " with ("NROWS" ++ spaces 10).
  change "XLLCENTER      " with ("XLLCENTER" ++ spaces 6). change "YLLCENTER      " with ("YLLCENTER" ++ spaces 6).
  change "DX             " with ("DX" ++ spaces 13). change "DY             " with ("DY" ++ spaces 13).
  change "NODATA_VALUE   " with ("NODATA_VALUE" ++ spaces 3).
  rewrite !app_s_assoc. unfold n10, f10.
  do 7 (rewrite line_ok by (reflexivity || apply chars_int || apply chars_fixed)). reflexivity.
Qed.
Lemma header2_ok nrows ncols xc yc cs no_data s :
  lines (asc_header2 nrows ncols xc yc cs no_data ++ s) = (header2_lines nrows ncols xc yc cs no_data ++ lines s)%list.
Proof.
  unfold asc_header2, header2_lines.
  change "NCOLS          " with ("NCOLS" ++ spaces 10). change "NROWS          " with ("NROWS" ++ spaces 10).
  change "XLLCORNER      " with ("XLLCORNER" ++ spaces 6). change "YLLCORNER      " with ("YLLCORNER" ++ spaces 6).
  change "CELLSIZE       " with ("CELLSIZE" ++ spaces 7).
  change "NODATA_VALUE   " with ("NODATA_VALUE" ++ spaces 3).
  rewrite !app_s_assoc. unfold n10, f10.
  do 6 (rewrite line_ok by (reflexivity || apply chars_int || apply chars_fixed)). reflexivity.
Qed.

Definition rd (fl : Q -> Q) (q : Q) : Q := fl (fixed_value 2 q).

Ltac numstep := erewrite step_num; [|lia|discriminate|reflexivity|reflexivity|intros v Hv; cbn [set_field]; rewrite Hv; reflexivity].
Ltac intstep := rewrite (step_int _ _ _ _ _ _ _) by (lia || discriminate || reflexivity || auto).

Lemma header1_read fl nrows ncols x0 y0 dx dy no_data rest :
  read_header fl (header1_lines nrows ncols x0 y0 dx dy no_data ++ rest)%list hdr0 =
  Ok ({| h_ncols := Some (Z.of_nat ncols); h_nrows := Some (Z.of_nat nrows); h_xcorner := None; h_xcenter := Some (rd fl x0);
         h_ycorner := None; h_ycenter := Some (rd fl y0); h_cellsize := None; h_dx := Some (rd fl dx); h_dy := Some (rd fl dy);
         h_nodata := Some (rd fl no_data) |}, rest).
Proof.
  unfold header1_lines, hdr0. cbn [app].
  erewrite step_int; [|lia|discriminate|reflexivity|reflexivity|auto]. cbn beta iota zeta delta [complete some h_ncols h_nrows h_xcorner h_xcenter h_ycorner h_ycenter h_cellsize h_dx h_dy h_nodata andb orb].
  erewrite step_int; [|lia|discriminate|reflexivity|reflexivity|auto]. cbn beta iota zeta delta [complete some h_ncols h_nrows h_xcorner h_xcenter h_ycorner h_ycenter h_cellsize h_dx h_dy h_nodata andb orb].
  do 5 (numstep; cbn beta iota zeta delta [complete some h_ncols h_nrows h_xcorner h_xcenter h_ycorner h_ycenter h_cellsize h_dx h_dy h_nodata andb orb]).
  reflexivity.
Qed.
Lemma header2_read fl nrows ncols xc yc cs no_data rest :
  read_header fl (header2_lines nrows ncols xc yc cs no_data ++ rest)%list hdr0 =
  Ok ({| h_ncols := Some (Z.of_nat ncols); h_nrows := Some (Z.of_nat nrows); h_xcorner := Some (rd fl xc); h_xcenter := None;
         h_ycorner := Some (rd fl yc); h_ycenter := None; h_cellsize := Some (rd fl cs); h_dx := None; h_dy := None;
         h_nodata := Some (rd fl no_data) |}, rest).
Proof.
  unfold header2_lines, hdr0. cbn [app].
  erewrite step_int; [|lia|discriminate|reflexivity|reflexivity|auto]. cbn beta iota zeta delta [complete some h_ncols h_nrows h_xcorner h_xcenter h_ycorner h_ycenter h_cellsize h_dx h_dy h_nodata andb orb].
  erewrite step_int; [|lia|discriminate|reflexivity|reflexivity|auto]. cbn beta iota zeta delta [complete some h_ncols h_nrows h_xcorner h_xcenter h_ycorner h_ycenter h_cellsize h_dx h_dy h_nodata andb orb].
  do 4 (numstep; cbn beta iota zeta delta [complete some h_ncols h_nrows h_xcorner h_xcenter h_ycorner h_ycenter h_cellsize h_dx h_dy h_nodata andb orb]).
  reflexivity.
Qed.

Lemma read_written1 fl z x0 y0 dx dy no_data : all_narrow z -> (2 <= g_rows z)%nat -> (2 <= g_cols z)%nat ->
  read_asc fl (asc_header1 (g_rows z) (g_cols z) x0 y0 dx dy no_data ++ asc_body z) 0 =
  (do x <- axis fl (rd fl x0) (Z.of_nat (g_cols z)) (rd fl dx) ;;
   do y <- axis fl (rd fl y0) (Z.of_nat (g_rows z)) (rd fl dy) ;;
   Ok {| a_grid := out_grid fl z; a_x := x; a_y := y; a_cellsize := inr (rd fl dx, rd fl dy); a_nodata := rd fl no_data |}).
Proof.
  intros W HR HC. unfold read_asc. rewrite header1_ok, header1_read. cbn [bind].
  rewrite body_read by (assumption || lia). cbn [bind h_ncols h_nrows h_xcorner h_xcenter h_ycorner h_ycenter h_cellsize h_dx h_dy h_nodata].
  rewrite shape_ok by lia. rewrite !Z.eqb_refl. cbn [andb bind]. reflexivity.
Qed.
Lemma read_written2 fl z xc yc cs no_data : all_narrow z -> (2 <= g_rows z)%nat -> (2 <= g_cols z)%nat ->
  read_asc fl (asc_header2 (g_rows z) (g_cols z) xc yc cs no_data ++ asc_body z) 0 =
  (do x <- axis fl (fl (rd fl xc + fl (rd fl cs / 2)))%Q (Z.of_nat (g_cols z)) (rd fl cs) ;;
   do y <- axis fl (fl (rd fl yc + fl (rd fl cs / 2)))%Q (Z.of_nat (g_rows z)) (rd fl cs) ;;
   Ok {| a_grid := out_grid fl z; a_x := x; a_y := y; a_cellsize := inl (rd fl cs); a_nodata := rd fl no_data |}).
Proof.
  intros W HR HC. unfold read_asc. rewrite header2_ok, header2_read. cbn [bind].
  rewrite body_read by (assumption || lia). cbn [bind h_ncols h_nrows h_xcorner h_xcenter h_ycorner h_ycenter h_cellsize h_dx h_dy h_nodata].
  rewrite shape_ok by lia. rewrite !Z.eqb_refl. cbn [andb bind]. reflexivity.
Qed.

(** ** coordinates, exact arithmetic *)
Open Scope Q_scope.
Lemma Qceiling_Z z : Qceiling (inject_Z z) = z. Proof. apply Qceiling_Z. Qed.
Lemma Qceiling_comp a b : a == b -> Qceiling a = Qceiling b. Proof. intros H. now rewrite H. Qed.

Lemma arange_exact start step stop n : ~ step == 0 -> stop == start + inject_Z (Z.of_nat n) * step ->
  exists x, arange exact start stop step = Ok x /\ List.length x = n /\
            forall i, (i < n)%nat -> qnth x i == start + inject_Z (Z.of_nat i) * step.
Proof.
  intros Hs E. unfold arange, exact.
  destruct (Qnum step =? 0)%Z eqn:Z0. { apply Z.eqb_eq in Z0. exfalso. apply Hs. unfold Qeq. rewrite Z0. reflexivity. }
  assert (C : Qceiling ((stop - start) / step) = Z.of_nat n).
  { rewrite <- (Qceiling_Z (Z.of_nat n)). apply Qceiling_comp. rewrite E. field. assumption. }
  rewrite C, Nat2Z.id. eexists. split; [reflexivity|]. split; [now rewrite map_length, seq_length|].
  intros i Hi. unfold qnth.
  set (F := fun i : nat => match i with O => _ | S O => _ | _ => _ end).
  rewrite (nth_indep _ 0 (F 0%nat)) by (rewrite map_length, seq_length; lia).
  rewrite (map_nth F), seq_nth by lia. unfold F.
  cbn [plus]. destruct i as [|[|i]].
  - change (inject_Z (Z.of_nat 0)) with 0. ring.
  - change (inject_Z (Z.of_nat 1)) with 1. ring.
  - ring.
Qed.
Lemma axis_exact ll n d : ~ d == 0 ->
  exists x, axis exact ll (Z.of_nat n) d = Ok x /\ List.length x = n /\
            forall i, (i < n)%nat -> qnth x i == ll + inject_Z (Z.of_nat i) * d.
Proof.
  intros Hd. unfold axis. destruct (arange_exact ll d (exact (ll + exact (inject_Z (Z.of_nat n) * d))) n Hd) as (x & E & L & V); [reflexivity|].
  rewrite E. cbn [bind]. replace (Z.of_nat (List.length x) =? Z.of_nat n + 1)%Z with false by (symmetry; apply Z.eqb_neq; lia).
  exists x. auto.
Qed.
Lemma axis_zero fl ll n d : d == 0 -> axis fl ll n d = Err ZeroDivisionErr.
Proof. intros H. unfold axis, arange. unfold Qeq in H. cbn in H. replace (Qnum d =? 0)%Z with true; [reflexivity|]. symmetry. apply Z.eqb_eq. lia. Qed.
