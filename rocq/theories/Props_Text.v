(** PROPERTIES C44-C48, C57, C58: grid files.  Vocabulary: S_Text, S_AscGrid, S_Zmap.
    [write_asc fl x y z no_data style] gives the file left behind (None: not touched)
    and the outcome; [read_asc fl text footer] the outcome of reading that text;
    [fl] is the arithmetic: [exact] or [round64] (IEEE binary64) or any other. *)
From Coq Require Import String Ascii ZArith QArith Qabs Qpower Lia List Permutation.
From Verif Require Import Base M_Text M_AscGrid M_Zmap S_Text S_AscGrid S_Zmap
  P_Text P_AscGrid P_AscGrid2 P_Asc64 P_AscGrid3 P_AscGrid4 P_AscGrid5 P_Zmap P_Zmap2 P_Zmap3 P_Zmap4 P_Zmap5.
From Coq Require Import Lqa.
Import ListNotations.
Open Scope string_scope.
Open Scope Q_scope.

(** * C44: *.asc files round-trip *)

(** header style 1 (cell centres, DX, DY) *)
Theorem C44_round_trip_style_1 :
  forall x y z no_data fx fy sx sy,
    even_axis x (g_cols z) fx sx -> even_axis y (g_rows z) fy sy ->
    hundredths fx -> hundredths fy -> hundredths sx -> hundredths sy -> hundredths no_data -> cells_in_field z no_data ->
    exists t a dx dy, write_asc exact x y z no_data 1 = (Some t, Ok tt) /\ read_asc exact t 0 = Ok a /\
      grid_back exact z (a_nodata a) (a_grid a) /\ a_nodata a == no_data /\
      progression (a_x a) (g_cols z) fx sx /\ progression (a_y a) (g_rows z) fy sy /\
      a_cellsize a = inr (dx, dy) /\ dx == sx /\ dy == sy.
Proof. exact full_round_trip1. Qed.
Print Assumptions C44_round_trip_style_1.

(** header style 2 (corners of the lower left cell, CELLSIZE) *)
Theorem C44_round_trip_style_2 :
  forall x y z no_data fx fy s,
    even_axis x (g_cols z) fx s -> even_axis y (g_rows z) fy s ->
    hundredths (fx - s / 2) -> hundredths (fy - s / 2) -> hundredths s -> hundredths no_data -> cells_in_field z no_data ->
    exists t a d, write_asc exact x y z no_data 2 = (Some t, Ok tt) /\ read_asc exact t 0 = Ok a /\
      grid_back exact z (a_nodata a) (a_grid a) /\ a_nodata a == no_data /\
      progression (a_x a) (g_cols z) fx s /\ progression (a_y a) (g_rows z) fy s /\
      a_cellsize a = inl d /\ d == s.
Proof. exact full_round_trip2. Qed.
Print Assumptions C44_round_trip_style_2.

(** whatever the coordinates, and in any arithmetic (binary64 in particular), the values
    of a written grid come back rounded to two decimals *)
Theorem C44_values_in_any_arithmetic :
  forall fl x y z no_data style t, write_asc fl x y z no_data style = (Some t, Ok tt) ->
    (2 <= g_rows z)%nat -> (2 <= g_cols z)%nat -> cells_in_field z no_data ->
    (forall v d, v = x \/ v = y -> two_decimals (Qabs (fl (qnth v 1 - qnth v 0))) d -> ~ fl d == 0) ->
    exists a d, read_asc fl t 0 = Ok a /\ two_decimals no_data d /\ a_nodata a = fl d /\ grid_back fl z (a_nodata a) (a_grid a).
Proof.
  intros fl x y z nd style t W HR HC HF HS.
  destruct (rd_two fl (spacing fl x)) as (dx & X1 & X2). destruct (rd_two fl (spacing fl y)) as (dy & Y1 & Y2). destruct (rd_two fl nd) as (d & N1 & N2).
  destruct (values_back fl x y z nd style t W HR HC HF) as (a & A1 & A2 & A3).
  - rewrite X2. exact (HS x dx (or_introl eq_refl) X1).
  - rewrite Y2. exact (HS y dy (or_intror eq_refl) Y1).
  - exists a, d. rewrite <- N2. auto.
Qed.
Print Assumptions C44_values_in_any_arithmetic.

(** what is read back of a grid whose coordinates do not have two decimals, or decrease:
    start and step are rounded separately, and the step is never negative *)
Theorem C44_coordinates_otherwise :
  forall x y z no_data t, write_asc exact x y z no_data 1 = (Some t, Ok tt) ->
    (2 <= g_rows z)%nat -> (2 <= g_cols z)%nat -> cells_in_field z no_data -> (1 # 200) < first_step x -> (1 # 200) < first_step y ->
    exists a x0 y0 dx dy, read_asc exact t 0 = Ok a /\
      two_decimals (qnth x 0) x0 /\ two_decimals (qnth y 0) y0 /\ two_decimals (first_step x) dx /\ two_decimals (first_step y) dy /\
      progression (a_x a) (g_cols z) x0 dx /\ progression (a_y a) (g_rows z) y0 dy /\ a_cellsize a = inr (dx, dy).
Proof.
  intros x y z nd t W HR HC HF Hx Hy.
  assert (P : forall s, (1 # 200) < s -> ~ rd exact s == 0).
  { intros s Hs E. destruct (rd_exact s) as (n & D1 & D2 & _). assert (U : (1 # 100) / 2 == 1 # 200) by reflexivity. rewrite U in D2.
    apply Qabs_Qle_condition in D2. lra. }
  destruct (round_trip1 x y z nd t W HR HC HF (P _ Hx) (P _ Hy)) as (a & A1 & A2 & A3 & A4 & A5 & A6).
  exists a, (rd exact (qnth x 0)), (rd exact (qnth y 0)), (rd exact (first_step x)), (rd exact (first_step y)).
  repeat (split; [first [assumption|apply rd_exact]|]). assumption.
Qed.
Print Assumptions C44_coordinates_otherwise.

(** in binary64, or any arithmetic as accurate, numpy.arange may return one coordinate too
    many, and every coordinate is rounded; the reader still returns one coordinate per
    column and row, close to first + i * step *)
Theorem C44_binary64_coordinates_style_1 :
  forall fl x y z no_data t, accurate fl -> write_asc fl x y z no_data 1 = (Some t, Ok tt) ->
    (2 <= g_rows z)%nat -> (2 <= g_cols z)%nat -> cells_in_field z no_data -> moderate x (g_cols z) -> moderate y (g_rows z) ->
    exists a x0 y0 dx dy, read_asc fl t 0 = Ok a /\
      two_decimals (qnth x 0) x0 /\ two_decimals (qnth y 0) y0 /\
      two_decimals (Qabs (fl (qnth x 1 - qnth x 0))) dx /\ two_decimals (Qabs (fl (qnth y 1 - qnth y 0))) dy /\
      near_progression (a_x a) (g_cols z) x0 dx /\ near_progression (a_y a) (g_rows z) y0 dy.
Proof. exact coordinates64_1. Qed.
Print Assumptions C44_binary64_coordinates_style_1.

Theorem C44_binary64_coordinates_style_2 :
  forall fl x y z no_data t, accurate fl -> write_asc fl x y z no_data 2 = (Some t, Ok tt) ->
    (2 <= g_rows z)%nat -> (2 <= g_cols z)%nat -> cells_in_field z no_data -> moderate x (g_cols z) -> moderate y (g_rows z) ->
    exists a xc yc s, read_asc fl t 0 = Ok a /\
      two_decimals (fl (qnth x 0 - fl (Qabs (fl (qnth x 1 - qnth x 0)) / 2))) xc /\
      two_decimals (fl (qnth y 0 - fl (Qabs (fl (qnth y 1 - qnth y 0)) / 2))) yc /\
      two_decimals (Qabs (fl (qnth x 1 - qnth x 0))) s /\
      near_progression (a_x a) (g_cols z) (xc + s / 2) s /\ near_progression (a_y a) (g_rows z) (yc + s / 2) s.
Proof. exact coordinates64_2. Qed.
Print Assumptions C44_binary64_coordinates_style_2.

Theorem C44_binary64_is_accurate : accurate round64.
Proof. exact round64_accurate. Qed.
Print Assumptions C44_binary64_is_accurate.

(** with a spacing of 0.005 or less the file cannot be read *)
Theorem C44_small_spacing_refuted :
  forall x y z no_data style t, write_asc exact x y z no_data style = (Some t, Ok tt) ->
    (2 <= g_rows z)%nat -> (2 <= g_cols z)%nat -> cells_in_field z no_data ->
    first_step x <= 1 # 200 -> read_asc exact t 0 = Err ZeroDivisionErr.
Proof. exact zero_step. Qed.
Print Assumptions C44_small_spacing_refuted.

Definition constant_grid (r c : nat) (v : cell) : grid cell := {| g_rows := r; g_cols := c; g_at := fun _ _ => v |}.

(** values of sixteen characters run together: the bound in [cells_in_field] is needed *)
Theorem C44_wide_values_refuted :
  exists x y z no_data t, even_axis x (g_cols z) 0 1 /\ even_axis y (g_rows z) 0 1 /\ hundredths no_data /\
    (forall m n, g_at z m n = Num 1000000000000000) /\
    write_asc exact x y z no_data 1 = (Some t, Ok tt) /\ read_asc exact t 0 = Err IndexError.
Proof.
  exists [0; 1], [0; 1], (constant_grid 2 2 (Num 1000000000000000)), (-999 # 1).
  eexists. split; [|split; [|split; [|split; [|split]]]].
  - split; [cbn; lia|]. split; [reflexivity|]. split; [reflexivity|]. intros [|[|i]] H; [reflexivity..|cbn in H; lia].
  - split; [cbn; lia|]. split; [reflexivity|]. split; [reflexivity|]. intros [|[|i]] H; [reflexivity..|cbn in H; lia].
  - exists (-99900)%Z. reflexivity.
  - reflexivity.
  - vm_compute. reflexivity.
  - vm_compute. reflexivity.
Qed.
Print Assumptions C44_wide_values_refuted.

(** style 2 prints the corner: coordinates with two decimals need not come back *)
Theorem C44_corner_rounding_refuted :
  exists x y z no_data t a, even_axis x (g_cols z) 0 (1 # 100) /\ even_axis y (g_rows z) 0 (1 # 100) /\ hundredths no_data /\ cells_in_field z no_data /\
    write_asc exact x y z no_data 2 = (Some t, Ok tt) /\ read_asc exact t 0 = Ok a /\ qnth (a_x a) 0 == 1 # 200.
Proof.
  exists [0; 1 # 100], [0; 1 # 100], (constant_grid 2 2 (Num 1)), (-999 # 1).
  eexists. eexists. split; [|split; [|split; [|split; [|split; [|split]]]]].
  - split; [cbn; lia|]. split; [reflexivity|]. split; [reflexivity|]. intros [|[|i]] H; [reflexivity..|cbn in H; lia].
  - split; [cbn; lia|]. split; [reflexivity|]. split; [reflexivity|]. intros [|[|i]] H; [reflexivity..|cbn in H; lia].
  - exists (-99900)%Z. reflexivity.
  - intros m n _ _. cbn. unfold in_field. lra.
  - vm_compute. reflexivity.
  - vm_compute. reflexivity.
  - reflexivity.
Qed.
Print Assumptions C44_corner_rounding_refuted.

(** * C45: header lines *)

Theorem C45_any_order_any_case :
  forall fl es es' L L' body footer,
    Permutation es es' -> minimal_header (map fst es) -> Forall2 header_text es L -> Forall2 header_text es' L' ->
    Forall no_newline L -> Forall no_newline L' ->
    read_asc fl (unlines L ++ body) footer = read_asc fl (unlines L' ++ body) footer.
Proof. exact any_order. Qed.
Print Assumptions C45_any_order_any_case.

Theorem C45_unknown_keyword :
  forall fl es L k v line rest footer,
    Forall2 header_text es L -> Forall readable es -> Forall no_newline L -> no_newline line ->
    ~ enough (map fst es) -> words line = [k; v] -> (forall f, ~ spelled k f) ->
    read_asc fl (unlines L ++ line ++ nl ++ rest) footer = Err OSErr.
Proof. exact unknown_rejected. Qed.
Print Assumptions C45_unknown_keyword.

Theorem C45_malformed_line :
  forall fl es L line rest footer,
    Forall2 header_text es L -> Forall readable es -> Forall no_newline L -> no_newline line ->
    ~ enough (map fst es) -> List.length (words line) <> 2%nat ->
    read_asc fl (unlines L ++ line ++ nl ++ rest) footer = Err ValueError.
Proof. exact malformed_rejected. Qed.
Print Assumptions C45_malformed_line.

Theorem C45_wrong_size :
  forall fl es L body r c vn vr nn nr,
    Forall2 header_text es L -> Forall readable es -> Forall no_newline L -> minimal_header (map fst es) ->
    In (Ncols, vn) es -> parse_int vn = Some nn -> In (Nrows, vr) es -> parse_int vr = Some nr ->
    body_table body r c -> (2 <= r)%nat -> (2 <= c)%nat -> (nn <> Z.of_nat c \/ nr <> Z.of_nat r) ->
    read_asc fl (unlines L ++ body) 0 = Err OSErr.
Proof. exact wrong_size_rejected. Qed.
Print Assumptions C45_wrong_size.

(** rows of different lengths are refused, unless they are among the last [footer] rows *)
Theorem C45_ragged_rows :
  forall fl es L body footer i,
    Forall2 header_text es L -> Forall readable es -> Forall no_newline L -> minimal_header (map fst es) ->
    (forall l, In l (lines body) -> plain_row l) -> (i + footer < List.length (lines body))%nat ->
    List.length (words (nth i (lines body) "")) <> List.length (words (hd "" (lines body))) ->
    read_asc fl (unlines L ++ body) footer = Err ValueError.
Proof. exact ragged_rejected. Qed.
Print Assumptions C45_ragged_rows.

(** comments and blank lines in the body change nothing *)
Theorem C45_comments_and_blank_lines :
  forall fl es L body body' footer,
    Forall2 header_text es L -> Forall no_newline L -> minimal_header (map fst es) ->
    commented (lines body) (lines body') ->
    read_asc fl (unlines L ++ body') footer = read_asc fl (unlines L ++ body) footer.
Proof. exact comments_ignored. Qed.
Print Assumptions C45_comments_and_blank_lines.

(** * C46: uneven spacing *)

(** rejected, without touching the file, when the first step is not the mean step *)
Theorem C46_rejects_uneven :
  forall x y z no_data style, (2 <= List.length x)%nat -> (2 <= List.length y)%nat -> plane z ->
    ~ steps_agree x \/ ~ steps_agree y -> write_asc exact x y z no_data style = (None, Err ValueError).
Proof.
  intros x y z nd style Lx Ly D H. apply plane_true in D. apply rejects; [assumption..|]. destruct H as [H|H]; [left|right];
  (match goal with |- ?b = false => destruct b eqn:E; [|reflexivity] end; apply check_iff in E; contradiction).
Qed.
Print Assumptions C46_rejects_uneven.

(** and that is all that is checked *)
Theorem C46_accepted_exactly :
  forall x y z no_data, (2 <= List.length x)%nat -> (2 <= List.length y)%nat -> plane z ->
    (exists t, write_asc exact x y z no_data 1 = (Some t, Ok tt)) <-> steps_agree x /\ steps_agree y.
Proof. intros x y z nd Lx Ly D. apply accepted_iff; [assumption..|now apply plane_true]. Qed.
Print Assumptions C46_accepted_exactly.

Theorem C46_all_steps_checked_refuted :
  ~ (forall x y z no_data style, (2 <= List.length x)%nat -> (2 <= List.length y)%nat -> plane z ->
       ~ evenly_spaced x -> snd (write_asc exact x y z no_data style) = Err ValueError).
Proof.
  intros H. specialize (H [0; 1; 3 # 2; 3] [0; 1] (constant_grid 2 4 (Num 7)) (-999 # 1) 1%Z).
  revert H. change (snd (write_asc exact _ _ _ _ _)) with (@Ok unit tt). intros H.
  assert (E : @Ok unit tt = Err ValueError); [|discriminate E]. apply H; [cbn; lia..|split; discriminate|].
  intros K. specialize (K 1%nat ltac:(cbn; lia)). revert K. vm_compute. intros K. now apply K.
Qed.
Print Assumptions C46_all_steps_checked_refuted.

(** the same in binary64 *)
Theorem C46_all_steps_checked_binary64_refuted :
  ~ (forall x y z no_data style, (2 <= List.length x)%nat -> (2 <= List.length y)%nat -> plane z ->
       ~ evenly_spaced x -> snd (write_asc round64 x y z no_data style) = Err ValueError).
Proof.
  intros H. specialize (H [0; 1; 3 # 2; 3] [0; 1] (constant_grid 2 4 (Num 7)) (-999 # 1) 1%Z).
  assert (W : snd (write_asc round64 [0; 1; 3 # 2; 3] [0; 1] (constant_grid 2 4 (Num 7)) (-999 # 1) 1) = Ok tt) by (vm_compute; reflexivity).
  rewrite W in H. assert (E : @Ok unit tt = Err ValueError); [|discriminate E]. apply H; [cbn; lia..|split; discriminate|].
  intros K. specialize (K 1%nat ltac:(cbn; lia)). revert K. vm_compute. intros K. now apply K.
Qed.
Print Assumptions C46_all_steps_checked_binary64_refuted.

(** * C47: zmap files round-trip *)

Theorem C47_round_trip :
  forall fstr junk name date time x y z no_data coord_sys fx fy sx sy,
    even_axis x (g_cols z) fx sx -> even_axis y (g_rows z) fy sy -> header_numbers exact fstr x y no_data ->
    no_newline name -> no_newline date -> no_newline time -> no_newline coord_sys ->
    exists t m, write_zmap exact fstr name date time x y z no_data coord_sys = (Some t, Ok tt) /\ read_zmap exact junk t = Ok m /\
      zgrid_back exact z no_data (zm_grid m) /\ zm_nodata m == no_data /\
      progression (zm_x m) (g_cols z) fx sx /\ progression (zm_y m) (g_rows z) fy sy /\
      fst (zm_cellsize m) == sx /\ snd (zm_cellsize m) == sy.
Proof.
  intros fstr junk name date time x y z nd cs fx fy sx sy X Y H N1 N2 N3 N4.
  destruct (zmap_round_trip fstr junk name date time x y z nd cs fx fy sx sy X Y H N1 N2 N3 N4) as (t & m & K).
  exists t, m. tauto.
Qed.
Print Assumptions C47_round_trip.

(** the values, in any arithmetic (the number of coordinates does not enter) *)
Theorem C47_values_in_any_arithmetic :
  forall fl fstr junk name date time x y z no_data coord_sys t m,
    write_zmap fl fstr name date time x y z no_data coord_sys = (Some t, Ok tt) ->
    g_rows z = List.length y -> g_cols z = List.length x -> header_numbers fl fstr x y no_data ->
    no_newline name -> no_newline date -> no_newline time -> no_newline coord_sys ->
    read_zmap fl junk t = Ok m -> zgrid_back fl z no_data (zm_grid m) /\ zm_nodata m == no_data.
Proof.
  intros fl fstr junk name date time x y z nd cs t m W R C H N1 N2 N3 N4 Rd.
  destruct (zmap_values fl fstr junk name date time x y z nd cs t m W R C H N1 N2 N3 N4 Rd) as (A & B & _). auto.
Qed.
Print Assumptions C47_values_in_any_arithmetic.

(** str() of the numbers met in the examples below *)
Definition str_table (table : list (Q * string)) (q : Q) : string :=
  match find (fun e => Qeq_bool (fst e) q) table with Some e => snd e | None => "" end.

(** In binary64 the coordinates 0.1, 0.2 are written and read back as three coordinates
    for two columns: unlike read_asc_grid, read_zmap_grid does not trim the array that
    numpy.arange makes one too long. *)
Theorem C47_coordinates_binary64_refuted :
  exists fstr x y z no_data t, (forall v, In v x \/ In v y -> round64 v = v) /\
    g_cols z = List.length x /\ g_rows z = List.length y /\ header_numbers round64 fstr x y no_data /\
    evenly_spaced x /\ evenly_spaced y /\
    write_zmap round64 fstr "a.zmap" "01/01/2024" "12:00:00" x y z no_data "<null>" = (Some t, Ok tt) /\
    forall junk, exists m, read_zmap round64 junk t = Ok m /\ g_cols (zm_grid m) = 2%nat /\ List.length (zm_x m) = 3%nat.
Proof.
  exists (str_table [(round64 (1 # 10), "0.1"); (round64 (2 # 10), "0.2"); (0, "0.0"); (1, "1.0"); (-999 # 1, "-999.0")]),
    [round64 (1 # 10); round64 (2 # 10)], [0; 1], (constant_grid 2 2 (Num 7)), (-999 # 1).
  eexists. split; [|split; [|split; [|split; [|split; [|split; [|split]]]]]].
  - intros v [[<- | [<- | []]] | [<- | [<- | []]]]; vm_compute; reflexivity.
  - reflexivity.
  - reflexivity.
  - intros v [<- | [<- | [<- | [<- | [<- | [<- | []]]]]]]; apply float_text_decided; vm_compute; reflexivity.
  - intros i Hi. destruct i; [|cbn in Hi; lia]. vm_compute. discriminate.
  - intros i Hi. destruct i; [|cbn in Hi; lia]. vm_compute. discriminate.
  - vm_compute. reflexivity.
  - intros junk. eexists. split; [vm_compute; reflexivity|]. split; reflexivity.
Qed.
Print Assumptions C47_coordinates_binary64_refuted.

(** NaN cells come back as the no-data value when that has at most eight significant
    digits; otherwise they differ from the no_data value that is returned *)
Theorem C47_nan_is_no_data :
  forall fstr junk name date time x y z no_data coord_sys fx fy sx sy,
    even_axis x (g_cols z) fx sx -> even_axis y (g_rows z) fy sy -> header_numbers exact fstr x y no_data ->
    no_newline name -> no_newline date -> no_newline time -> no_newline coord_sys ->
    eight_digits no_data no_data ->
    (exists e, 10 ^ e <= Qabs no_data /\ Qabs no_data < 10 ^ (e + 1)) ->
    exists t m, write_zmap exact fstr name date time x y z no_data coord_sys = (Some t, Ok tt) /\ read_zmap exact junk t = Ok m /\
      forall i j, (i < g_rows z)%nat -> (j < g_cols z)%nat -> g_at z i j = NaN -> g_at (zm_grid m) i j == zm_nodata m.
Proof.
  intros fstr junk name date time x y z nd cs fx fy sx sy X Y H N1 N2 N3 N4 E8 (e & E1 & E2).
  destruct (zmap_round_trip fstr junk name date time x y z nd cs fx fy sx sy X Y H N1 N2 N3 N4) as (t & m & K1 & K2 & (K3 & K4 & K5) & K6 & _).
  exists t, m. split; [assumption|]. split; [assumption|]. intros i j Hi Hj NN. specialize (K5 i j Hi Hj). rewrite NN in K5.
  destruct K5 as (d & -> & (_ & D)). specialize (D e E1 E2). destruct E8 as (_ & E8). specialize (E8 e E1 E2). rewrite K6. unfold exact.
  apply (multiple_itself (10 ^ (e - 7))); [now apply Qpower_0_lt| |assumption]. destruct E8 as (n & E8 & _). now exists n.
Qed.
Print Assumptions C47_nan_is_no_data.

Theorem C47_nan_is_no_data_refuted :
  exists fstr x y z no_data t, even_axis x (g_cols z) 0 1 /\ even_axis y (g_rows z) 0 1 /\ header_numbers exact fstr x y no_data /\
    write_zmap exact fstr "a.zmap" "01/01/2024" "12:00:00" x y z no_data "<null>" = (Some t, Ok tt) /\
    g_at z 0%nat 0%nat = NaN /\
    forall junk, exists m, read_zmap exact junk t = Ok m /\ ~ g_at (zm_grid m) 0%nat 0%nat == zm_nodata m.
Proof.
  exists (str_table [(0, "0.0"); (1, "1.0"); (-999123456 # 1000, "-999123.456")]),
    [0; 1], [0; 1], (constant_grid 2 2 NaN), (-999123456 # 1000).
  eexists. split; [|split; [|split; [|split; [|split]]]].
  - split; [cbn; lia|]. split; [reflexivity|]. split; [reflexivity|]. intros [|[|i]] H; [reflexivity..|cbn in H; lia].
  - split; [cbn; lia|]. split; [reflexivity|]. split; [reflexivity|]. intros [|[|i]] H; [reflexivity..|cbn in H; lia].
  - intros v [<- | [<- | [<- | [<- | [<- | [<- | []]]]]]]; apply float_text_decided; vm_compute; reflexivity.
  - vm_compute. reflexivity.
  - reflexivity.
  - intros junk. eexists. split; [vm_compute; reflexivity|]. vm_compute. discriminate.
Qed.
Print Assumptions C47_nan_is_no_data_refuted.

(** * C48: the coordinate system *)

Theorem C48_coordinate_system :
  forall fl fstr junk name date time x y z no_data coord_sys t m,
    write_zmap fl fstr name date time x y z no_data coord_sys = (Some t, Ok tt) ->
    g_rows z = List.length y -> g_cols z = List.length x -> header_numbers fl fstr x y no_data ->
    no_newline name -> no_newline date -> no_newline time -> no_newline coord_sys ->
    read_zmap fl junk t = Ok m ->
    zm_coord m = " " ++ before_colon coord_sys /\ (no_colon coord_sys -> zm_coord m = " " ++ coord_sys).
Proof.
  intros fl fstr junk name date time x y z nd cs t m W R C H N1 N2 N3 N4 Rd.
  destruct (zmap_values fl fstr junk name date time x y z nd cs t m W R C H N1 N2 N3 N4 Rd) as (_ & _ & E).
  split; [exact E|]. intros NC. now rewrite E, before_no_colon.
Qed.
Print Assumptions C48_coordinate_system.

(** so no name comes back as it was *)
Theorem C48_round_trip_refuted :
  forall fl fstr junk name date time x y z no_data coord_sys t m,
    write_zmap fl fstr name date time x y z no_data coord_sys = (Some t, Ok tt) ->
    g_rows z = List.length y -> g_cols z = List.length x -> header_numbers fl fstr x y no_data ->
    no_newline name -> no_newline date -> no_newline time -> no_newline coord_sys -> no_colon coord_sys ->
    read_zmap fl junk t = Ok m -> zm_coord m <> coord_sys.
Proof.
  intros fl fstr junk name date time x y z nd cs t m W R C H N1 N2 N3 N4 NC Rd E.
  destruct (C48_coordinate_system fl fstr junk name date time x y z nd cs t m W R C H N1 N2 N3 N4 Rd) as (_ & K). specialize (K NC).
  rewrite E in K. apply (f_equal String.length) in K. cbn in K. lia.
Qed.
Print Assumptions C48_round_trip_refuted.

(** For any text: the last comment line before the first blank line that names a
    coordinate system decides; without one the name is "<null>". *)
Theorem C48_reported_name :
  forall fl junk text m, read_zmap fl junk text = Ok m ->
    ((forall l n, In l (until_blank (lines text)) -> ~ names_coord l n) -> zm_coord m = "<null>"%string) /\
    (forall a l b n, until_blank (lines text) = (a ++ l :: b)%list -> names_coord l n ->
       (forall l' n', In l' b -> ~ names_coord l' n') -> zm_coord m = n).
Proof. exact reported_name. Qed.
Print Assumptions C48_reported_name.

(** * C57: a rejected write leaves the existing file alone *)

Theorem C57_rejected_write :
  forall fl x y z no_data style t e, style = 1%Z \/ style = 2%Z ->
    write_asc fl x y z no_data style <> (Some t, Err e).
Proof.
  intros fl x y z nd style t e S W. apply rejected_untouched in W as ((S1 & S2) & _). destruct S; contradiction.
Qed.
Print Assumptions C57_rejected_write.

(** a grid of one row or one column is rejected by write_asc_grid, and the file left alone *)
Theorem C57_one_row_or_column :
  forall fl x y z no_data style, ~ plane z -> write_asc fl x y z no_data style = (None, Err IndexError).
Proof. exact flat_rejected. Qed.
Print Assumptions C57_one_row_or_column.

(** an invalid style empties the file before it is rejected *)
Theorem C57_invalid_style_refuted :
  forall x y z no_data style, (2 <= List.length x)%nat -> (2 <= List.length y)%nat -> plane z ->
    steps_agree x -> steps_agree y -> style <> 1%Z -> style <> 2%Z ->
    write_asc exact x y z no_data style = (Some "", Err ValueError).
Proof.
  intros x y z nd style Lx Ly D U V S1 S2. apply plane_true in D. apply check_iff in U, V. unfold write_asc. rewrite D, U, V. cbn [negb andb].
  replace (List.length x =? 0)%nat with false by (symmetry; apply Nat.eqb_neq; lia).
  replace (List.length y =? 0)%nat with false by (symmetry; apply Nat.eqb_neq; lia).
  replace (List.length x =? 1)%nat with false by (symmetry; apply Nat.eqb_neq; lia).
  replace (List.length y <=? 1)%nat with false by (symmetry; apply Nat.leb_gt; lia).
  apply Z.eqb_neq in S1, S2. rewrite S1, S2. reflexivity.
Qed.
Print Assumptions C57_invalid_style_refuted.

(** write_zmap_grid with a grid of one row or column writes the header and then fails *)
Theorem C57_zmap_refuted :
  forall fstr name date time x y z no_data coord_sys, (2 <= List.length x)%nat -> (2 <= List.length y)%nat -> ~ plane z ->
    steps_agree x -> steps_agree y ->
    exists header, write_zmap exact fstr name date time x y z no_data coord_sys = (Some ("!" ++ nl ++ header), Err IndexError).
Proof.
  intros fstr name date time x y z nd cs Lx Ly D U V. apply plane_false in D. apply check_iff in U, V. unfold write_zmap. rewrite D, U, V. cbn [negb andb].
  replace (List.length x =? 0)%nat with false by (symmetry; apply Nat.eqb_neq; lia).
  replace (List.length y =? 0)%nat with false by (symmetry; apply Nat.eqb_neq; lia).
  replace (List.length x =? 1)%nat with false by (symmetry; apply Nat.eqb_neq; lia).
  replace (List.length y =? 1)%nat with false by (symmetry; apply Nat.eqb_neq; lia). eexists. reflexivity.
Qed.
Print Assumptions C57_zmap_refuted.

(** * C58: the number of values in a zmap file *)

(** A file with more values than its header announces is refused ... *)
Theorem C58_too_many_values :
  forall fl fstr junk name date time x y z no_data coord_sys t,
    write_zmap fl fstr name date time x y z no_data coord_sys = (Some t, Ok tt) -> header_numbers fl fstr x y no_data ->
    no_newline name -> no_newline date -> no_newline time -> no_newline coord_sys ->
    (List.length y * List.length x < g_rows z * g_cols z)%nat -> read_zmap fl junk t = Err IndexError.
Proof. exact too_many. Qed.
Print Assumptions C58_too_many_values.

(** ... but with fewer it is read, and the missing cells are whatever was in memory
    ([junk]).  write_zmap_grid itself writes such a file, because it does not compare the
    shape of the grid with the coordinates. *)
Theorem C58_too_few_values_refuted :
  forall fstr name date time x y z no_data coord_sys t fx sx fy sy,
    write_zmap exact fstr name date time x y z no_data coord_sys = (Some t, Ok tt) -> header_numbers exact fstr x y no_data ->
    no_newline name -> no_newline date -> no_newline time -> no_newline coord_sys ->
    even_axis x (List.length x) fx sx -> even_axis y (List.length y) fy sy ->
    (g_rows z * g_cols z < List.length y * List.length x)%nat ->
    forall junk, exists m, read_zmap exact junk t = Ok m /\
      g_at (zm_grid m) 0 (List.length x - 1) = junk (List.length x * List.length y - 1)%nat.
Proof.
  intros fstr name date time x y z nd cs t fx sx fy sy W HN N1 N2 N3 N4 X Y K junk.
  destruct (too_few_reads exact fstr junk name date time x y z nd cs t W HN N1 N2 N3 N4 K eq_refl (ex_intro _ fx (ex_intro _ sx X)) (ex_intro _ fy (ex_intro _ sy Y))) as (m & R).
  exists m. split; [exact R|]. exact (too_few exact fstr junk name date time x y z nd cs t W HN N1 N2 N3 N4 m K R).
Qed.
Print Assumptions C58_too_few_values_refuted.

(** * Non-vacuity *)

Definition ex_z : grid cell := {| g_rows := 2; g_cols := 3; g_at := fun m n => if (m =? 1)%nat then NaN else if (n =? 1)%nat then Masked else Num (12345 # 1000) |}.
Definition ex_x : list Q := [1 # 2; 3 # 4; 1].
Definition ex_y : list Q := [-10 # 1; -9 # 1].

Example ex_axis_x : even_axis ex_x (g_cols ex_z) (1 # 2) (1 # 4).
Proof. split; [cbn; lia|]. split; [reflexivity|]. split; [reflexivity|]. intros [|[|[|i]]] H; [reflexivity..|cbn in H; lia]. Qed.
Example ex_axis_y : even_axis ex_y (g_rows ex_z) (-10 # 1) 1.
Proof. split; [cbn; lia|]. split; [reflexivity|]. split; [reflexivity|]. intros [|[|i]] H; [reflexivity..|cbn in H; lia]. Qed.
Example ex_hundredths : hundredths (1 # 2) /\ hundredths (-10 # 1) /\ hundredths (1 # 4) /\ hundredths 1 /\ hundredths (-999 # 1).
Proof. repeat split; [exists 50%Z|exists (-1000)%Z|exists 25%Z|exists 100%Z|exists (-99900)%Z]; reflexivity. Qed.
Example ex_field : cells_in_field ex_z (-999 # 1).
Proof. intros m n _ _. unfold ex_z. cbn. destruct (m =? 1)%nat; [trivial|]. destruct (n =? 1)%nat; unfold in_field; lra. Qed.

(** C44, binary64: coordinates 0.01 and 0.07, where numpy.arange(0.01, 0.01 + 2 * 0.06, 0.06)
    has three elements *)
Definition f64_x : list Q := [round64 (1 # 100); round64 (7 # 100)].
Example ex_surplus : exists l, arange round64 (round64 (1 # 100)) (round64 (round64 (1 # 100) + round64 (2 * round64 (6 # 100)))) (round64 (6 # 100)) = Ok l /\ List.length l = 3%nat.
Proof. eexists. split; [vm_compute; reflexivity|]. reflexivity. Qed.
Example ex_binary64 :
  (exists t, write_asc round64 f64_x f64_x (constant_grid 2 2 (Num 1)) (-999 # 1) 1 = (Some t, Ok tt)) /\
  (exists t, write_asc round64 f64_x f64_x (constant_grid 2 2 (Num 1)) (-999 # 1) 2 = (Some t, Ok tt)) /\
  moderate f64_x 2 /\ cells_in_field (constant_grid 2 2 (Num 1)) (-999 # 1).
Proof.
  split; [eexists; vm_compute; reflexivity|]. split; [eexists; vm_compute; reflexivity|]. split.
  - split; vm_compute; discriminate.
  - intros m n _ _. cbn. unfold in_field. lra.
Qed.

(** C44, C45 on a concrete file, read back in another line order and letter case *)
Example ex_file :
  fst (write_asc exact ex_x ex_y ex_z (-999 # 1) 1) =
    Some (unlines ["NCOLS          3         "; "NROWS          2         "; "XLLCENTER      0.50      "; "YLLCENTER      -10.00    ";
                   "DX             0.25      "; "DY             1.00      "; "NODATA_VALUE   -999.00   ";
                   "nan             nan             nan             "] ++ "12.34           -999.00         12.34           ").
Proof. vm_compute. reflexivity. Qed.
Example ex_permuted :
  let body := "nan nan nan" ++ nl ++ "12.34 -999 12.34" in
  let L := ["NCOLS 3"; "NROWS 2"; "XLLCENTER 0.50"; "YLLCENTER -10.00"; "DX 0.25"; "DY 1.00"; "NODATA_VALUE -999.00"] in
  let L' := ["dy 1.00"; "NoDataValue -999.00"; "xllcenter 0.50"; "nrows 2"; "yllCENTER -10.00"; "ncols 3"; "dX 0.25"] in
  read_asc exact (unlines L ++ body) 0 = read_asc exact (unlines L' ++ body) 0.
Proof.
  cbv zeta. apply (C45_any_order_any_case exact
    [(Ncols, "3"); (Nrows, "2"); (Xcenter, "0.50"); (Ycenter, "-10.00"); (Dx, "0.25"); (Dy, "1.00"); (Nodata, "-999.00")]
    [(Dy, "1.00"); (Nodata, "-999.00"); (Xcenter, "0.50"); (Nrows, "2"); (Ycenter, "-10.00"); (Ncols, "3"); (Dx, "0.25")]).
  - apply (Permutation_cons_app [(Dy, "1.00"); (Nodata, "-999.00"); (Xcenter, "0.50"); (Nrows, "2"); (Ycenter, "-10.00")] [(Dx, "0.25")]).
    apply (Permutation_cons_app [(Dy, "1.00"); (Nodata, "-999.00"); (Xcenter, "0.50")] [(Ycenter, "-10.00"); (Dx, "0.25")]).
    apply (Permutation_cons_app [(Dy, "1.00"); (Nodata, "-999.00")] [(Ycenter, "-10.00"); (Dx, "0.25")]).
    apply (Permutation_cons_app [(Dy, "1.00"); (Nodata, "-999.00")] [(Dx, "0.25")]).
    apply (Permutation_cons_app [(Dy, "1.00"); (Nodata, "-999.00")] []). apply Permutation_refl.
  - right. right. right. apply Permutation_refl.
  - repeat constructor; eexists; (split; [vm_compute; reflexivity|]); (reflexivity || (left; reflexivity)).
  - repeat constructor; eexists; (split; [vm_compute; reflexivity|]); (reflexivity || (left; reflexivity) || (right; reflexivity)).
  - repeat constructor; intros i; repeat (destruct i as [|i]; [discriminate|cbn [String.get]]); discriminate.
  - repeat constructor; intros i; repeat (destruct i as [|i]; [discriminate|cbn [String.get]]); discriminate.
Qed.

(** C45: the other hypotheses *)
Example ex_unknown : read_asc round64 (unlines ["ncols 3"; "NROWS 2"] ++ "COLOUR red" ++ nl ++ "1 2 3") 0 = Err OSErr.
Proof.
  apply (C45_unknown_keyword round64 [(Ncols, "3"); (Nrows, "2")] ["ncols 3"; "NROWS 2"] "COLOUR" "red").
  - repeat constructor; eexists; (split; [vm_compute; reflexivity|reflexivity]).
  - repeat constructor; cbn; eexists; vm_compute; reflexivity.
  - repeat constructor; intros i; repeat (destruct i as [|i]; [discriminate|cbn [String.get]]); discriminate.
  - intros i; repeat (destruct i as [|i]; [discriminate|cbn [String.get]]); discriminate.
  - intros (_ & _ & [[H _]|[H _]] & _); cbn in H; intuition discriminate.
  - reflexivity.
  - intros f; destruct f; cbn; intuition discriminate.
Qed.
Example ex_wrong_size :
  read_asc exact (unlines ["ncols 3"; "NROWS 2"; "xllcorner 0"; "yllcorner 0"; "cellsize 1"; "nodata_value -1"] ++ ("1 2" ++ nl ++ "3 4")) 0 = Err OSErr.
Proof.
  apply (C45_wrong_size exact [(Ncols, "3"); (Nrows, "2"); (Xcorner, "0"); (Ycorner, "0"); (Cellsize, "1"); (Nodata, "-1")]
    ["ncols 3"; "NROWS 2"; "xllcorner 0"; "yllcorner 0"; "cellsize 1"; "nodata_value -1"] ("1 2" ++ nl ++ "3 4") 2 2 "3" "2" 3 2).
  - repeat constructor; eexists; (split; [vm_compute; reflexivity|]); (reflexivity || (left; reflexivity)).
  - repeat constructor; cbn; eexists; vm_compute; reflexivity.
  - repeat constructor; intros i; repeat (destruct i as [|i]; [discriminate|cbn [String.get]]); discriminate.
  - left. apply Permutation_refl.
  - cbn; tauto. - reflexivity. - cbn; tauto. - reflexivity.
  - unfold body_table. change (lines ("1 2" ++ nl ++ "3 4")) with ["1 2"; "3 4"]. split; [reflexivity|]. intros l [<- | [<- | []]]; (split; [reflexivity|]); intros i; repeat (destruct i as [|i]; [discriminate|cbn [String.get]]); discriminate.
  - lia. - lia. - left; lia.
Qed.

Example ex_ragged :
  read_asc exact (unlines ["ncols 3"; "NROWS 2"; "xllcorner 0"; "yllcorner 0"; "cellsize 1"; "nodata_value -1"] ++ ("1 2" ++ nl ++ "3 4" ++ nl ++ "5")) 0 = Err ValueError.
Proof.
  apply (C45_ragged_rows exact [(Ncols, "3"); (Nrows, "2"); (Xcorner, "0"); (Ycorner, "0"); (Cellsize, "1"); (Nodata, "-1")]
    ["ncols 3"; "NROWS 2"; "xllcorner 0"; "yllcorner 0"; "cellsize 1"; "nodata_value -1"] ("1 2" ++ nl ++ "3 4" ++ nl ++ "5") 0 2).
  - repeat constructor; eexists; (split; [vm_compute; reflexivity|]); (reflexivity || (left; reflexivity)).
  - repeat constructor; cbn; eexists; vm_compute; reflexivity.
  - repeat constructor; intros i; repeat (destruct i as [|i]; [discriminate|cbn [String.get]]); discriminate.
  - left. apply Permutation_refl.
  - change (lines ("1 2" ++ nl ++ "3 4" ++ nl ++ "5")) with ["1 2"; "3 4"; "5"]. intros l [<- | [<- | [<- | []]]]; (split; [discriminate|]); intros i; repeat (destruct i as [|i]; [discriminate|cbn [String.get]]); discriminate.
  - vm_compute. lia.
  - vm_compute. discriminate.
Qed.
Example ex_comments :
  let L := ["ncols 2"; "NROWS 2"; "xllcorner 0"; "yllcorner 0"; "cellsize 1"; "nodata_value -1"] in
  read_asc exact (unlines L ++ ("1 2# one" ++ nl ++ " #none" ++ nl ++ " " ++ nl ++ "3 4")) 0 = read_asc exact (unlines L ++ ("1 2" ++ nl ++ "3 4")) 0.
Proof.
  cbv zeta. apply (C45_comments_and_blank_lines exact [(Ncols, "2"); (Nrows, "2"); (Xcorner, "0"); (Ycorner, "0"); (Cellsize, "1"); (Nodata, "-1")]).
  - repeat constructor; eexists; (split; [vm_compute; reflexivity|]); (reflexivity || (left; reflexivity)).
  - repeat constructor; intros i; repeat (destruct i as [|i]; [discriminate|cbn [String.get]]); discriminate.
  - left. apply Permutation_refl.
  - change (lines ("1 2" ++ nl ++ "3 4")) with ["1 2"; "3 4"].
    change (lines ("1 2# one" ++ nl ++ " #none" ++ nl ++ " " ++ nl ++ "3 4")) with [("1 2" ++ String "#" " one")%string; " #none"; " "; "3 4"].
    apply cm_comment, cm_void; [right; exists " ", "none"; split; [reflexivity|split; [reflexivity|]]; intros i; repeat (destruct i as [|i]; [discriminate|cbn [String.get]]); discriminate|].
    apply cm_void; [left; reflexivity|]. apply cm_same, cm_end.
Qed.

(** C46: both sides occur *)
Example ex_uneven : ~ steps_agree [0; 1; 3].
Proof. intros H. revert H. vm_compute. intros H. now apply H. Qed.
Example ex_even : steps_agree ex_x.
Proof. vm_compute. discriminate. Qed.

(** C47, C48, C58: the hypotheses on a concrete grid *)
Definition ex_str : Q -> string := str_table [(1 # 2, "0.5"); (1, "1.0"); (-10 # 1, "-10.0"); (-9 # 1, "-9.0"); (1 # 4, "0.25"); (-999 # 1, "-999.0")].
Example ex_numbers : header_numbers exact ex_str ex_x ex_y (-999 # 1).
Proof.
  intros v [<- | [<- | [<- | [<- | [<- | [<- | []]]]]]]; apply float_text_decided; vm_compute; reflexivity.
Qed.
Example ex_zmap :
  exists t m, write_zmap exact ex_str "a.zmap" "01/01/2024" "12:00:00" ex_x ex_y ex_z (-999 # 1) "EPSG:4326" = (Some t, Ok tt) /\
    read_zmap exact (fun _ => 0) t = Ok m /\ zm_coord m = " EPSG" /\ g_at (zm_grid m) 1%nat 1%nat == -999 # 1 /\ g_at (zm_grid m) 0%nat 2%nat == 12345 # 1000.
Proof. eexists. eexists. split; [vm_compute; reflexivity|]. split; [vm_compute; reflexivity|]. repeat split; vm_compute; reflexivity. Qed.
Example ex_eight : eight_digits (-999 # 1) (-999 # 1) /\ exists e, 10 ^ e <= Qabs (-999 # 1) /\ Qabs (-999 # 1) < 10 ^ (e + 1).
Proof.
  split; [|exists 2%Z; vm_compute; split; [discriminate|reflexivity]]. split; [discriminate|]. intros e E1 E2.
  assert (e = 2)%Z as ->.
  { assert (~ (3 <= e)%Z). { intros H. apply (Qpower_le_compat_l 10) in H; [|discriminate]. assert (Q9 : (10 : Q) ^ 3 == 1000) by reflexivity.
      change (Qabs (-999 # 1)) with (999 # 1) in E1. rewrite Q9 in H. lra. }
    assert (~ (e + 1 <= 2)%Z). { intros H0. apply (Qpower_le_compat_l 10) in H0; [|discriminate]. assert (Q9 : (10 : Q) ^ 2 == 100) by reflexivity.
      change (Qabs (-999 # 1)) with (999 # 1) in E2. rewrite Q9 in H0. lra. }
    lia. }
  exists (-99900000)%Z. split; [reflexivity|]. split; [vm_compute; discriminate|]. intros _. exists (-49950000)%Z. reflexivity.
Qed.
Example ex_small_grid :
  exists t, write_zmap exact ex_str "a.zmap" "01/01/2024" "12:00:00" ex_x ex_y (constant_grid 2 2 (Num 1)) (-999 # 1) "wgs84" = (Some t, Ok tt).
Proof. eexists. vm_compute. reflexivity. Qed.
(** a file without comments, and one that names the system twice *)
Definition nl : string := String (ascii_of_nat 10) "".
Definition plain_text : string := "@a, GRID, 2" ++ nl ++ "15, -1, , 1, 1" ++ nl ++ "2, 2, 0, 1, 0, 1" ++ nl ++ "0, 0, 0" ++ nl ++ "@" ++ nl ++ "1 2" ++ nl ++ "3 4" ++ nl.
Example C48_default_nonvacuous :
  exists m, read_zmap exact (fun _ => 0) plain_text = Ok m /\ zm_coord m = "<null>"%string /\ g_at (zm_grid m) 0%nat 1%nat == 4.
Proof. eexists. split; [vm_compute; reflexivity|]. split; reflexivity. Qed.
Example C48_last_nonvacuous :
  exists m, read_zmap exact (fun _ => 0) ("!COORDINATE REFERENCE SYSTEM:A" ++ nl ++ "! COORDINATE REFERENCE SYSTEM :B:C" ++ nl ++ plain_text) = Ok m /\ zm_coord m = "B"%string.
Proof. eexists. split; [vm_compute; reflexivity|]. reflexivity. Qed.
