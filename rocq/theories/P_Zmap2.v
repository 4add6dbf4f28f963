(** PROOFS: zmap header, round trip. *)
From Coq Require Import String Ascii ZArith QArith Qround Qpower Qabs Qfield Lia List.
From Verif Require Import Base M_Text S_Text P_Text M_AscGrid S_AscGrid P_AscGrid P_AscGrid2 P_AscGrid3 M_Zmap S_Zmap P_Zmap.
From Coq Require Import Lqa.
Import ListNotations.
Open Scope string_scope.
Open Scope Z_scope.

Lemma chars_get (P : ascii -> bool) s : (forall i c, String.get i s = Some c -> P c = true) -> chars P s = true.
Proof.
  induction s as [|c s IH]; intros H; [reflexivity|]. cbn [chars]. rewrite (H 0%nat c eq_refl), IH; [reflexivity|].
  intros i d. exact (H (S i) d).
Qed.

(** str() of a header number *)
Definition plain (c : ascii) : bool := (nosp c && nonl c && negb (Ascii.eqb c ",") && negb (Ascii.eqb c "!") && negb (Ascii.eqb c "@"))%bool.
Lemma float_text_plain fl s v : float_text fl s v -> s <> "" /\ chars plain s = true /\ exists v', parse_float fl s = Some v' /\ (v' == v)%Q.
Proof.
  intros (H & K & d & D & E). split; [assumption|]. split.
  - apply chars_get. intros i c G. apply K in G. cbn in G.
    repeat (destruct G as [<-|G]; [reflexivity|]). destruct G.
  - exists (fl d). unfold parse_float. now rewrite D.
Qed.
Lemma numchar_plain s : chars numchar s = true -> chars plain s = true.
Proof. apply chars_imp. intros c H. apply numchar_ok in H as (A & B & _ & _ & C & D & E). unfold plain. now rewrite A, B, C, D, E. Qed.
Lemma plain_nosp s : chars plain s = true -> chars nosp s = true.
Proof. apply chars_imp. intros c H. unfold plain in H. repeat (apply andb_prop in H as [H ?]). assumption. Qed.
Lemma plain_nonl s : chars plain s = true -> chars nonl s = true.
Proof. apply chars_imp. intros c H. unfold plain in H. repeat (apply andb_prop in H as [H ?]). assumption. Qed.
Lemma plain_comma s : chars plain s = true -> remove_char "," s = s.
Proof. intros H. apply remove_char_none. revert H. apply chars_imp. intros c H. unfold plain in H. repeat (apply andb_prop in H as [H ?]). assumption. Qed.
Lemma plain_at s : chars plain s = true -> s <> "" -> prefix "@" s = false /\ prefix "!" s = false.
Proof.
  intros H N. destruct s as [|c s]; [now destruct N|]. cbn [chars] in H. apply andb_prop in H as [H _].
  unfold plain in H. repeat (apply andb_prop in H as [H ?]). cbn [prefix]. split.
  - destruct (ascii_dec "@" c) as [<-|]; [discriminate|reflexivity].
  - destruct (ascii_dec "!" c) as [<-|]; [discriminate|reflexivity].
Qed.

(** "!" lines *)
Definition nosep (sep c : ascii) : bool := negb (Ascii.eqb c sep).
Lemma split_tok sep t : forall acc s, chars (nosep sep) t = true ->
  split_on_aux sep acc (t ++ String sep s) = (acc ++ t) :: split_on sep s.
Proof.
  induction t as [|c t IH]; intros acc s H.
  - cbn. rewrite Ascii.eqb_refl, app_s_nil. reflexivity.
  - cbn in H. apply andb_prop in H as [H1 H2]. unfold nosep in H1. cbn. destruct (Ascii.eqb c sep); [discriminate|].
    rewrite IH by assumption. now rewrite app_s_assoc.
Qed.
Lemma split_head s : forall acc, exists r, split_on_aux ":" acc s = (acc ++ before_colon s) :: r.
Proof.
  induction s as [|c s IH]; intros acc; cbn.
  - exists []. now rewrite app_s_nil.
  - destruct (Ascii.eqb c ":"); [eexists; now rewrite app_s_nil|]. destruct (IH (acc ++ String c "")) as (r & ->).
    exists r. now rewrite app_s_assoc.
Qed.

Definition with_coord (s : rst) (c : string) : rst :=
  Build_rst (r_line s) (r_iv s) c (r_nodata s) (r_ny s) (r_nx s) (r_ox s) (r_mx s) (r_oy s) (r_my s) (r_data s).
Definition with_line (s : rst) (l : Z) : rst :=
  Build_rst l (r_iv s) (r_coord s) (r_nodata s) (r_ny s) (r_nx s) (r_ox s) (r_mx s) (r_oy s) (r_my s) (r_data s).

Lemma bang_line fl t s0 s : r_line s = 0 -> chars (nosep ":") (String "!" t) = true ->
  contains "COORDINATE REFERENCE SYSTEM" (String "!" t) = false ->
  read_line fl (String "!" t ++ String ":" s0) s = Ok (Some s).
Proof.
  intros R H C. unfold read_line, line_words. replace (prefix "!" (String "!" t ++ String ":" s0)) with true by (symmetry; apply (prefix_app "!")).
  unfold split_on. rewrite split_tok by assumption. rewrite app_empty. cbn [hd]. rewrite C. cbn [bind].
  replace (prefix "!" (String "!" t)) with true by (symmetry; apply (prefix_app "!")).
  replace (prefix "@" (String "!" t)) with false by reflexivity.
  cbn [negb]. rewrite andb_false_r. cbn [bind r_line]. rewrite R. cbn. destruct s; cbn in *; now subst.
Qed.
Lemma coord_line fl cs s : r_line s = 0 ->
  read_line fl ("!     COORDINATE REFERENCE SYSTEM: " ++ cs) s = Ok (Some (with_coord s (" " ++ before_colon cs))).
Proof.
  intros R. unfold read_line, line_words.
  change ("!     COORDINATE REFERENCE SYSTEM: " ++ cs) with ("!     COORDINATE REFERENCE SYSTEM" ++ String ":" (" " ++ cs)).
  rewrite prefix_app || idtac.
  replace (prefix "!" ("!     COORDINATE REFERENCE SYSTEM" ++ String ":" (" " ++ cs))) with true by reflexivity.
  unfold split_on at 1 2 3. rewrite split_tok by reflexivity. rewrite app_empty. cbn [hd].
  replace (contains _ "!     COORDINATE REFERENCE SYSTEM") with true by reflexivity.
  unfold split_on. destruct (split_head (" " ++ cs) "") as (r & Hr). rewrite Hr. rewrite app_empty.
  cbn [word nth_error bind].
  replace (prefix "!" "!     COORDINATE REFERENCE SYSTEM") with true by reflexivity.
  replace (prefix "@" "!     COORDINATE REFERENCE SYSTEM") with false by reflexivity.
  cbn [negb]. rewrite andb_false_r. cbn [bind r_line]. rewrite R. cbn. unfold with_coord. rewrite R. reflexivity.
Qed.

(** header words *)
Lemma words_plain t n s : t <> "" -> chars plain t = true -> (0 < n)%nat -> words ((t ++ ",") ++ spaces n ++ s) = (t ++ ",") :: words s.
Proof.
  intros H K Hn. apply words_tok; [|rewrite chars_app, (plain_nosp _ K); reflexivity|assumption].
  intros E. apply (f_equal String.length) in E. rewrite length_app in E. cbn in E. lia.
Qed.
Lemma plain_comma' t : chars plain t = true -> remove_char "," (t ++ ",") = t.
Proof. intros K. rewrite remove_char_app, (plain_comma t K). cbn. apply app_s_nil. Qed.

Definition line8 (nd : string) : string := " 15, " ++ nd ++ ",  , 1 , 1".
Definition line9 (ny nx x0 hx y0 hy : string) : string :=
  "   " ++ ny ++ ",  " ++ nx ++ ",  " ++ x0 ++ ",  " ++ hx ++ ",  " ++ y0 ++ ",  " ++ hy.
Definition line10 (dx : string) : string := "   " ++ dx ++ ",  0.0,  0.0    ".

Lemma line8_words nd : nd <> "" -> chars plain nd = true -> map (remove_char ",") (words (line8 nd)) = ["15"; nd; ""; "1"; ""; "1"].
Proof.
  intros H K. unfold line8. change " 15, " with (spaces 1 ++ "15," ++ spaces 1). rewrite !app_s_assoc, words_spaces.
  rewrite words_tok by (discriminate || reflexivity || lia).
  change ",  , 1 , 1" with ("," ++ spaces 2 ++ ", 1 , 1"). rewrite <- (app_s_assoc nd ","). rewrite words_plain by (assumption || lia).
  change (words ", 1 , 1") with [","; "1"; ","; "1"]. cbn [map]. rewrite plain_comma' by assumption. reflexivity.
Qed.
Lemma line9_words ny nx x0 hx y0 hy : Forall (fun t => t <> "" /\ chars plain t = true) [ny; nx; x0; hx; y0; hy] ->
  map (remove_char ",") (words (line9 ny nx x0 hx y0 hy)) = [ny; nx; x0; hx; y0; hy].
Proof.
  intros F. repeat match goal with H : Forall _ (_ :: _) |- _ => inversion H as [|? ? [? ?] ?]; clear H; subst end.
  unfold line9. change ("   ") with (spaces 3). rewrite words_spaces. change ",  " with ("," ++ spaces 2).
  rewrite !app_s_assoc.
  repeat (rewrite <- (app_s_assoc _ ","); rewrite words_plain by (assumption || lia)).
  rewrite words_last by (assumption || now apply plain_nosp). cbn [map]. rewrite !plain_comma' by assumption. now rewrite plain_comma.
Qed.
Lemma line10_words dx : dx <> "" -> chars plain dx = true -> map (remove_char ",") (words (line10 dx)) = [dx; "0.0"; "0.0"].
Proof.
  intros H K. unfold line10. change ("   " ++ dx ++ ",  0.0,  0.0    ") with (spaces 3 ++ dx ++ "," ++ spaces 2 ++ "0.0,  0.0    "). rewrite words_spaces.
  rewrite <- (app_s_assoc dx ","). rewrite words_plain by (assumption || lia). cbn [map]. rewrite plain_comma' by assumption. reflexivity.
Qed.

Definition head_lines (fstr : Q -> string) (name date time cs : string) (ny nx : nat) (x0 hix y0 hiy dx nd : Q) : list string :=
  ["!"; "!     ZIMS FILE NAME :  " ++ name; "!     FORMATTED FILE CREATION DATE: " ++ date;
   "!     FORMATTED FILE CREATION TIME: " ++ time; "!     COORDINATE REFERENCE SYSTEM: " ++ cs; "!";
   "@Grid HEADER, GRID, 5"; line8 (fstr nd);
   line9 (fmt_int (Z.of_nat ny)) (fmt_int (Z.of_nat nx)) (fstr x0) (fstr hix) (fstr y0) (fstr hiy);
   line10 (fstr dx); "@"].

Lemma header_lines_ok fstr name date time cs ny nx x0 hix y0 hiy dx nd s :
  no_newline name -> no_newline date -> no_newline time -> no_newline cs ->
  (forall v, In v [nd; x0; hix; y0; hiy; dx] -> chars plain (fstr v) = true) ->
  lines (zmap_header fstr name date time cs ny nx x0 hix y0 hiy dx nd ++ s) =
  (head_lines fstr name date time cs ny nx x0 hix y0 hiy dx nd ++ lines s)%list.
Proof.
  intros N1 N2 N3 N4 F. apply no_newline_nonl in N1, N2, N3, N4.
  assert (P : forall v, In v [nd; x0; hix; y0; hiy; dx] -> chars nonl (fstr v) = true) by (intros v Hv; apply plain_nonl, F, Hv).
  assert (I : forall n, chars nonl (fmt_int n) = true) by (intros; apply numchar_nonl, chars_int).
  unfold zmap_header, head_lines. rewrite !app_s_assoc.
  rewrite lines_cons by reflexivity.
  rewrite <- (app_s_assoc _ name), lines_cons by (rewrite chars_app, N1; reflexivity).
  rewrite <- (app_s_assoc _ date), lines_cons by (rewrite chars_app, N2; reflexivity).
  rewrite <- (app_s_assoc _ time), lines_cons by (rewrite chars_app, N3; reflexivity).
  rewrite <- (app_s_assoc _ cs), lines_cons by (rewrite chars_app, N4; reflexivity).
  rewrite lines_cons by reflexivity. rewrite lines_cons by reflexivity.
  set (T9 := "   " ++ fmt_int (Z.of_nat ny) ++ _).
  replace (" 15, " ++ fstr nd ++ ",  , 1 , 1" ++ nl ++ T9) with (line8 (fstr nd) ++ nl ++ T9) by (unfold line8; now rewrite !app_s_assoc).
  rewrite lines_cons by (unfold line8; rewrite !chars_app, P by (cbn; tauto); reflexivity).
  unfold T9. set (T10 := "   " ++ fstr dx ++ _).
  match goal with |- context [lines (?a ++ ?b ++ ?c ++ ?d ++ ?e ++ ?f ++ ?g ++ ?h ++ ?i ++ ?j ++ ?k ++ ?l ++ nl ++ T10)] =>
    replace (a ++ b ++ c ++ d ++ e ++ f ++ g ++ h ++ i ++ j ++ k ++ l ++ nl ++ T10) with
      (line9 (fmt_int (Z.of_nat ny)) (fmt_int (Z.of_nat nx)) (fstr x0) (fstr hix) (fstr y0) (fstr hiy) ++ nl ++ T10) by (unfold line9; now rewrite !app_s_assoc) end.
  rewrite lines_cons by (unfold line9; rewrite !chars_app, !I, !P by (cbn; tauto); reflexivity).
  unfold T10. replace ("   " ++ fstr dx ++ ",  0.0,  0.0    " ++ nl ++ "@" ++ nl ++ s) with (line10 (fstr dx) ++ nl ++ "@" ++ nl ++ s) by (unfold line10; now rewrite !app_s_assoc).
  rewrite lines_cons by (unfold line10; rewrite !chars_app, P by (cbn; tauto); reflexivity).
  rewrite lines_cons by reflexivity. reflexivity.
Qed.

(** the state after the header *)
Lemma header_read fl fstr name date time cs ny nx x0 hix y0 hiy dx nd rest vnd vx0 vhix vy0 vhiy :
  (forall v, In v [nd; x0; hix; y0; hiy; dx] -> fstr v <> "" /\ chars plain (fstr v) = true) ->
  parse_float fl (fstr nd) = Some vnd -> parse_float fl (fstr x0) = Some vx0 -> parse_float fl (fstr hix) = Some vhix ->
  parse_float fl (fstr y0) = Some vy0 -> parse_float fl (fstr hiy) = Some vhiy ->
  read_lines fl (head_lines fstr name date time cs ny nx x0 hix y0 hiy dx nd ++ rest)%list rst0 =
  read_lines fl rest {| r_line := -1; r_iv := 0; r_coord := " " ++ before_colon cs; r_nodata := vnd; r_ny := Z.of_nat ny; r_nx := Z.of_nat nx;
    r_ox := vx0; r_mx := vhix; r_oy := vy0; r_my := vhiy; r_data := repeat None (ny * nx) |}.
Proof.
  intros F Pnd Px Phx Py Phy.
  assert (Fd := F nd ltac:(cbn; tauto)). assert (Fx := F x0 ltac:(cbn; tauto)). assert (Fhx := F hix ltac:(cbn; tauto)).
  assert (Fy := F y0 ltac:(cbn; tauto)). assert (Fhy := F hiy ltac:(cbn; tauto)). assert (Fdx := F dx ltac:(cbn; tauto)).
  unfold head_lines. cbn [app read_lines].
  replace (read_line fl "!" rst0) with (@Ok (option rst) (Some rst0)) by reflexivity. cbn [bind].
  change ("!     ZIMS FILE NAME :  " ++ name) with ("!     ZIMS FILE NAME " ++ String ":" ("  " ++ name)).
  rewrite bang_line by reflexivity. cbn [bind].
  change ("!     FORMATTED FILE CREATION DATE: " ++ date) with ("!     FORMATTED FILE CREATION DATE" ++ String ":" (" " ++ date)).
  rewrite bang_line by reflexivity. cbn [bind].
  change ("!     FORMATTED FILE CREATION TIME: " ++ time) with ("!     FORMATTED FILE CREATION TIME" ++ String ":" (" " ++ time)).
  rewrite bang_line by reflexivity. cbn [bind].
  rewrite coord_line by reflexivity. cbn [bind]. unfold with_coord, rst0. cbn [r_line r_iv r_coord r_nodata r_ny r_nx r_ox r_mx r_oy r_my r_data].
  set (C := " " ++ before_colon cs).
  match goal with |- context [read_line fl "!" ?s] => replace (read_line fl "!" s) with (@Ok (option rst) (Some s)) by reflexivity end. cbn [bind].
  (* @Grid *)
  match goal with |- context [read_line fl "@Grid HEADER, GRID, 5" ?s] => replace (read_line fl "@Grid HEADER, GRID, 5" s) with (@Ok (option rst) (Some (with_line s 2))) by reflexivity end.
  cbn [bind]. unfold with_line. cbn [r_line r_iv r_coord r_nodata r_ny r_nx r_ox r_mx r_oy r_my r_data].
  (* no-data line *)
  unfold read_line at 1. unfold line_words. replace (prefix "!" (line8 (fstr nd))) with false by reflexivity.
  rewrite line8_words by tauto. cbn [bind r_line Z.eqb andb r_iv r_data r_nodata r_ny r_nx r_ox r_mx r_oy r_my].
  replace (prefix "@" "15") with false by reflexivity. replace (0 <? 2) with true by reflexivity.
  cbn [header_line word nth_error bind]. replace (2 =? 2) with true by reflexivity. cbn [word nth_error bind]. unfold to_float at 1. rewrite Pnd. cbn [bind]. replace (2 + 1) with 3 by reflexivity.
  (* sizes *)
  unfold read_line at 1. unfold line_words. 
  match goal with |- context [prefix "!" (line9 ?a ?b ?c ?d ?e ?f)] => replace (prefix "!" (line9 a b c d e f)) with false by reflexivity end.
  assert (In_ : forall n, fmt_int n <> "" /\ chars plain (fmt_int n) = true) by (intros n; split; [apply int_ne|apply numchar_plain, chars_int]).
  rewrite line9_words by (repeat (constructor; [first [apply In_|assumption]|]); constructor).
  cbn [bind r_line Z.eqb andb r_iv r_data r_nodata r_ny r_nx r_ox r_mx r_oy r_my].
  destruct (plain_at (fmt_int (Z.of_nat ny))) as [A1 A2]; [apply In_|apply In_|]. rewrite A1. replace (0 <? 3) with true by reflexivity.
  cbn [header_line]. replace (3 =? 2) with false by reflexivity. replace (3 =? 3) with true by reflexivity.
  unfold word, nth_error. cbn [bind]. unfold to_int, to_float. rewrite !parse_fmt_int, Px, Phx, Py, Phy. cbn [bind].
  replace (Z.of_nat ny * Z.of_nat nx <? 0) with false by (symmetry; apply Z.ltb_ge; lia).
  cbn [bind]. replace (3 + 1) with 4 by reflexivity. rewrite <- Nat2Z.inj_mul, Nat2Z.id.
  (* dx line *)
  unfold read_line at 1. unfold line_words. replace (prefix "!" (line10 (fstr dx))) with false by reflexivity.
  rewrite line10_words by tauto. cbn [bind r_line Z.eqb andb r_iv r_data r_nodata r_ny r_nx r_ox r_mx r_oy r_my].
  destruct (plain_at (fstr dx)) as [B1 B2]; [tauto|tauto|]. rewrite B1. replace (0 <? 4) with true by reflexivity.
  cbn [header_line]. replace (4 =? 2) with false by reflexivity. replace (4 =? 3) with false by reflexivity. cbn [bind]. replace (4 + 1) with 5 by reflexivity.
  (* @ *)
  match goal with |- context [read_line fl "@" ?s] => replace (read_line fl "@" s) with (@Ok (option rst) (Some (with_line s (-1)))) by reflexivity end.
  cbn [bind]. reflexivity.
Qed.
