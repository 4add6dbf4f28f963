(** MODEL: kriging_tools.py write_zmap_grid (253-352), read_zmap_grid (355-459) and
    space_back_to_front (462-464).  A file is its text. *)
From Coq Require Import String Ascii ZArith QArith Qround Lia List.
From Verif Require Import Base M_Text M_AscGrid.
Import ListNotations.
Open Scope string_scope.
Open Scope Z_scope.

(** lines 462-464.  [net] has no spaces and as many characters as the string has
    non-spaces, so rsplit finds it at most once; removing the first occurrence is the
    same.  (net = "" would raise ValueError; the callers never pass a blank string.) *)
Definition space_back_to_front (s : string) : string :=
  let net := remove_char " " s in
  match String.index 0 net s with
  | Some i => substring 0 i s ++ substring (i + String.length net) (String.length s) s
  | None => s
  end ++ net.

Definition million : Q := 1000000%Q.
Definition googol : Q := inject_Z (10 ^ 100).

(** lines 342-350: the text of one value *)
Definition zmap_field (no_data : Q) (c : cell) : string :=
  match c with
  | Num q =>
      if Qle_bool googol (Qabs.Qabs q) then space_back_to_front (rjust 13 (fmt_sci 7 q) ++ " ")
      else if Qle_bool million (Qabs.Qabs q) then space_back_to_front (rjust 13 (fmt_sci 7 q) ++ "  ")
      else space_back_to_front (ljust 13 (fmt_fixed 4 q) ++ "  ")
  | _ => space_back_to_front (rjust 13 (fmt_sci 7 no_data) ++ "  ")
  end.

(** lines 338-352: column by column, rows from the last to the first; a newline after
    every fifth value and after row 0 *)
Fixpoint zmap_column (no_data : Q) (z : grid cell) (n : nat) (count : nat) (ms : list nat) : string :=
  match ms with
  | [] => ""
  | m :: r =>
      zmap_field no_data (g_at z m n) ++
      (if (((S count) mod 5 =? 0) || (m =? 0))%nat then nl else "") ++
      zmap_column no_data z n (S count) r
  end.
Definition zmap_body (no_data : Q) (z : grid cell) : string :=
  String.concat "" (map (fun n => zmap_column no_data z n 0 (rev (seq 0 (g_rows z)))) (seq 0 (g_cols z))).

(** lines 307-336.  [fstr] is str() of a float; [name] os.path.basename(filename);
    [date], [time] the formatted current date and time *)
Definition zmap_header (fstr : Q -> string) (name date time coord_sys : string)
    (ny nx : nat) (x0 hix y0 hiy dx no_data : Q) : string :=
  "!" ++ nl ++
  "!     ZIMS FILE NAME :  " ++ name ++ nl ++
  "!     FORMATTED FILE CREATION DATE: " ++ date ++ nl ++
  "!     FORMATTED FILE CREATION TIME: " ++ time ++ nl ++
  "!     COORDINATE REFERENCE SYSTEM: " ++ coord_sys ++ nl ++
  "!" ++ nl ++
  "@Grid HEADER, GRID, 5" ++ nl ++
  " 15, " ++ fstr no_data ++ ",  , 1 , 1" ++ nl ++
  "   " ++ fmt_int (Z.of_nat ny) ++ ",  " ++ fmt_int (Z.of_nat nx) ++ ",  " ++ fstr x0 ++ ",  " ++ fstr hix ++
  ",  " ++ fstr y0 ++ ",  " ++ fstr hiy ++ nl ++
  "   " ++ fstr dx ++ ",  0.0,  0.0    " ++ nl ++
  "@" ++ nl.

(** write_zmap_grid, lines 253-352.  x, y after squeeze are 1-D, z is 2-D before
    squeeze.  z.shape is not compared with the lengths of x and y; z.shape[1] is first
    used (line 338) after the header has been written. *)
Definition write_zmap (fl : Q -> Q) (fstr : Q -> string) (name date time : string)
    (x y : list Q) (z : grid cell) (no_data : Q) (coord_sys : string) : written :=
  let nx := List.length x in let ny := List.length y in
  if ((nx =? 1) || (ny =? 1))%nat%bool then (None, Err TypeError)             (* 286: len() of a 0-d array *)
  else if ((nx =? 0) || (ny =? 0))%nat%bool then (None, Err IndexError)       (* 289: x[1] *)
  else
    let dx := spacing fl x in let dy := spacing fl y in
    if negb (uniform_check fl x && uniform_check fl y) then (None, Err ValueError)  (* 292-297 *)
    else
      let hix := fl (qnth x 0 + fl (inject_Z (Z.of_nat nx - 1) * dx))%Q in
      let hiy := fl (qnth y 0 + fl (inject_Z (Z.of_nat ny - 1) * dy))%Q in
      let h := zmap_header fstr name date time coord_sys ny nx (qnth x 0) hix (qnth y 0) hiy dx no_data in
      if two_dim z then
        (Some (h ++ zmap_body no_data {| g_rows := g_rows z; g_cols := g_cols z;
                                         g_at := fun m n => fill no_data (g_at z m n) |}), Ok tt)
      else (Some h, Err IndexError).

(** ** read_zmap_grid *)

(** the local variables; [r_data]: data_values, as long as np.empty made it; entries
    not yet assigned are None *)
Record rst := {
  r_line : Z; r_iv : nat; r_coord : string; r_nodata : Q;
  r_ny : Z; r_nx : Z; r_ox : Q; r_mx : Q; r_oy : Q; r_my : Q;
  r_data : list (option Q) }.

(** lines 384-398 *)
Definition rst0 : rst :=
  {| r_line := 0; r_iv := 0; r_coord := "<null>"; r_nodata := 0%Q; r_ny := 0; r_nx := 0;
     r_ox := 0%Q; r_mx := 0%Q; r_oy := 0%Q; r_my := 0%Q; r_data := [None] |}.

Fixpoint assign {A} (i : nat) (a : A) (l : list A) : option (list A) :=
  match l, i with
  | [], _ => None
  | _ :: r, O => Some (a :: r)
  | b :: r, S j => option_map (cons b) (assign j a r)
  end.

(** lines 414-416: data_values[i_value] = float(...): float first (ValueError), then
    the assignment (IndexError when out of bounds).  Simplified: float() also accepts the
    words nan and inf, which are errors here; write_zmap_grid does not write them. *)
Fixpoint store (fl : Q -> Q) (ws : list string) (i : nat) (d : list (option Q)) : res (nat * list (option Q)) :=
  match ws with
  | [] => Ok (i, d)
  | w :: r =>
      match parse_float fl w with
      | None => Err ValueError
      | Some q => match assign i (Some q) d with
                  | None => Err IndexError
                  | Some d' => store fl r (S i) d'
                  end
      end
  end.

Definition word (ws : list string) (i : nat) : res string :=
  match nth_error ws i with Some w => Ok w | None => Err IndexError end.
Definition to_float (fl : Q -> Q) (s : string) : res Q :=
  match parse_float fl s with Some q => Ok q | None => Err ValueError end.
Definition to_int (s : string) : res Z := match parse_int s with Some q => Ok q | None => Err ValueError end.

(** lines 402-408: the words of a line and the coordinate system it may set *)
Definition line_words (l : string) (coord : string) : res (list string * string) :=
  if prefix "!" l then
    let ws := split_on ":" l in
    if contains "COORDINATE REFERENCE SYSTEM" (hd "" ws) then
      do w <- word ws 1 ;; Ok (ws, w)
    else Ok (ws, coord)
  else Ok (map (remove_char ",") (words l), coord).

(** lines 425-435 (the body of "if i_header_line > 0") *)
Definition header_line (fl : Q -> Q) (ws : list string) (s : rst) : res rst :=
  let '(Build_rst ln iv co nd ny nx ox mx oy my da) := s in
  if ln =? 2 then
    do w <- word ws 1 ;; do q <- to_float fl w ;; Ok (Build_rst (ln + 1) iv co q ny nx ox mx oy my da)
  else if ln =? 3 then
    do w0 <- word ws 0 ;; do ny' <- to_int w0 ;;
    do w1 <- word ws 1 ;; do nx' <- to_int w1 ;;
    do w2 <- word ws 2 ;; do ox' <- to_float fl w2 ;;
    do w3 <- word ws 3 ;; do mx' <- to_float fl w3 ;;
    do w4 <- word ws 4 ;; do oy' <- to_float fl w4 ;;
    do w5 <- word ws 5 ;; do my' <- to_float fl w5 ;;
    if ny' * nx' <? 0 then Err ValueError                 (* np.empty of a negative size *)
    else Ok (Build_rst (ln + 1) iv co nd ny' nx' ox' mx' oy' my' (repeat None (Z.to_nat (ny' * nx'))))
  else Ok (Build_rst (ln + 1) iv co nd ny nx ox mx oy my da).

(** lines 401-435: one iteration; None: the loop ends (line 410-411) *)
Definition read_line (fl : Q -> Q) (l : string) (s : rst) : res (option rst) :=
  do p <- line_words l (r_coord s) ;;
  let '(ws, co) := p in
  let s := Build_rst (r_line s) (r_iv s) co (r_nodata s) (r_ny s) (r_nx s) (r_ox s) (r_mx s) (r_oy s) (r_my s) (r_data s) in
  match ws with
  | [] => Ok None
  | w :: _ =>
      do s <- (if (r_line s =? -1) && negb (prefix "!" w) then
                 do p <- store fl ws (r_iv s) (r_data s) ;;
                 let '(iv, da) := p in
                 Ok (Build_rst (r_line s) iv co (r_nodata s) (r_ny s) (r_nx s) (r_ox s) (r_mx s) (r_oy s) (r_my s) da)
               else Ok s) ;;
      let ln := if prefix "@" w then (if r_line s =? 0 then 1 else -1) else r_line s in
      let s := Build_rst ln (r_iv s) co (r_nodata s) (r_ny s) (r_nx s) (r_ox s) (r_mx s) (r_oy s) (r_my s) (r_data s) in
      if 0 <? ln then do s' <- header_line fl ws s ;; Ok (Some s') else Ok (Some s)
  end.

Fixpoint read_lines (fl : Q -> Q) (ls : list string) (s : rst) : res rst :=
  match ls with
  | [] => Ok s
  | l :: r => do o <- read_line fl l s ;; match o with None => Ok s | Some s' => read_lines fl r s' end
  end.

Record zmap := { zm_grid : grid Q; zm_x : list Q; zm_y : list Q; zm_cellsize : Q * Q; zm_nodata : Q; zm_coord : string }.

(** lines 451-455, one axis; Python floats and ints: n = 1 divides by zero *)
Definition zmap_axis (fl : Q -> Q) (o mx : Q) (n : Z) : res (Q * list Q) :=
  if n =? 1 then Err ZeroDivisionErr else
  let d := fl (fl (mx - o) / inject_Z (n - 1))%Q in
  do x <- arange fl o (fl (o + fl (inject_Z n * d)))%Q d ;; Ok (d, x).

(** read_zmap_grid, lines 355-459.  [junk]: the contents of uninitialised memory, which
    np.empty exposes.  In the code both divisions come before the two aranges; both
    failures are ZeroDivisionError. *)
Definition read_zmap (fl : Q -> Q) (junk : nat -> Q) (text : string) : res zmap :=
  do s <- read_lines fl (lines text) rst0 ;;
  if negb (r_nx s * r_ny s =? Z.of_nat (List.length (r_data s))) then Err OSErr else   (* 437-442 *)
  if (r_nx s <? 0) || (r_ny s <? 0) then Err ValueError else                          (* 444: np.empty *)
  let nx := Z.to_nat (r_nx s) in let ny := Z.to_nat (r_ny s) in
  let value i := match nth i (r_data s) None with Some q => q | None => junk i end in
  let z := {| g_rows := ny; g_cols := nx; g_at := fun m n => value (n * ny + (ny - 1 - m))%nat |} in
  do xs <- zmap_axis fl (r_ox s) (r_mx s) (r_nx s) ;;
  do ys <- zmap_axis fl (r_oy s) (r_my s) (r_ny s) ;;
  Ok {| zm_grid := z; zm_x := snd xs; zm_y := snd ys; zm_cellsize := (fst xs, fst ys);
        zm_nodata := r_nodata s; zm_coord := r_coord s |}.
