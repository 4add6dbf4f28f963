(** MODEL: kriging_tools.py write_asc_grid (23-127) and read_asc_grid (130-250).
    A file is its text.  Universal newlines and non-ASCII text are not modelled. *)
From Coq Require Import String Ascii ZArith QArith Qround Lia List.
From Verif Require Import Base M_Text.
Import ListNotations.
Open Scope string_scope.
Open Scope Z_scope.

(** kriging_tools.py 76-83 and 289-297 (write_zmap_grid): the spacing check.  The
    arrays are 1-D of length at least two here.  [abs((v[-1] - v[0]) / (n - 1))] is
    compared with [abs(v[1] - v[0])]. *)
Definition spacing (fl : Q -> Q) (v : list Q) : Q := Qabs.Qabs (fl (qnth v 1 - qnth v 0)%Q).
Definition mean_spacing (fl : Q -> Q) (v : list Q) : Q :=
  let n := List.length v in
  Qabs.Qabs (fl (fl (qnth v (n - 1) - qnth v 0) / inject_Z (Z.of_nat n - 1)))%Q.
Definition uniform_check (fl : Q -> Q) (v : list Q) : bool := isclose fl (mean_spacing fl v) (spacing fl v).

(** "{:<16.2f}".format(z[m, n]) (line 125) *)
Definition asc_text (c : cell) : string := match c with Num q => fmt_fixed 2 q | _ => "nan" end.
Definition asc_field (c : cell) : string := ljust 16 (asc_text c).

Definition asc_row (z : grid cell) (m : nat) : string :=
  String.concat "" (map (fun n => asc_field (g_at z m n)) (seq 0 (g_cols z))).

(** lines 123-127: rows from the last to the first, no newline after row 0 *)
Definition asc_body (z : grid cell) : string :=
  String.concat "" (map (fun m => asc_row z m ++ (if (m =? 0)%nat then "" else nl)) (rev (seq 0 (g_rows z)))).

Definition f10 (q : Q) : string := ljust 10 (fmt_fixed 2 q).
Definition n10 (n : nat) : string := ljust 10 (fmt_int (Z.of_nat n)).

(** lines 105-119 *)
Definition asc_header1 (nrows ncols : nat) (x0 y0 dx dy no_data : Q) : string :=
  "NCOLS          " ++ n10 ncols ++ nl ++ "NROWS          " ++ n10 nrows ++ nl ++
  "XLLCENTER      " ++ f10 x0 ++ nl ++ "YLLCENTER      " ++ f10 y0 ++ nl ++
  "DX             " ++ f10 dx ++ nl ++ "DY             " ++ f10 dy ++ nl ++
  "NODATA_VALUE   " ++ f10 no_data ++ nl.
Definition asc_header2 (nrows ncols : nat) (xc yc cellsize no_data : Q) : string :=
  "NCOLS          " ++ n10 ncols ++ nl ++ "NROWS          " ++ n10 nrows ++ nl ++
  "XLLCORNER      " ++ f10 xc ++ nl ++ "YLLCORNER      " ++ f10 yc ++ nl ++
  "CELLSIZE       " ++ f10 cellsize ++ nl ++ "NODATA_VALUE   " ++ f10 no_data ++ nl.

(** np.amin(x) != x[0] (line 69), for a non-empty array *)
Definition qmin (l : list Q) : Q := fold_left (fun m v => if Qle_bool m v then m else v) (tl l) (hd 0%Q l).
Definition out_of_order (l : list Q) : bool := negb (Qeq_bool (qmin l) (qnth l 0)).

(** kriging_tools.py 63-74: the two warnings, "Grid dimensions ..." (first component) and
    "Order of X or Y coordinates ..." (second).  An empty array has no np.amin, an array of
    one element was squeezed and has no [x[0]]; y is not looked at if x is out of order. *)
Definition asc_warnings (x y : list Q) (z : grid cell) : bool * bool :=
  if negb (two_dim z) then (false, false) else
  (negb ((g_rows z =? List.length y) && (g_cols z =? List.length x))%nat,
   ((2 <=? List.length x)%nat && (out_of_order x || ((2 <=? List.length y)%nat && out_of_order y)))%bool).

(** write_asc_grid, kriging_tools.py 23-127.  x, y: the coordinate arrays after
    squeeze; z: the 2-D array, possibly masked.  Simplified: x, y are 1-D and z 2-D
    before squeeze; the warnings (lines 63-74) are [asc_warnings].  The file is opened (and
    truncated) at line 104, after the checks but before the style is examined. *)
Definition write_asc (fl : Q -> Q) (x y : list Q) (z : grid cell) (no_data : Q) (style : Z) : written :=
  if negb (two_dim z) then (None, Err IndexError)                              (* 53-54: z.shape[1] *)
  else if ((List.length x =? 0) || ((List.length y =? 0) && negb ((List.length x =? 1) || out_of_order x)))%nat%bool
  then (None, Err ValueError)                                                  (* 69: np.amin *)
  else if ((List.length x =? 1) || (List.length y <=? 1))%nat%bool
  then (None, Err IndexError)                                (* 69: x[0], y[0] of a 0-d array; 77: y[1] *)
  else
    let dx := spacing fl x in let dy := spacing fl y in
    if negb (uniform_check fl x && uniform_check fl y) then (None, Err ValueError)  (* 78-83 *)
    else if (style =? 2) && negb (Qeq_bool dx dy) then (None, Err ValueError)        (* 85-90 *)
    else
      let z' := {| g_rows := g_rows z; g_cols := g_cols z; g_at := fun m n => fill no_data (g_at z m n) |} in
      if style =? 1 then
        (Some (asc_header1 (g_rows z) (g_cols z) (qnth x 0) (qnth y 0) dx dy no_data ++ asc_body z'), Ok tt)
      else if style =? 2 then
        (Some (asc_header2 (g_rows z) (g_cols z) (fl (qnth x 0 - fl (dx / 2))) (fl (qnth y 0 - fl (dy / 2))) dx no_data
               ++ asc_body z')%Q, Ok tt)
      else (Some "", Err ValueError).                                                 (* 120-121 *)

(** ** read_asc_grid *)

(** the local variables of lines 158-167 *)
Record hdr := {
  h_ncols : option Z; h_nrows : option Z;
  h_xcorner : option Q; h_xcenter : option Q; h_ycorner : option Q; h_ycenter : option Q;
  h_cellsize : option Q; h_dx : option Q; h_dy : option Q; h_nodata : option Q }.
Definition hdr0 : hdr :=
  {| h_ncols := None; h_nrows := None; h_xcorner := None; h_xcenter := None; h_ycorner := None;
     h_ycenter := None; h_cellsize := None; h_dx := None; h_dy := None; h_nodata := None |}.

Inductive field := Ncols | Nrows | Xcorner | Xcenter | Ycorner | Ycenter | Cellsize | Dx | Dy | Nodata.

(** lines 173-198: which variable a keyword sets *)
Definition keyword (k : string) : option field :=
  let s := lower k in
  if String.eqb s "ncols" then Some Ncols else if String.eqb s "nrows" then Some Nrows
  else if String.eqb s "xllcorner" then Some Xcorner else if String.eqb s "xllcenter" then Some Xcenter
  else if String.eqb s "yllcorner" then Some Ycorner else if String.eqb s "yllcenter" then Some Ycenter
  else if String.eqb s "cellsize" then Some Cellsize else if String.eqb s "cell_size" then Some Cellsize
  else if String.eqb s "dx" then Some Dx else if String.eqb s "dy" then Some Dy
  else if String.eqb s "nodata_value" then Some Nodata else if String.eqb s "nodatavalue" then Some Nodata
  else None.

Definition set_field (fl : Q -> Q) (f : field) (v : string) (h : hdr) : res hdr :=
  let num (k : Q -> hdr) := match parse_float fl v with Some q => Ok (k q) | None => Err ValueError end in
  let int (k : Z -> hdr) := match parse_int v with Some n => Ok (k n) | None => Err ValueError end in
  let '(Build_hdr a b c d e g i j l m) := h in
  match f with
  | Ncols => int (fun n => Build_hdr (Some n) b c d e g i j l m)
  | Nrows => int (fun n => Build_hdr a (Some n) c d e g i j l m)
  | Xcorner => num (fun q => Build_hdr a b (Some q) d e g i j l m)
  | Xcenter => num (fun q => Build_hdr a b c (Some q) e g i j l m)
  | Ycorner => num (fun q => Build_hdr a b c d (Some q) g i j l m)
  | Ycenter => num (fun q => Build_hdr a b c d e (Some q) i j l m)
  | Cellsize => num (fun q => Build_hdr a b c d e g (Some q) j l m)
  | Dx => num (fun q => Build_hdr a b c d e g i (Some q) l m)
  | Dy => num (fun q => Build_hdr a b c d e g i j (Some q) m)
  | Nodata => num (fun q => Build_hdr a b c d e g i j l (Some q))
  end.

Definition some {A} (o : option A) : bool := match o with Some _ => true | None => false end.

(** lines 200-209 *)
Definition complete (h : hdr) : bool :=
  (some (h_ncols h) && some (h_nrows h) &&
   ((some (h_xcorner h) && some (h_ycorner h)) || (some (h_xcenter h) && some (h_ycenter h))) &&
   (some (h_cellsize h) || (some (h_dx h) && some (h_dy h))) && some (h_nodata h))%bool.

(** lines 169-210: the loop over header lines; returns the lines after the header.
    A line that is not exactly two words (in particular "" at the end of the file)
    cannot be unpacked: ValueError. *)
Fixpoint read_header (fl : Q -> Q) (ls : list string) (h : hdr) : res (hdr * list string) :=
  match ls with
  | [] => Err ValueError
  | l :: rest =>
      match words l with
      | [k; v] =>
          match keyword k with
          | None => Err OSErr
          | Some f => do h' <- set_field fl f v h ;; if complete h' then Ok (h', rest) else read_header fl rest h'
          end
      | _ => Err ValueError
      end
  end.

(** numpy.genfromtxt(filename, skip_header, skip_footer) with the default arguments:
    comments start at '#', blank lines are skipped, every row must have as many words as
    the first one (ValueError), a word that is not a number becomes nan (None).
    Simplified: footer lines are counted among the non-blank lines. *)
Fixpoint cut_comment (s : string) : string :=
  match s with
  | "" => ""
  | String c r => if Ascii.eqb c "#" then "" else String c (cut_comment r)
  end.
Definition genfromtxt (fl : Q -> Q) (ls : list string) (footer : nat) : res (list (list (option Q))) :=
  let rows := filter (fun w => match w with [] => false | _ => true end) (map (fun l => words (cut_comment l)) ls) in
  let nb := List.length (hd [] rows) in
  let kept := firstn (List.length rows - footer) rows in
  if forallb (fun w => (List.length w =? nb)%nat) kept
  then Ok (map (map (parse_float fl)) kept) else Err ValueError.

Record asc := { a_grid : grid (option Q); a_x : list Q; a_y : list Q; a_cellsize : Q + Q * Q; a_nodata : Q }.

(** lines 212-222: genfromtxt squeezes its result, so a single row or column gives a 1-D
    array (IndexError at shape[1], unless the first comparison already differs), a single
    value a 0-d array (ValueError in flipud), no data an empty 1-D array *)
Definition check_shape (nrows ncols : Z) (raw : list (list (option Q))) : res (grid (option Q)) :=
  let r := List.length raw in
  let c := List.length (hd [] raw) in
  let at_ m n := nth n (nth (r - 1 - m) raw []) None in
  if (r =? 1)%nat && (c =? 1)%nat then Err ValueError
  else if (r =? 0)%nat || (r =? 1)%nat || (c =? 1)%nat then
    let len := if (r =? 1)%nat then c else r in
    if nrows =? Z.of_nat len then Err IndexError else Err OSErr
  else if (nrows =? Z.of_nat r) && (ncols =? Z.of_nat c) then Ok {| g_rows := r; g_cols := c; g_at := at_ |}
  else Err OSErr.

(** lines 232-245, one axis *)
Definition axis (fl : Q -> Q) (ll : Q) (n : Z) (d : Q) : res (list Q) :=
  do x <- arange fl ll (fl (ll + fl (inject_Z n * d)))%Q d ;;
  Ok (if Z.of_nat (List.length x) =? n + 1 then removelast x else x).

(** read_asc_grid, lines 130-250 *)
Definition read_asc (fl : Q -> Q) (text : string) (footer : nat) : res asc :=
  do p <- read_header fl (lines text) hdr0 ;;
  let '(h, rest) := p in
  do raw <- genfromtxt fl rest footer ;;
  let nz o := match o with Some n => n | None => 0 end in
  let nq o := match o with Some q => q | None => 0%Q end in
  let nrows := nz (h_nrows h) in let ncols := nz (h_ncols h) in
  do g <- check_shape nrows ncols raw ;;
  let '(dx, dy) := match h_dx h, h_dy h with
                   | Some dx, Some dy => (dx, dy)
                   | _, _ => (nq (h_cellsize h), nq (h_cellsize h))
                   end in
  let '(xll, yll) := match h_xcorner h, h_ycorner h with
                     | Some xc, Some yc => (fl (xc + fl (dx / 2)), fl (yc + fl (dy / 2)))%Q
                     | _, _ => (nq (h_xcenter h), nq (h_ycenter h))
                     end in
  do x <- axis fl xll ncols dx ;;
  do y <- axis fl yll nrows dy ;;
  Ok {| a_grid := g; a_x := x; a_y := y;
        a_cellsize := match h_cellsize h with Some c => inl c | None => inr (nq (h_dx h), nq (h_dy h)) end;
        a_nodata := nq (h_nodata h) |}.
