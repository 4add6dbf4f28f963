(** SPECIFICATION for grid files. *)
From Coq Require Import String Ascii ZArith QArith Qabs Qpower List Permutation.
From Verif Require Import Base M_Text S_Text M_AscGrid.
Import ListNotations.
Open Scope Q_scope.

(** n numbers first, first + step, ..., equal as rationals *)
Definition progression (l : list Q) (n : nat) (first step : Q) : Prop :=
  List.length l = n /\ forall i, (i < n)%nat -> qnth l i == first + inject_Z (Z.of_nat i) * step.

(** a grid axis: at least two evenly spaced coordinates in increasing order *)
Definition even_axis (l : list Q) (n : nat) (first step : Q) : Prop :=
  (2 <= n)%nat /\ 0 < step /\ progression l n first step.

Definition hundredths (q : Q) : Prop := exists k : Z, q == inject_Z k * (1 # 100).

(** what should be read back for a cell: its value to two decimals (as a float), NaN for
    NaN, the no-data value for a masked cell *)
Definition cell_back (fl : Q -> Q) (no_data : Q) (c : cell) (v : option Q) : Prop :=
  match c with
  | Num q => exists d, two_decimals q d /\ v = Some (fl d)
  | NaN => v = None
  | Masked => v = Some no_data
  end.

Definition grid_back (fl : Q -> Q) (z : grid cell) (no_data : Q) (g : grid (option Q)) : Prop :=
  g_rows g = g_rows z /\ g_cols g = g_cols z /\
  forall m n, (m < g_rows z)%nat -> (n < g_cols z)%nat -> cell_back fl no_data (g_at z m n) (g_at g m n).

(** at most fifteen characters with two decimals *)
Definition in_field (q : Q) : Prop := - (9999999999999 # 100) <= q /\ q <= 99999999999999 # 100.
Definition cells_in_field (z : grid cell) (no_data : Q) : Prop :=
  forall m n, (m < g_rows z)%nat -> (n < g_cols z)%nat ->
    match g_at z m n with Num q => in_field q | NaN => True | Masked => in_field no_data end.

(** ** headers *)

(** the spelling of a keyword, in any mixture of upper and lower case *)
Definition spelled (k : string) (f : field) : Prop :=
  match f with
  | Ncols => lower k = "ncols"%string | Nrows => lower k = "nrows"%string
  | Xcorner => lower k = "xllcorner"%string | Xcenter => lower k = "xllcenter"%string
  | Ycorner => lower k = "yllcorner"%string | Ycenter => lower k = "yllcenter"%string
  | Cellsize => lower k = "cellsize"%string \/ lower k = "cell_size"%string
  | Dx => lower k = "dx"%string | Dy => lower k = "dy"%string
  | Nodata => lower k = "nodata_value"%string \/ lower k = "nodatavalue"%string
  end.

(** a line giving [f] the value text [v] *)
Definition header_text (e : field * string) (line : string) : Prop :=
  exists k, words line = [k; snd e] /\ spelled k (fst e).

(** a header with exactly what is needed, in any order *)
Definition minimal_header (fs : list field) : Prop :=
  Permutation fs [Ncols; Nrows; Xcorner; Ycorner; Cellsize; Nodata] \/
  Permutation fs [Ncols; Nrows; Xcenter; Ycenter; Cellsize; Nodata] \/
  Permutation fs [Ncols; Nrows; Xcorner; Ycorner; Dx; Dy; Nodata] \/
  Permutation fs [Ncols; Nrows; Xcenter; Ycenter; Dx; Dy; Nodata].

Definition no_newline (s : string) : Prop := forall i, String.get i s <> Some (Ascii.ascii_of_nat 10).

(** a file made of lines *)
Fixpoint unlines (ls : list string) : string := match ls with [] => ""%string | l :: r => (l ++ nl ++ unlines r)%string end.

(** the first step and the mean step, which write_asc_grid and write_zmap_grid compare *)
Definition first_step (l : list Q) : Q := Qabs (qnth l 1 - qnth l 0).
Definition mean_step (l : list Q) : Q := Qabs ((qnth l (List.length l - 1) - qnth l 0) / inject_Z (Z.of_nat (List.length l) - 1)).
Definition steps_agree (l : list Q) : Prop := Qabs (mean_step l - first_step l) <= (1 # 100000000) + (1 # 100000) * first_step l.
(** what "evenly spaced" means: all steps equal, up to the same tolerance *)
Definition evenly_spaced (l : list Q) : Prop :=
  forall i, (S i < List.length l)%nat ->
    Qabs (Qabs (qnth l (S i) - qnth l i) - first_step l) <= (1 # 100000000) + (1 # 100000) * first_step l.

(** what the reader needs before the body starts *)
Definition enough (fs : list field) : Prop :=
  In Ncols fs /\ In Nrows fs /\ ((In Xcorner fs /\ In Ycorner fs) \/ (In Xcenter fs /\ In Ycenter fs)) /\
  (In Cellsize fs \/ (In Dx fs /\ In Dy fs)) /\ In Nodata fs.

(** int() or float() accepts the value *)
Definition readable (e : field * string) : Prop :=
  match fst e with
  | Ncols | Nrows => exists n, parse_int (snd e) = Some n
  | _ => exists q, decimal (snd e) = Some q
  end.

(** the body of a file: r lines of c words, no comments *)
Definition body_table (body : string) (r c : nat) : Prop :=
  List.length (lines body) = r /\
  forall l, In l (lines body) -> List.length (words l) = c /\ forall i, String.get i l <> Some "#"%char.

(** ** binary64 *)

(** every operation has a relative error of at most 2^-53 *)
Definition accurate (fl : Q -> Q) : Prop := forall q, Qabs (fl q - q) <= (1 # 9007199254740992) * Qabs q.

(** n coordinates first, first + step, ..., each within (i + 1) 2^-50 (|first| + step) *)
Definition near_progression (l : list Q) (n : nat) (first step : Q) : Prop :=
  List.length l = n /\
  forall i, (i < n)%nat ->
    Qabs (qnth l i - (first + inject_Z (Z.of_nat i) * step)) <= inject_Z (Z.of_nat (S i)) * (1 # 1125899906842624) * (Qabs first + step).

(** an axis of moderate size: a first step of at least 0.01, coordinates up to 2^38 *)
Definition moderate (l : list Q) (n : nat) : Prop :=
  (1 # 100) <= first_step l /\ Qabs (qnth l 0) + inject_Z (Z.of_nat n) * first_step l <= 274877906944.

(** ** comments and blank lines in the body *)

(** nothing but white space, possibly followed by a comment *)
Definition void_line (l : string) : Prop := words l = [] \/ exists b t, l = (b ++ String "#" t)%string /\ words b = [] /\ forall i, String.get i b <> Some "#"%char.

(** the same lines, with comments appended and void lines inserted *)
Inductive commented : list string -> list string -> Prop :=
| cm_end : commented [] []
| cm_same : forall l ls ls', commented ls ls' -> commented (l :: ls) (l :: ls')
| cm_comment : forall l t ls ls', commented ls ls' -> commented (l :: ls) ((l ++ String "#" t)%string :: ls')
| cm_void : forall l ls ls', void_line l -> commented ls ls' -> commented ls (l :: ls').

(** the words of the rows that are read, without comments, blank lines and the last [footer] rows *)
Definition plain_row (l : string) : Prop := words l <> [] /\ forall i, String.get i l <> Some "#"%char.

(** ** a grid with more than one row and more than one column (what np.squeeze leaves two-dimensional) *)
Definition plane {A} (z : grid A) : Prop := g_rows z <> 1%nat /\ g_cols z <> 1%nat.
