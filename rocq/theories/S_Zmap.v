(** SPECIFICATION for zmap files (C47, C48). *)
From Coq Require Import String Ascii ZArith QArith Qabs Qpower List.
From Verif Require Import Base M_Text S_Text M_AscGrid S_AscGrid M_Zmap.
Import ListNotations.
Open Scope Q_scope.

(** [s] is a numeral that float() reads as [v] *)
Definition float_text (fl : Q -> Q) (s : string) (v : Q) : Prop :=
  s <> ""%string /\
  (forall i c, String.get i s = Some c -> In c (list_ascii_of_string "0123456789+-.e")) /\
  exists d, decimal s = Some d /\ fl d == v.

(** str() of the numbers in the header is read back by float() as the same number.
    (Python guarantees this for every finite float.) *)
Definition header_numbers (fl : Q -> Q) (fstr : Q -> string) (x y : list Q) (no_data : Q) : Prop :=
  let hi v := fl (qnth v 0 + fl (inject_Z (Z.of_nat (List.length v) - 1) * Qabs (fl (qnth v 1 - qnth v 0)))) in
  forall v, In v [no_data; qnth x 0; hi x; qnth y 0; hi y; Qabs (fl (qnth x 1 - qnth x 0))] -> float_text fl (fstr v) v.

(** what should be read back for a number: four decimals below a million, eight
    significant digits above *)
Definition number_back (fl : Q -> Q) (q v : Q) : Prop :=
  exists d, v = fl d /\ (Qabs q < 1000000 -> four_decimals q d) /\ (1000000 <= Qabs q -> eight_digits q d).
Definition zcell_back (fl : Q -> Q) (no_data : Q) (c : cell) (v : Q) : Prop :=
  match c with
  | Num q => number_back fl q v
  | NaN => exists d, v = fl d /\ eight_digits no_data d
  | Masked => number_back fl no_data v
  end.
Definition zgrid_back (fl : Q -> Q) (z : grid cell) (no_data : Q) (g : grid Q) : Prop :=
  g_rows g = g_rows z /\ g_cols g = g_cols z /\
  forall m n, (m < g_rows z)%nat -> (n < g_cols z)%nat -> zcell_back fl no_data (g_at z m n) (g_at g m n).

(** the text before the first colon *)
Fixpoint before_colon (s : string) : string :=
  match s with
  | EmptyString => EmptyString
  | String c r => if Ascii.eqb c ":" then EmptyString else String c (before_colon r)
  end.
Definition no_colon (s : string) : Prop := forall i, String.get i s <> Some ":"%char.

(** [s] has [t] in it *)
Definition mentions (t s : string) : Prop := exists p q, s = (p ++ t ++ q)%string.
(** the comment line [l] gives the name [n]: "!...COORDINATE REFERENCE SYSTEM...:n", n
    up to the next colon *)
Definition names_coord (l n : string) : Prop :=
  exists a b, l = (a ++ ":" ++ b)%string /\ no_colon a /\ prefix "!" a = true /\
    mentions "COORDINATE REFERENCE SYSTEM" a /\ n = before_colon b.
(** the lines before the first blank one *)
Fixpoint until_blank (ls : list string) : list string :=
  match ls with
  | [] => []
  | l :: r => match words l with [] => [] | _ => l :: until_blank r end
  end.
