(** MODEL: text input and output shared by the grid readers and writers of
    kriging_tools.py: str.split, readline, number formatting, float(), int().

    Numbers are rationals.  Floating-point arithmetic is a parameter [fl], the
    rounding applied after every operation and by float(): [exact] gives exact
    arithmetic, [round64] IEEE binary64 (round to nearest, ties to even; exponents
    unbounded above and below).  Infinities, the sign of zero, "_" inside numbers and
    non-ASCII characters are not modelled. *)
From Coq Require Import String Ascii ZArith QArith Qround Qpower Lia List.
From Verif Require Import Base.
Import ListNotations.
Open Scope string_scope.
Open Scope Z_scope.

(** ** Rounding *)

(** nearest integer, ties to even *)
Definition rhe (q : Q) : Z :=
  let n := Qnum q in let d := Zpos (Qden q) in
  let f := n / d in let r := n mod d in
  match 2 * r ?= d with
  | Lt => f
  | Gt => f + 1
  | Eq => if Z.even f then f else f + 1
  end.

Definition pow10 (e : Z) : Q := Qpower 10 e.
Definition pow2 (e : Z) : Q := Qpower 2 e.

Definition exact (q : Q) : Q := q.

(** IEEE binary64 with unbounded exponent: 53 significant bits.  [e] is the exponent
    of |q|: 2^e <= |q| < 2^(e+1). *)
Definition round64 (q : Q) : Q :=
  if Qnum q =? 0 then 0%Q else
  let a := Qabs.Qabs q in
  let e0 := Z.log2 (Qnum a) - Z.log2 (Zpos (Qden a)) in
  let e := if Qle_bool (pow2 e0) a then e0 else e0 - 1 in
  Qred (inject_Z (rhe (q * pow2 (52 - e))) * pow2 (e - 52))%Q.

(** ** Characters and strings *)

(** str.isspace for ASCII: \t \n \v \f \r, 28-31, space *)
Definition is_space (c : ascii) : bool :=
  let n := nat_of_ascii c in
  (((9 <=? n) && (n <=? 13)) || ((28 <=? n) && (n <=? 32)))%nat.

Definition nl : string := String (ascii_of_nat 10) "".

(** str.split() *)
Fixpoint words_aux (acc s : string) : list string :=
  match s with
  | "" => match acc with "" => [] | _ => [acc] end
  | String c r =>
      if is_space c then match acc with "" => words_aux "" r | _ => acc :: words_aux "" r end
      else words_aux (acc ++ String c "") r
  end.
Definition words (s : string) : list string := words_aux "" s.

(** the lines of a file, as readline returns them one after the other, without the
    newline at the end; readline returns "" after the last one *)
Fixpoint lines_aux (acc s : string) : list string :=
  match s with
  | "" => match acc with "" => [] | _ => [acc] end
  | String c r =>
      if (nat_of_ascii c =? 10)%nat then acc :: lines_aux "" r
      else lines_aux (acc ++ String c "") r
  end.
Definition lines (s : string) : list string := lines_aux "" s.

(** str.split(c) for a single character c *)
Fixpoint split_on_aux (sep : ascii) (acc s : string) : list string :=
  match s with
  | "" => [acc]
  | String c r => if Ascii.eqb c sep then acc :: split_on_aux sep "" r else split_on_aux sep (acc ++ String c "") r
  end.
Definition split_on (sep : ascii) (s : string) : list string := split_on_aux sep "" s.

(** str.replace(c, "") for a single character c *)
Fixpoint remove_char (c : ascii) (s : string) : string :=
  match s with
  | "" => ""
  | String d r => if Ascii.eqb d c then remove_char c r else String d (remove_char c r)
  end.

(** str.lower for ASCII *)
Definition lower_char (c : ascii) : ascii :=
  let n := nat_of_ascii c in if ((65 <=? n) && (n <=? 90))%nat then ascii_of_nat (n + 32) else c.
Fixpoint lower (s : string) : string :=
  match s with "" => "" | String c r => String (lower_char c) (lower r) end.

(** [sub in s] *)
Definition contains (sub s : string) : bool := match String.index 0 sub s with Some _ => true | None => false end.

Fixpoint spaces (n : nat) : string := match n with O => "" | S k => String " " (spaces k) end.

(** format specifications "<w" and (default for numbers) ">w" *)
Definition ljust (w : nat) (s : string) : string := s ++ spaces (w - String.length s).
Definition rjust (w : nat) (s : string) : string := spaces (w - String.length s) ++ s.

(** ** Decimal numerals *)

Definition digit_char (d : Z) : ascii := ascii_of_nat (48 + Z.to_nat d).
Definition char_digit (c : ascii) : option Z :=
  let n := nat_of_ascii c in if ((48 <=? n) && (n <=? 57))%nat then Some (Z.of_nat n - 48) else None.

(** the [k] lowest decimal digits of [n] *)
Fixpoint pad (k : nat) (n : Z) : string :=
  match k with O => "" | S j => pad j (n / 10) ++ String (digit_char (n mod 10)) "" end.

(** number of decimal digits (at least one) *)
Fixpoint ndig_aux (fuel : nat) (n : Z) : nat :=
  match fuel with
  | O => 1%nat
  | S f => if n <? 10 then 1%nat else S (ndig_aux f (n / 10))
  end.
Definition ndig (n : Z) : nat := ndig_aux (S (Z.to_nat (Z.log2 n))) n.

(** str(n) of a non-negative int *)
Definition fmt_nat (n : Z) : string := pad (ndig n) n.
(** str(n), "{:n}".format(n) (C locale) of an int *)
Definition fmt_int (n : Z) : string := (if n <? 0 then "-" else "") ++ fmt_nat (Z.abs n).

(** "{:.pf}".format(q): correctly rounded (half to even) to p > 0 decimals; a negative
    number keeps its sign even when it rounds to zero *)
Definition fmt_fixed (p : nat) (q : Q) : string :=
  let n := rhe (Qabs.Qabs q * pow10 (Z.of_nat p))%Q in
  (if Qnum q <? 0 then "-" else "") ++ fmt_nat (n / 10 ^ Z.of_nat p) ++ "." ++ pad p n.

(** decimal exponent: 10^e <= q < 10^(e+1), for q > 0 *)
Definition dec_exp (q : Q) : Z :=
  let e0 := Z.of_nat (ndig (Qnum q)) - Z.of_nat (ndig (Zpos (Qden q))) in
  if Qle_bool (pow10 e0) q then e0 else e0 - 1.

(** mantissa (p+1 digits, as an integer) and exponent of "{:.pE}" *)
Definition sci (p : nat) (q : Q) : Z * Z :=
  if Qnum q =? 0 then (0, 0) else
  let a := Qabs.Qabs q in
  let e := dec_exp a in
  let m := rhe (a * pow10 (Z.of_nat p - e))%Q in
  if m =? 10 ^ (Z.of_nat p + 1) then (10 ^ Z.of_nat p, e + 1) else (m, e).

(** "{:.pE}".format(q) *)
Definition fmt_sci (p : nat) (q : Q) : string :=
  let '(m, e) := sci p q in
  (if Qnum q <? 0 then "-" else "") ++ pad 1 (m / 10 ^ Z.of_nat p) ++ "." ++ pad p m ++
  "E" ++ (if e <? 0 then "-" else "+") ++ pad (Nat.max 2 (ndig (Z.abs e))) (Z.abs e).

(** ** Reading numbers *)

Fixpoint pdigits (acc : Z) (any : bool) (s : string) : option Z :=
  match s with
  | "" => if any then Some acc else None
  | String c r => match char_digit c with Some d => pdigits (10 * acc + d) true r | None => None end
  end.

(** int(s): None for ValueError *)
Definition parse_int (s : string) : option Z :=
  match s with
  | String "-" r => option_map Z.opp (pdigits 0 false r)
  | String "+" r => pdigits 0 false r
  | _ => pdigits 0 false s
  end.

Definition scale (m e : Z) : Q := (inject_Z m * pow10 e)%Q.

(** digits [. digits] [(e|E) [sign] digits] with at least one digit in the mantissa;
    [fd]: digits seen after the point *)
Fixpoint pmant (acc : Z) (any : bool) (fd : option Z) (s : string) : option Q :=
  match s with
  | "" => if any then Some (scale acc (- match fd with Some k => k | None => 0 end)) else None
  | String c r =>
      match char_digit c with
      | Some d => pmant (10 * acc + d) true (option_map Z.succ fd) r
      | None =>
          if Ascii.eqb c "." then match fd with None => pmant acc any (Some 0) r | Some _ => None end
          else if (Ascii.eqb c "e" || Ascii.eqb c "E")%bool then
            if any then match parse_int r with
                        | Some e => Some (scale acc (e - match fd with Some k => k | None => 0 end))
                        | None => None
                        end
            else None
          else None
      end
  end.

(** the value denoted by a decimal numeral *)
Definition decimal (s : string) : option Q :=
  match s with
  | String "-" r => option_map Qopp (pmant 0 false None r)
  | String "+" r => pmant 0 false None r
  | _ => pmant 0 false None s
  end.

(** float(s): None for ValueError; "nan" and "inf" are not modelled (None) *)
Definition parse_float (fl : Q -> Q) (s : string) : option Q := option_map fl (decimal s).

(** numpy.arange(start, stop, step) of floats: ceil((stop - start) / step) values
    start, start + step, start + i * ((start + step) - start); a zero step raises
    ZeroDivisionError for Python floats *)
Definition arange (fl : Q -> Q) (start stop step : Q) : res (list Q) :=
  if Qnum step =? 0 then Err ZeroDivisionErr else
  let len := Z.to_nat (Qceiling (fl (fl (stop - start) / step)))%Q in
  let next := fl (start + step)%Q in
  let delta := fl (next - start)%Q in
  Ok (map (fun i => match i with
                    | O => start
                    | S O => next
                    | _ => fl (start + fl (inject_Z (Z.of_nat i) * delta))%Q
                    end) (seq 0 len)).

(** ** Grids *)

(** a cell of a possibly masked float array *)
Inductive cell := Num (q : Q) | NaN | Masked.

Record grid (A : Type) := { g_rows : nat; g_cols : nat; g_at : nat -> nat -> A }.
Arguments g_rows {A}. Arguments g_cols {A}. Arguments g_at {A}.

(** numpy.squeeze leaves a 2-D array 2-D iff no axis has length 1 *)
Definition two_dim {A} (z : grid A) : bool := negb ((g_rows z =? 1) || (g_cols z =? 1))%nat.

(** z = np.array(z.tolist(no_data)) when something is masked *)
Definition fill (no_data : Q) (c : cell) : cell := match c with Masked => Num no_data | _ => c end.

(** what a writer leaves behind: None if the file was not opened, Some text otherwise *)
Definition written : Type := (option string * res unit)%type.

Definition qnth (l : list Q) (i : nat) : Q := nth i l 0%Q.

(** numpy.isclose(a, b): |a - b| <= 1e-8 + 1e-5 * |b| *)
Definition isclose (fl : Q -> Q) (a b : Q) : bool :=
  Qle_bool (Qabs.Qabs (fl (a - b)%Q))
           (fl (fl (1 # 100000000) + fl (fl (1 # 100000) * Qabs.Qabs b)))%Q.
