(** SPECIFICATION for the text formats: rounding to a printed precision. *)
From Coq Require Import ZArith QArith Qabs Qpower.
Open Scope Q_scope.

(** [d] is the multiple of the unit [u] nearest to [q]; of two equally near ones the
    even multiple *)
Definition nearest_multiple (u q d : Q) : Prop :=
  exists n : Z, d == inject_Z n * u /\ Qabs (q - d) <= u / 2 /\ (Qabs (q - d) == u / 2 -> Z.Even n).

Definition two_decimals (q d : Q) : Prop := nearest_multiple (1 # 100) q d.
Definition four_decimals (q d : Q) : Prop := nearest_multiple (1 # 10000) q d.

(** rounded to eight significant digits *)
Definition eight_digits (q d : Q) : Prop :=
  (q == 0 -> d == 0) /\
  forall e : Z, 10 ^ e <= Qabs q -> Qabs q < 10 ^ (e + 1) -> nearest_multiple (10 ^ (e - 7)) q d.
