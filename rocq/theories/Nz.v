(** Wrapper: Coq's nsatz tactic without its notations (library, no model code). *)
From Coq Require Import Reals Nsatz.
Ltac nsz := nsatz.
