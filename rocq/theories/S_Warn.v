(** Specification vocabulary for C85: the warnings. *)
From Coq Require Import String ZArith QArith Qabs List.
From Verif Require Import Base M_Text S_Text M_AscGrid S_AscGrid M_Geometry M_Object M_Init.
Import ListNotations.

(** the anisotropy scaling a call asks for: the argument, or that of the GSTools model *)
Definition asked_scaling (c : kclass) (v : vargs) : nat -> R :=
  match a_model v with VName _ => a_scaling v | VModel m => gs_scaling c m end.

Open Scope Q_scope.

(** a grid axis: at least two evenly spaced, different coordinates, in either direction *)
Definition line_axis (l : list Q) (n : nat) (first step : Q) : Prop :=
  (2 <= n)%nat /\ ~ step == 0 /\ progression l n first step.

Definition same_numbers (l l' : list Q) : Prop :=
  List.length l = List.length l' /\ forall i, (i < List.length l)%nat -> qnth l i == qnth l' i.

(** no coordinate is below the first *)
Definition least_first (l : list Q) : Prop := forall i, (i < List.length l)%nat -> qnth l 0 <= qnth l i.
