(** SPECIFICATION for C84, universal kriging. *)
From Verif Require Import Base M_Object M_Execute S_Execute M_UK S_UK M_Values.

(** What execute returns when some data values are NaN, compared with the result [r] for
    numbers in their place: the same shape, mask and variances; there is no moving window,
    so one NaN makes every estimate shown NaN. *)
Definition uk_nan_result (u : uobj) (q : query) (z : nat -> option R) (r : result) (rn : result_v Nval) : Prop :=
  rv_shape rn = r_shape r /\ (forall p, rv_variance rn p = r_variance r p) /\ (forall p, rv_value rn p = None <-> r_value r p = None) /\
  forall p pos, shown (u_obj u) q p pos ->
    ((exists i, (i < o_n (u_obj u))%nat /\ z i = None) -> rv_value rn p = Some None) /\
    ((forall i, (i < o_n (u_obj u))%nat -> z i <> None) -> exists v, r_value r p = Some v /\ rv_value rn p = Some (Some v)).
