(** SPECIFICATION for C28: bilinear interpolation on a rectangular grid. *)
From Verif Require Import Base Sums Matrix.

Definition ascending (l : list R) : Prop :=
  forall i j, (i < j)%nat -> (j < List.length l)%nat -> rnth l i < rnth l j.
Definition descending (l : list R) : Prop :=
  forall i j, (i < j)%nat -> (j < List.length l)%nat -> rnth l j < rnth l i.
(** x is within the range of the grid coordinates *)
Definition within (l : list R) (x : R) : Prop := (exists a, In a l /\ a <= x) /\ (exists b, In b l /\ x <= b).

(** Interpolation in the rectangle [x1,x2] x [y1,y2] with corner values z11
    (at x1,y1), z12 (at x2,y1), z21 (at x1,y2), z22 (at x2,y2). *)
Definition bilinear (x1 x2 y1 y2 z11 z12 z21 z22 x y : R) : R :=
  let t := (x - x1) / (x2 - x1) in let u := (y - y1) / (y2 - y1) in
  (1 - u) * ((1 - t) * z11 + t * z12) + u * ((1 - t) * z21 + t * z22).
