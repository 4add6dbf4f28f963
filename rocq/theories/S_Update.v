(** SPECIFICATION for C83: adding one datum to a data set. *)
From Coq Require Import String.
From Verif Require Import Base Sums Matrix M_Variogram M_Geometry S_Geometry M_Kriging S_Kriging M_Init M_Object M_Execute S_Execute
  S_Valid M_UK S_UK.

(** [o'] has the data of [o], in the same order, and one more at the end; same variogram,
    anisotropy and exact_values. *)
Record adds (o o' : obj) : Prop := {
  ad_more : more_data (fun i => i) o o';
  ad_n : o_n o' = S (o_n o);
  ad_values : forall i, (i < o_n o)%nat -> o_values o' i = o_values o i }.
(** Location and value of the new datum. *)
Definition new_place (o o' : obj) : vec3 := datum o' (o_n o).
Definition new_value (o o' : obj) : R := o_values o' (o_n o).

(** [o''] has the data locations of [o'], with value 1 at datum k and 0 at the others. *)
Record indicator (k : nat) (o' o'' : obj) : Prop := {
  in_more : more_data (fun i => i) o' o'';
  in_n : o_n o'' = o_n o';
  in_values : forall i, (i < o_n o')%nat -> o_values o'' i = if Nat.eqb i k then 1 else 0 }.

(** The drift functions [ts] of the smaller object (at cell p of its query) and [ts'] of the
    larger one (at cell p' of its query) are the same functions at the common data and at the
    cells; the larger one's values at the new datum are the smaller one's at cell pP of a
    query there. *)
Definition drift_adds (n : nat) (place pos : vec3) (ts : list term) (p : nat) (tsP : list term) (pP : nat) (ts' : list term) (p' : nat) : Prop :=
  List.length ts' = List.length ts /\ List.length tsP = List.length ts /\
  forall k, (k < List.length ts)%nat ->
    (forall i, (i < n)%nat -> t_data (nth k ts' no_term) i = t_data (nth k ts no_term) i) /\
    (forall i, (i < n)%nat -> t_data (nth k tsP no_term) i = t_data (nth k ts no_term) i) /\
    t_query (nth k ts' no_term) p' pos = t_query (nth k ts no_term) p pos /\
    t_data (nth k ts' no_term) n = t_query (nth k tsP no_term) pP place.

(** Constructor arguments [A'] are [A] with one more datum at the end of each list. *)
Record appended (A A' : cargs) : Prop := {
  ap_coords : Forall2 (fun l l' => exists x, l' = (l ++ [x])%list) (c_coords A) (c_coords A');
  ap_values : exists z, c_values A' = (c_values A ++ [z])%list;
  ap_v : c_v A' = c_v A; ap_ct : c_ct A' = c_ct A; ap_exact : c_exact A' = c_exact A }.
