(** SPECIFICATION for C73: scores and parameter search of Krige, in terms of the
    constructors and of the direct calls of S_Compat. *)
From Coq Require Import String.
From Verif Require Import Base Sums Matrix M_Variogram M_Geometry M_Kriging M_Init M_Object M_Execute M_UK M_Compat S_Compat M_Call S_Learn M_Search.

(** The call Krige( **parameters ), with the parameters of [k] except those in [kw]. *)
Definition new_with (k : krige) (kw : kwargs) : res krige := krige_call [] (dict_update (get_params_of k) kw).

(** [v] is the coefficient of determination of the predictions [p] for the values [y]
    (nan for fewer than two values). *)
Definition determination (y p : list R) (v : option R) : Prop :=
  let n := List.length y in
  let one := fun _ : nat => 1 in
  let tot := wsquares n one (rnth y) (fun _ => wmean n one (rnth y)) in
  let res := wsquares n one (rnth y) (rnth p) in
  ((n < 2)%nat -> v = None) /\
  ((2 <= n)%nat -> exists r, v = Some r /\ r <= 1 /\ (r = 1 <-> forall i, (i < n)%nat -> rnth p i = rnth y i) /\ (tot <> 0 -> r = 1 - res / tot)).

(** The score on the rows [test] of the model constructed directly from the rows
    [train] with the options of [k]: nan if the constructor or execute raises. *)
Definition values_of (a : list nat * (nat -> option R)) (p : list R) : Prop :=
  fst a = [List.length p] /\ forall i, (i < List.length p)%nat -> snd a i = Some (rnth p i).
Definition direct_score (E : env) (k : krige) (c : kclass) (x : points) (y : list R) (train test : list nat) (v : option R) : Prop :=
  match direct_call E k c (rows x train) (entries y train) with
  | Err _ => v = None
  | Ok m => match direct_predict E k m (rows x test) "loop"%string with
            | Err _ => v = None
            | Ok a => test <> [] -> exists p, values_of a p /\ List.length p = List.length test /\ determination (entries y test) p v
            end
  end.

(** A search is over at least two values per anisotropy tuple, three angles. *)
Definition full_tuples (k : krige) : Prop := (2 <= List.length (k_scaling k))%nat /\ (3 <= List.length (k_angle k))%nat.
(** mean of the test scores of one candidate *)
Definition mean_of (ts : list task) (v : option R) : Prop :=
  (In None (map t_test ts) -> v = None) /\
  (forall l, map t_test ts = map Some l -> v = Some (fold_right Rplus 0 l / INR (List.length l))).
(** [a] is worse than or equal to [b]; nan is the worst *)
Definition no_better (a b : option R) : Prop := match a, b with Some r, Some s => r <= s | Some _, None => False | None, _ => True end.
