(** SPECIFICATION for C82: which drift functions two universal kriging objects can
    express. *)
From Coq Require Import String.
From Verif Require Import Base Sums Matrix M_Variogram M_Geometry S_Geometry M_Kriging S_Kriging M_Init M_Object
  M_Execute S_Execute M_UK S_UK S_Bilinear S_Drift.

(** Drift function [t], at the first [n] data and at cell p of one query, is a constant
    plus a linear combination of the functions [ts], at the data and at cell p' of
    another query for the same location. *)
Definition expressed (n : nat) (pos : vec3) (p : nat) (t : term) (p' : nat) (ts : list term) : Prop :=
  exists c cs,
    (forall i, (i < n)%nat -> t_data t i = c + combination cs (map (fun t' => t_data t' i) ts)) /\
    t_query t p pos = c + combination cs (map (fun t' => t_query t' p' pos) ts).
Definition same_span (n : nat) (pos : vec3) (p : nat) (ts : list term) (p' : nat) (ts' : list term) : Prop :=
  (forall t, In t ts -> expressed n pos p t p' ts') /\ (forall t, In t ts' -> expressed n pos p' t p ts).

(** One of the drift functions is, at the data, a constant plus a combination of others. *)
Definition redundant (n : nat) (ts : list term) : Prop :=
  exists l1 t l2 c cs, ts = l1 ++ t :: l2 /\
    forall i, (i < n)%nat -> t_data t i = c + combination cs (map (fun t' => t_data t' i) (l1 ++ l2)).

(** ---- the same trend, requested in another way ---- *)
(** The coordinates as functions, for a functional drift. *)
Definition coordinate_functions (dim : nat) : list (R -> R -> R -> R) :=
  match dim with
  | 2%nat => [fun x _ _ => x; fun _ y _ => y]
  | _ => [fun x _ _ => x; fun _ y _ => y; fun _ _ z => z]
  end.
(** [D'] asks for the terms of [D], except that the functional drift terms of [D'] are the
    coordinate functions and those of [D], and the regional linear drift is not asked for. *)
Record linear_as_functions (c : kclass) (D D' : dargs) : Prop := {
  lf_linear : asked D "regional_linear" = true; lf_linear' : asked D' "regional_linear" = false;
  lf_fun' : asked D' "functional" = true;
  lf_funs : d_fun D' = Some (coordinate_functions (cdim c) ++ (if asked D "functional" then opt_list (d_fun D) else []));
  lf_same : forall t, In t ["external_Z"; "point_log"; "specified"]%string -> asked D' t = asked D t;
  lf_point : d_point D' = d_point D; lf_ext : d_ext D' = d_ext D; lf_ext_x : d_ext_x D' = d_ext_x D;
  lf_ext_y : d_ext_y D' = d_ext_y D; lf_spec : d_spec D' = d_spec D }.

(** Cell p of array s is the k-th coordinate of the location. *)
Definition coordinate_arrays (dim : nat) (q : query) (specs : list spec_arr) (p : nat) (pos : vec3) : Prop :=
  map (fun s => spec_at q s p) specs = map (fun k => coord k pos) (seq 0 dim).

(** ---- the same covariates, in other units ---- *)
(** [D'] is [D] with the covariates in other units: well strengths multiplied by nonzero
    factors, the external grid (with ascending axes) and the functions mapped by
    x |-> a x + b with a <> 0. *)
Record other_units (D D' : dargs) : Prop := {
  ou_terms : d_terms D' = d_terms D;
  ou_point : match d_point D, d_point D' with
             | Some (it, rows), Some (it', rows') => it' = it /\
                 Forall2 (fun '(x, y, s) '(x', y', s') => exists a, a <> 0 /\ x' = x /\ y' = y /\ s' = a * s) rows rows'
             | None, None => True | _, _ => False end;
  ou_ext_x : d_ext_x D' = d_ext_x D; ou_ext_y : d_ext_y D' = d_ext_y D;
  ou_axes : (forall ex, d_ext_x D = Some ex -> ascending ex) /\ (forall ey, d_ext_y D = Some ey -> ascending ey);
  ou_ext : match d_ext D, d_ext D' with
           | Some (rows, cols, f), Some (rows', cols', f') => rows' = rows /\ cols' = cols /\
               exists a b, a <> 0 /\ forall i j, f' i j = a * f i j + b
           | None, None => True | _, _ => False end;
  ou_fun : match d_fun D, d_fun D' with
           | Some fs, Some fs' => Forall2 (fun f f' => exists a b, a <> 0 /\ forall x y z : R, f' x y z = a * f x y z + b) fs fs'
           | None, None => True | _, _ => False end }.
(** ... and so are the specified drift arrays, at the data and at cells p, p' of the
    two queries, each with the same a and b for both. *)
Definition specified_units (D D' : dargs) (q q' : query) (specs specs' : list spec_arr) (p p' : nat) : Prop :=
  match d_spec D, d_spec D' with
  | Some ds, Some ds' =>
      Forall2 (fun '(d, s) '(d', s') => exists a b, a <> 0 /\
                 (forall i, (i < List.length d)%nat -> rnth d' i = a * rnth d i + b) /\
                 spec_at q' s' p' = a * spec_at q s p + b)
              (combine ds specs) (combine ds' specs')
  | None, None => True | _, _ => False end.
(** Exactly one kind of drift term is asked for. *)
Definition asks_only (D : dargs) (name : string) : Prop := forall t, In t drift_names -> asked D t = String.eqb t name.
