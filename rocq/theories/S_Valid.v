(** SPECIFICATION vocabulary: parameters for which a built-in variogram model is
    a proper variogram (in two and three dimensions), and distinct data. *)
From Coq Require Import String.
From Verif Require Import Base Sums Matrix M_Variogram M_Geometry S_Geometry M_Kriging S_Kriging M_Init M_Object M_Execute S_Execute M_UK S_UK.

(** Internal parameter lists: linear [slope, nugget]; power [scale, exponent,
    nugget]; gaussian, exponential, spherical [psill, range, nugget].  Nothing negative,
    not everything 0, exponent strictly between 0 and 2, positive range. *)
Inductive proper_model (f : pyfun) (m : list R) : Prop :=
| proper_linear : f = f_linear -> 0 <= rnth m 0 -> 0 <= rnth m 1 -> 0 < rnth m 0 + rnth m 1 -> proper_model f m
| proper_power : f = f_power -> 0 <= rnth m 0 -> 0 < rnth m 1 < 2 -> 0 <= rnth m 2 -> 0 < rnth m 0 + rnth m 2 ->
    proper_model f m
| proper_gaussian : f = f_gaussian -> 0 <= rnth m 0 -> 0 < rnth m 1 -> 0 <= rnth m 2 -> 0 < rnth m 0 + rnth m 2 ->
    proper_model f m
| proper_exponential : f = f_exponential -> 0 <= rnth m 0 -> 0 < rnth m 1 -> 0 <= rnth m 2 -> 0 < rnth m 0 + rnth m 2 ->
    proper_model f m
| proper_spherical : f = f_spherical -> 0 <= rnth m 0 -> 0 < rnth m 1 -> 0 <= rnth m 2 -> 0 < rnth m 0 + rnth m 2 ->
    proper_model f m.

(** Euclidean object with a proper model. *)
Definition proper (o : obj) : Prop := o_ct o = Euclidean /\ proper_model (o_fun o) (o_params o).

(** No two data at the same place (at separation 0). *)
Definition distinct_data (o : obj) : Prop :=
  forall i j, (i < o_n o)%nat -> (j < o_n o)%nat -> i <> j -> separation o (datum o i) (datum o j) <> 0.

(** The query location is a data location, or further than eps (1e-10) from
    every datum; needed with exact_values only. *)
Definition clear_of_data (o : obj) (pos : vec3) : Prop :=
  o_exact o = true -> forall i, (i < o_n o)%nat ->
    separation o pos (datum o i) = 0 \/ eps < separation o pos (datum o i).

(** Positive nugget, or no two data at the same place. *)
Definition solvable_data (o : obj) : Prop := 0 < o_vg o 0 \/ distinct_data o.

(** Backends that exist for the object and the query. *)
Definition has_backend (o : obj) (q : query) : Prop :=
  match q_window q with
  | None => q_backend q = "vectorized"%string \/ q_backend q = "loop"%string \/ (o_class o = OK2 /\ q_backend q = "C"%string)
  | Some k => (2 <= k <= o_n o)%nat /\ (q_backend q = "loop"%string \/ (o_class o = OK2 /\ q_backend q = "C"%string))
  end.

(** Not at a datum (with exact_values: further than eps = 1e-10 from all data). *)
Definition off_data (o : obj) (pos : vec3) : Prop :=
  forall i, (i < o_n o)%nat ->
    0 < separation o pos (datum o i) /\ (o_exact o = true -> eps < separation o pos (datum o i)).

(** Universal kriging: the constant and the drift functions are linearly
    independent on the data. *)
Definition drift_independent (u : uobj) (q : query) (specs : list spec_arr) : Prop :=
  let ts := drift_terms u q specs in
  forall (c : R) (cs : nat -> R),
    (forall i, (i < o_n (u_obj u))%nat ->
       c + bsum (List.length ts) (fun k => cs k * t_data (nth k ts no_term) i) = 0) ->
    c = 0 /\ forall k, (k < List.length ts)%nat -> cs k = 0.

(** [o'] has all the data of [o] (and possibly more), and the same variogram and
    anisotropy: datum i of [o] is datum [sel i] of [o']. *)
Record more_data (sel : nat -> nat) (o o' : obj) : Prop := {
  md_class : o_class o' = o_class o; md_ct : o_ct o' = o_ct o; md_exact : o_exact o' = o_exact o;
  md_fun : o_fun o' = o_fun o; md_params : o_params o' = o_params o;
  md_scaling : o_scaling o' = o_scaling o; md_angle : o_angle o' = o_angle o;
  md_bound : forall i, (i < o_n o)%nat -> (sel i < o_n o')%nat;
  md_inj : forall i j, (i < o_n o)%nat -> (j < o_n o)%nat -> sel i = sel j -> i = j;
  md_datum : forall i, (i < o_n o)%nat -> datum o' (sel i) = datum o i }.

(** ** Building an object *)
(** Parameter lists as the user writes them: linear [slope, nugget]; power [scale,
    exponent, nugget]; gaussian, exponential and spherical [sill, range, nugget]. *)
Inductive proper_request (name : string) : list R -> Prop :=
| request_linear : forall slope nugget, name = "linear"%string ->
    0 <= slope -> 0 <= nugget -> 0 < slope + nugget -> proper_request name [slope; nugget]
| request_power : forall scale exponent nugget, name = "power"%string ->
    0 <= scale -> 0 < exponent < 2 -> 0 <= nugget -> 0 < scale + nugget -> proper_request name [scale; exponent; nugget]
| request_sill : forall sill range nugget, name = "gaussian"%string \/ name = "exponential"%string \/ name = "spherical"%string ->
    0 < sill -> 0 < range -> 0 <= nugget <= sill -> proper_request name [sill; range; nugget].

(** The built-in model [name] with such parameters [l], and no zero scaling. *)
Record proper_variogram (c : kclass) (v : vargs) (name : string) (l : list R) : Prop := {
  pv_model : a_model v = VName name;
  pv_params : a_params v = PList l;
  pv_request : proper_request name l;
  pv_scaling : forall k, (k < cdim c - 1)%nat -> a_scaling v k <> 0 }.

(** Two or more data, as many coordinates as values, valid options. *)
Record proper_call (c : kclass) (A : cargs) : Prop := {
  pc_type : c_pinv_type A = "pinv"%string \/ c_pinv_type A = "pinvh"%string;
  pc_exact : c_exact A <> None;
  pc_ct : c = OK2 -> c_ct A = "euclidean"%string;
  pc_pinv : c_pinv A = false;
  pc_dim : List.length (c_coords A) = cdim c;
  pc_len : forall x, In x (c_coords A) -> List.length x = List.length (c_values A);
  pc_two : (2 <= List.length (c_values A))%nat }.

(** No two data with the same coordinates. *)
Definition distinct_inputs (coords : list (list R)) (n : nat) : Prop :=
  forall i j, (i < n)%nat -> (j < n)%nat -> i <> j -> exists x, In x coords /\ rnth x i <> rnth x j.

(** The constructor computes the statistics: always, except for OrdinaryKriging
    with enable_statistics=False. *)
Definition with_stats (c : kclass) (A : cargs) : Prop := c <> OK2 \/ c_stat A = true.

(** Drift arguments that are complete (external_Z left out). *)
Record proper_drifts (c : kclass) (D : dargs) (n : nat) : Prop := {
  pd_external : in_names "external_Z" (d_terms D) = true -> c <> UK2;
  pd_wells : in_names "point_log" (d_terms D) = true -> c = UK2 ->
    exists w rows, d_point D = Some (false, w :: rows);
  pd_specified : in_names "specified" (d_terms D) = true ->
    exists t ts, d_spec D = Some (t :: ts) /\ forall x, In x (t :: ts) -> List.length x = n;
  pd_functional : in_names "functional" (d_terms D) = true -> exists f fs, d_fun D = Some (f :: fs) }.
