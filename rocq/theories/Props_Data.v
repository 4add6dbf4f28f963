(** PROPERTIES C14, C17, C22, C49, C51, C52: how ordinary kriging (2D and 3D)
    depends on the data and on the options.  Vocabulary is in S_Execute. *)
From Coq Require Import String.
From Verif Require Import Base Sums Matrix M_Variogram M_Geometry S_Geometry M_Kriging S_Kriging M_Init M_Object M_Execute S_Execute
  P_Object P_Execute P_OK P_Linear Witness P_Exec2 P_Data2 P_Dup P_Motion P_Options Witness2.

(** C14.  With given variogram parameters (constructor and all updates) the
    prediction is linear in the data values and the variance ignores them. *)
Theorem C14_affine_change_of_values :
  forall E c A us o o' q r r' p pos a b,
    built E c A us o -> built E c (with_values A (map (fun z => a * z + b) (c_values A))) us o' ->
    (forall v, In v (c_v A :: us) -> explicit_params v) ->
    run E o q r -> run E o' q r' -> shown o q p pos -> well_posed o q pos ->
    exists v s, r_value r p = Some v /\ r_variance r p = Some s /\
                r_value r' p = Some (a * v + b) /\ r_variance r' p = Some s.
Proof. exact affine. Qed.
Print Assumptions C14_affine_change_of_values.

Theorem C14_sum_of_data_sets :
  forall E c A us z1 z2 o1 o2 o q r1 r2 r p pos,
    List.length z2 = List.length z1 ->
    built E c (with_values A z1) us o1 -> built E c (with_values A z2) us o2 ->
    built E c (with_values A (map (fun i => rnth z1 i + rnth z2 i) (seq 0 (List.length z1)))) us o ->
    (forall v, In v (c_v A :: us) -> explicit_params v) ->
    run E o1 q r1 -> run E o2 q r2 -> run E o q r -> shown o q p pos ->
    exists v1 v2 s, r_value r1 p = Some v1 /\ r_value r2 p = Some v2 /\ r_value r p = Some (v1 + v2) /\
      r_variance r1 p = Some s /\ r_variance r2 p = Some s /\ r_variance r p = Some s.
Proof. exact additive. Qed.
Print Assumptions C14_sum_of_data_sets.

Example C14_nonvacuous : exists E A o o' q r r',
  built E OK2 A [] o /\ built E OK2 (with_values A (map (fun z => 2 * z + 1) (c_values A))) [] o' /\
  explicit_params (c_v A) /\ run E o q r /\ run E o' q r' /\ shown o q 0 (1, 1, 0) /\ well_posed o q (1, 1, 0).
Proof.
  destruct (two_run 1 1 7 8 true 1 1 false None ltac:(lra)) as (o & r & Ho & Hr).
  destruct (two_run 1 1 (2 * 7 + 1) (2 * 8 + 1) true 1 1 false None ltac:(lra)) as (o' & r' & Ho' & Hr').
  destruct (two_fields _ _ _ _ _ _ _ _ Ho) as (_&_&Hc&_&_&_&Hp&_).
  exists (wit_env false None), (two_args 1 1 7 8 true false), o, o', (one_point 1 1 "vectorized"), r, r'.
  split; [split; [reflexivity|eexists; split; [exact Ho|reflexivity]]|].
  split; [split; [reflexivity|eexists; split; [exact Ho'|reflexivity]]|].
  split; [left; discriminate|]. split; [exact Hr|]. split; [exact Hr'|].
  split; [apply (one_point_cell o 1 1 "vectorized" Hc)|left; exact Hp].
Qed.

(** C17.  Same data in another order, also with automatic fits: same results.
    (With a moving window: no two data equally far from the point.) *)
Theorem C17_order_of_data_irrelevant :
  forall E c A us s coords z o o' q r r' p pos,
    (forall j, (j < cdim c)%nat -> rearranged s (nth j (c_coords A) []) (nth j coords [])) ->
    rearranged s (c_values A) z -> perm_on (List.length (c_values A)) s ->
    built E c A us o -> built E c (with_data A coords z) us o' ->
    run E o q r -> run E o' q r' -> shown o q p pos ->
    (q_window q <> None -> no_ties o pos) ->
    r_value r p = r_value r' p /\ r_variance r p = r_variance r' p.
Proof. exact permuted_data. Qed.
Print Assumptions C17_order_of_data_irrelevant.

Example C17_nonvacuous : exists E A coords z o o' q r r',
  (forall j, (j < 2)%nat -> rearranged (fun i => 1 - i)%nat (nth j (c_coords A) []) (nth j coords [])) /\
  rearranged (fun i => 1 - i)%nat (c_values A) z /\ perm_on (List.length (c_values A)) (fun i => 1 - i)%nat /\
  built E OK2 A [] o /\ built E OK2 (with_data A coords z) [] o' /\
  run E o q r /\ run E o' q r' /\ shown o q 0 (1, 1, 0) /\ q_window q = None.
Proof. exact ex_swapped. Qed.

(** C22.  Coinciding data, no nugget. *)
Theorem C22_duplicates_raise :
  forall E o q i j, env_ok E -> reachable E o -> ordinary o -> o_pinv o = false -> q_window q = None ->
    available E o (q_backend q) -> good_query o q -> coincident o i j -> o_vg o 0 = 0 ->
    execute E o q = Err LinAlgError.
Proof. exact duplicate_raises. Qed.
Print Assumptions C22_duplicates_raise.

Example C22_nonvacuous : exists E o q, env_ok E /\ reachable E o /\ ordinary o /\ o_pinv o = false /\ q_window q = None /\
    available E o (q_backend q) /\ good_query o q /\ coincident o 0 1 /\ o_vg o 0 = 0.
Proof. exact ex_dup_raises. Qed.

(** a moving window that returns a number never contained both *)
Theorem C22_window_never_contains_both :
  forall E o q r p pos k i j, run E o q r -> q_window q = Some k -> shown o q p pos -> o_vg o 0 = 0 -> coincident o i j ->
    exists sel v s, nearest o k pos sel /\ r_value r p = Some v /\ r_variance r p = Some s /\ local_estimate o k sel pos v s /\
      ~ ((exists a, (a < k)%nat /\ sel a = i) /\ exists b, (b < k)%nat /\ sel b = j).
Proof. exact duplicate_window. Qed.
Print Assumptions C22_window_never_contains_both.

(** with pseudo_inv (any nugget): there are weights, equal at i and j, that give
    the prediction for every set of values *)
Theorem C22_duplicates_get_equal_weights :
  forall E c A us o q r p pos i j,
    built E c A us o -> (forall v, In v (c_v A :: us) -> explicit_params v) ->
    run E o q r -> q_window q = None -> shown o q p pos -> coincident o i j ->
    exists w, w i = w j /\
      forall z o' r', built E c (with_values A z) us o' -> run E o' q r' ->
        r_value r' p = Some (bsum (o_n o) (fun a => w a * rnth z a)).
Proof. exact duplicates_equal_weights. Qed.
Print Assumptions C22_duplicates_get_equal_weights.

(** ... and the result is that of the data with the two averaged into one *)
Theorem C22_duplicates_are_averaged :
  forall E o o' q r r' p pos i j, run E o q r -> run E o' q r' -> q_window q = None -> shown o q p pos ->
    merges i j o o' -> coincident o i j -> o_vg o 0 = 0 -> regular o' ->
    r_value r p = r_value r' p /\ r_variance r p = r_variance r' p.
Proof. exact merged_duplicates. Qed.
Print Assumptions C22_duplicates_are_averaged.

Example C22_nonvacuous_pinv : exists E o o' q r r', run E o q r /\ run E o' q r' /\ q_window q = None /\ shown o q 0 (1, 1, 0) /\
    merges 0 1 o o' /\ coincident o 0 1 /\ o_vg o 0 = 0 /\ regular o' /\ o_pinv o = true.
Proof. exact ex_dup_merge. Qed.

(** whenever both return, pseudo_inv and its type change nothing *)
Theorem C22_pseudo_inverse_irrelevant :
  forall E c A us b t o o' q r r' p pos, built E c A us o -> built E c (with_pinv A b t) us o' ->
    run E o q r -> run E o' q r' -> shown o q p pos ->
    r_value r p = r_value r' p /\ r_variance r p = r_variance r' p.
Proof. exact pinv_irrelevant. Qed.
Print Assumptions C22_pseudo_inverse_irrelevant.

(** C49.  Constructor: what is accepted, ... *)
Theorem C49_constructor_accepts_only :
  forall E c A o, List.length (c_coords A) = cdim c -> construct E c A = Ok o ->
    In (c_pinv_type A) ["pinv"; "pinvh"]%string /\ c_exact A <> None /\
    (forall name, a_model (c_v A) = VName name ->
       In name builtin_names \/ (name = "custom"%string /\ exists f, a_fun (c_v A) = FCallable f)) /\
    (c = OK2 -> c_ct A = "euclidean"%string \/ c_ct A = "geographic"%string) /\
    (forall l, In l (c_coords A) -> List.length l = List.length (c_values A)) /\
    (2 <= List.length (c_values A))%nat.
Proof. exact construct_accepts. Qed.
Print Assumptions C49_constructor_accepts_only.

(** ... what is raised otherwise, ... *)
Theorem C49_constructor_rejects :
  forall E c A,
    (~ In (c_pinv_type A) ["pinv"; "pinvh"]%string -> construct E c A = Err ValueError) /\
    (c_exact A = None -> construct E c A = Err ValueError) /\
    (forall name, a_model (c_v A) = VName name -> ~ In name builtin_names ->
       (name <> "custom"%string \/ forall f, a_fun (c_v A) <> FCallable f) -> construct E c A = Err ValueError) /\
    (forall name, c = OK2 -> a_model (c_v A) = VName name ->
       c_ct A <> "euclidean"%string -> c_ct A <> "geographic"%string -> construct E c A = Err ValueError).
Proof.
  intros E c A. split; [apply construct_pinv_type|]. split; [apply construct_exact_flag|]. split; [apply construct_variogram_name|].
  intros name ->. apply construct_coord_type.
Qed.
Print Assumptions C49_constructor_rejects.

(** ... and that valid arguments are accepted (OrdinaryKriging without statistics, given parameters). *)
Theorem C49_constructor_accepts_valid :
  forall E A name f p x y,
    c_pinv_type A = "pinv"%string \/ c_pinv_type A = "pinvh"%string -> c_exact A <> None ->
    c_ct A = "euclidean"%string \/ c_ct A = "geographic"%string ->
    c_coords A = [x; y] -> List.length x = List.length y -> List.length (c_values A) = List.length x -> (2 <= List.length x)%nat ->
    a_model (c_v A) = VName name -> explicit name (a_params (c_v A)) f p -> c_stat A = false ->
    exists o, construct E OK2 A = Ok o.
Proof. exact construct_explicit_geo. Qed.
Print Assumptions C49_constructor_accepts_valid.

(** execute: accepted options ... *)
Theorem C49_execute_accepts_only :
  forall E o q r, ordinary o -> execute E o q = Ok r ->
    good_query o q /\
    (match q_window q with Some k => (2 <= k)%nat | None => True end) /\
    (q_backend q = "loop"%string \/ (q_backend q = "vectorized"%string /\ q_window q = None) \/
     (q_backend q = "C"%string /\ o_class o = OK2)).
Proof. exact execute_accepts. Qed.
Print Assumptions C49_execute_accepts_only.

(** ... are really accepted ... *)
Theorem C49_execute_accepts_valid :
  forall E o q, env_ok E -> reachable E o -> ordinary o -> good_query o q -> q_window q = None ->
    available E o (q_backend q) -> o_pinv o = false -> regular o -> exists r, execute E o q = Ok r.
Proof. exact execute_valid. Qed.
Print Assumptions C49_execute_accepts_valid.

(** ... and the others raise ValueError. *)
Theorem C49_execute_rejects :
  forall E o q, env_ok E -> ordinary o ->
    (~ In (q_style q) style_names -> execute E o q = Err ValueError) /\
    (good_query o q -> window_in_range o q ->
       ~ (q_backend q = "vectorized"%string /\ q_window q = None) -> q_backend q <> "loop"%string ->
       ~ (q_backend q = "C"%string /\ o_class o = OK2) -> execute E o q = Err ValueError) /\
    (q_style q = "points"%string -> (match q_window q with Some k => (2 <= k)%nat | None => True end) ->
       (List.length (ys q) <> List.length (xs q) \/ (o_dim o = 3%nat /\ List.length (zs q) <> List.length (xs q))) ->
       execute E o q = Err ValueError).
Proof.
  intros E o q HE Hord. split; [apply execute_bad_style, Hord|]. split; [apply execute_bad_backend; assumption|apply execute_mismatched, Hord].
Qed.
Print Assumptions C49_execute_rejects.

(** C51.  Integer dtypes: harmless for geographic coordinates and as long as one
    array is not of integer type ... *)
Theorem C51_dtype_irrelevant_unless_all_integer :
  forall E o q l, (o_ct o = Geographic \/ (In false (q_int q) /\ In false l)) ->
    execute E o (with_dtypes q l) = execute E o q.
Proof. exact dtype_irrelevant. Qed.
Print Assumptions C51_dtype_irrelevant_unless_all_integer.

(** ... but euclidean all-integer queries never work: the property is false. *)
Theorem C51_integer_queries_refuted :
  exists E o q r, env_ok E /\ reachable E o /\ o_class o = OK2 /\ q_int q = [true; true] /\
    execute E o q = Err TypeError /\ execute E o (with_dtypes q [false; false]) = Ok r.
Proof. exact integer_type_error. Qed.
Print Assumptions C51_integer_queries_refuted.

Theorem C51_integer_queries_never_return :
  forall E o q, reachable E o -> ordinary o -> o_ct o = Euclidean -> (forall b, In b (q_int q) -> b = true) ->
    forall r, execute E o q <> Ok r.
Proof. intros E o q H1 H2 H3 H4. apply (integer_query_raises E o q H1 H2 H3 H4). Qed.
Print Assumptions C51_integer_queries_never_return.

(** C52.  Translation of data and query points, any anisotropy ... *)
Theorem C52_translation :
  forall E c A coords us t o o' q q' r r' p p' pos,
    built E c A us o -> built E c (with_data A coords (c_values A)) us o' -> o_ct o = Euclidean ->
    (forall i, (i < List.length (c_values A))%nat -> input c (with_data A coords (c_values A)) i = add3 (input c A i) t) ->
    run E o q r -> run E o' q' r' -> q_window q' = q_window q ->
    shown o q p pos -> shown o' q' p' (add3 pos t) -> (q_window q <> None -> no_ties o pos) ->
    r_value r p = r_value r' p' /\ r_variance r p = r_variance r' p'.
Proof. exact translation. Qed.
Print Assumptions C52_translation.

Example C52_nonvacuous : exists E A coords o o' q q' r r',
  built E OK2 A [] o /\ built E OK2 (with_data A coords (c_values A)) [] o' /\ o_ct o = Euclidean /\ isotropic OK2 (c_v A) /\
  (forall i, (i < List.length (c_values A))%nat -> input OK2 (with_data A coords (c_values A)) i = add3 (input OK2 A i) (1, - (2), 0)) /\
  run E o q r /\ run E o' q' r' /\ q_window q' = q_window q /\ shown o q 0 (1, 1, 0) /\ shown o' q' 0 (add3 (1, 1, 0) (1, - (2), 0)).
Proof. exact ex_moved. Qed.

(** ... any distance-preserving map (rotation, reflection), no anisotropy ... *)
Theorem C52_isometry :
  forall E c A coords us (f : vec3 -> vec3) o o' q q' r r' p p' pos,
    built E c A us o -> built E c (with_data A coords (c_values A)) us o' -> o_ct o = Euclidean ->
    (forall v, In v (c_v A :: us) -> isotropic c v) ->
    (forall x y, dist3 (f x) (f y) = dist3 x y) -> (cdim c = 2%nat -> forall x, snd x = 0 -> snd (f x) = 0) ->
    (forall i, (i < List.length (c_values A))%nat -> input c (with_data A coords (c_values A)) i = f (input c A i)) ->
    run E o q r -> run E o' q' r' -> q_window q' = q_window q ->
    shown o q p pos -> shown o' q' p' (f pos) -> (q_window q <> None -> no_ties o pos) ->
    r_value r p = r_value r' p' /\ r_variance r p = r_variance r' p'.
Proof. exact isometry. Qed.
Print Assumptions C52_isometry.

(** ... geographic coordinates: adding the same number of degrees to all longitudes ... *)
Theorem C52_longitude_shift :
  forall E A coords us t o o' q q' r r' p p' pos,
    built E OK2 A us o -> built E OK2 (with_data A coords (c_values A)) us o' -> o_ct o = Geographic ->
    (forall i, (i < List.length (c_values A))%nat -> input OK2 (with_data A coords (c_values A)) i = add3 (input OK2 A i) (t, 0, 0)) ->
    run E o q r -> run E o' q' r' -> q_window q' = q_window q ->
    shown o q p pos -> shown o' q' p' (add3 pos (t, 0, 0)) -> (q_window q <> None -> no_ties o pos) ->
    r_value r p = r_value r' p' /\ r_variance r p = r_variance r' p'.
Proof. exact longitude_shift. Qed.
Print Assumptions C52_longitude_shift.

(** ... and a change of the unit of length (the separations must not fall below
    the 1e-10 threshold: coinciding, or farther apart, in both units). *)
Theorem C52_change_of_unit :
  forall E o o' k q q' r r' p p' pos, 0 < k -> magnified k o o' ->
    run E o q r -> run E o' q' r' -> q_window q' = q_window q ->
    shown o q p pos -> shown o' q' p' (scale3 k pos) ->
    (forall i, (i < o_n o)%nat ->
       separation o pos (datum o i) = 0 \/ (eps < separation o pos (datum o i) /\ eps < k * separation o pos (datum o i))) ->
    (q_window q <> None -> no_ties o pos) ->
    r_value r p = r_value r' p' /\ r_variance r p = r_variance r' p'.
Proof. exact scaling. Qed.
Print Assumptions C52_change_of_unit.

Example C52_nonvacuous_unit : exists E o o' q q' r r',
  magnified 10 o o' /\ run E o q r /\ run E o' q' r' /\ q_window q' = q_window q /\
  shown o q 0 (1, 1, 0) /\ shown o' q' 0 (scale3 10 (1, 1, 0)).
Proof. exact ex_magnified. Qed.

(** the parameters in the new unit *)
Theorem C52_parameters_in_new_unit :
  forall k d, 0 < k -> 0 <= d ->
    (forall a b, linear_variogram_model [a / k; b] (k * d) = linear_variogram_model [a; b] d) /\
    (forall a e b, power_variogram_model [a / Rpower k e; e; b] (k * d) = power_variogram_model [a; e; b] d) /\
    (forall a l b, l <> 0 ->
       gaussian_variogram_model [a; k * l; b] (k * d) = gaussian_variogram_model [a; l; b] d /\
       exponential_variogram_model [a; k * l; b] (k * d) = exponential_variogram_model [a; l; b] d /\
       spherical_variogram_model [a; k * l; b] (k * d) = spherical_variogram_model [a; l; b] d /\
       hole_effect_variogram_model [a; k * l; b] (k * d) = hole_effect_variogram_model [a; l; b] d).
Proof.
  intros k d Hk Hd. split; [intros; apply scaled_linear, Hk|]. split; [intros; apply scaled_power; assumption|].
  intros a l b Hl. split; [apply scaled_gaussian; assumption|]. split; [apply scaled_exponential; assumption|].
  split; [apply scaled_spherical; assumption|apply scaled_hole; assumption].
Qed.
Print Assumptions C52_parameters_in_new_unit.
