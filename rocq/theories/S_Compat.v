(** SPECIFICATION for C39, C40: the calls a user would write directly instead of
    going through the Krige wrapper. *)
From Coq Require Import String.
From Verif Require Import Base Sums Matrix M_Variogram M_Geometry M_Kriging M_Init M_Object M_Execute S_Execute M_UK M_Compat.

(** the class behind a method name *)
Definition class_of (method : string) : option kclass :=
  if String.eqb method "ordinary" then Some OK2 else if String.eqb method "universal" then Some UK2
  else if String.eqb method "ordinary3d" then Some OK3 else if String.eqb method "universal3d" then Some UK3 else None.

(** Class(x, y(, z), values, ...) with the user's options; the first scaling and the
    first angle in 2D; two scalings (y, z) and three angles (x, y, z) in 3D. *)
Definition direct_args (k : krige) (c : kclass) (x : points) (y : list R) : cargs :=
  {| c_coords := p_cols x; c_values := y;
     c_v := {| a_model := k_model k; a_params := k_params k; a_fun := k_fun k; a_nlags := k_nlags k; a_weight := k_weight k;
               a_scaling := rnth (firstn (cdim c - 1) (k_scaling k));
               a_angle := rnth (firstn (if Nat.eqb (cdim c) 2 then 1 else 3) (k_angle k)) |};
     c_verbose := k_verbose k; c_plotting := false;
     c_stat := match c with OK2 => k_stat k | _ => false end;
     c_ct := match c with OK2 => k_ct k | _ => "euclidean"%string end;
     c_exact := k_exact k; c_pinv := k_pinv k; c_pinv_type := k_pinv_type k |}.
Definition direct_drift (k : krige) (c : kclass) : dargs :=
  match c with
  | UK2 => {| d_terms := k_terms k; d_point := k_point k; d_ext := k_ext k; d_ext_x := k_ext_x k; d_ext_y := k_ext_y k;
              d_spec := None; d_fun := k_funs k |}
  | _ => {| d_terms := k_terms k; d_point := None; d_ext := None; d_ext_x := None; d_ext_y := None; d_spec := None; d_fun := k_funs k |}
  end.
Definition direct_call (E : env) (k : krige) (c : kclass) (x : points) (y : list R) : res kmodel :=
  match c with
  | OK2 | OK3 => match construct E c (direct_args k c x y) with Ok o => Ok (KOrd o) | Err e => Err e end
  | UK2 | UK3 => match construct_uk E c (direct_args k c x y) (direct_drift k c) with Ok u => Ok (KUni u) | Err e => Err e end
  end.

(** model.execute("points", x, y(, z), backend=b, n_closest_points=w) *)
Definition points_query (x : points) (b : string) (w : option nat) : query :=
  {| q_style := "points"; q_pts := p_cols x; q_int := map (fun _ => p_int x) (p_cols x); q_mask := None; q_backend := b; q_window := w |}.
(** the values returned by a direct call *)
Definition direct_predict (E : env) (k : krige) (m : kmodel) (x : points) (b : string) : res (list nat * (nat -> option R)) :=
  match m with
  | KOrd o => match execute E o (points_query x b (k_window k)) with Ok r => Ok (r_shape r, r_value r) | Err e => Err e end
  | KUni u => match execute_uk E u (points_query x b None) [] with Ok (r, _) => Ok (r_shape r, r_value r) | Err e => Err e end
  end.
Definition model_class (m : kmodel) : kclass := match m with KOrd o => o_class o | KUni u => o_class (u_obj u) end.
(** the same wrapper with another n_closest_points *)
Definition with_ncp (k : krige) (w : option nat) : krige :=
  {| k_method := k_method k; k_model := k_model k; k_params := k_params k; k_fun := k_fun k;
     k_nlags := k_nlags k; k_weight := k_weight k; k_verbose := k_verbose k; k_exact := k_exact k;
     k_pinv := k_pinv k; k_pinv_type := k_pinv_type k; k_scaling := k_scaling k; k_angle := k_angle k;
     k_stat := k_stat k; k_ct := k_ct k; k_terms := k_terms k; k_point := k_point k;
     k_ext := k_ext k; k_ext_x := k_ext_x k; k_ext_y := k_ext_y k; k_funs := k_funs k;
     k_window := w; k_fitted := k_fitted k |}.

(** [fitted_as k m c]: the wrapper holds the model [m], of the class [c] of its method *)
Definition kind_ok (m : kmodel) : Prop :=
  match m with KOrd o => o_class o = OK2 \/ o_class o = OK3 | KUni u => o_class (u_obj u) = UK2 \/ o_class (u_obj u) = UK3 end.
Definition fitted_as (k : krige) (m : kmodel) (c : kclass) : Prop :=
  k_fitted k = Some m /\ class_of (k_method k) = Some c /\ model_class m = c /\ kind_ok m.
(** variogram, data, ... of a fitted model *)
Definition kobj (m : kmodel) : obj := match m with KOrd o => o | KUni u => u_obj u end.

(** training and query points *)
Definition n_rows (x : points) : nat := List.length (nth 0 (p_cols x) []).
Definition same_row (x : points) (i : nat) (x' : points) (j : nat) : Prop :=
  forall c, rnth (nth c (p_cols x) []) i = rnth (nth c (p_cols x') []) j.
(** predict(x), predict(x, backend='loop'), predict(x, backend='vectorized') *)
Definition exact_backend (extra : kwargs) : Prop :=
  extra = [] \/ extra = [("backend"%string, V_str "loop"%string)] \/ extra = [("backend"%string, V_str "vectorized"%string)].
(** after fitting: the data are pairwise more than eps = 1e-10 apart, in the distance of the model *)
Definition apart (k : krige) : Prop := exists m, k_fitted k = Some m /\
  forall i j, (i < o_n (kobj m))%nat -> (j < o_n (kobj m))%nat -> i <> j ->
    eps < separation (kobj m) (datum (kobj m) i) (datum (kobj m) j).
(** model.execute(style, x, y(, z), mask=m, backend=b, n_closest_points=w) *)
Definition styled_query (x : points) (style : string) (m : option mask_arg) (b : string) (w : option nat) : query :=
  {| q_style := style; q_pts := p_cols x; q_int := map (fun _ => p_int x) (p_cols x); q_mask := m; q_backend := b; q_window := w |}.
Definition direct_execute (E : env) (k : krige) (m : kmodel) (x : points) (style : string) (mk : option mask_arg) (b : string)
  : res (list nat * (nat -> option R)) :=
  match m with
  | KOrd o => match execute E o (styled_query x style mk b (k_window k)) with Ok r => Ok (r_shape r, r_value r) | Err e => Err e end
  | KUni u => match execute_uk E u (styled_query x style mk b None) [] with Ok (r, _) => Ok (r_shape r, r_value r) | Err e => Err e end
  end.
