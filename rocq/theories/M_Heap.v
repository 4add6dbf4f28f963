(** MODEL: which arrays and lists the kriging objects share with their user.
    The same code as M_Object.v and M_Execute.v (constructor, update_variogram_model,
    execute: ok.py 187-553, 760-1020 and the copies in ok3d.py, uk.py, uk3d.py),
    now on a heap of mutable arrays: np.array(.., copy=True), np.vstack and np.dot
    allocate; "X -= center" and "X_adj += center" (core.py 145, 191) overwrite in
    place; plain assignment stores a reference.  The drift data of the universal
    classes are in M_HeapUK.v. *)
From Coq Require Import String.
From Verif Require Import Base Sums Matrix M_Variogram M_Geometry M_Kriging M_Init M_Object M_Execute.

Definition ref := nat.
(** Contents of a mutable object: a 1-D float array or Python list of numbers,
    a 2-D float array (entry i, j), an array with rows (x, y, strength), a Python
    list of callables, or a 3-D float array. *)
Inductive content := Row (l : list R) | Tab (m : mat) | Wells (l : list (R * R * R)) | Funs (l : list (R -> R -> R -> R))
| Cube (m : nat -> nat -> nat -> R).
(** [h_user r]: the array was created by (and is known to) the user. *)
Record heap := { h_next : ref; h_at : ref -> content; h_user : ref -> bool }.

Definition rd (h : heap) (r : ref) : list R := match h_at h r with Row l => l | _ => [] end.
Definition tab (h : heap) (r : ref) : mat := match h_at h r with Tab m => m | _ => fun _ _ => 0 end.
Definition wells (h : heap) (r : ref) : list (R * R * R) := match h_at h r with Wells l => l | _ => [] end.
Definition funs (h : heap) (r : ref) : list (R -> R -> R -> R) := match h_at h r with Funs l => l | _ => [] end.

Definition cube (h : heap) (r : ref) : nat -> nat -> nat -> R := match h_at h r with Cube m => m | _ => fun _ _ _ => 0 end.

Definition put {A} (f : ref -> A) (r : ref) (a : A) : ref -> A := fun r' => if Nat.eqb r' r then a else f r'.
(** a new array; [u]: created by the user *)
Definition new (u : bool) (c : content) (h : heap) : heap * ref :=
  ({| h_next := S (h_next h); h_at := put (h_at h) (h_next h) c; h_user := put (h_user h) (h_next h) u |}, h_next h).
(** in-place modification *)
Definition write (r : ref) (c : content) (h : heap) : heap :=
  {| h_next := h_next h; h_at := put (h_at h) r c; h_user := h_user h |}.

(** Code that may raise and that works on the heap. *)
Definition prog (A : Type) : Type := heap -> heap * res A.
Definition ret {A} (a : A) : prog A := fun h => (h, Ok a).
Definition raise {A} (e : exn) : prog A := fun h => (h, Err e).
Definition lift {A} (x : res A) : prog A := fun h => (h, x).
Definition look {A} (f : heap -> A) : prog A := fun h => (h, Ok (f h)).
Definition hbind {A B} (p : prog A) (k : A -> prog B) : prog B :=
  fun h => match p h with (h, Ok a) => k a h | (h, Err e) => (h, Err e) end.
Notation "'hdo' x <- p ;; k" := (hbind p (fun x => k)) (at level 200, x name, p at level 100, k at level 200).
Notation "'hdo' ' x <- p ;; k" := (hbind p (fun y => match y with x => k end)) (at level 200, x pattern, p at level 100, k at level 200).

Definition alloc (c : content) : prog ref := fun h => let '(h, r) := new false c h in (h, Ok r).
Definition store (r : ref) (c : content) : prog unit := fun h => (write r c h, Ok tt).

(** np.array(x, copy=True, dtype=np.float64) *)
Definition copy (r : ref) : prog ref := hdo c <- look (fun h => h_at h r) ;; alloc c.
Fixpoint copies (rs : list ref) : prog (list ref) :=
  match rs with
  | [] => ret []
  | r :: rs => hdo a <- copy r ;; hdo l <- copies rs ;; ret (a :: l)
  end.
(** np.vstack((a, b, ..)).T *)
Definition vstackT (rs : list ref) : prog ref := hdo m <- look (fun h => columns (map (rd h) rs)) ;; alloc (Tab m).

(** core.py 120-193, _adjust_for_anisotropy *)
Definition adjust_h (int_dtype : bool) (ndim : nat) (X : ref) (center scaling angle : vec) : prog ref :=
  if int_dtype then raise TypeError else
  hdo m <- look (fun h => tab h X) ;;
  hdo _ <- store X (Tab (fun i j => m i j - center j)) ;;                        (* X -= center *)
  hdo '(stretch, rot_tot) <- lift (stretch_rot ndim scaling (fun k => angle k * PI / 180)) ;;
  hdo m <- look (fun h => tab h X) ;;
  hdo Y <- alloc (Tab (trm (mulm ndim stretch (mulm ndim rot_tot (trm m))))) ;;  (* X_adj = np.dot(..).T *)
  hdo m <- look (fun h => tab h Y) ;;
  hdo _ <- store Y (Tab (fun i j => m i j + center j)) ;;                        (* X_adj += center *)
  ret Y.

(** variogram_parameters as given: None, a dict, a list, anything else *)
Inductive hparams := HNone | HDict (d : list (string * R)) | HList (r : ref) | HOther.
Definition deref_params (h : heap) (p : hparams) : user_params :=
  match p with HNone => PNone | HDict d => PDict d | HList r => PList (rd h r) | HOther => POther end.

(** core.py 196-376, _make_variogram_parameter_list: a list given for the linear,
    power and custom models is returned itself (lines 333, 343, 360). *)
Definition make_parameter_list_h (model : string) (p : hparams) : prog (option ref) :=
  match p with
  | HNone => ret None
  | HDict d =>
      hdo l <- lift (make_parameter_list model (PDict d)) ;;
      match l with None => ret None | Some l => hdo r <- alloc (Row l) ;; ret (Some r) end
  | HList r =>
      hdo l <- look (fun h => rd h r) ;;
      if String.eqb model "linear" then
        if negb (Nat.eqb (List.length l) 2) then raise ValueError else ret (Some r)
      else if String.eqb model "power" then
        if negb (Nat.eqb (List.length l) 3) then raise ValueError else ret (Some r)
      else if in_names model three_param_models then
        if negb (Nat.eqb (List.length l) 3) then raise ValueError
        else hdo r <- alloc (Row [rnth l 0 - rnth l 2; rnth l 1; rnth l 2]) ;; ret (Some r)
      else if String.eqb model "custom" then ret (Some r)
      else raise ValueError
  | HOther => raise TypeError
  end.

(** Arguments of update_variogram_model and of the constructor, by reference. *)
Record hvargs := {
  v_model : vm_arg; v_params : hparams; v_fun : fun_arg;
  v_nlags : nat; v_weight : bool; v_scaling : vec; v_angle : vec }.
Record hargs := {
  g_coords : list ref; g_values : ref; g_v : hvargs;
  g_verbose : bool; g_plotting : bool; g_stat : bool; g_ct : string;
  g_exact : option bool; g_pinv : bool; g_pinv_type : string }.
Definition deref_v (h : heap) (v : hvargs) : vargs :=
  {| a_model := v_model v; a_params := deref_params h (v_params v); a_fun := v_fun v;
     a_nlags := v_nlags v; a_weight := v_weight v; a_scaling := v_scaling v; a_angle := v_angle v |}.
Definition deref (h : heap) (A : hargs) : cargs :=
  {| c_coords := map (rd h) (g_coords A); c_values := rd h (g_values A); c_v := deref_v h (g_v A);
     c_verbose := g_verbose A; c_plotting := g_plotting A; c_stat := g_stat A; c_ct := g_ct A;
     c_exact := g_exact A; c_pinv := g_pinv A; c_pinv_type := g_pinv_type A |}.

(** A kriging object: the attributes holding arrays or lists that come from
    outside, by reference; [x_rest] holds the other attributes (its o_orig, o_adj,
    o_values and o_params are not used).  X_ADJUSTED etc. are either views of one
    2-D array or X_ORIG etc. themselves (geographic, ok.py 303-304). *)
Inductive adjusted := Own (r : ref) | Same (rs : list ref).
Record hobj := { x_rest : obj; x_orig : list ref; x_adj : adjusted; x_values : ref; x_params : ref }.

Definition adj_at (h : heap) (a : adjusted) : mat :=
  match a with Own r => tab h r | Same rs => columns (map (rd h) rs) end.
(** the object as the code sees it when it reads its attributes *)
Definition view (h : heap) (x : hobj) : obj :=
  let o := x_rest x in
  {| o_class := o_class o; o_pinv := o_pinv o; o_pinv_type := o_pinv_type o; o_exact := o_exact o;
     o_ct := o_ct o; o_model := o_model o; o_fun := o_fun o; o_params := rd h (x_params x);
     o_n := o_n o; o_orig := columns (map (rd h) (x_orig x)); o_values := rnth (rd h (x_values x));
     o_center := o_center o; o_scaling := o_scaling o; o_angle := o_angle o; o_adj := adj_at h (x_adj x);
     o_lags := o_lags o; o_semivariance := o_semivariance o; o_stats := o_stats o;
     o_verbose := o_verbose o; o_plotting := o_plotting o |}.

(** GSTools branch: "variogram_parameters = []" is a new list (ok.py 237) *)
Definition resolve_gs_h (E : env) (c : kclass) (ct : string) (v : hvargs)
  : prog (string * hparams * fun_arg * vec * vec) :=
  match v_model v with
  | VName s => ret (s, v_params v, v_fun v, v_scaling v, v_angle v)
  | VModel m =>
      hdo va <- look (fun h => deref_v h v) ;;
      hdo '(name, _, fn, sc, an) <- lift (resolve_gs E c ct va) ;;
      hdo r <- alloc (Row []) ;;
      ret (name, HList r, fn, sc, an)
  end.

(** core.py 379-535: given parameters are returned as they are (line 500-533),
    fitted ones are a new array *)
Definition initialize_h (E : env) (ct : coord_type) (ndim n : nat) (X : mat) (ny : nat) (y : vec)
    (name : string) (vp : option ref) (f : pyfun) (nlags : nat) (weight : bool) : prog (list R * list R * ref) :=
  hdo p <- look (fun h => option_map (rd h) vp) ;;
  hdo '(lags, sv, params) <- lift (initialize_variogram_model (e_fit E) ct ndim n X ny y name p f nlags weight) ;;
  match vp with
  | Some r => ret (lags, sv, r)
  | None => hdo r <- alloc (Row params) ;; ret (lags, sv, r)
  end.

(** The constructor: ok.py 187-377, ok3d.py 198-366, uk.py 220-395, uk3d.py 215-395 *)
Definition construct_h (E : env) (c : kclass) (A : hargs) : prog hobj :=
  if negb (in_names (g_pinv_type A) pinv_types) then raise ValueError else
  match g_exact A with
  | None => raise ValueError
  | Some exact =>
    let ct := class_ct c (g_ct A) in
    hdo '(name, prm, fn, scaling, angle) <- resolve_gs_h E c ct (g_v A) ;;
    hdo f <- lift (resolve_fun name fn) ;;
    hdo orig <- copies (g_coords A) ;;
    hdo values <- copy (g_values A) ;;
    hdo coords <- look (fun h => map (rd h) orig) ;;
    hdo ys <- look (fun h => rd h values) ;;
    let ndim := cdim c in
    let n := List.length (nth 0 coords []) in
    hdo '(ct', center, sc, an, adj) <-
       (if String.eqb ct "euclidean" then
          hdo cs <- lift (mapM center_of coords) ;;
          if negb (same_length coords) then raise ValueError else
          hdo X <- vstackT orig ;;
          hdo Y <- adjust_h false ndim X (rnth cs) scaling angle ;;
          ret (Euclidean, rnth cs, scaling, angle, Own Y)
        else if String.eqb ct "geographic" then
          ret (Geographic, (fun _ => 0), (fun _ => 1), (fun _ => 0), Same orig)
        else raise ValueError) ;;
    hdo vp <- make_parameter_list_h name prm ;;
    if negb (same_length coords) then raise ValueError else
    hdo Xadj <- look (fun h => adj_at h adj) ;;
    hdo '(lags, semivariance, params) <-
       initialize_h E ct' ndim n Xadj (List.length ys) (rnth ys) name vp f (v_nlags (g_v A)) (v_weight (g_v A)) ;;
    hdo plist <- look (fun h => rd h params) ;;
    hdo st <- (match c, g_stat A with
              | OK2, false => ret None
              | _, _ => hdo s <- lift (all_statistics (e_la E) ct' ndim n Xadj (rnth ys) (fcall f plist) (g_pinv A)) ;; ret (Some s)
              end) ;;
    ret {| x_rest := {| o_class := c; o_pinv := g_pinv A; o_pinv_type := g_pinv_type A; o_exact := exact;
             o_ct := ct'; o_model := VName name; o_fun := f; o_params := [];
             o_n := n; o_orig := (fun _ _ => 0); o_values := (fun _ => 0);
             o_center := center; o_scaling := sc; o_angle := an; o_adj := (fun _ _ => 0);
             o_lags := lags; o_semivariance := semivariance; o_stats := st;
             o_verbose := g_verbose A; o_plotting := g_plotting A |};
           x_orig := orig; x_adj := adj; x_values := values; x_params := params |}
  end.

Definition with_rest (x : hobj) (o : obj) : hobj :=
  {| x_rest := o; x_orig := x_orig x; x_adj := x_adj x; x_values := x_values x; x_params := x_params x |}.
Definition with_adj (x : hobj) (a : adjusted) : hobj :=
  {| x_rest := x_rest x; x_orig := x_orig x; x_adj := a; x_values := x_values x; x_params := x_params x |}.
Definition with_params (x : hobj) (r : ref) : hobj :=
  {| x_rest := x_rest x; x_orig := x_orig x; x_adj := x_adj x; x_values := x_values x; x_params := r |}.

(** update_variogram_model, ok.py 379-553 and copies: heap and object afterwards,
    and the exception if it raised. *)
Definition update_h (E : env) (x : hobj) (v : hvargs) (h : heap) : heap * hobj * option exn :=
  let c := o_class (x_rest x) in
  let x := with_rest x (set_model (x_rest x) (v_model v)) in
  match resolve_gs_h E c (ct_name (o_ct (x_rest x))) v h with
  | (h, Err e) => (h, x, Some e)
  | (h, Ok (name, prm, fn, scaling, angle)) =>
    let x := with_rest x (set_model (x_rest x) (VName name)) in
    match resolve_fun name fn with
    | Err e => (h, x, Some e)
    | Ok f =>
      let x := with_rest x (set_fun (x_rest x) f) in
      let ndim := cdim c in
      let '(h, x, err) :=
        if aniso_differs ndim scaling (o_scaling (x_rest x)) angle (o_angle (x_rest x)) then
          match o_ct (x_rest x) with
          | Euclidean =>
              let x := with_rest x (set_aniso (x_rest x) scaling angle (fun _ _ => 0)) in
              match (hdo X <- vstackT (x_orig x) ;; adjust_h false ndim X (o_center (x_rest x)) scaling angle) h with
              | (h, Ok Y) => (h, with_adj x (Own Y), None)
              | (h, Err e) => (h, x, Some e)
              end
          | Geographic => (h, with_adj (with_rest x (set_aniso (x_rest x) (fun _ => 1) (fun _ => 0) (fun _ _ => 0))) (Same (x_orig x)), None)
          end
        else (h, x, None) in
      match err with
      | Some e => (h, x, Some e)
      | None =>
        match make_parameter_list_h name prm h with
        | (h, Err e) => (h, x, Some e)
        | (h, Ok vp) =>
          let o := view h x in
          match initialize_h E (o_ct o) ndim (o_n o) (o_adj o) (o_n o) (o_values o) name vp (o_fun o) (v_nlags v) (v_weight v) h with
          | (h, Err e) => (h, x, Some e)
          | (h, Ok (lags, sv, params)) =>
            let x := with_params (with_rest x (set_variogram (x_rest x) lags sv [])) params in
            let o := view h x in
            match all_statistics (e_la E) (o_ct o) ndim (o_n o) (o_adj o) (o_values o) (o_vg o) (o_pinv o) with
            | Err e => (h, x, Some e)
            | Ok s => (h, with_rest x (set_stats (x_rest x) (Some s)), None)
            end
          end
        end
      end
    end
  end.

(** execute, ok.py 842-1020 and copies: the points are copied, stacked and
    adjusted in place; everything else works on new arrays.  (The numerical
    result is computed by M_Execute.execute from the attributes read.) *)
Record hquery := {
  k_style : string; k_pts : list ref; k_int : list bool; k_mask : option mask_arg;
  k_backend : string; k_window : option nat }.
Definition deref_q (h : heap) (q : hquery) : query :=
  {| q_style := k_style q; q_pts := map (rd h) (k_pts q); q_int := k_int q; q_mask := k_mask q;
     q_backend := k_backend q; q_window := k_window q |}.
Definition execute_h (E : env) (x : hobj) (q : hquery) : prog result :=
  hdo o <- look (fun h => view h x) ;;
  hdo qq <- look (fun h => deref_q h q) ;;
  hdo pts <- copies (k_pts q) ;;
  hdo l <- look (fun h => (match o_dim o with 2%nat => locate2 | _ => locate3 end) (k_style q) (map (rd h) pts) (k_mask q)) ;;
  hdo _ <- (match l, o_ct o with
            | Ok l, Euclidean =>
                hdo X <- alloc (Tab (l_at l)) ;;                  (* np.vstack((xpts, ypts)).T *)
                fun h => match adjust_h (forallb (fun b => b) (k_int q)) (o_dim o) X (o_center o) (o_scaling o) (o_angle o) h with
                         | (h, _) => (h, Ok tt) end
            | _, _ => ret tt
            end) ;;
  lift (execute E o qq).
