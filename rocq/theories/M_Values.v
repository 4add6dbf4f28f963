(** MODEL: the same code run on data values that need not be numbers.

    M_Kriging.v and M_Execute.v model execute() for real data values.  The values
    are only ever multiplied by a (finite, real) weight and added up; here the
    same functions are written over any type of values with these operations, so
    that they can be run on values some of which are NaN.  [Rval] is the type used
    before (P_Values.v proves that execute_v then is M_Execute.execute), [Nval]
    has NaN: a NaN times any weight, also 0, is NaN, and a sum with a NaN is NaN
    (IEEE 754).  Infinite values are not modelled. *)
From Coq Require Import String.
From Verif Require Import Base Sums Matrix M_Variogram M_Geometry M_Kriging M_Init M_Object M_Execute.

Record valg := {
  V : Type;
  v0 : V;                      (* 0.0 *)
  vadd : V -> V -> V;
  vmul : R -> V -> V           (* weight * value *)
}.
Definition Rval : valg := {| V := R; v0 := 0; vadd := Rplus; vmul := Rmult |}.

(** [None] is NaN *)
Definition nadd (x y : option R) : option R :=
  match x, y with Some a, Some b => Some (a + b) | _, _ => None end.
Definition nmul (w : R) (y : option R) : option R :=
  match y with Some b => Some (w * b) | None => None end.
Definition Nval : valg := {| V := option R; v0 := Some 0; vadd := nadd; vmul := nmul |}.

(** np.sum over the first n entries *)
Fixpoint vsum (A : valg) (n : nat) (f : nat -> V A) : V A :=
  match n with O => v0 A | S k => vadd A (vsum A k f) (f k) end.
(** [for k in range(n): s += f k], cok.pyx 87-89 *)
Definition c_vsum (A : valg) (n : nat) (f : nat -> V A) : V A :=
  fold_left (fun s k => vadd A s (f k)) (seq 0 n) (v0 A).

(** _exec_vector: ok.py 650-683, ok3d.py 624-657 *)
Definition exec_vector_v (A : valg) (L : linalg) (pseudo_inv : bool) (pseudo_inv_type : string)
    (n npt : nat) (vg : R -> R) (eps : R) (exact_values : bool) (Z : nat -> V A)
    (a : mat) (bd : mat) : res ((nat -> V A) * vec) :=
  do a_inv <- invert L pseudo_inv pseudo_inv_type (n + 1) a ;;
  let b := rhs_vector n npt vg eps exact_values bd in
  let x : mat := fun j => mulv (n + 1) a_inv (b j) in
  Ok ((fun j => vsum A n (fun k => vmul A (x j k) (Z k))),
      (fun j => bsum (n + 1) (fun k => x j k * - b j k))).

(** _exec_loop: ok.py 685-720, ok3d.py 659-695 *)
Definition exec_loop_v (A : valg) (L : linalg) (pseudo_inv : bool) (pseudo_inv_type : string)
    (n npt : nat) (vg : R -> R) (eps : R) (exact_values : bool) (Z : nat -> V A)
    (a : mat) (bd_all : mat) (mask : nat -> bool) : res ((nat -> V A) * vec) :=
  do a_inv <- invert L pseudo_inv pseudo_inv_type (n + 1) a ;;
  Ok (fold_left (fun '(zvalues, sigmasq) j =>
        let bd := bd_all j in
        let b := rhs n vg eps exact_values bd in
        let x := mulv (n + 1) a_inv b in
        (upd zvalues j (vsum A n (fun k => vmul A (x k) (Z k))),
         upd sigmasq j (bsum (n + 1) (fun k => x k * - b k))))
      (unmasked npt mask) ((fun _ => v0 A), (fun _ => 0))).

(** _exec_loop_moving_window: ok.py 722-758, ok3d.py 697-733.  scipy.linalg.solve
    (check_finite=True) looks at the matrix and the right-hand side, not at the values. *)
Definition exec_loop_moving_window_v (A : valg) (L : linalg) (N k npt : nat) (vg : R -> R) (vinf : option R)
    (eps : R) (exact_values : bool) (Z : nat -> V A) (a_all : mat) (bd_all : nat -> nat -> xdist)
    (mask : nat -> bool) (bd_idx : nat -> nat -> nat) : res ((nat -> V A) * vec) :=
  foldM (fun '(zvalues, sigmasq) i =>
        let b_selector := bd_idx i in
        let a := window_matrix k N b_selector a_all in
        let b := rhs_window k vg vinf eps exact_values (bd_all i) in
        do x <- scipy_solve L (k + 1) a b ;;
        if forallb (fun r => Nat.ltb (b_selector r) N) (seq 0 k) then
          Ok (upd zvalues i (vsum A k (fun r => vmul A (x r) (Z (b_selector r)))),
              upd sigmasq i (- bsum (k + 1) (fun r => x r * fin b r)))
        else Err IndexError)
    (unmasked npt mask) ((fun _ => v0 A), (fun _ => 0)).

(** lib/cok.pyx 14-96 *)
Record cstate_v (A : valg) := { czv : nat -> V A; csv : vec; cxv : vec; cbv_ : vec }.
Arguments czv {A}. Arguments csv {A}. Arguments cxv {A}. Arguments cbv_ {A}.

Definition c_point_v (A : valg) (n : nat) (cvg : nat -> vec -> vec -> vec) (eps : R) (exact_values : bool)
    (Z : nat -> V A) (a_inv : mat) (bd_all : mat) (mask : nat -> bool) (s : cstate_v A) (i : nat) : cstate_v A :=
  if mask i then s else
  let nb := (n + 1)%nat in
  let bd := bd_all i in
  let b := cvg n bd (cbv_ s) in
  let b := fold_left (fun b k => upd b k (b k * -1)) (seq 0 n) b in
  let b := upd b n 1 in
  let b := if exact_values then check_b_vect n bd b eps else b in
  let x := dgemv nb a_inv b (cxv s) in
  let z_tmp := c_vsum A n (fun k => vmul A (x k) (Z k)) in
  let ss_tmp := c_sum nb (fun k => x k * b k) in
  {| czv := upd (czv s) i z_tmp; csv := upd (csv s) i (- ss_tmp); cxv := x; cbv_ := b |}.

Definition c_exec_loop_v (A : valg) (L : linalg) (pseudo_inv : bool) (pseudo_inv_type : string)
    (n npt : nat) (f : pyfun) (params : list R) (eps : R) (exact_values : bool) (Z : nat -> V A)
    (a : mat) (bd_all : mat) (mask : nat -> bool) : res ((nat -> V A) * vec) :=
  do cf <- get_variogram_model (fname f) ;;
  do a_inv <- invert L pseudo_inv pseudo_inv_type (n + 1) a ;;
  let s := fold_left (c_point_v A n (cf params) eps exact_values Z a_inv bd_all mask) (seq 0 npt)
             {| czv := fun _ => v0 A; csv := fun _ => 0; cxv := fun _ => 0; cbv_ := fun _ => 0 |} in
  Ok (czv s, csv s).

(** lib/cok.pyx 98-193 *)
Record wstate_v (A : valg) := { wzv : nat -> V A; wsv : vec; wxv : vec; wtmpv : vec; wbv : vec; wav : vec }.
Arguments wzv {A}. Arguments wsv {A}. Arguments wxv {A}. Arguments wtmpv {A}. Arguments wbv {A}. Arguments wav {A}.

(** reading Z, which has N entries *)
Definition rd_v (A : valg) (size : nat) (f : nat -> V A) (i : nat) : res (V A) :=
  if Nat.ltb i size then Ok (f i) else Err UndefinedBehaviour.

Definition cw_point_v (A : valg) (L : linalg) (lu : vec -> vec) (N k : nat) (cvg : nat -> vec -> vec -> vec)
    (eps : R) (exact_values : bool) (Z : nat -> V A) (a_all : mat) (bd_all : mat) (mask : nat -> bool)
    (bd_idx : nat -> nat -> nat) (s : wstate_v A) (i : nat) : res (wstate_v A) :=
  if mask i then Ok s else
  let n := k in
  let nb := (n + 1)%nat in
  let asize := ((N + 1) * (N + 1))%nat in
  let bd := bd_all i in
  let sel := bd_idx i in
  do M <- foldM (fun M k => foldM (fun M j =>
                   do v <- rd2 (N + 1) a_all (sel k) (sel j) ;; wr asize M (k + nb * j)%nat v)
                 (seq 0 n) M) (seq 0 n) (wav s) ;;
  do M <- foldM (fun M k => do M <- wr asize M (k * nb + n)%nat 1 ;; wr asize M (n * nb + k)%nat 1)
            (seq 0 nb) M ;;
  do M <- wr asize M (n * nb + n)%nat 0 ;;
  do tmp <- (if Nat.leb n (N + 1) then Ok (cvg n bd (wtmpv s)) else Err UndefinedBehaviour) ;;
  do b <- foldM (fun b k => do t <- rd (N + 1) tmp k ;; wr (N + 1) b k (- t)) (seq 0 n) (wbv s) ;;
  do b <- wr (N + 1) b n 1 ;;
  let b := if exact_values then check_b_vect n bd b eps else b in
  do x <- foldM (fun x k => do v <- rd (N + 1) b k ;; wr (N + 1) x k v) (seq 0 nb) (wxv s) ;;
  if negb (Nat.leb nb (N + 1)) then Err UndefinedBehaviour else
  match dgesv L lu nb M x with
  | None => Err ValueError
  | Some (M', x) =>
      do z_tmp <- foldM (fun acc k => do z <- rd_v A N Z (sel k) ;; Ok (vadd A acc (vmul A (x k) z))) (seq 0 n) (v0 A) ;;
      let ss_tmp := c_sum nb (fun k => x k * b k) in
      Ok {| wzv := upd (wzv s) i z_tmp; wsv := upd (wsv s) i (- ss_tmp);
            wxv := x; wtmpv := tmp; wbv := b; wav := M' |}
  end.

Definition w0_v (A : valg) : wstate_v A :=
  {| wzv := fun _ => v0 A; wsv := fun _ => 0; wxv := fun _ => 0; wtmpv := fun _ => 0;
     wbv := fun _ => 0; wav := fun _ => 0 |}.

Definition c_exec_loop_moving_window_v (A : valg) (L : linalg) (lu : vec -> vec) (N k npt : nat) (f : pyfun)
    (params : list R) (eps : R) (exact_values : bool) (Z : nat -> V A) (a_all : mat) (bd_all : mat)
    (mask : nat -> bool) (bd_idx : nat -> nat -> nat) : res ((nat -> V A) * vec) :=
  do cf <- get_variogram_model (fname f) ;;
  do s <- foldM (cw_point_v A L lu N k (cf params) eps exact_values Z a_all bd_all mask bd_idx)
            (seq 0 npt) (w0_v A) ;;
  Ok (wzv s, wsv s).

(** What execute returns: shape, and per flat index the value and the variance;
    [None]: masked. *)
Record result_v (A : valg) := { rv_shape : list nat; rv_value : nat -> option (V A); rv_variance : nat -> option R }.
Arguments rv_shape {A}. Arguments rv_value {A}. Arguments rv_variance {A}.

(** np.ma.array(values, mask=mask) for style 'masked', then reshape (ok.py 1012-1020) *)
Definition finish_v (A : valg) (style : string) (l : located) (vs : (nat -> V A) * vec) : result_v A :=
  let hide {T} (v : nat -> T) : nat -> option T :=
    if String.eqb style "masked"
    then fun p => if l_mask l p then None else Some (v p)
    else fun p => Some (v p) in
  {| rv_shape := l_shape l; rv_value := hide (fst vs); rv_variance := hide (snd vs) |}.

(** OrdinaryKriging.execute, ok.py 828-1020, self.VALUES = Z *)
Definition execute2_v (A : valg) (E : env) (o : obj) (Z : nat -> V A) (q : query) : res (result_v A) :=
  let style := q_style q in
  if negb (in_names style ["grid"; "masked"; "points"]%string) then Err ValueError else
  if (match q_window q with Some k => Nat.leb k 1 | None => false end) then Err ValueError else
  let n := o_n o in
  let a := get_kriging_matrix o in
  do l <- locate2 style (q_pts q) (q_mask q) ;;
  do pts <- adjust_query o (q_int q) (l_at l) ;;
  let mask := l_mask l in
  let backend := effective_backend E (q_backend q) in
  do vs <-
    (match q_window q with
     | Some k =>
         if neighbours_error E o pts (l_npt l) k then Err IndexError else
         let bd := fun p => fst (neighbours E o pts k p) in
         let bd_idx := fun p => snd (neighbours E o pts k p) in
         if String.eqb backend "loop" then
           exec_loop_moving_window_v A (e_la E) n k (l_npt l) (o_vg o) (e_vinf E (o_fun o) (o_params o))
             eps (o_exact o) Z a bd mask bd_idx
         else if String.eqb backend "C" then
           c_exec_loop_moving_window_v A (e_la E) (e_lu E) n k (l_npt l) (o_fun o) (o_params o)
             eps (o_exact o) Z a (fun p r => as_real (bd p r)) mask bd_idx
         else Err ValueError
     | None =>
         let bd := query_distances o pts in
         if String.eqb backend "vectorized" then
           exec_vector_v A (e_la E) (o_pinv o) (o_pinv_type o) n (l_npt l) (o_vg o) eps (o_exact o) Z a bd
         else if String.eqb backend "loop" then
           exec_loop_v A (e_la E) (o_pinv o) (o_pinv_type o) n (l_npt l) (o_vg o) eps (o_exact o) Z a bd mask
         else if String.eqb backend "C" then
           c_exec_loop_v A (e_la E) (o_pinv o) (o_pinv_type o) n (l_npt l) (o_fun o) (o_params o) eps
             (o_exact o) Z a bd mask
         else Err ValueError
     end) ;;
  Ok (finish_v A style l vs).

(** OrdinaryKriging3D.execute, ok3d.py 827-932 *)
Definition execute3_v (A : valg) (E : env) (o : obj) (Z : nat -> V A) (q : query) : res (result_v A) :=
  let style := q_style q in
  if negb (in_names style ["grid"; "masked"; "points"]%string) then Err ValueError else
  let n := o_n o in
  let a := get_kriging_matrix o in
  do l <- locate3 style (q_pts q) (q_mask q) ;;
  do pts <- adjust_query o (q_int q) (l_at l) ;;
  let mask := l_mask l in
  let backend := q_backend q in
  do vs <-
    (match q_window q with
     | Some k =>
         if Nat.eqb k 0 then Err ValueError else
         if String.eqb backend "loop" then
           if Nat.eqb k 1 then Err IndexError else
           let bd := fun p => fst (neighbours E o pts k p) in
           let bd_idx := fun p => snd (neighbours E o pts k p) in
           exec_loop_moving_window_v A (e_la E) n k (l_npt l) (o_vg o) (e_vinf E (o_fun o) (o_params o))
             eps (o_exact o) Z a bd mask bd_idx
         else Err ValueError
     | None =>
         let bd := query_distances o pts in
         if String.eqb backend "vectorized" then
           exec_vector_v A (e_la E) (o_pinv o) (o_pinv_type o) n (l_npt l) (o_vg o) eps (o_exact o) Z a bd
         else if String.eqb backend "loop" then
           exec_loop_v A (e_la E) (o_pinv o) (o_pinv_type o) n (l_npt l) (o_vg o) eps (o_exact o) Z a bd mask
         else Err ValueError
     end) ;;
  Ok (finish_v A style l vs).

Definition execute_v (A : valg) (E : env) (o : obj) (Z : nat -> V A) (q : query) : res (result_v A) :=
  match o_class o with
  | OK2 => execute2_v A E o Z q
  | OK3 => execute3_v A E o Z q
  | _ => Err AttributeErr
  end.

(** ---- the experimental variogram of values with NaN, core.py 432-505 ---- *)
Definition nsub (x y : option R) : option R :=
  match x, y with Some a, Some b => Some (a - b) | _, _ => None end.
Definition nmul2 (x y : option R) : option R :=
  match x, y with Some a, Some b => Some (a * b) | _, _ => None end.
Definition ndiv (x y : option R) : option R :=
  match x, y with Some a, Some b => Some (a / b) | _, _ => None end.
(** comparisons with NaN are False *)
Definition ncmp (f : R -> R -> bool) (x y : option R) : bool :=
  match x, y with Some a, Some b => f a b | _, _ => false end.
(** division by 0 does not occur: means are taken of non-empty selections, and
    nlags = 0 makes no bin *)
Definition Nops : numops :=
  {| num := option R; n_add := nadd; n_sub := nsub; n_mul := nmul2; n_div := ndiv;
     n_leb := ncmp Rleb; n_ltb := ncmp Rltb; n_of_nat := fun n => Some (INR n); n_milli := Some (/ 1000) |}.

(** d and g, core.py 432-449: the distances are numbers, g is NaN where one of the two values is *)
Definition pair_data_nan (ct : coord_type) (ndim n : nat) (X : mat) (y : nat -> option R) : list (option R * option R) :=
  map (fun '(i, j) => (Some (distance ct ndim (X i) (X j)),
                       nmul2 (Some (/ 2)) (nmul2 (nsub (y i) (y j)) (nsub (y i) (y j))))) (pairs ct n).

(** [lags[~np.isnan(semivariance)]], [semivariance[~np.isnan(semivariance)]], core.py 504-505;
    the mean distance of a bin is a number *)
Definition drop_nan_bins (l : list (option R * option R)) : list (R * R) :=
  flat_map (fun e => match e with (Some d, Some g) => [(d, g)] | _ => [] end) l.

Definition experimental_nan (ct : coord_type) (ndim n nlags : nat) (X : mat) (y : nat -> option R) : res (list (R * R)) :=
  do l <- experimental_gen Nops nlags (pair_data_nan ct ndim n X y) ;;
  Ok (drop_nan_bins l).

(** core.py 507-535 as in M_Init.initialize_variogram_model *)
Definition initialize_nan (fit : optimiser) (ct : coord_type) (ndim n : nat) (X : mat)
    (nvals : nat) (y : nat -> option R) (model : string) (params : option (list R)) (f : pyfun)
    (nlags : nat) (weight : bool) : res (list R * list R * list R) :=
  match ct, Nat.eqb ndim 2 with
  | Geographic, false => Err ValueError
  | _, _ =>
    if negb (Nat.eqb nvals n) then
      match ct with
      | Euclidean => if Nat.leb n 1 then Err ValueError
                     else if Nat.eqb nlags 0 then Err ValueError else Err IndexError
      | Geographic => Err IndexError
      end
    else
    do ls <- experimental_nan ct ndim n nlags X y ;;
    let lags := map fst ls in
    let semivariance := map snd ls in
    match params with
    | Some p =>
        if String.eqb model "linear" && negb (Nat.eqb (List.length p) 2) then Err ValueError
        else if in_names model ("power"%string :: three_param_models) && negb (Nat.eqb (List.length p) 3)
        then Err ValueError
        else Ok (lags, semivariance, p)
    | None =>
        if String.eqb model "custom" then Err ValueError
        else match lags with
             | [] => Err ValueError
             | _ => do p <- calculate_variogram_model fit lags semivariance model f weight ;;
                    Ok (lags, semivariance, p)
             end
    end
  end.

(** ---- the cross-validation statistics of values with NaN ---- *)
(** core._krige, core.py 654-756: y enters only [np.sum(res[:n, 0] * y)] (line 753) *)
Definition krige1_nan (L : linalg) (n : nat) (vg : R -> R) (d : mat) (bd : vec) (y : nat -> option R) (pseudo_inv : bool)
  : res (option R * R) :=
  let a := kriging_matrix n vg d in
  let b : vec := fun k => if Nat.ltb k n then - vg (bd k) else 0 in
  let b := match first_zero n bd with Some k0 => upd b k0 0 | None => b end in
  let b := upd b n 1 in
  match (if pseudo_inv then la_lstsq L (n + 1) a b else la_solve L (n + 1) a b) with
  | None => Err LinAlgError
  | Some x => Ok (vsum Nval n (fun k => nmul (x k) (y k)), bsum (n + 1) (fun k => x k * - b k))
  end.

(** one turn of the loop of _find_statistics, core.py 803-828 *)
Definition stat_entry_nan (L : linalg) (ct : coord_type) (ndim : nat) (X : mat) (y : nat -> option R)
    (vg : R -> R) (pseudo_inv : bool) (i : nat) : res (option R * option R) :=
  if Nat.eqb i 0 then Ok (Some 0, Some 0) else
  do (k, ss) <- krige1_nan L i vg (fun a b => distance ct ndim (X b) (X a))
                  (fun a => distance ct ndim (X a) (X i)) y pseudo_inv ;;
  if Rltb (Rabs ss) eps then Ok (Some 0, Some 0)
  else Ok (nsub (y i) k, if Rltb ss 0 then None else Some (sqrt ss)).

(** core.py 830-834 *)
Definition keep_entries_nan (l : list (option R * option R)) : list (option R * R) :=
  flat_map (fun '(d, s) => match s with
                           | Some s => if Rltb eps s then [(d, s)] else []
                           | None => []
                           end) l.

(** core.py 839-846 on epsilon with NaN; [None] is nan or inf *)
Definition nlsum (l : list (option R)) : option R := fold_right nadd (Some 0) l.
Definition calcQ1_nan (epsilon : list (option R)) : option R :=
  if Nat.eqb (List.length epsilon) 1 then None
  else option_map (fun s => Rabs (s / (INR (List.length epsilon) - 1))) (nlsum epsilon).
Definition calcQ2_nan (epsilon : list (option R)) : option R :=
  if Nat.eqb (List.length epsilon) 1 then None
  else option_map (fun s => s / (INR (List.length epsilon) - 1)) (nlsum (map (fun e => nmul2 e e) epsilon)).

Record stats_nan := { sn_delta : list (option R); sn_sigma : list R; sn_epsilon : list (option R);
                      sn_Q1 : option R; sn_Q2 : option R; sn_cR : option R }.
Definition all_statistics_nan (L : linalg) (ct : coord_type) (ndim n : nat) (X : mat) (y : nat -> option R)
    (vg : R -> R) (pseudo_inv : bool) : res stats_nan :=
  do l <- mapM (stat_entry_nan L ct ndim X y vg pseudo_inv) (seq 0 n) ;;
  let kept := keep_entries_nan l in
  let sigma := map snd kept in
  let epsilon := map (fun '(d, s) => ndiv d (Some s)) kept in
  let Q2 := calcQ2_nan epsilon in
  Ok {| sn_delta := map fst kept; sn_sigma := sigma; sn_epsilon := epsilon;
        sn_Q1 := calcQ1_nan epsilon; sn_Q2 := Q2; sn_cR := calc_cR Q2 sigma |}.

(** The constructors (as M_Object.construct: ok.py 187-377, ok3d.py 198-366, uk.py 220-395,
    uk3d.py 215-395) for values z of which some are NaN: the object, self.VALUES = z, and
    the statistics.  The fields o_values and o_stats of the object are not read by
    execute_v; they hold 0 in place of NaN and None. *)
Definition nan_to_zero (v : option R) : R := match v with Some r => r | None => 0 end.
Definition construct_nan (E : env) (c : kclass) (A : cargs) (z : list (option R)) : res (obj * (nat -> option R) * option stats_nan) :=
  if negb (in_names (c_pinv_type A) pinv_types) then Err ValueError else
  match c_exact A with
  | None => Err ValueError
  | Some exact =>
    let ct := class_ct c (c_ct A) in
    do (name, prm, fn, scaling, angle) <- resolve_gs E c ct (c_v A) ;;
    do f <- resolve_fun name fn ;;
    let ndim := cdim c in
    let X := columns (c_coords A) in
    let n := List.length (nth 0 (c_coords A) []) in
    let zv := fun i => nth i z (Some 0) in
    do (ct', center, sc, an, Xadj) <-
       (if String.eqb ct "euclidean" then
          do cs <- mapM center_of (c_coords A) ;;
          if negb (same_length (c_coords A)) then Err ValueError else
          do Xadj <- adjust_for_anisotropy false ndim X (rnth cs) scaling angle ;;
          Ok (Euclidean, rnth cs, scaling, angle, Xadj)
        else if String.eqb ct "geographic" then
          Ok (Geographic, (fun _ => 0), (fun _ => 1), (fun _ => 0), X)
        else Err ValueError) ;;
    do vp <- make_parameter_list name prm ;;
    if negb (same_length (c_coords A)) then Err ValueError else
    do (lags, semivariance, params) <-
       initialize_nan (e_fit E) ct' ndim n Xadj (List.length z) zv name vp f
         (a_nlags (c_v A)) (a_weight (c_v A)) ;;
    do st <- (match c, c_stat A with
              | OK2, false => Ok None
              | _, _ => do s <- all_statistics_nan (e_la E) ct' ndim n Xadj zv (fcall f params) (c_pinv A) ;; Ok (Some s)
              end) ;;
    Ok ({| o_class := c; o_pinv := c_pinv A; o_pinv_type := c_pinv_type A; o_exact := exact;
          o_ct := ct'; o_model := VName name; o_fun := f; o_params := params;
          o_n := n; o_orig := X; o_values := rnth (map nan_to_zero z);
          o_center := center; o_scaling := sc; o_angle := an; o_adj := Xadj;
          o_lags := lags; o_semivariance := semivariance; o_stats := None;
          o_verbose := c_verbose A; o_plotting := c_plotting A |}, zv, st)
  end.
