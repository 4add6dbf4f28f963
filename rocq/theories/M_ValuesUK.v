(** MODEL: universal kriging's execute on data values that need not be numbers.

    As M_Values.v does for ordinary kriging: the functions of M_UK.v that read the data
    values, over any type of values with multiplication by a weight and addition
    (P_ValuesUK.v proves that on real values they are those of M_UK.v). *)
From Coq Require Import String.
From Verif Require Import Base Sums Matrix M_Variogram M_Geometry M_Kriging M_Init M_Object M_Execute M_UK M_Values.

(** _exec_vector, uk.py 922-1009, uk3d.py 739-811 *)
Definition uk_exec_vector_v (A : valg) (L : linalg) (u : uobj) (Z : nat -> V A) (npt : nat) (a : mat) (bd xyz orig : mat)
    (specs : list vec) : res ((nat -> V A) * vec * bool) :=
  let o := u_obj u in let d := u_drift u in
  let n := o_n o in
  let nw := n_withdrifts u in
  let size := (nw + 1)%nat in
  let at_ p := query_coords (o_dim o) xyz p in
  do a_inv <- invert L (o_pinv o) (o_pinv_type o) size a ;;
  let b := uk_rhs_vector n npt (o_vg o) (o_exact o) bd in
  do s <- (if dr_linear d then foldM (fun s k => put size (fun p => at_ p k) s) (axes (o_dim o)) (b, n)
           else Ok (b, n)) ;;
  do s <- each (dr_wells d) (fun s w => put size (fun p => well_term w (at_ p 0%nat) (at_ p 1%nat)) s) s ;;
  do s <- (match dr_ext d with
           | Some (arr, ex, ey, _) =>
               do zs <- zscalars arr ex ey npt (fun p => orig p 0%nat) (fun p => orig p 1%nat) ;; put size zs s
           | None => Ok s
           end) ;;
  do s <- (match dr_spec d with Some _ => foldM (fun s v => put size v s) specs s | None => Ok s end) ;;
  do s <- each (dr_fun d) (fun s f => put size (fun p => call_drift (o_dim o) f (at_ p)) s) s ;;
  let '(b, i) := s in
  let warn := negb (Nat.eqb i nw) in
  let b : mat := fun p k => if Nat.eqb k nw then 1 else b p k in
  let x : mat := fun p => mulv size a_inv (b p) in
  Ok ((fun p => vsum A n (fun k => vmul A (x p k) (Z k))),
      (fun p => bsum size (fun k => x p k * - b p k)), warn).

(** _exec_loop, uk.py 1011-1088, uk3d.py 813-875 *)
Definition uk_exec_loop_v (A : valg) (L : linalg) (u : uobj) (Z : nat -> V A) (npt : nat) (a : mat) (bd xyz orig : mat)
    (mask : nat -> bool) (specs : list vec) : res ((nat -> V A) * vec * bool) :=
  let o := u_obj u in
  let n := o_n o in
  let size := (n_withdrifts u + 1)%nat in
  do a_inv <- invert L (o_pinv o) (o_pinv_type o) size a ;;
  foldM (fun '(zvalues, sigmasq, warn) j =>
      do (b, w) <- uk_rhs_loop u npt (bd j) xyz orig specs j ;;
      let x := mulv size a_inv b in
      Ok (upd zvalues j (vsum A n (fun k => vmul A (x k) (Z k))),
          upd sigmasq j (bsum size (fun k => x k * - b k)), warn || w))
    (unmasked npt mask) ((fun _ => v0 A), (fun _ => 0), false).

(** execute, uk.py 1164-1328, uk3d.py 958-1146, with self.VALUES = Z *)
Definition execute_uk_v (A : valg) (E : env) (u : uobj) (Z : nat -> V A) (q : query) (specs : list spec_arr) : res (result_v A * bool) :=
  let o := u_obj u in
  let dim := o_dim o in
  let style := q_style q in
  if negb (in_names style ["grid"; "masked"; "points"]%string) then Err ValueError else
  do (a, warn_a) <- uk_matrix u ;;
  do l <- (match dim with 2%nat => locate2 | _ => locate3 end) style (q_pts q) (q_mask q) ;;
  do gs <- spec_grids u style (q_pts q) specs ;;
  do pts <- adjust_query o (q_int q) (l_at l) ;;
  let xyz := query_array dim pts in
  let bd := query_distances o pts in
  do (z, s, warn_b) <-
     (if String.eqb (q_backend q) "vectorized" then
        uk_exec_vector_v A (e_la E) u Z (l_npt l) a bd xyz (l_at l) gs
      else if String.eqb (q_backend q) "loop" then
        uk_exec_loop_v A (e_la E) u Z (l_npt l) a bd xyz (l_at l) (l_mask l) gs
      else Err ValueError) ;;
  Ok (finish_v A style l (z, s), warn_a || warn_b).

(** UniversalKriging / UniversalKriging3D(x, y, [z,] values, ..) with NaN among the values:
    the drift terms (uk.py 396-510, uk3d.py 396-450) do not read the values *)
Definition construct_uk_nan (E : env) (c : kclass) (A : cargs) (z : list (option R)) (D : dargs)
  : res (uobj * (nat -> option R) * option stats_nan) :=
  do (o, zv, st) <- construct_nan E c A z ;;
  do d <- init_drift c D o ;;
  Ok ({| u_obj := o; u_drift := d |}, zv, st).
