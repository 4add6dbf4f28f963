(** MODEL: assembly and solution of the (ordinary) kriging system.
    /repo/src/pykrige/ok.py 626-758, ok3d.py 603-733, core.py 654-756,
    /repo/src/pykrige/lib/cok.pyx. *)
From Coq Require Import String.
From Verif Require Import Base Sums Matrix M_Variogram.

(** ---- in-place numpy assignments ---- *)
Definition zeros2 : mat := fun _ _ => 0.
(** a[:n, :n] = f *)
Definition set_block (n : nat) (f a : mat) : mat :=
  fun i j => if Nat.ltb i n && Nat.ltb j n then f i j else a i j.
(** np.fill_diagonal(a, v) *)
Definition fill_diagonal (v : R) (a : mat) : mat := fun i j => if Nat.eqb i j then v else a i j.
(** a[r, :] = v *)
Definition set_row (r : nat) (v : R) (a : mat) : mat := fun i j => if Nat.eqb i r then v else a i j.
(** a[:, c] = v *)
Definition set_col (c : nat) (v : R) (a : mat) : mat := fun i j => if Nat.eqb j c then v else a i j.
(** a[r, c] = v *)
Definition set_entry (r c : nat) (v : R) (a : mat) : mat :=
  fun i j => if Nat.eqb i r && Nat.eqb j c then v else a i j.

(** _get_kriging_matrix after the distance matrix [d] has been computed:
    ok.py 642-648, ok3d.py 614-622, core.py 729-735.  [vg] is
    variogram_function(variogram_model_parameters, .). *)
Definition kriging_matrix (n : nat) (vg : R -> R) (d : mat) : mat :=
  let a := zeros2 in
  let a := set_block n (fun i j => - vg (d i j)) a in
  let a := fill_diagonal 0 a in
  let a := set_row n 1 a in
  let a := set_col n 1 a in
  set_entry n n 0 a.

(** ---- external numerical routines (oracles) ---- *)
Record linalg := {
  (** scipy.linalg.inv; None stands for LinAlgError *)
  la_inv : nat -> mat -> option mat;
  (** P_INV[type], core.py 28-33 (scipy.linalg.pinv / pinvh); None: LinAlgError *)
  la_pinv : string -> nat -> mat -> option mat;
  (** scipy.linalg.solve, numpy.linalg.solve, LAPACK dgesv; None: singular *)
  la_solve : nat -> mat -> vec -> option vec;
  (** numpy.linalg.lstsq(a, b)[0]; None: LinAlgError *)
  la_lstsq : nat -> mat -> vec -> option vec
}.

(** What the model assumes of them: results are exact solutions, failure is
    reported exactly for singular matrices. *)
Record linalg_ok (L : linalg) : Prop := {
  inv_some : forall n A B, la_inv L n A = Some B -> is_inverse n A B;
  inv_none : forall n A, la_inv L n A = None -> ~ nonsingular n A;
  pinv_some : forall t n A P, la_pinv L t n A = Some P -> is_pinv n A P;
  solve_some : forall n A b x, la_solve L n A b = Some x -> nonsingular n A /\ veq n (mulv n A x) b;
  solve_none : forall n A b, la_solve L n A b = None -> ~ nonsingular n A;
  lstsq_some : forall n A b x, la_lstsq L n A b = Some x ->
     exists P, is_pinv n A P /\ veq n x (mulv n P b)
}.

(** ok.py 659-663, 694-698 (same in ok3d.py, uk.py, uk3d.py) *)
Definition invert (L : linalg) (pseudo_inv : bool) (pseudo_inv_type : string) (n : nat) (a : mat) : res mat :=
  match (if pseudo_inv then la_pinv L pseudo_inv_type n a else la_inv L n a) with
  | Some b => Ok b
  | None => Err LinAlgError
  end.

(** [np.any(np.absolute(bd) <= eps)] on one row *)
Definition any_zero (eps : R) (n : nat) (bd : vec) : bool :=
  existsb (fun k => Rleb (Rabs (bd k)) eps) (seq 0 n).

(** One right-hand side: ok.py 701-713 (loop), 743-751 (moving window).
    [b] starts as zeros; [b[:n,0] = -vg(bd)]; [b[zero_index] = 0]; [b[n,0] = 1]. *)
Definition rhs (n : nat) (vg : R -> R) (eps : R) (exact_values : bool) (bd : vec) : vec :=
  let zero_value := any_zero eps n bd in
  let b := fun k => if Nat.ltb k n then - vg (bd k) else 0 in
  let b := if zero_value && exact_values
           then fun k => if Nat.ltb k n && Rleb (Rabs (bd k)) eps then 0 else b k
           else b in
  upd b n 1.

(** All right-hand sides at once: ok.py 665-674, ok3d.py 639-648.
    [zero_value] is computed over the whole (npt, n) distance array. *)
Definition rhs_vector (n npt : nat) (vg : R -> R) (eps : R) (exact_values : bool) (bd : mat) : mat :=
  let zero_value := existsb (fun j => any_zero eps n (bd j)) (seq 0 npt) in
  let b : mat := fun j k => if Nat.ltb k n then - vg (bd j k) else 0 in
  let b : mat := if zero_value && exact_values
           then fun j k => if Nat.ltb k n && Rleb (Rabs (bd j k)) eps then 0 else b j k
           else b in
  fun j k => if Nat.eqb k n then 1 else b j k.

(** ---- _exec_vector: ok.py 650-683, ok3d.py 624-657 ----
    The masked array only hides results (np.dot and the products act on the
    data); the final mask is applied in execute. *)
Definition exec_vector (L : linalg) (pseudo_inv : bool) (pseudo_inv_type : string)
    (n npt : nat) (vg : R -> R) (eps : R) (exact_values : bool) (Z : vec)
    (a : mat) (bd : mat) : res (vec * vec) :=
  do a_inv <- invert L pseudo_inv pseudo_inv_type (n + 1) a ;;
  let b := rhs_vector n npt vg eps exact_values bd in
  let x : mat := fun j => mulv (n + 1) a_inv (b j) in
  Ok ((fun j => bsum n (fun k => x j k * Z k)),
      (fun j => bsum (n + 1) (fun k => x j k * - b j k))).

(** [np.nonzero(~mask)[0]] *)
Definition unmasked (npt : nat) (mask : nat -> bool) : list nat :=
  filter (fun j => negb (mask j)) (seq 0 npt).

(** ---- _exec_loop: ok.py 685-720, ok3d.py 659-695 ---- *)
Definition exec_loop (L : linalg) (pseudo_inv : bool) (pseudo_inv_type : string)
    (n npt : nat) (vg : R -> R) (eps : R) (exact_values : bool) (Z : vec)
    (a : mat) (bd_all : mat) (mask : nat -> bool) : res (vec * vec) :=
  do a_inv <- invert L pseudo_inv pseudo_inv_type (n + 1) a ;;
  Ok (fold_left (fun '(zvalues, sigmasq) j =>
        let bd := bd_all j in
        let b := rhs n vg eps exact_values bd in
        let x := mulv (n + 1) a_inv b in
        (upd zvalues j (bsum n (fun k => x k * Z k)),
         upd sigmasq j (bsum (n + 1) (fun k => x k * - b k))))
      (unmasked npt mask) ((fun _ => 0), (fun _ => 0))).

(** Monadic fold: a loop that can raise. *)
Fixpoint foldM {A B} (f : B -> A -> res B) (l : list A) (acc : B) : res B :=
  match l with
  | [] => Ok acc
  | x :: l' => do acc' <- f acc x ;; foldM f l' acc'
  end.

(** Distances returned by cKDTree.query: [None] is [inf] (padding). *)
Definition xdist := option R.

(** ---- _exec_loop_moving_window: ok.py 722-758, ok3d.py 697-733 ----
    [k] = bd_idx.shape[1]; [N] = number of data (a_all is (N+1)x(N+1));
    [idx i r] = bd_idx[i][r]; [vinf] = value of the variogram function at inf,
    [None] if it is not finite (then scipy's check_finite raises ValueError).
    [self.Z[b_selector]] with a padded index N raises IndexError, but only
    after solve, which has failed by then (see the proofs). *)
Definition window_matrix (k N : nat) (sel : nat -> nat) (a_all : mat) : mat :=
  let a_selector := fun r => if Nat.ltb r k then sel r else N in
  fun r c => a_all (a_selector r) (a_selector c).

Definition rhs_window (k : nat) (vg : R -> R) (vinf : option R) (eps : R) (exact_values : bool)
    (bd : nat -> xdist) : nat -> option R :=
  let is_zero r := match bd r with Some d => Rleb (Rabs d) eps | None => false end in
  let zero_value := existsb is_zero (seq 0 k) in
  let b := fun r => if Nat.ltb r k
                    then match bd r with Some d => Some (- vg d) | None => option_map Ropp vinf end
                    else Some 0 in
  let b := if zero_value && exact_values
           then fun r => if Nat.ltb r k && is_zero r then Some 0 else b r
           else b in
  upd b k (Some 1).

Definition all_finite (m : nat) (b : nat -> option R) : bool :=
  forallb (fun r => match b r with Some _ => true | None => false end) (seq 0 m).
Definition fin (b : nat -> option R) : vec := fun r => match b r with Some v => v | None => 0 end.

(** scipy.linalg.solve(a, b) with check_finite=True *)
Definition scipy_solve (L : linalg) (m : nat) (a : mat) (b : nat -> option R) : res vec :=
  if all_finite m b
  then match la_solve L m a (fin b) with Some x => Ok x | None => Err LinAlgError end
  else Err ValueError.

Definition exec_loop_moving_window (L : linalg) (N k npt : nat) (vg : R -> R) (vinf : option R)
    (eps : R) (exact_values : bool) (Z : vec) (a_all : mat) (bd_all : nat -> nat -> xdist)
    (mask : nat -> bool) (bd_idx : nat -> nat -> nat) : res (vec * vec) :=
  foldM (fun '(zvalues, sigmasq) i =>
        let b_selector := bd_idx i in
        let a := window_matrix k N b_selector a_all in
        let b := rhs_window k vg vinf eps exact_values (bd_all i) in
        do x <- scipy_solve L (k + 1) a b ;;
        if forallb (fun r => Nat.ltb (b_selector r) N) (seq 0 k) then
          Ok (upd zvalues i (bsum k (fun r => x r * Z (b_selector r))),
              upd sigmasq i (- bsum (k + 1) (fun r => x r * fin b r)))
        else Err IndexError)
    (unmasked npt mask) ((fun _ => 0), (fun _ => 0)).

(** ---- Cython: lib/cok.pyx ---- *)
(** check_b_vect, cok.pyx 196-203 *)
Definition check_b_vect (n : nat) (bd b : vec) (eps : R) : vec :=
  fold_left (fun b k => if Rleb (bd k) eps then upd b k 0 else b) (seq 0 n) b.

(** [for k in range(n): s += f k] *)
Definition c_sum (n : nat) (f : nat -> R) : R := fold_left (fun s k => s + f k) (seq 0 n) 0.

(** BLAS dgemv with alpha = 1, beta = 0: y := A x (for beta = 0 the old y is
    not read), entries beyond m untouched. *)
Definition dgemv (m : nat) (a : mat) (x y : vec) : vec :=
  fun i => if Nat.ltb i m then mulv m a x i else y i.

(** Loop state: zvalues, sigmasq and the work arrays x, b shared by all points. *)
Record cstate := { cz : vec; cs : vec; cx : vec; cb : vec }.

(** cok.pyx 53-94, body of the loop over points *)
Definition c_point (n : nat) (cvg : nat -> vec -> vec -> vec) (eps : R) (exact_values : bool)
    (Z : vec) (a_inv : mat) (bd_all : mat) (mask : nat -> bool) (s : cstate) (i : nat) : cstate :=
  if mask i then s else
  let nb := (n + 1)%nat in
  let bd := bd_all i in
  let b := cvg n bd (cb s) in
  let b := fold_left (fun b k => upd b k (b k * -1)) (seq 0 n) b in
  let b := upd b n 1 in
  let b := if exact_values then check_b_vect n bd b eps else b in
  let x := dgemv nb a_inv b (cx s) in
  let z_tmp := c_sum n (fun k => x k * Z k) in
  let ss_tmp := c_sum nb (fun k => x k * b k) in
  {| cz := upd (cz s) i z_tmp; cs := upd (cs s) i (- ss_tmp); cx := x; cb := b |}.

(** _c_exec_loop, cok.pyx 14-96.  The pseudo-inverse types are those of P_INV
    (checked by the constructors), so the 'Unknown pseudo inverse' branch is
    not reachable. *)
Definition c_exec_loop (L : linalg) (pseudo_inv : bool) (pseudo_inv_type : string)
    (n npt : nat) (f : pyfun) (params : list R) (eps : R) (exact_values : bool) (Z : vec)
    (a : mat) (bd_all : mat) (mask : nat -> bool) : res (vec * vec) :=
  do cf <- get_variogram_model (fname f) ;;
  do a_inv <- invert L pseudo_inv pseudo_inv_type (n + 1) a ;;
  let s := fold_left (c_point n (cf params) eps exact_values Z a_inv bd_all mask) (seq 0 npt)
             {| cz := fun _ => 0; cs := fun _ => 0; cx := fun _ => 0; cb := fun _ => 0 |} in
  Ok (cz s, cs s).

(** Work arrays of _c_exec_loop_moving_window (cok.pyx 98-193), reused for all
    points; [wa] is the flat array a_selection, read by dgesv in column-major
    order with leading dimension nb and overwritten by the LU factors. *)
Record wstate := { wz : vec; ws : vec; wx : vec; wtmp : vec; wb : vec; wa : vec }.

(** dgesv(nb, 1, a, nb, ipiv, x, nb, info): solves in place.  The contents of
    [a] after the call (LU factors) are not used before being overwritten; the
    model lets them be an arbitrary function [lu] of the input. *)
Definition dgesv (L : linalg) (lu : vec -> vec) (nb : nat) (a x : vec) : option (vec * vec) :=
  match la_solve L nb (fun r c => a (r + c * nb)%nat) x with
  | None => None
  | Some y => Some (lu a, fun i => if Nat.ltb i nb then y i else x i)
  end.

(** Accesses to a work array of the given size: the file is compiled with
    boundscheck=False, so an index out of range is undefined behaviour. *)
Definition wr (size : nat) (f : vec) (i : nat) (v : R) : res vec :=
  if Nat.ltb i size then Ok (upd f i v) else Err UndefinedBehaviour.
Definition rd (size : nat) (f : vec) (i : nat) : res R :=
  if Nat.ltb i size then Ok (f i) else Err UndefinedBehaviour.
Definition rd2 (size : nat) (a : mat) (i j : nat) : res R :=
  if Nat.ltb i size && Nat.ltb j size then Ok (a i j) else Err UndefinedBehaviour.

(** cok.pyx 131-190, body of the loop over points.  N = n_max: x, tmp, b and ipiv
    have N+1 entries, a_selection (N+1)^2, Z has N, a_all is (N+1) x (N+1). *)
Definition cw_point (L : linalg) (lu : vec -> vec) (N k : nat) (cvg : nat -> vec -> vec -> vec)
    (eps : R) (exact_values : bool) (Z : vec) (a_all : mat) (bd_all : mat) (mask : nat -> bool)
    (bd_idx : nat -> nat -> nat) (s : wstate) (i : nat) : res wstate :=
  if mask i then Ok s else
  let n := k in
  let nb := (n + 1)%nat in
  let asize := ((N + 1) * (N + 1))%nat in
  let bd := bd_all i in
  let sel := bd_idx i in
  do A <- foldM (fun A k => foldM (fun A j =>
                   do v <- rd2 (N + 1) a_all (sel k) (sel j) ;; wr asize A (k + nb * j)%nat v)
                 (seq 0 n) A) (seq 0 n) (wa s) ;;
  do A <- foldM (fun A k => do A <- wr asize A (k * nb + n)%nat 1 ;; wr asize A (n * nb + k)%nat 1)
            (seq 0 nb) A ;;
  do A <- wr asize A (n * nb + n)%nat 0 ;;
  (* the variogram routine writes tmp[0..n) *)
  do tmp <- (if Nat.leb n (N + 1) then Ok (cvg n bd (wtmp s)) else Err UndefinedBehaviour) ;;
  do b <- foldM (fun b k => do t <- rd (N + 1) tmp k ;; wr (N + 1) b k (- t)) (seq 0 n) (wb s) ;;
  do b <- wr (N + 1) b n 1 ;;
  let b := if exact_values then check_b_vect n bd b eps else b in
  do x <- foldM (fun x k => do v <- rd (N + 1) b k ;; wr (N + 1) x k v) (seq 0 nb) (wx s) ;;
  if negb (Nat.leb nb (N + 1)) then Err UndefinedBehaviour else
  match dgesv L lu nb A x with
  | None => Err ValueError
  | Some (A', x) =>
      do z_tmp <- foldM (fun acc k => do z <- rd N Z (sel k) ;; Ok (acc + x k * z)) (seq 0 n) 0 ;;
      let ss_tmp := c_sum nb (fun k => x k * b k) in
      Ok {| wz := upd (wz s) i z_tmp; ws := upd (ws s) i (- ss_tmp);
            wx := x; wtmp := tmp; wb := b; wa := A' |}
  end.

Definition w0 : wstate :=
  {| wz := fun _ => 0; ws := fun _ => 0; wx := fun _ => 0; wtmp := fun _ => 0;
     wb := fun _ => 0; wa := fun _ => 0 |}.

Definition c_exec_loop_moving_window (L : linalg) (lu : vec -> vec) (N k npt : nat) (f : pyfun)
    (params : list R) (eps : R) (exact_values : bool) (Z : vec) (a_all : mat) (bd_all : mat)
    (mask : nat -> bool) (bd_idx : nat -> nat -> nat) : res (vec * vec) :=
  do cf <- get_variogram_model (fname f) ;;
  do s <- foldM (cw_point L lu N k (cf params) eps exact_values Z a_all bd_all mask bd_idx)
            (seq 0 npt) w0 ;;
  Ok (wz s, ws s).

(** ---- core._krige, core.py 713-756, after the distances: used only for the
    cross-validation statistics.  Only the FIRST zero distance is zeroed, and
    independently of exact_values. ---- *)
Definition first_zero (n : nat) (bd : vec) : option nat :=
  find (fun k => Rleb (bd k) (1 / 10000000000)) (seq 0 n).

Definition krige1 (L : linalg) (n : nat) (vg : R -> R) (d : mat) (bd y : vec) (pseudo_inv : bool)
  : res (R * R) :=
  let a := kriging_matrix n vg d in
  let b : vec := fun k => if Nat.ltb k n then - vg (bd k) else 0 in
  let b := match first_zero n bd with Some k0 => upd b k0 0 | None => b end in
  let b := upd b n 1 in
  match (if pseudo_inv then la_lstsq L (n + 1) a b else la_solve L (n + 1) a b) with
  | None => Err LinAlgError
  | Some x => Ok (bsum n (fun k => x k * y k), bsum (n + 1) (fun k => x k * - b k))
  end.
