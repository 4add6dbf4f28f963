(** MODEL: which drift data the universal kriging objects share with their user:
    uk.py 396-510, uk3d.py 396-450 on the heap of M_Heap.v.  External grids,
    point sources and specified drift values are copied; the list of functional
    drift terms is stored itself (uk.py 508, uk3d.py 448). *)
From Coq Require Import String.
From Verif Require Import Base Sums Matrix M_Variogram M_Geometry M_Kriging M_Init M_Object M_Execute M_UK M_Heap.

(** drift arguments by reference, cf. M_UK.dargs *)
Record hdargs := {
  t_terms : list string;
  t_point : option (bool * ref);
  t_ext : option (nat * nat * ref); t_ext_x : option ref; t_ext_y : option ref;
  t_spec : option (list ref);
  t_fun : option ref }.
Definition deref_d (h : heap) (D : hdargs) : dargs :=
  {| d_terms := t_terms D;
     d_point := option_map (fun p => (fst p, wells h (snd p))) (t_point D);
     d_ext := option_map (fun p => (fst p, tab h (snd p))) (t_ext D);
     d_ext_x := option_map (rd h) (t_ext_x D); d_ext_y := option_map (rd h) (t_ext_y D);
     d_spec := option_map (map (rd h)) (t_spec D);
     d_fun := option_map (funs h) (t_fun D) |}.

(** the drift attributes by reference, cf. M_UK.drift *)
Record hdrift := {
  y_linear : bool;
  y_wells : option ref;
  y_ext : option (ref * ref * ref * vec);
  y_spec : option (list ref);
  y_fun : option ref }.
Definition view_drift (h : heap) (d : hdrift) : drift :=
  {| dr_linear := y_linear d;
     dr_wells := option_map (wells h) (y_wells d);
     dr_ext := option_map (fun p => match p with (a, x, y, zs) => (tab h a, rd h x, rd h y, zs) end) (y_ext d);
     dr_spec := option_map (map (fun r => rnth (rd h r))) (y_spec d);
     dr_fun := option_map (funs h) (y_fun d) |}.

Record huobj := { xu_obj : hobj; xu_drift : hdrift }.
Definition uview (h : heap) (x : huobj) : uobj := {| u_obj := view h (xu_obj x); u_drift := view_drift h (xu_drift x) |}.

(** uk.py 411-438 *)
Definition init_external_h (D : hdargs) (o : obj) : prog (ref * ref * ref * vec) :=
  match t_ext D with
  | None => raise ValueError
  | Some (rows, cols, f) =>
    match t_ext_x D, t_ext_y D with
    | Some ex, Some ey =>
      hdo lx <- look (fun h => rd h ex) ;;
      hdo ly <- look (fun h => rd h ey) ;;
      hdo m <- look (fun h => tab h f) ;;
      hdo arr <- (if negb (Nat.eqb rows (List.length ly)) || negb (Nat.eqb cols (List.length lx)) then
                   if Nat.eqb rows (List.length lx) && Nat.eqb cols (List.length ly)
                   then alloc (Tab (trm m)) else raise ValueError
                 else alloc (Tab m)) ;;
      hdo x <- copy ex ;;
      hdo y <- copy ey ;;
      hdo arr_ <- look (fun h => tab h arr) ;;
      hdo lx <- look (fun h => rd h x) ;;
      hdo ly <- look (fun h => rd h y) ;;
      hdo zs <- lift (zscalars arr_ lx ly (o_n o) (fun i => o_orig o i 0%nat) (fun i => o_orig o i 1%nat)) ;;
      ret (arr, x, y, zs)
    | _, _ => raise ValueError
    end
  end.

(** uk.py 444-458 *)
Definition init_wells_h (D : hdargs) (o : obj) : prog ref :=
  match t_point D with
  | None => raise ValueError
  | Some (int_dtype, p) =>
      hdo c <- copy p ;;
      hdo rows <- look (fun h => wells h c) ;;
      match rows with
      | [] => raise IndexError
      | _ =>
        hdo arr <- alloc (Wells []) ;;                                   (* np.zeros *)
        let P : mat := fun i j => match nth i rows (0, 0, 0) with (x, y, _) => match j with 0%nat => x | _ => y end end in
        hdo X <- alloc (Tab P) ;;                                        (* np.vstack(..).T *)
        hdo Q <- adjust_h int_dtype 2 X (o_center o) (o_scaling o) (o_angle o) ;;
        hdo Q <- look (fun h => tab h Q) ;;
        hdo _ <- store arr (Wells (map (fun i => (Q i 0%nat, Q i 1%nat, snd (nth i rows (0, 0, 0)))) (seq 0 (List.length rows)))) ;;
        ret arr
      end
  end.

(** uk.py 469-491, uk3d.py 409-431 *)
Fixpoint specified_h (n : nat) (ts : list ref) : prog (list ref) :=
  match ts with
  | [] => ret []
  | t :: ts =>
      hdo r <- copy t ;;
      hdo l <- look (fun h => rd h r) ;;
      if negb (Nat.eqb (List.length l) n) then raise ValueError else
      hdo rs <- specified_h n ts ;; ret (r :: rs)
  end.
Definition init_specified_h (D : hdargs) (o : obj) : prog (list ref) :=
  match t_spec D with
  | None => raise TypeError
  | Some [] => raise ValueError
  | Some ts => specified_h (o_n o) ts
  end.

(** uk.py 495-508, uk3d.py 435-448: the list itself *)
Definition init_functional_h (D : hdargs) : prog ref :=
  match t_fun D with
  | None => raise TypeError
  | Some r =>
      hdo l <- look (fun h => funs h r) ;;
      match l with [] => raise ValueError | _ => ret r end
  end.

Definition opt_drift_h {A} (on : bool) (p : prog A) : prog (option A) :=
  if on then hdo a <- p ;; ret (Some a) else ret None.

Definition init_drift_h (c : kclass) (D : hdargs) (o : obj) : prog hdrift :=
  let has t := in_names t (t_terms D) in
  let two := match c with UK2 => true | _ => false end in
  hdo e <- opt_drift_h (two && has "external_Z"%string) (init_external_h D o) ;;
  hdo w <- opt_drift_h (two && has "point_log"%string) (init_wells_h D o) ;;
  hdo s <- opt_drift_h (has "specified"%string) (init_specified_h D o) ;;
  hdo f <- opt_drift_h (has "functional"%string) (init_functional_h D) ;;
  ret {| y_linear := has "regional_linear"%string; y_wells := w; y_ext := e; y_spec := s; y_fun := f |}.

Definition construct_uk_h (E : env) (c : kclass) (A : hargs) (D : hdargs) : prog huobj :=
  hdo x <- construct_h E c A ;;
  hdo o <- look (fun h => view h x) ;;
  hdo d <- init_drift_h c D o ;;
  ret {| xu_obj := x; xu_drift := d |}.

(** update_variogram_model, uk.py 630-788, uk3d.py 452-635: the drift attributes are
    not assigned. *)
Definition update_uk_h (E : env) (x : huobj) (v : hvargs) (h : heap) : heap * huobj * option exn :=
  let '(h, y, e) := update_h E (xu_obj x) v h in (h, {| xu_obj := y; xu_drift := xu_drift x |}, e).

(** specified drift arrays of an execute call by reference, with their shapes *)
Inductive hspec := HSpec1 (r : ref) | HSpec2 (rows cols : nat) (r : ref) | HSpec3 (d0 d1 d2 : nat) (r : ref).
Definition deref_spec (h : heap) (s : hspec) : spec_arr :=
  match s with
  | HSpec1 r => Spec1 (List.length (rd h r)) (rnth (rd h r))
  | HSpec2 a b r => Spec2 a b (tab h r)
  | HSpec3 a b c r => Spec3 a b c (cube h r)
  end.
(** execute, uk.py 1164-1328, uk3d.py 976-1146: the points are copied, stacked and
    adjusted in place; the specified drift arrays are read through views
    (np.squeeze, .T, .swapaxes) and copied by .flatten(); everything else works on new
    arrays.  As in M_Heap.execute_h the numbers are those of M_UK.execute_uk. *)
Definition execute_uk_h (E : env) (x : huobj) (q : hquery) (specs : list hspec) : prog (result * bool) :=
  hdo u <- look (fun h => uview h x) ;;
  hdo qq <- look (fun h => deref_q h q) ;;
  hdo ss <- look (fun h => map (deref_spec h) specs) ;;
  hdo pts <- copies (k_pts q) ;;
  hdo l <- look (fun h => (match o_dim (u_obj u) with 2%nat => locate2 | _ => locate3 end) (k_style q) (map (rd h) pts) (k_mask q)) ;;
  hdo _ <- (match l with
            | Ok l =>
                hdo X <- alloc (Tab (l_at l)) ;;                  (* np.vstack((xpts, ypts)).T *)
                fun h => match adjust_h (forallb (fun b => b) (k_int q)) (o_dim (u_obj u)) X (o_center (u_obj u))
                                 (o_scaling (u_obj u)) (o_angle (u_obj u)) h with
                         | (h, _) => (h, Ok tt) end
            | _ => ret tt
            end) ;;
  lift (execute_uk E u qq ss).
