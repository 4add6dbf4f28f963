(** MODEL: the warnings issued by the kriging classes.  [true]: the call issues the warning.
    The warnings of write_asc_grid are in M_AscGrid ([asc_warnings]), those about the size of
    the universal kriging system ("Kriging may fail") in M_UK (second result of [execute_uk]).
    There are no other calls of warnings.warn in the package. *)
From Coq Require Import String.
From Verif Require Import Base Sums Matrix M_Variogram M_Geometry M_Kriging M_Init M_Object M_Execute M_UK.

(** ok.py 291-298, UserWarning "Anisotropy is not compatible with geographic coordinates.
    Ignoring user set anisotropy.", after the checks of 215-262.  ok3d.py, uk.py, uk3d.py have
    no geographic coordinates and no such warning. *)
Definition construct_warns (E : env) (c : kclass) (A : cargs) : bool :=
  match (if negb (in_names (c_pinv_type A) pinv_types) then Err ValueError else
         match c_exact A with
         | None => Err ValueError
         | Some _ =>
             do (name, prm, fn, scaling, angle) <- resolve_gs E c (class_ct c (c_ct A)) (c_v A) ;;
             do _ <- resolve_fun name fn ;;
             Ok scaling
         end) with
  | Ok scaling => String.eqb (class_ct c (c_ct A)) "geographic" && negb (Reqb (scaling 0%nat) 1)
  | Err _ => false
  end.

(** ok.py 478-484: the same in update_variogram_model, inside the test of 465-468 whether the
    anisotropy changes *)
Definition update_warns (E : env) (o : obj) (v : vargs) : bool :=
  match (do (name, prm, fn, scaling, angle) <- resolve_gs E (o_class o) (ct_name (o_ct o)) v ;;
         do _ <- resolve_fun name fn ;;
         Ok (scaling, angle)) with
  | Ok (scaling, angle) =>
      aniso_differs (o_dim o) scaling (o_scaling o) angle (o_angle o) &&
      (match o_ct o with Geographic => true | Euclidean => false end) && negb (Reqb (scaling 0%nat) 1)
  | Err _ => false
  end.

(** uk.py 1267-1274, uk3d.py 1092-1099, RuntimeWarning "Provided specified drift values, but
    'specified' drift was not initialized ..." *)
Definition unneeded_warns (u : uobj) (q : query) (specs : list spec_arr) : bool :=
  match (if negb (in_names (q_style q) ["grid"; "masked"; "points"]%string) then Err ValueError else
         do _ <- uk_matrix u ;;
         do _ <- (match o_dim (u_obj u) with 2%nat => locate2 | _ => locate3 end) (q_style q) (q_pts q) (q_mask q) ;;
         Ok tt) with
  | Ok _ => match dr_spec (u_drift u), specs with None, _ :: _ => true | _, _ => false end
  | Err _ => false
  end.
