(** MODEL: distances and anisotropy.  /repo/src/pykrige/core.py 36-193 *)
From Verif Require Import Base Sums Matrix.

(** numpy.arctan2 on reals (signed zeros not modelled; the only caller passes
    a square root as first argument). *)
Definition arctan2 (y x : R) : R :=
  if Rltb 0 x then atan (y / x)
  else if Rltb x 0 then (if Rleb 0 y then atan (y / x) + PI else atan (y / x) - PI)
  else if Rltb 0 y then PI / 2
  else if Rltb y 0 then - (PI / 2)
  else 0.

(** core.py 36-97 *)
Definition great_circle_distance (lon1 lat1 lon2 lat2 : R) : R :=
  let lat1 := lat1 * PI / 180 in
  let lat2 := lat2 * PI / 180 in
  let dlon := (lon1 - lon2) * PI / 180 in
  let c1 := cos lat1 in
  let s1 := sin lat1 in
  let c2 := cos lat2 in
  let s2 := sin lat2 in
  let cd := cos dlon in
  180 / PI * arctan2 (sqrt ((c2 * sin dlon) * (c2 * sin dlon)
                            + (c1 * s2 - s1 * c2 * cd) * (c1 * s2 - s1 * c2 * cd)))
                     (s1 * s2 + c1 * c2 * cd).

(** numpy.arccos: nan (None) outside [-1,1] *)
Definition np_arccos (x : R) : option R := if Rleb (-1) x && Rleb x 1 then Some (acos x) else None.

(** core.py 100-117, one entry (None: nan).  The code clips the caller's array in place. *)
Definition euclid3_to_great_circle (d : R) : option R :=
  let d := if Rltb 2 d then 2 else d in
  option_map (fun a => 180 - 360 / PI * a) (np_arccos (/ 2 * d)).

(** Literal matrices of _adjust_for_anisotropy. *)
Definition mat2 (a b c d : R) : mat := fun i j =>
  match i, j with
  | 0%nat, 0%nat => a | 0%nat, 1%nat => b | 1%nat, 0%nat => c | 1%nat, 1%nat => d | _, _ => 0
  end.
Definition mat3 (a b c d e f g h k : R) : mat := fun i j =>
  match i, j with
  | 0%nat, 0%nat => a | 0%nat, 1%nat => b | 0%nat, 2%nat => c
  | 1%nat, 0%nat => d | 1%nat, 1%nat => e | 1%nat, 2%nat => f
  | 2%nat, 0%nat => g | 2%nat, 1%nat => h | 2%nat, 2%nat => k | _, _ => 0
  end.

(** core.py 145-181: [stretch] and [rot_tot] ([angle] already in radians). *)
Definition stretch_rot (ndim : nat) (scaling angle : vec) : res (mat * mat) :=
  match ndim with
  | 1%nat => Err NotImplementedErr
  | 2%nat =>
      Ok (mat2 1 0 0 (scaling 0%nat),
          mat2 (cos (- angle 0%nat)) (- sin (- angle 0%nat))
               (sin (- angle 0%nat)) (cos (- angle 0%nat)))
  | 3%nat =>
      let rotate_x := mat3 1 0 0
                           0 (cos (- angle 0%nat)) (- sin (- angle 0%nat))
                           0 (sin (- angle 0%nat)) (cos (- angle 0%nat)) in
      let rotate_y := mat3 (cos (- angle 1%nat)) 0 (sin (- angle 1%nat))
                           0 1 0
                           (- sin (- angle 1%nat)) 0 (cos (- angle 1%nat)) in
      let rotate_z := mat3 (cos (- angle 2%nat)) (- sin (- angle 2%nat)) 0
                           (sin (- angle 2%nat)) (cos (- angle 2%nat)) 0
                           0 0 1 in
      Ok (mat3 1 0 0 0 (scaling 0%nat) 0 0 0 (scaling 1%nat),
          mulm 3 rotate_z (mulm 3 rotate_y rotate_x))
  | _ => Err ValueError
  end.

(** core.py 120-193, _adjust_for_anisotropy.  [X i j] is coordinate j of point
    i.  [int_dtype] says whether X is an integer array: then the in-place
    [X -= center] (center is float64) raises UFuncTypeError, a TypeError. *)
Definition adjust_for_anisotropy (int_dtype : bool) (ndim : nat) (X : mat)
    (center scaling angle : vec) : res mat :=
  let angle := fun k => angle k * PI / 180 in
  if int_dtype then Err TypeError else
  let Xc : mat := fun i j => X i j - center j in
  do (stretch, rot_tot) <- stretch_rot ndim scaling angle ;;
  let X_adj := trm (mulm ndim stretch (mulm ndim rot_tot (trm Xc))) in
  Ok (fun i j => X_adj i j + center j).
