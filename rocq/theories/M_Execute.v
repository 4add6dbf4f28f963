(** MODEL: execute of OrdinaryKriging (ok.py 760-1020) and OrdinaryKriging3D
    (ok3d.py 735-932). *)
From Coq Require Import String.
From Verif Require Import Base Sums Matrix M_Variogram M_Geometry M_Kriging M_Init M_Object.

(** A boolean array given as mask: its shape and entries. *)
Inductive mask_arg :=
| Mask2 (rows cols : nat) (f : nat -> nat -> bool)
| Mask3 (d0 d1 d2 : nat) (f : nat -> nat -> nat -> bool).

(** Arguments of execute.  [q_pts]: xpoints, ypoints(, zpoints) as 1-D arrays
    (np.squeeze / atleast_1d of other shapes not modelled), [q_int]: which of
    them have an integer dtype.  n_closest_points is None or a natural number. *)
Record query := {
  q_style : string;
  q_pts : list (list R);
  q_int : list bool;
  q_mask : option mask_arg;
  q_backend : string;
  q_window : option nat }.

(** The returned arrays: shape, and entries in C order ([None] = masked). *)
Record result := { r_shape : list nat; r_value : nat -> option R; r_variance : nat -> option R }.

(** ndarray.flatten / reshape in C order *)
Definition flatten2 {A} (ncol : nat) (g : nat -> nat -> A) : nat -> A :=
  fun p => g (p / ncol)%nat (p mod ncol)%nat.
Definition flatten3 {A} (d1 d2 : nat) (g : nat -> nat -> nat -> A) : nat -> A :=
  fun p => g (p / d2 / d1)%nat (p / d2 mod d1)%nat (p mod d2)%nat.

(** The flattened list of query locations. *)
Record located := {
  l_npt : nat;              (* npt *)
  l_at : mat;               (* l_at p j: coordinate j of the p-th location, as given *)
  l_shape : list nat;       (* shape of the returned arrays *)
  l_mask : nat -> bool      (* flattened mask *)
}.

Definition size_of (l : list (list R)) (j : nat) : nat := List.length (nth j l []).
Definition entry (l : list (list R)) (j p : nat) : R := rnth (nth j l []) p.
Definition xyz_cols (x y z : vec) : mat :=
  fun p j => match j with 0%nat => x p | 1%nat => y p | _ => z p end.

(** ok.py 847-885: mask handling, meshgrid, flattening (2D) *)
Definition locate2 (style : string) (pts : list (list R)) (mask : option mask_arg) : res located :=
  let nx := size_of pts 0 in
  let ny := size_of pts 1 in
  let grid_x := fun i j : nat => entry pts 0 j in      (* np.meshgrid(xpts, ypts) *)
  let grid_y := fun i j : nat => entry pts 1 i in
  let g m := {| l_npt := ny * nx;
                l_at := xyz_cols (flatten2 nx grid_x) (flatten2 nx grid_y) (fun _ => 0);
                l_shape := [ny; nx]; l_mask := m |} in
  if String.eqb style "masked" then
    match mask with
    | None => Err OSErr
    | Some (Mask3 _ _ _ _) => Err ValueError          (* not modelled: only 2-D masks are passed *)
    | Some (Mask2 r c f) =>
        if Nat.eqb r ny && Nat.eqb c nx then Ok (g (flatten2 nx f))
        else if Nat.eqb r nx && Nat.eqb c ny then Ok (g (flatten2 nx (fun i j => f j i)))
        else Err ValueError
    end
  else if String.eqb style "grid" then Ok (g (fun _ => false))
  else if String.eqb style "points" then
    if negb (Nat.eqb nx ny) then Err ValueError
    else Ok {| l_npt := nx; l_at := xyz_cols (entry pts 0) (entry pts 1) (fun _ => 0);
               l_shape := [nx]; l_mask := fun _ => false |}
  else Err ValueError.

(** ok3d.py 843-885 *)
Definition locate3 (style : string) (pts : list (list R)) (mask : option mask_arg) : res located :=
  let nx := size_of pts 0 in
  let ny := size_of pts 1 in
  let nz := size_of pts 2 in
  let grid_z := fun a b c : nat => entry pts 2 a in    (* np.meshgrid(zpts, ypts, xpts, indexing="ij") *)
  let grid_y := fun a b c : nat => entry pts 1 b in
  let grid_x := fun a b c : nat => entry pts 0 c in
  let g m := {| l_npt := nz * ny * nx;
                l_at := xyz_cols (flatten3 ny nx grid_x) (flatten3 ny nx grid_y) (flatten3 ny nx grid_z);
                l_shape := [nz; ny; nx]; l_mask := m |} in
  if String.eqb style "masked" then
    match mask with
    | None => Err OSErr
    | Some (Mask2 _ _ _) => Err ValueError
    | Some (Mask3 d0 d1 d2 f) =>
        if Nat.eqb d0 nz && Nat.eqb d1 ny && Nat.eqb d2 nx then Ok (g (flatten3 ny nx f))
        else if Nat.eqb d0 nx && Nat.eqb d2 nz && Nat.eqb d1 ny
             then Ok (g (flatten3 ny nx (fun a b c => f c b a)))     (* mask.swapaxes(0, 2) *)
        else Err ValueError
    end
  else if String.eqb style "grid" then Ok (g (fun _ => false))
  else if String.eqb style "points" then
    if negb (Nat.eqb nx ny) && negb (Nat.eqb ny nz) then Err ValueError
    (* np.vstack((xpts, ypts, zpts)), ok3d.py 888 *)
    else if negb (Nat.eqb nx ny) || negb (Nat.eqb nx nz) then Err ValueError
    else Ok {| l_npt := nx; l_at := xyz_cols (entry pts 0) (entry pts 1) (entry pts 2);
               l_shape := [nx]; l_mask := fun _ => false |}
  else Err ValueError.

(** np.ma.array(values, mask=mask) for style 'masked', then reshape *)
Definition finish (style : string) (l : located) (vs : vec * vec) : result :=
  let hide (v : vec) : nat -> option R :=
    if String.eqb style "masked"
    then fun p => if l_mask l p then None else Some (v p)
    else fun p => Some (v p) in
  {| r_shape := l_shape l; r_value := hide (fst vs); r_variance := hide (snd vs) |}.

(** _adjust_for_anisotropy of the query locations; only Euclidean (ok.py 887-893) *)
Definition adjust_query (o : obj) (ints : list bool) (at_ : mat) : res mat :=
  match o_ct o with
  | Euclidean => adjust_for_anisotropy (forallb (fun b => b) ints) (o_dim o) at_
                   (o_center o) (o_scaling o) (o_angle o)
  | Geographic => Ok at_
  end.

(** columns in (z, y, x) order: ok3d.py 894-903 *)
Definition zyx (m : mat) : mat := fun i j => m i (2 - j)%nat.

(** distance matrix of the data, ok.py 629-641, ok3d.py 606-614 *)
Definition data_distances (o : obj) : mat :=
  fun i j => distance (o_ct o) (o_dim o) (o_adj o i) (o_adj o j).

(** _get_kriging_matrix *)
Definition get_kriging_matrix (o : obj) : mat :=
  kriging_matrix (o_n o) (o_vg o) (data_distances o).

(** distances from the p-th query location (already adjusted) to the data:
    ok.py 985-993; ok3d.py 904 *)
Definition query_distances (o : obj) (pts : mat) : mat :=
  match o_class o with
  | OK3 | UK3 => fun p i => euclid 3 (zyx pts p) (zyx (o_adj o) i)
  | _ => fun p i => distance (o_ct o) 2 (pts p) (o_adj o i)
  end.

(** ok.py 937-959: 3-D coordinates for the KD-tree *)
Definition unit_vectors (m : mat) : mat := fun i k =>
  let lon := m i 0%nat * PI / 180 in
  let lat := m i 1%nat * PI / 180 in
  match k with 0%nat => cos lon * cos lat | 1%nat => sin lon * cos lat | _ => sin lat end.

(** cKDTree(data).query(q, k, eps=0): what the model assumes.  [fst] distances
    ([None] = inf), [snd] indices; beyond the number of data, index N and inf. *)
Definition kd_spec (N dim : nat) (data : mat) (k : nat) (q : vec) (r : (nat -> xdist) * (nat -> nat)) : Prop :=
  let '(dist, idx) := r in
  (forall a, (a < k)%nat -> (a < N)%nat ->
     (idx a < N)%nat /\ dist a = Some (euclid dim q (data (idx a)))) /\
  (forall a b, (a < k)%nat -> (b < k)%nat -> (a < N)%nat -> (b < N)%nat -> idx a = idx b -> a = b) /\
  (forall a b, (a <= b)%nat -> (b < k)%nat -> (b < N)%nat ->
     euclid dim q (data (idx a)) <= euclid dim q (data (idx b))) /\
  (forall j a, (j < N)%nat -> (forall b, (b < k)%nat -> idx b <> j) -> (a < k)%nat -> (a < N)%nat ->
     euclid dim q (data (idx a)) <= euclid dim q (data j)) /\
  (forall a, (a < k)%nat -> (N <= a)%nat -> idx a = N /\ dist a = None).
Definition kd_ok (kd : nat -> nat -> mat -> nat -> vec -> (nat -> xdist) * (nat -> nat)) : Prop :=
  forall N dim data k q, kd_spec N dim data k q (kd N dim data k q).

(** ok.py 899-923: backend 'C' falls back to 'loop' without the extension *)
Definition effective_backend (E : env) (b : string) : string :=
  if String.eqb b "C" && negb (e_cython E) then "loop"%string else b.

(** Neighbours of the query locations: bd and bd_idx, ok.py 929-972, ok3d.py 906-910 *)
Definition neighbours (E : env) (o : obj) (pts : mat) (k : nat) : nat -> (nat -> xdist) * (nat -> nat) :=
  match o_ct o, o_dim o with
  | Euclidean, 2%nat => fun p => e_kd E (o_n o) 2 (o_adj o) k (pts p)
  | Euclidean, _ => fun p => e_kd E (o_n o) 3 (zyx (o_adj o)) k (zyx pts p)
  | Geographic, _ => fun p =>
      let idx := snd (e_kd E (o_n o) 3 (unit_vectors (o_adj o)) k (unit_vectors pts p)) in
      ((fun r => Some (distance Geographic 2 (pts p) (o_adj o (idx r)))), idx)
  end.

(** self.X_ADJUSTED[bd_idx] with a padded index raises IndexError (ok.py 970) *)
Definition neighbours_error (E : env) (o : obj) (pts : mat) (npt k : nat) : bool :=
  match o_ct o with
  | Geographic => existsb (fun p => existsb (fun r => negb (Nat.ltb (snd (neighbours E o pts k p) r) (o_n o)))
                                      (seq 0 k)) (seq 0 npt)
  | Euclidean => false
  end.

Definition as_real (d : xdist) : R := match d with Some v => v | None => 0 end.

(** OrdinaryKriging.execute, ok.py 828-1020 *)
Definition execute2 (E : env) (o : obj) (q : query) : res result :=
  let style := q_style q in
  if negb (in_names style ["grid"; "masked"; "points"]%string) then Err ValueError else
  if (match q_window q with Some k => Nat.leb k 1 | None => false end) then Err ValueError else
  let n := o_n o in
  let a := get_kriging_matrix o in
  do l <- locate2 style (q_pts q) (q_mask q) ;;
  do pts <- adjust_query o (q_int q) (l_at l) ;;
  let mask := l_mask l in
  let backend := effective_backend E (q_backend q) in
  do vs <-
    (match q_window q with
     | Some k =>
         if neighbours_error E o pts (l_npt l) k then Err IndexError else
         let bd := fun p => fst (neighbours E o pts k p) in
         let bd_idx := fun p => snd (neighbours E o pts k p) in
         if String.eqb backend "loop" then
           exec_loop_moving_window (e_la E) n k (l_npt l) (o_vg o) (e_vinf E (o_fun o) (o_params o))
             eps (o_exact o) (o_values o) a bd mask bd_idx
         else if String.eqb backend "C" then
           c_exec_loop_moving_window (e_la E) (e_lu E) n k (l_npt l) (o_fun o) (o_params o)
             eps (o_exact o) (o_values o) a (fun p r => as_real (bd p r)) mask bd_idx
         else Err ValueError
     | None =>
         let bd := query_distances o pts in
         if String.eqb backend "vectorized" then
           exec_vector (e_la E) (o_pinv o) (o_pinv_type o) n (l_npt l) (o_vg o) eps (o_exact o)
             (o_values o) a bd
         else if String.eqb backend "loop" then
           exec_loop (e_la E) (o_pinv o) (o_pinv_type o) n (l_npt l) (o_vg o) eps (o_exact o)
             (o_values o) a bd mask
         else if String.eqb backend "C" then
           c_exec_loop (e_la E) (o_pinv o) (o_pinv_type o) n (l_npt l) (o_fun o) (o_params o) eps
             (o_exact o) (o_values o) a bd mask
         else Err ValueError
     end) ;;
  Ok (finish style l vs).

(** OrdinaryKriging3D.execute, ok3d.py 827-932.  k = 0 is rejected by
    cKDTree.query (ValueError); for k = 1 the returned arrays are
    one-dimensional and bd_idx.shape[1] raises IndexError. *)
Definition execute3 (E : env) (o : obj) (q : query) : res result :=
  let style := q_style q in
  if negb (in_names style ["grid"; "masked"; "points"]%string) then Err ValueError else
  let n := o_n o in
  let a := get_kriging_matrix o in
  do l <- locate3 style (q_pts q) (q_mask q) ;;
  do pts <- adjust_query o (q_int q) (l_at l) ;;
  let mask := l_mask l in
  let backend := q_backend q in
  do vs <-
    (match q_window q with
     | Some k =>
         if Nat.eqb k 0 then Err ValueError else
         if String.eqb backend "loop" then
           if Nat.eqb k 1 then Err IndexError else
           let bd := fun p => fst (neighbours E o pts k p) in
           let bd_idx := fun p => snd (neighbours E o pts k p) in
           exec_loop_moving_window (e_la E) n k (l_npt l) (o_vg o) (e_vinf E (o_fun o) (o_params o))
             eps (o_exact o) (o_values o) a bd mask bd_idx
         else Err ValueError
     | None =>
         let bd := query_distances o pts in
         if String.eqb backend "vectorized" then
           exec_vector (e_la E) (o_pinv o) (o_pinv_type o) n (l_npt l) (o_vg o) eps (o_exact o)
             (o_values o) a bd
         else if String.eqb backend "loop" then
           exec_loop (e_la E) (o_pinv o) (o_pinv_type o) n (l_npt l) (o_vg o) eps (o_exact o)
             (o_values o) a bd mask
         else Err ValueError
     end) ;;
  Ok (finish style l vs).

Definition execute (E : env) (o : obj) (q : query) : res result :=
  match o_class o with
  | OK2 => execute2 E o q
  | OK3 => execute3 E o q
  | _ => Err AttributeErr            (* universal kriging: M_UK.v *)
  end.
