(** SPECIFICATION for C32, universal kriging. *)
From Coq Require Import String.
From Verif Require Import Base Sums Matrix M_Variogram M_Geometry M_Kriging M_Init M_Object M_Execute M_UK M_Heap S_Heap M_HeapUK.

Definition olt (h : heap) (r : option ref) : Prop := match r with Some r => (r < h_next h)%nat | None => True end.
Definition drift_exists (h : heap) (D : hdargs) : Prop :=
  olt h (option_map snd (t_point D)) /\ olt h (option_map snd (t_ext D)) /\ olt h (t_ext_x D) /\ olt h (t_ext_y D) /\
  (forall ts, t_spec D = Some ts -> Forall (fun r => (r < h_next h)%nat) ts) /\ olt h (t_fun D).

Definition olist {A} (x : option A) : list A := match x with Some a => [a] | None => [] end.
Definition drift_refs (d : hdrift) : list ref :=
  olist (y_fun d) ++ olist (y_wells d) ++ (match y_ext d with Some (a, x, y, _) => [a; x; y] | None => [] end) ++
  (match y_spec d with Some l => l | None => [] end).
Definition urefs (x : huobj) : list ref := refs (xu_obj x) ++ drift_refs (xu_drift x).
Definition uobject_exists (h : heap) (x : huobj) : Prop := Forall (fun r => (r < h_next h)%nat) (urefs x).
(** r belongs to the user and is also used by the object *)
Definition ushared (h : heap) (x : huobj) (r : ref) : Prop := In r (urefs x) /\ h_user h r = true.
Definition spec_exists (h : heap) (s : hspec) : Prop :=
  match s with HSpec1 r => (r < h_next h)%nat | HSpec2 _ _ r => (r < h_next h)%nat | HSpec3 _ _ _ r => (r < h_next h)%nat end.

(** Histories, cf. S_Heap. *)
Inductive uevent :=
| UCreates (c : content) | UOverwrites (r : ref) (c : content)
| UUpdates (v : hvargs) | UExecutes (q : hquery) (specs : list hspec).
Definition uevent_ok (h : heap) (x : huobj) (e : uevent) : Prop :=
  match e with
  | UCreates _ => True
  | UOverwrites r _ => h_user h r = true
  | UUpdates v => params_exist h (v_params v)
  | UExecutes q specs => Forall (fun r => (r < h_next h)%nat) (k_pts q) /\ Forall (spec_exists h) specs
  end.
Definition ustep (E : env) (e : uevent) (hx : heap * huobj) : heap * huobj :=
  let '(h, x) := hx in
  match e with
  | UCreates c => (fst (new true c h), x)
  | UOverwrites r c => (write r c h, x)
  | UUpdates v => fst (update_uk_h E x v h)
  | UExecutes q specs => (fst (execute_uk_h E x q specs h), x)
  end.
Inductive uhistory (E : env) : heap * huobj -> list uevent -> list vargs -> heap * huobj -> Prop :=
| UH_nil hx : uhistory E hx [] [] hx
| UH_cons h x e es us hx' : uevent_ok h x e -> uhistory E (ustep E e (h, x)) es us hx' ->
    uhistory E (h, x) (e :: es) (match e with UUpdates v => deref_v h v :: us | _ => us end) hx'.
(** the lists that the object may have kept *)
Definition ukept_list (v : hvargs) (D : hdargs) (es : list uevent) (r : ref) : Prop :=
  keeps_list v r \/ t_fun D = Some r \/ exists v', In (UUpdates v') es /\ keeps_list v' r.
