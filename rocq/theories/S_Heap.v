(** SPECIFICATION for C32: what it means that a call leaves the user's arrays
    alone, and histories of library calls interleaved with the user's own changes
    to the arrays and lists he passed in. *)
From Coq Require Import String.
From Verif Require Import Base Sums Matrix M_Variogram M_Geometry M_Kriging M_Init M_Object M_Execute M_Heap.

(** Nothing that existed before is modified; what is created is not the user's. *)
Definition only_adds (h h' : heap) : Prop :=
  (h_next h <= h_next h')%nat /\
  (forall r, (r < h_next h)%nat -> h_at h' r = h_at h r /\ h_user h' r = h_user h r) /\
  (forall r, (h_next h <= r < h_next h')%nat -> h_user h' r = false).

(** arguments exist *)
Definition params_exist (h : heap) (p : hparams) : Prop := match p with HList r => (r < h_next h)%nat | _ => True end.
Definition args_exist (h : heap) (A : hargs) : Prop :=
  Forall (fun r => (r < h_next h)%nat) (g_coords A) /\ (g_values A < h_next h)%nat /\ params_exist h (v_params (g_v A)).

(** the arrays and lists an object refers to *)
Definition adj_refs (a : adjusted) : list ref := match a with Own r => [r] | Same rs => rs end.
Definition refs (x : hobj) : list ref := x_params x :: x_values x :: x_orig x ++ adj_refs (x_adj x).
Definition object_exists (h : heap) (x : hobj) : Prop := Forall (fun r => (r < h_next h)%nat) (refs x).
(** r belongs to the user and is also used by the object *)
Definition shared (h : heap) (x : hobj) (r : ref) : Prop := In r (refs x) /\ h_user h r = true.

(** the call gives a list of parameters for one of the models that keep it *)
Definition keeps_list (v : hvargs) (r : ref) : Prop :=
  exists s, v_model v = VName s /\ v_params v = HList r /\ (s = "linear" \/ s = "power" \/ s = "custom")%string.

(** Histories.  The user creates arrays and overwrites his own ones; the library is called. *)
Inductive event :=
| Creates (c : content) | Overwrites (r : ref) (c : content)
| Updates (v : hvargs) | Executes (q : hquery).
Definition event_ok (h : heap) (x : hobj) (e : event) : Prop :=
  match e with
  | Creates _ => True
  | Overwrites r _ => h_user h r = true
  | Updates v => params_exist h (v_params v)
  | Executes q => Forall (fun r => (r < h_next h)%nat) (k_pts q)
  end.
(** the heap and the object after an event *)
Definition step (E : env) (e : event) (hx : heap * hobj) : heap * hobj :=
  let '(h, x) := hx in
  match e with
  | Creates c => (fst (new true c h), x)
  | Overwrites r c => (write r c h, x)
  | Updates v => fst (update_h E x v h)
  | Executes q => (fst (execute_h E x q h), x)
  end.
(** [history E hx es us hx']: the events es lead from hx to hx'; [us] are the
    arguments of the updates among them, as they were when the call was made *)
Inductive history (E : env) : heap * hobj -> list event -> list vargs -> heap * hobj -> Prop :=
| H_nil hx : history E hx [] [] hx
| H_cons h x e es us hx' : event_ok h x e -> history E (step E e (h, x)) es us hx' ->
    history E (h, x) (e :: es) (match e with Updates v => deref_v h v :: us | _ => us end) hx'.
(** the lists that the object may have kept *)
Definition kept_list (v : hvargs) (es : list event) (r : ref) : Prop :=
  keeps_list v r \/ exists v', In (Updates v') es /\ keeps_list v' r.
