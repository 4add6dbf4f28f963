(** C32: the list of functional drift terms is kept by reference. *)
From Coq Require Import String ClassicalEpsilon.
From Verif Require Import Base Sums Matrix M_Variogram P_Variogram M_Geometry S_Geometry P_Geometry M_Kriging S_Kriging
  P_Kriging P_OKSpec M_Init M_Object M_Execute S_Execute P_Object P_Execute P_Cells P_Master P_Det P_OK
  P_Similar P_Data P_Exec2 Witness Witness2 M_UK S_UK P_UK8 S_State P_State M_Heap S_Heap M_HeapUK S_HeapUK P_Heap P_Heap2 P_Heap3 P_Heap4 P_HeapUK.

Definition f0 : R -> R -> R -> R := fun _ _ _ => 0.
Lemma zero_term_fails (u : uobj) q r : o_class (u_obj u) = UK2 -> o_n (u_obj u) = 2%nat -> o_pinv (u_obj u) = false ->
  u_drift u = {| dr_linear := false; dr_wells := None; dr_ext := None; dr_spec := None; dr_fun := Some [f0] |} ->
  q_backend q = "vectorized"%string -> execute_uk WE u q [] <> Ok r.
Proof.
  intros Hc Hn Hp Hd Hb HK. unfold execute_uk in HK. cbv zeta in HK. destruct (negb _); [discriminate HK|].
  destruct (uk_matrix u) as [[a w]|] eqn:EM; [|discriminate HK]. cbn [bind] in HK.
  destruct ((match o_dim (u_obj u) with 2%nat => locate2 | _ => locate3 end) (q_style q) (q_pts q) (q_mask q)) as [l|]; [|discriminate HK]. cbn [bind] in HK.
  destruct (spec_grids u (q_style q) (q_pts q) []) as [gs|]; [|discriminate HK]. cbn [bind] in HK.
  destruct (adjust_query (u_obj u) (q_int q) (l_at l)) as [pts|]; [|discriminate HK]. cbn [bind] in HK.
  rewrite Hb in HK. cbn [String.eqb Ascii.eqb Bool.eqb] in HK. unfold uk_exec_vector in HK.
  assert (HW : n_withdrifts u = 3%nat) by (unfold n_withdrifts; rewrite Hn, Hd; reflexivity). cbv zeta in HK. rewrite HW, Hp in HK.
  assert (HI : exists b, la_inv (e_la WE) (3 + 1) a = Some b).
  { unfold invert in HK at 1. destruct (la_inv (e_la WE) (3 + 1) a) as [b|]; [eauto|discriminate HK]. }
  destruct HI as [b HI]. cbn in HI. apply choose_some in HI.
  assert (HZ : forall k, (k < 4)%nat -> a 2%nat k = 0).
  { unfold uk_matrix in EM. rewrite HW, Hd, Hn in EM. cbv zeta in EM. unfold o_dim in EM. rewrite Hc in EM. cbn [dr_linear dr_wells dr_ext dr_spec dr_fun each cdim bind] in EM.
    cbn in EM. injection EM as <- _. intros k Hk. destruct k as [|[|[|[|k]]]]; [| | | |lia]; cbn; reflexivity. }
  destruct HI as [HI _]. specialize (HI 2%nat 2%nat ltac:(lia) ltac:(lia)). unfold mulm in HI.
  rewrite (bsum_ext 4 _ (fun _ => 0)) in HI by (intros k Hk; rewrite HZ by exact Hk; ring).
  rewrite bsum_zero in HI. cbn in HI. unfold idm in HI. cbn in HI. lra.
Qed.

Definition demo_heap_u : heap :=
  {| h_next := 5%nat;
     h_at := fun r => match r with 0%nat => Row [0; 3] | 1%nat => Row [0; 4] | 2%nat => Row [0; 3] | 3%nat => Row [1; 0] | _ => Funs [fx] end;
     h_user := fun r => Nat.ltb r 5%nat |}.
Definition demo_drift : hdargs :=
  {| t_terms := ["functional"%string]; t_point := None; t_ext := None; t_ext_x := None; t_ext_y := None; t_spec := None; t_fun := Some 4%nat |}.

Lemma ex_functional_list_kept : exists E A D h h' x r c q,
  env_ok E /\ args_exist h A /\ drift_exists h D /\ construct_uk_h E UK2 A D h = (h', Ok x) /\ h_user h' r = true /\
  (exists res, execute_uk E (uview h' x) q [] = Ok res) /\ (forall res, execute_uk E (uview (write r c h') x) q [] <> Ok res).
Proof.
  assert (HA : args_exist demo_heap_u (demo_args "linear")) by (split; [repeat constructor|]; split; cbn; lia).
  assert (HD : drift_exists demo_heap_u demo_drift).
  { unfold drift_exists. cbn. split; [exact I|]. split; [exact I|]. split; [exact I|]. split; [exact I|]. split; [discriminate|lia]. }
  destruct (construct_uk_h_spec WE UK2 (demo_args "linear") demo_drift demo_heap_u HA HD) as (h' & x & K & A1 & X).
  change (deref demo_heap_u (demo_args "linear")) with (two_args 1 0 0 3 true false) in X.
  change (deref_d demo_heap_u demo_drift) with (fun_args fx) in X.
  destruct (ex_functional 0 3 1 1) as (u & r & (_ & u0 & HC & HU) & Hc & Hp & _ & Hn & _ & _ & Hf & HR & _). cbn in HU. subst u0.
  rewrite HC in X. destruct x as [x|e]; [|discriminate X]. destruct X as (X & RX).
  assert (HX : uview h' x = u) by congruence.
  assert (HF : y_fun (xu_drift x) = Some 4%nat /\ u_drift (uview (write 4%nat (Funs [f0]) h') x) =
     {| dr_linear := false; dr_wells := None; dr_ext := None; dr_spec := None; dr_fun := Some [f0] |}).
  { unfold construct_uk_h in K. destruct (construct_h_spec WE UK2 (demo_args "linear") demo_heap_u HA) as (h1 & y & K1 & B1 & Y).
    unfold hbind at 1 in K. rewrite K1 in K. destruct y as [y|e]; [|discriminate K].
    assert (HFU : funs h1 4%nat = [fx]) by (rewrite (adds_funs _ _ 4%nat B1 ltac:(cbn; lia)); reflexivity).
    unfold hbind at 1, look at 1 in K. unfold hbind at 1, init_drift_h in K. cbn in K.
    unfold hbind, ret in K. cbn in K. unfold init_functional_h, hbind, look in K. cbn in K. rewrite HFU in K. injection K as <- <-.
    cbn. split; [reflexivity|]. unfold view_drift. cbn. reflexivity. }
  destruct HF as [HF HF2].
  set (q := one_point 1 1 "vectorized").
  exists WE, (demo_args "linear"), demo_drift, demo_heap_u, h', x, 4%nat, (Funs [f0]), q.
  split; [apply wit_env_ok|]. split; [exact HA|]. split; [exact HD|]. split; [exact K|].
  split; [destruct A1 as (_ & A1 & _); destruct (A1 4%nat ltac:(cbn; lia)) as [_ ->]; reflexivity|].
  split; [rewrite HX; destruct HR as (_ & _ & w & HR); exists (r, w); exact HR|].
  intros res. rewrite <- HX in Hc, Hp, Hn. apply zero_term_fails; [exact Hc|exact Hn|exact Hp|exact HF2|reflexivity].
Qed.
