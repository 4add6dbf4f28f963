(** PROOF: *.asc files that cannot be read back (C44), shapes (C59), style (C57). *)
From Coq Require Import String Ascii ZArith QArith Qabs Qpower Qround Lia List.
From Verif Require Import Base M_Text M_AscGrid S_Text S_AscGrid P_Text P_AscGrid P_AscGrid2.
From Coq Require Import Lqa.
Import ListNotations.
Open Scope string_scope.
Open Scope Q_scope.

(** a step that is printed as 0.00 *)
Lemma small_rd fl q : fl 0 == 0 -> (forall a b, a == b -> fl a == fl b) -> Qabs q <= 1 # 200 -> rd fl q == 0.
Proof.
  intros F0 FE H. destruct (rd_two fl q) as (d & (n & D1 & D2 & D3) & ->). rewrite <- F0. apply FE.
  assert (n = 0)%Z as ->; [|rewrite D1; reflexivity].
  assert (B : Qabs d <= 1 # 100).
  { setoid_replace d with (q - (q - d)) by ring. pose proof (Qabs_triangle q (-(q - d))) as T. rewrite Qabs_opp in T.
    change (q + - (q - d)) with (q - (q - d)) in T. assert ((1 # 100) / 2 == 1 # 200) by reflexivity. lra. }
  rewrite D1, Qabs_Qmult in B. change (Qabs (1 # 100)) with (1 # 100) in B.
  change (Qabs (inject_Z n)) with (inject_Z (Z.abs n)) in B.
  assert (B2 : inject_Z (Z.abs n) <= inject_Z 1) by (change (inject_Z 1) with 1; lra). rewrite <- Zle_Qle in B2.
  destruct (Z.eq_dec n 0) as [|NZ]; [assumption|]. exfalso.
  assert (E : n = 1%Z \/ n = (-1)%Z) by lia.
  assert (O : ~ Z.Even n) by (destruct E as [-> | ->]; intros [k K]; lia). apply O, D3.
  assert (U : (1 # 100) / 2 == 1 # 200) by reflexivity. rewrite U in *.
  apply Qabs_Qle_condition in H as [H1 H2]. apply Qabs_Qle_condition in D2 as [D2 D4].
  destruct E as [-> | ->]; rewrite D1 in *; [change (inject_Z 1) with 1 in *|change (inject_Z (-1)) with (-1) in *].
  - assert (q == 1 # 200) as -> by lra. reflexivity.
  - assert (q == - (1 # 200)) as -> by lra. reflexivity.
Qed.

Lemma zero_step x y z nd style t : write_asc exact x y z nd style = (Some t, Ok tt) ->
  (2 <= g_rows z)%nat -> (2 <= g_cols z)%nat -> cells_in_field z nd -> first_step x <= 1 # 200 -> read_asc exact t 0 = Err ZeroDivisionErr.
Proof.
  intros W HR HC HF Hx. apply write_inv in W as (D & Lx & Ly & Ux & Uy & C). pose proof (filled_narrow z nd HF) as N.
  assert (Z0 : rd exact (spacing exact x) == 0).
  { apply small_rd; [reflexivity|trivial|]. change (spacing exact x) with (first_step x). rewrite Qabs_pos; [assumption|]. apply Qabs_nonneg. }
  destruct C as [(_ & ->)|(_ & E & ->)].
  - change (g_rows z) with (g_rows (filled z nd)). change (g_cols z) with (g_cols (filled z nd)). rewrite read_written1 by assumption.
    now rewrite axis_zero.
  - change (g_rows z) with (g_rows (filled z nd)). change (g_cols z) with (g_cols (filled z nd)). rewrite read_written2 by assumption.
    now rewrite axis_zero.
Qed.

(** the writer never looks at the coordinates except for the first two and the last *)
Lemma accepted_iff x y z nd : (2 <= List.length x)%nat -> (2 <= List.length y)%nat -> two_dim z = true ->
  (exists t, write_asc exact x y z nd 1 = (Some t, Ok tt)) <-> steps_agree x /\ steps_agree y.
Proof.
  intros Lx Ly D. rewrite <- !check_iff. split.
  - intros (t & W). apply write_inv in W. tauto.
  - intros (U & V). unfold write_asc. rewrite D, U, V. cbn [negb andb].
    replace (List.length x =? 0)%nat with false by (symmetry; apply Nat.eqb_neq; lia).
    replace (List.length y =? 0)%nat with false by (symmetry; apply Nat.eqb_neq; lia).
    replace (List.length x =? 1)%nat with false by (symmetry; apply Nat.eqb_neq; lia).
    replace (List.length y <=? 1)%nat with false by (symmetry; apply Nat.leb_gt; lia). cbn. eexists. reflexivity.
Qed.
