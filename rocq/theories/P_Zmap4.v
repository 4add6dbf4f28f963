(** PROOF: zmap files whose grid does not have the size given by the coordinates (C58). *)
From Coq Require Import String Ascii ZArith QArith Qabs Qpower Qround Lia List.
From Verif Require Import Base M_Text M_AscGrid M_Zmap S_Text S_AscGrid S_Zmap P_Text P_AscGrid P_AscGrid2 P_Zmap P_Zmap2 P_Zmap3.
From Coq Require Import Lqa.
Import ListNotations.
Open Scope string_scope.
Open Scope Q_scope.

Lemma assign_past {A} (a : A) : forall l i, (List.length l <= i)%nat -> assign i a l = None.
Proof. induction l as [|b l IH]; intros i H; [now destruct i|]. cbn [List.length] in H. destruct i; [lia|]. cbn [assign]. rewrite IH by lia. reflexivity. Qed.
Lemma assign_at {A} (a b : A) : forall pre r, assign (List.length pre) a (pre ++ b :: r)%list = Some (pre ++ a :: r)%list.
Proof. induction pre as [|c pre IH]; intros r; [reflexivity|]. cbn. now rewrite IH. Qed.

Lemma store_over fl : forall toks (vals : list Q) k pre, Forall2 (fun t v => parse_float fl t = Some v) toks vals -> (k < List.length toks)%nat ->
  store fl toks (List.length pre) (pre ++ repeat None k)%list = Err IndexError.
Proof.
  induction toks as [|t toks IH]; intros vals k pre F H; [cbn in H; lia|]. inversion F as [|? v ? vs Hv Fv]; subst. cbn [store]. rewrite Hv.
  destruct k as [|k].
  - cbn [repeat]. rewrite app_nil_r, assign_past by lia. reflexivity.
  - cbn [repeat]. rewrite assign_at. specialize (IH vs k (pre ++ [Some v])%list Fv ltac:(cbn in H; lia)).
    rewrite app_length, <- app_assoc in IH. cbn [List.length app] in IH. rewrite Nat.add_1_r in IH. exact IH.
Qed.
Lemma store_under fl : forall toks (vals : list Q) k pre, Forall2 (fun t v => parse_float fl t = Some v) toks vals ->
  store fl toks (List.length pre) (pre ++ repeat None (List.length toks + k))%list =
  Ok ((List.length pre + List.length toks)%nat, (pre ++ map Some vals ++ repeat None k)%list).
Proof.
  induction toks as [|t toks IH]; intros vals k pre F; inversion F as [|? v ? vs Hv Fv]; subst.
  - cbn. now rewrite Nat.add_0_r.
  - cbn [store List.length plus repeat map]. rewrite Hv, assign_at. specialize (IH vs k (pre ++ [Some v])%list Fv).
    rewrite app_length, <- !app_assoc in IH. cbn [List.length app] in IH. rewrite Nat.add_1_r in IH. rewrite IH. f_equal. f_equal. lia.
Qed.

Lemma body_tokens fl nd z : exists ls, lines (zmap_body nd z) = ls /\ Forall dline ls /\
  Forall2 (fun t v => parse_float fl t = Some v) (List.concat (map words ls)) (map (zv fl nd) (cells z)).
Proof.
  destruct (body_items nd z) as (l & L1 & L2 & L3 & L4). rewrite <- L1.
  destruct (body_structure l "" [] L2 ltac:(constructor) good_0 ltac:(auto) L4) as (ls & E1 & E2 & E3).
  exists ls. split; [exact E1|]. split; [assumption|]. rewrite E2. cbn [app]. rewrite L3.
  replace (List.concat _) with (map (ztext nd) (cells z)).
  2:{ unfold cells. rewrite concat_map, map_map. f_equal. apply map_ext. intros n. now rewrite map_map. }
  clear. induction (cells z) as [|c cs IH]; cbn [map].
  - constructor.
  - constructor; [apply zv_parse|exact IH].
Qed.
Lemma F2_len {A B} (P : A -> B -> Prop) l m : Forall2 P l m -> List.length l = List.length m.
Proof. induction 1; cbn; auto. Qed.

Lemma body_over fl nd z s k : r_line s = (-1)%Z -> r_iv s = 0%nat -> r_data s = repeat None k -> (k < g_rows z * g_cols z)%nat ->
  read_lines fl (lines (zmap_body nd z)) s = Err IndexError.
Proof.
  intros R I D K. destruct (body_tokens fl nd z) as (ls & -> & F & T). rewrite read_data_lines by assumption. rewrite I, D.
  assert (K' : (k < List.length (List.concat (map words ls)))%nat) by (rewrite (F2_len _ _ _ T), map_length, cells_len; lia).
  pose proof (store_over fl _ _ k [] T K') as S. cbn [List.length app] in S. now rewrite S.
Qed.
Lemma body_under fl nd z s k : r_line s = (-1)%Z -> r_iv s = 0%nat -> r_data s = repeat None (g_rows z * g_cols z + k) ->
  read_lines fl (lines (zmap_body nd z)) s =
  Ok (with_data s (g_rows z * g_cols z) (map (fun c => Some (zv fl nd c)) (cells z) ++ repeat None k)).
Proof.
  intros R I D. destruct (body_tokens fl nd z) as (ls & -> & F & T). rewrite read_data_lines by assumption. rewrite I, D.
  rewrite <- cells_len, <- (map_length (zv fl nd)), <- (F2_len _ _ _ T).
  pose proof (store_under fl _ _ k [] T) as S. cbn [List.length app plus] in S. rewrite S. cbn [bind fst snd]. now rewrite map_map.
Qed.

Section Read.
Context (fl : Q -> Q) (fstr : Q -> string) (junk : nat -> Q) (name date time : string) (x y : list Q) (z : grid cell) (nd : Q) (cs t : string).
Hypothesis W : write_zmap fl fstr name date time x y z nd cs = (Some t, Ok tt).
Hypothesis HN : header_numbers fl fstr x y nd.
Hypothesis N1 : no_newline name.
Hypothesis N2 : no_newline date.
Hypothesis N3 : no_newline time.
Hypothesis N4 : no_newline cs.

Lemma header_known : exists vnd x0 hx y0 hy,
  vnd == nd /\ x0 == qnth x 0 /\ y0 == qnth y 0 /\
    hx == fl (qnth x 0 + fl (inject_Z (Z.of_nat (List.length x) - 1) * spacing fl x)) /\
    hy == fl (qnth y 0 + fl (inject_Z (Z.of_nat (List.length y) - 1) * spacing fl y)) /\
  read_zmap fl junk t =
   (do s <- read_lines fl (lines (zmap_body nd (filled z nd)))
     {| r_line := -1; r_iv := 0; r_coord := " " ++ before_colon cs; r_nodata := vnd; r_ny := Z.of_nat (List.length y); r_nx := Z.of_nat (List.length x);
        r_ox := x0; r_mx := hx; r_oy := y0; r_my := hy; r_data := repeat None (List.length y * List.length x) |} ;;
    if negb (r_nx s * r_ny s =? Z.of_nat (List.length (r_data s)))%Z then Err OSErr else
    if ((r_nx s <? 0) || (r_ny s <? 0))%Z then Err ValueError else
    let nx := Z.to_nat (r_nx s) in let ny := Z.to_nat (r_ny s) in
    let value i := match nth i (r_data s) None with Some q => q | None => junk i end in
    let z := {| g_rows := ny; g_cols := nx; g_at := fun m n => value (n * ny + (ny - 1 - m))%nat |} in
    do xs <- zmap_axis fl (r_ox s) (r_mx s) (r_nx s) ;;
    do ys <- zmap_axis fl (r_oy s) (r_my s) (r_ny s) ;;
    Ok {| zm_grid := z; zm_x := snd xs; zm_y := snd ys; zm_cellsize := (fst xs, fst ys);
        zm_nodata := r_nodata s; zm_coord := r_coord s |}).
Proof.
  pose proof HN as HN'. apply write_zmap_inv in W as (Lx & Ly & Ux & Uy & ->).
  unfold header_numbers in HN'. change (Qabs (fl (qnth x 1 - qnth x 0))) with (spacing fl x) in HN'. change (Qabs (fl (qnth y 1 - qnth y 0))) with (spacing fl y) in HN'.
  set (hix := fl (qnth x 0 + _)) in *. set (hiy := fl (qnth y 0 + _)) in *.
  pose proof (fl_text_all fl fstr _ HN') as FP.
  assert (T : forall v, In v [nd; qnth x 0; hix; qnth y 0; hiy; spacing fl x] -> exists v', parse_float fl (fstr v) = Some v' /\ v' == v).
  { intros v Hv. destruct (float_text_plain _ _ _ (HN' v Hv)) as (_ & _ & K). exact K. }
  destruct (T nd ltac:(cbn; tauto)) as (vnd & Pnd & End). destruct (T (qnth x 0) ltac:(cbn; tauto)) as (x0 & Px0 & Ex0).
  destruct (T hix ltac:(cbn; tauto)) as (hx & Phx & Ehx). destruct (T (qnth y 0) ltac:(cbn; tauto)) as (y0 & Py0 & Ey0).
  destruct (T hiy ltac:(cbn; tauto)) as (hy & Phy & Ehy).
  exists vnd, x0, hx, y0, hy. do 5 (split; [assumption|]).
  unfold read_zmap. rewrite header_lines_ok by (assumption || (intros v Hv; apply FP, Hv)).
  rewrite (header_read fl fstr name date time cs _ _ _ _ _ _ _ _ _ vnd x0 hx y0 hy) by assumption. reflexivity.
Qed.

(** more values than the header announces *)
Lemma too_many : (List.length y * List.length x < g_rows z * g_cols z)%nat -> read_zmap fl junk t = Err IndexError.
Proof.
  intros K. destruct header_known as (vnd & x0 & hx & y0 & hy & _ & _ & _ & _ & _ & ->).
  rewrite (body_over _ _ _ _ (List.length y * List.length x)); [reflexivity..|exact K].
Qed.

(** fewer *)
Lemma too_few m : (g_rows z * g_cols z < List.length y * List.length x)%nat -> read_zmap fl junk t = Ok m ->
  g_at (zm_grid m) 0 (List.length x - 1) = junk (List.length x * List.length y - 1)%nat.
Proof.
  intros K. destruct header_known as (vnd & x0 & hx & y0 & hy & _ & _ & _ & _ & _ & ->).
  rewrite (body_under _ _ _ _ (List.length y * List.length x - g_rows z * g_cols z)); [|reflexivity|reflexivity|].
  2:{ cbn [r_data filled g_rows g_cols]. f_equal. lia. }
  cbn [bind with_data r_nx r_ny r_data r_ox r_mx r_oy r_my r_nodata r_coord].
  destruct (negb _); [discriminate|]. destruct (_ || _)%bool; [discriminate|].
  destruct (zmap_axis fl x0 hx _) as [xs|]; [|discriminate]. cbn [bind]. destruct (zmap_axis fl y0 hy _) as [ys|]; [|discriminate]. cbn [bind].
  intros H. injection H as <-. cbn [zm_grid g_at]. rewrite !Nat2Z.id.
  assert (Y : (0 < List.length x)%nat /\ (0 < List.length y)%nat) by nia.
  replace ((List.length x - 1) * List.length y + (List.length y - 1 - 0))%nat with (List.length x * List.length y - 1)%nat by nia.
  rewrite app_nth2; rewrite ?map_length, ?cells_len; cbn [filled g_rows g_cols]; [|lia].
  now rewrite nth_repeat.
Qed.

Lemma too_few_reads : (g_rows z * g_cols z < List.length y * List.length x)%nat -> fl = exact ->
  (exists fx sx, even_axis x (List.length x) fx sx) -> (exists fy sy, even_axis y (List.length y) fy sy) -> exists m, read_zmap fl junk t = Ok m.
Proof.
  intros K Hfl (fx & sx & X) (fy & sy & Y). destruct header_known as (vnd & x0 & hx & y0 & hy & End & Ex & Ey & Ehx & Ehy & ->). rewrite Hfl in *.
  rewrite (body_under _ _ _ _ (List.length y * List.length x - g_rows z * g_cols z)); [|reflexivity|reflexivity|].
  2:{ cbn [r_data filled g_rows g_cols]. f_equal. lia. }
  cbn [bind with_data r_nx r_ny r_data r_ox r_mx r_oy r_my r_nodata r_coord].
  rewrite app_length, map_length, cells_len, repeat_length. cbn [filled g_rows g_cols].
  replace (_ =? _)%Z with true by (symmetry; apply Z.eqb_eq; lia). cbn [negb].
  replace (Z.of_nat (List.length x) <? 0)%Z with false by (symmetry; apply Z.ltb_ge; lia).
  replace (Z.of_nat (List.length y) <? 0)%Z with false by (symmetry; apply Z.ltb_ge; lia). cbn [orb].
  destruct (even_first _ _ _ _ X) as [X0 X1]. destruct (even_first _ _ _ _ Y) as [Y0 Y1].
  destruct (zmap_axis_exact fx hx (List.length x) sx x0) as (dx & xs & A1 & _).
  { apply X. } { destruct X as (_ & S & _). lra. } { now rewrite Ex. }
  { rewrite Ehx. unfold exact. change (spacing (fun q => q) x) with (first_step x). now rewrite X0, X1. }
  destruct (zmap_axis_exact fy hy (List.length y) sy y0) as (dy & ys & B1 & _).
  { apply Y. } { destruct Y as (_ & S & _). lra. } { now rewrite Ey. }
  { rewrite Ehy. unfold exact. change (spacing (fun q => q) y) with (first_step y). now rewrite Y0, Y1. }
  rewrite A1, B1. cbn [bind]. eexists. reflexivity.
Qed.
End Read.

(** deciding [float_text] on concrete numbers *)
Lemma get_In s : forall i c, String.get i s = Some c -> In c (list_ascii_of_string s).
Proof. induction s as [|b s IH]; intros i c H; [discriminate|]. destruct i as [|i]; cbn in *; [left; congruence|right; eauto]. Qed.
Lemma float_text_decided fl s v :
  (negb (String.eqb s "") && forallb (fun c => existsb (Ascii.eqb c) (list_ascii_of_string "0123456789+-.e")) (list_ascii_of_string s) &&
   match decimal s with Some d => Qeq_bool (fl d) v | None => false end)%bool = true -> float_text fl s v.
Proof.
  intros H. apply andb_prop in H as (H & H3). apply andb_prop in H as (H1 & H2). split; [|split].
  - intros ->. discriminate H1.
  - intros i c G. apply get_In in G. rewrite forallb_forall in H2. specialize (H2 c G). apply existsb_exists in H2 as (d & D & E).
    apply Ascii.eqb_eq in E. now subst.
  - destruct (decimal s) as [d|]; [|discriminate]. exists d. split; [reflexivity|]. now apply Qeq_bool_iff.
Qed.
