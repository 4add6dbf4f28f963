(** Proofs: consequences of C84 and concrete cases. *)
From Coq Require Import String.
From Verif Require Import Base Sums Matrix M_Variogram P_Variogram M_Geometry S_Geometry M_Kriging S_Kriging
  P_Kriging M_Init M_Object M_Execute S_Execute P_Object P_Execute P_OK P_Exec2 S_Valid P_Valid P_Valid7 S_State
  P_Fit4 Witness Witness2 P_UK8 P_Line P_Far P_Far3 P_Pinv3 S_Stats P_Stats2 P_Stats3 M_Values S_Values P_Values P_Values2 P_Values3.

Theorem one_nan_everywhere E o q z r i : run E o q r -> (forall i v, (i < o_n o)%nat -> z i = Some v -> o_values o i = v) ->
  q_window q = None -> (i < o_n o)%nat -> z i = None ->
  exists rn, execute_v Nval E o z q = Ok rn /\ forall p pos, shown o q p pos -> rv_value rn p = Some None /\ exists s, rv_variance rn p = Some s.
Proof.
  intros HR HZ HW Hi Hz. destruct (nan_values E o q z r HR HZ) as (rn & HN & _ & Hs & _ & H). exists rn. split; [exact HN|].
  intros p pos HS. destruct (H p pos HS) as (m & sel & HU & _ & H1 & _). unfold uses in HU. rewrite HW in HU. destruct HU as [-> Hsel]. split.
  - apply H1. exists i. split; [exact Hi|]. rewrite Hsel. exact Hz.
  - rewrite Hs. destruct (run_cell E o q r p pos HR HS) as (v & s & _ & H2 & _). exists s. exact H2.
Qed.

Lemma map_nodup {X} (f : nat -> X) l : NoDup l -> (forall a b, In a l -> In b l -> f a = f b -> a = b) -> NoDup (map f l).
Proof.
  induction 1 as [|a l Ha ND IH]; intros H; cbn [map]; constructor.
  - intros Hin. apply in_map_iff in Hin. destruct Hin as (b & Hb & Hin). apply Ha. rewrite (H a b); [exact Hin|left; reflexivity|right; exact Hin|symmetry; exact Hb].
  - apply IH. intros; apply H; try (right; assumption). assumption.
Qed.
(** k data strictly nearer: not among the k nearest *)
Lemma not_among o k pos sel i (near : nat -> nat) : nearest o k pos sel ->
  (forall a, (a < k)%nat -> (near a < o_n o)%nat /\ separation o pos (datum o (near a)) < separation o pos (datum o i)) ->
  (forall a b, (a < k)%nat -> (b < k)%nat -> near a = near b -> a = b) ->
  forall a, (a < k)%nat -> sel a <> i.
Proof.
  intros (N1 & N2 & N3 & N4) H1 H2 a Ha Hs.
  assert (I : incl (i :: map near (seq 0 k)) (map sel (seq 0 k))).
  { intros x [<-|Hx].
    - apply in_map_iff. exists a. split; [exact Hs|apply in_seq; lia].
    - apply in_map_iff in Hx. destruct Hx as (b & <- & Hb). apply in_seq in Hb.
      destruct (in_dec Nat.eq_dec (near b) (map sel (seq 0 k))) as [Hin|Hout]; [exact Hin|]. exfalso.
      destruct (H1 b ltac:(lia)) as [K1 K2].
      assert (K3 := N4 a (near b) Ha K1). rewrite Hs in K3.
      assert (K4 : separation o pos (datum o i) <= separation o pos (datum o (near b))); [apply K3|lra].
      intros c Hc Heq. apply Hout. apply in_map_iff. exists c. split; [exact Heq|apply in_seq; lia]. }
  assert (ND : NoDup (i :: map near (seq 0 k))).
  { constructor.
    - intros Hin. apply in_map_iff in Hin. destruct Hin as (b & Hb & Hin). apply in_seq in Hin.
      destruct (H1 b ltac:(lia)) as [_ K]. rewrite Hb in K. lra.
    - apply map_nodup; [apply seq_NoDup|]. intros b c Hb Hc. apply in_seq in Hb, Hc. apply H2; lia. }
  apply (NoDup_incl_length ND) in I. cbn [List.length] in I. rewrite !map_length, !seq_length in I. lia.
Qed.

Theorem nan_outside_window E o q z r k p pos : run E o q r -> (forall i v, (i < o_n o)%nat -> z i = Some v -> o_values o i = v) ->
  q_window q = Some k -> shown o q p pos ->
  (forall i, (i < o_n o)%nat -> z i = None -> exists near,
     (forall a, (a < k)%nat -> (near a < o_n o)%nat /\ separation o pos (datum o (near a)) < separation o pos (datum o i)) /\
     (forall a b, (a < k)%nat -> (b < k)%nat -> near a = near b -> a = b)) ->
  exists rn v, execute_v Nval E o z q = Ok rn /\ r_value r p = Some v /\ rv_value rn p = Some (Some v).
Proof.
  intros HR HZ HW HS HN. destruct (nan_values E o q z r HR HZ) as (rn & HX & _ & _ & _ & H).
  destruct (H p pos HS) as (m & sel & HU & Hsel & _ & H2). unfold uses in HU. rewrite HW in HU. destruct HU as [-> Hne].
  destruct H2 as (v & V1 & V2); [|exists rn, v; auto].
  intros a Ha Hz. destruct (HN (sel a) (Hsel a Ha) Hz) as (near & K1 & K2).
  exact (not_among o k pos sel (sel a) near Hne K1 K2 a Ha eq_refl).
Qed.
Theorem nan_inside_window E o q z r k p pos i : run E o q r -> (forall i v, (i < o_n o)%nat -> z i = Some v -> o_values o i = v) ->
  q_window q = Some k -> shown o q p pos -> (i < o_n o)%nat -> z i = None ->
  (forall sel, nearest o k pos sel -> exists a, (a < k)%nat /\ sel a = i) ->
  exists rn, execute_v Nval E o z q = Ok rn /\ rv_value rn p = Some None.
Proof.
  intros HR HZ HW HS Hi Hz HN. destruct (nan_values E o q z r HR HZ) as (rn & HX & _ & _ & _ & H). exists rn. split; [exact HX|].
  destruct (H p pos HS) as (m & sel & HU & Hsel & H1 & _). unfold uses in HU. rewrite HW in HU. destruct HU as [-> Hne].
  apply H1. destruct (HN sel Hne) as (a & Ha & Hs). exists a. rewrite Hs. auto.
Qed.

(** *** data 0, NaN, 5, 7 at x = 0, 1, 3, 4 *)
Definition nan_data : list (option R) := [Some 0; None; Some 5; Some 7].
Definition nan_args (z : list R) : cargs := mod_args [0; 1; 3; 4] [0; 0; 0; 0] z "linear" [1; / 2].
Lemma nan_filled v : filled nan_data [0; v; 5; 7].
Proof.
  split; [reflexivity|]. intros i w. do 4 (destruct i as [|i]; [cbn; intros H; injection H as H; subst; reflexivity || discriminate H|]).
  destruct i; discriminate.
Qed.
Lemma nan_case : exists o r rw, construct WE OK2 (with_values (nan_args []) [0; 1; 5; 7]) = Ok o /\ List.length (c_coords (nan_args [])) = 2%nat /\
  explicit_params (c_v (nan_args [])) /\ c_stat (nan_args []) = false /\
  o_n o = 4%nat /\ run WE o (one_point 2 0 "vectorized") r /\ shown o (one_point 2 0 "vectorized") 0 (2, 0, 0) /\
  run WE o (windowed 10 0 2) rw /\ shown o (windowed 10 0 2) 0 (10, 0, 0) /\
  (forall i, datum o i = (rnth [0; 1; 3; 4] i, rnth [0; 0; 0; 0] i, 0)) /\
  (forall p q, separation o p q = sqrt ((lon p - lon q)² + (lat p - lat q)²)) /\ o_values o = rnth [0; 1; 5; 7].
Proof.
  change (with_values (nan_args []) [0; 1; 5; 7]) with (mod_args [0; 1; 3; 4] [0; 0; 0; 0] [0; 1; 5; 7] "linear" [1; / 2]).
  destruct (construct_execute WE OK2 (mod_args [0; 1; 3; 4] [0; 0; 0; 0] [0; 1; 5; 7] "linear" [1; / 2]) "linear" [1; / 2] (wit_env_ok _ _)) as (o & Ho & HPr & H).
  - constructor; cbn; try reflexivity; try discriminate; try lia; [left; reflexivity|]. intros t [<-|[<-|[]]]; reflexivity.
  - constructor; try reflexivity; [|intros k _; cbn; lra]. apply request_linear; [reflexivity|lra|lra|lra].
  - left. reflexivity.
  - left. cbn. lra.
  - destruct (mod_fields _ _ _ _ _ o _ _ Ho eq_refl eq_refl) as (Hc & Hct & Hn & _ & _ & Hv & _ & _ & Hd & Hs).
    assert (Hdim : o_dim o = 2%nat) by (unfold o_dim; rewrite Hc; reflexivity).
    assert (HR : forall q r, q_backend q <> "C"%string -> execute WE o q = Ok r -> run WE o q r).
    { intros q r Hb Hr. split; [apply wit_env_ok|]. split; [refine (reach_new WE OK2 (mod_args _ _ _ _ _) o eq_refl Ho)|].
      split; [left; exact Hc|]. split; [|exact Hr]. intros HB. contradiction. }
    destruct (H (one_point 2 0 "vectorized")) as [r Hr].
    { split; [|intros _; left; reflexivity]. right. left. split; [reflexivity|]. split; [reflexivity|]. rewrite Hdim. discriminate. }
    { left. reflexivity. }
    destruct (H (windowed 10 0 2)) as [rw Hrw].
    { split; [|intros _; left; reflexivity]. right. left. split; [reflexivity|]. split; [reflexivity|]. rewrite Hdim. discriminate. }
    { cbn. rewrite Hn. cbn. split; [lia|left; reflexivity]. }
    exists o, r, rw. split; [exact Ho|]. split; [reflexivity|]. split; [left; cbn; discriminate|]. split; [reflexivity|].
    split; [exact Hn|]. split; [apply HR; [discriminate|exact Hr]|]. split; [apply one_point_cell, Hc|].
    split; [apply HR; [discriminate|exact Hrw]|]. split.
    { unfold shown. rewrite Hdim. split; [apply (cell_point 2 (windowed 10 0 2) 0 eq_refl); cbn; lia|intros K; inversion K; discriminate]. }
    auto.
Qed.
(** at x = 10 the two nearest data are at 3 and 4: not the NaN at 1 *)
Lemma nan_case_near o : (forall i, datum o i = (rnth [0; 1; 3; 4] i, rnth [0; 0; 0; 0] i, 0)) -> o_n o = 4%nat ->
  (forall p q, separation o p q = sqrt ((lon p - lon q)² + (lat p - lat q)²)) ->
  forall i, (i < o_n o)%nat -> nth i nan_data (Some 0) = None -> exists near,
     (forall a, (a < 2)%nat -> (near a < o_n o)%nat /\ separation o (10, 0, 0) (datum o (near a)) < separation o (10, 0, 0) (datum o i)) /\
     (forall a b, (a < 2)%nat -> (b < 2)%nat -> near a = near b -> a = b).
Proof.
  intros Hd Hn Hs i Hi Hz. rewrite Hn in *.
  assert (i = 1%nat) by (do 4 (destruct i as [|i]; [cbn in Hz; try discriminate Hz; reflexivity|]); lia). subst i.
  exists (fun a => (a + 2)%nat). split; [|intros; lia].
  intros a Ha. split; [lia|]. rewrite !Hs, !Hd. apply sqrt_lt_1; unfold lon, lat; destruct a as [|[|a]]; try lia; cbn; unfold Rsqr; lra.
Qed.

(** ---- the statistics ---- *)
Lemma filter_full {X} (f : X -> bool) l : List.length (filter f l) = List.length l -> filter f l = l.
Proof.
  induction l as [|a l IH]; [reflexivity|]. cbn [filter List.length]. destruct (f a); cbn [List.length]; intros H.
  - f_equal. apply IH. lia.
  - pose proof (P_Fit.filter_length_le' f l). lia.
Qed.
Lemma unknown_below z m : forallb (fun j => is_number (z j)) (seq 0 m) = false <-> exists j, (j < m)%nat /\ z j = None.
Proof.
  induction m as [|m IH]; [split; [discriminate|intros (j & Hj & _); lia]|].
  rewrite seq_S, forallb_app, andb_false_iff, IH. cbn [forallb plus]. rewrite andb_true_r. split.
  - intros [(j & Hj & Hz)|H]; [exists j; split; [lia|exact Hz]|]. exists m. split; [lia|]. destruct (z m); [discriminate|reflexivity].
  - intros (j & Hj & Hz). destruct (Nat.eq_dec j m) as [->|Hne]; [right; rewrite Hz; reflexivity|left; exists j; split; [lia|exact Hz]].
Qed.
Lemma known_upto_false z i : known_upto z i = false <-> exists j, (j <= i)%nat /\ z j = None.
Proof. unfold known_upto. rewrite unknown_below. split; intros (j & Hj & Hz); exists j; (split; [lia|exact Hz]). Qed.
Theorem nan_residuals E o z sn : nan_statistics E o z (Some sn) -> all_residuals o ->
  List.length (sn_delta sn) = (o_n o - 1)%nat /\ List.length (sn_epsilon sn) = (o_n o - 1)%nat /\
  (forall a, (a < o_n o - 1)%nat -> (nth a (sn_delta sn) (Some 0) = None <-> exists j, (j <= a + 1)%nat /\ z j = None) /\
                                    (nth a (sn_epsilon sn) (Some 0) = None <-> exists j, (j <= a + 1)%nat /\ z j = None)) /\
  ((2 <= o_n o)%nat -> (exists j, (j < o_n o)%nat /\ z j = None) -> sn_Q1 sn = None /\ sn_Q2 sn = None /\ sn_cR sn = None).
Proof.
  intros HN (st & HS & HL). unfold nan_statistics in HN. rewrite HS in HN. destruct HN as (v & s & (C1 & C2 & C3) & (D1 & D2 & D3 & D4 & D5 & D6) & _).
  assert (HK : filter (fun i => Rleb eps (s i)) (seq 1 (o_n o - 1)) = seq 1 (o_n o - 1)).
  { apply filter_full. rewrite C1, map_length in HL. rewrite HL, seq_length. reflexivity. }
  rewrite HK in *. rewrite D2, D3, !map_length, seq_length. split; [reflexivity|]. split; [reflexivity|]. split.
  - assert (G : forall (f : nat -> R) a, (a < o_n o - 1)%nat ->
      (nth a (map (fun i => if known_upto z i then Some (f i) else None) (seq 1 (o_n o - 1))) (Some 0) = None <-> exists j, (j <= a + 1)%nat /\ z j = None)).
    { intros f a Ha. rewrite (nth_indep _ _ ((fun i => if known_upto z i then Some (f i) else None) 0%nat)) by (rewrite map_length, seq_length; exact Ha).
      rewrite (map_nth (fun i => if known_upto z i then Some (f i) else None)), seq_nth by exact Ha. replace (a + 1)%nat with (1 + a)%nat by lia.
      rewrite <- known_upto_false. destruct (known_upto z (1 + a)); split; congruence. }
    intros a Ha. split; apply G, Ha.
  - intros H2 (j & Hj & Hz).
    assert (HF : forallb (known_upto z) (seq 1 (o_n o - 1)) = false).
    { destruct (forallb _ _) eqn:EF; [|reflexivity]. rewrite forallb_forall in EF.
      assert (K : known_upto z (o_n o - 1) = true) by (apply EF, in_seq; lia).
      assert (K' : known_upto z (o_n o - 1) = false) by (apply known_upto_false; exists j; split; [lia|exact Hz]). congruence. }
    rewrite HF in *. auto.
Qed.

(** data 0, 1, NaN at (0, 0), (6, 0), (3, 4): the first residual is a number, the second NaN *)
Definition three_nan : list (option R) := [Some 0; Some 1; None].
Theorem ex_nan_statistics : exists A o' o zv sn, List.length (c_coords A) = cdim OK2 /\ explicit_params (c_v A) /\ filled three_nan [0; 1; 2] /\
  construct WE OK2 (with_values A [0; 1; 2]) = Ok o' /\ construct_nan WE OK2 A three_nan = Ok (o, zv, Some sn) /\
  nan_statistics WE o' zv (Some sn) /\ all_residuals o' /\
  (exists d, sn_delta sn = [Some d; None]) /\ sn_Q1 sn = None.
Proof.
  destruct (val_construct [0; 6; 3] [0; 0; 4] [0; 1; 2] 1 1 1 0) as [o' Ho']; try reflexivity; try (cbn; lia); try lra.
  set (A := val [0; 6; 3] [0; 0; 4] [] 1 1 1 0).
  assert (HO : construct WE OK2 (with_values A [0; 1; 2]) = Ok o') by exact Ho'.
  assert (HF : filled three_nan [0; 1; 2]).
  { split; [reflexivity|]. intros [|[|[|i]]] v; cbn; intros H; try discriminate; [injection H as H; exact H|injection H as H; exact H|destruct i; discriminate H]. }
  assert (HX : explicit_params (c_v A)) by (left; cbn; discriminate).
  destruct (nan_construct WE OK2 A three_nan [0; 1; 2] eq_refl HX HF) as [_ HN].
  destruct (HN o' HO) as (o & zv & sn & H1 & _ & _ & H2 & _ & Hz & _).
  assert (EV := eps_val).
  assert (AR : all_residuals o').
  { apply (val_residuals _ _ _ _ _ _ _ Ho'); [lra|lra|]. intros i j Hij. cbn in Hij. rewrite (val_sep _ _ _ _ _ _ _ _ _ Ho').
    destruct i as [|[|i]]; [| |lia]; (destruct j as [|[|[|j]]]; [lia| | |lia]); try lia; cbn.
    + rewrite (sqrt_sq _ _ 6); unfold Rsqr; lra.
    + rewrite (sqrt_sq _ _ 5); unfold Rsqr; lra.
    + rewrite (sqrt_sq _ _ 5); unfold Rsqr; lra. }
  assert (HN3 : o_n o' = 3%nat) by (destruct (val_fields _ _ _ _ _ _ _ _ Ho') as (_ & _ & -> & _); reflexivity).
  assert (exists sn', sn = Some sn') as [sn' ->].
  { unfold nan_statistics in H2. destruct AR as (st & Hst & _). rewrite Hst in H2. destruct sn as [sn'|]; [eauto|contradiction]. }
  exists A, o', o, zv, sn'. split; [reflexivity|]. split; [exact HX|]. split; [exact HF|]. split; [exact HO|]. split; [exact H1|]. split; [exact H2|]. split; [exact AR|].
  destruct (nan_residuals WE o' zv sn' H2 AR) as (L1 & _ & HD & HQ). rewrite HN3 in *. cbn [minus] in *. split.
  - destruct (sn_delta sn') as [|a [|b [|]]]; try discriminate L1.
    pose proof (proj1 (HD 0%nat ltac:(lia))) as D0. pose proof (proj1 (HD 1%nat ltac:(lia))) as D1. cbn [nth] in D0, D1.
    assert (b = None) as -> by (apply D1; exists 2%nat; rewrite Hz; split; [lia|reflexivity]).
    destruct a as [d|]; [exists d; reflexivity|]. exfalso. destruct (proj1 D0 eq_refl) as (j & Hj & K). rewrite Hz in K.
    destruct j as [|[|j]]; [discriminate K|discriminate K|lia].
  - apply HQ; [lia|]. exists 2%nat. rewrite Hz. split; [lia|reflexivity].
Qed.
