(** Turning bands, part 3: c1 is a uniform limit of even polynomials on every interval. *)
From Verif Require Import Base Sums Matrix P_Psd P_Psd3 P_Turn1 P_Turn2.
From Coquelicot Require Import Coquelicot.

Definition epoly (N : nat) (c : nat -> R) (t : R) : R := bsum N (fun n => c n * (t * t) ^ n).
Definition even_poly (p : R -> R) : Prop := exists N c, forall t, p t = epoly N c t.
Lemma ep_ext p q : (forall t, p t = q t) -> even_poly p -> even_poly q.
Proof. intros E (N & c & H). exists N, c. intros t. now rewrite <- E. Qed.
Lemma bsum_pad N M f : (forall n, (N <= n)%nat -> f n = 0) -> bsum (N + M) f = bsum N f.
Proof. intros H. induction M as [|M IH]; [now rewrite Nat.add_0_r|]. rewrite Nat.add_succ_r. cbn [bsum]. rewrite IH, H by lia. ring. Qed.
Lemma ep_const a : even_poly (fun _ => a).
Proof. exists 1%nat, (fun _ => a). intros t. unfold epoly. cbn. ring. Qed.
Lemma ep_add p q : even_poly p -> even_poly q -> even_poly (fun t => p t + q t).
Proof.
  intros (N & c & H) (M & d & K). exists (N + M)%nat, (fun n => (if Nat.ltb n N then c n else 0) + (if Nat.ltb n M then d n else 0)).
  intros t. rewrite H, K. unfold epoly.
  rewrite (bsum_ext (N + M) _ (fun n => (if Nat.ltb n N then c n else 0) * (t * t) ^ n + (if Nat.ltb n M then d n else 0) * (t * t) ^ n)) by (intros; ring).
  rewrite bsum_plus. f_equal.
  - rewrite bsum_pad by (intros n Hn; destruct (Nat.ltb_spec n N); [lia|ring]).
    apply bsum_ext. intros n Hn. destruct (Nat.ltb_spec n N); [ring|lia].
  - rewrite Nat.add_comm. rewrite bsum_pad by (intros n Hn; destruct (Nat.ltb_spec n M); [lia|ring]).
    apply bsum_ext. intros n Hn. destruct (Nat.ltb_spec n M); [ring|lia].
Qed.
Lemma ep_scal a p : even_poly p -> even_poly (fun t => a * p t).
Proof. intros (N & c & H). exists N, (fun n => a * c n). intros t. rewrite H. unfold epoly. rewrite <- bsum_scal. apply bsum_ext. intros; ring. Qed.
Lemma bsum_first N f : bsum (S N) f = f 0%nat + bsum N (fun n => f (S n)).
Proof. induction N as [|N IH]; [cbn; ring|]. cbn [bsum] in *. rewrite IH. ring. Qed.
Lemma ep_sq p : even_poly p -> even_poly (fun t => t * t * p t).
Proof.
  intros (N & c & H). exists (S N), (fun n => match n with O => 0 | S n => c n end). intros t. rewrite H. unfold epoly.
  rewrite bsum_first, <- bsum_scal. rewrite (bsum_ext N (fun n => t * t * (c n * (t * t) ^ n)) (fun n => c n * (t * t) ^ (S n))) by (intros; cbn [pow]; ring). ring.
Qed.
Lemma ep_mul p q : even_poly p -> even_poly q -> even_poly (fun t => p t * q t).
Proof.
  intros (N & c & H) Hq. apply (ep_ext (fun t => epoly N c t * q t)); [intros t; now rewrite H|]. clear H p.
  induction N as [|N IH].
  - apply (ep_ext (fun _ => 0)); [intros; unfold epoly; cbn; ring|apply ep_const].
  - apply (ep_ext (fun t => epoly N c t * q t + c N * ((t * t) ^ N * q t))).
    + intros t. unfold epoly. cbn [bsum]. ring.
    + apply ep_add; [exact IH|]. apply ep_scal. clear IH. induction N as [|N IH].
      * apply (ep_ext q); [intros; cbn; ring|exact Hq].
      * apply (ep_ext (fun t => t * t * ((t * t) ^ N * q t))); [intros; cbn [pow]; ring|]. apply ep_sq. exact IH.
Qed.
Lemma ep_bounded p B : even_poly p -> exists M, 0 <= M /\ forall t, Rabs t <= B -> Rabs (p t) <= M.
Proof.
  intros (N & c & H). 
  assert (G : exists M, 0 <= M /\ forall t, Rabs t <= B -> Rabs (epoly N c t) <= M).
  { clear H. unfold epoly. induction N as [|N (M & M0 & IH)]; [exists 0; split; [lra|intros; cbn; rewrite Rabs_R0; lra]|].
    exists (M + Rabs (c N) * (B * B) ^ N). split.
    - destruct (Rle_dec 0 B) as [HB|HB].
      + apply Rplus_le_le_0_compat; [exact M0|]. apply Rmult_le_pos; [apply Rabs_pos|]. apply pow_le. nra.
      + apply Rplus_le_le_0_compat; [exact M0|]. apply Rmult_le_pos; [apply Rabs_pos|]. apply pow_le. nra.
    - intros t Ht. cbn [bsum]. eapply Rle_trans; [apply Rabs_triang|]. apply Rplus_le_compat; [now apply IH|].
      rewrite Rabs_mult. apply Rmult_le_compat_l; [apply Rabs_pos|]. rewrite <- RPow_abs. apply pow_incr. split; [apply Rabs_pos|].
      rewrite Rabs_mult. pose proof (Rabs_pos t). nra. }
  destruct G as (M & M0 & G). exists M. split; [exact M0|]. intros t Ht. rewrite H. now apply G.
Qed.

(** ---- the uniform closure on bounded sets ---- *)
Definition near (B e : R) (g h : R -> R) : Prop := forall t, Rabs t <= B -> Rabs (g t - h t) <= e.
Definition limit_poly (g : R -> R) : Prop := forall B e, 0 < e -> exists p, even_poly p /\ near B e g p.
Lemma near_trans B e d g h k : near B e g h -> near B d h k -> near B (e + d) g k.
Proof. intros H K t Ht. specialize (H t Ht). specialize (K t Ht). replace (g t - k t) with ((g t - h t) + (h t - k t)) by ring. eapply Rle_trans; [apply Rabs_triang|]. lra. Qed.
Lemma lp_poly p : even_poly p -> limit_poly p.
Proof. intros H B e He. exists p. split; [exact H|]. intros t _. replace (p t - p t) with 0 by ring. rewrite Rabs_R0. lra. Qed.
Lemma lp_ext g h : (forall t, g t = h t) -> limit_poly g -> limit_poly h.
Proof. intros E H B e He. destruct (H B e He) as (p & P & K). exists p. split; [exact P|]. intros t Ht. rewrite <- E. now apply K. Qed.
Lemma lp_limit g : (forall B e, 0 < e -> exists h, limit_poly h /\ near B e g h) -> limit_poly g.
Proof.
  intros H B e He. destruct (H B (e / 2) ltac:(lra)) as (h & Hh & K). destruct (Hh B (e / 2) ltac:(lra)) as (p & P & Q).
  exists p. split; [exact P|]. replace e with (e / 2 + e / 2) by field. exact (near_trans _ _ _ _ _ _ K Q).
Qed.
Lemma lp_bounded g B : limit_poly g -> exists M, 0 < M /\ forall t, Rabs t <= B -> Rabs (g t) <= M.
Proof.
  intros H. destruct (H B 1 ltac:(lra)) as (p & P & K). destruct (ep_bounded p B P) as (M & M0 & Q). exists (M + 1). split; [lra|].
  intros t Ht. specialize (K t Ht). specialize (Q t Ht). replace (g t) with ((g t - p t) + p t) by ring. eapply Rle_trans; [apply Rabs_triang|]. lra.
Qed.
Lemma lp_add g h : limit_poly g -> limit_poly h -> limit_poly (fun t => g t + h t).
Proof.
  intros G H B e He. destruct (G B (e / 2) ltac:(lra)) as (p & P & K). destruct (H B (e / 2) ltac:(lra)) as (q & Q & L).
  exists (fun t => p t + q t). split; [now apply ep_add|]. intros t Ht. specialize (K t Ht). specialize (L t Ht).
  replace (g t + h t - (p t + q t)) with ((g t - p t) + (h t - q t)) by ring. eapply Rle_trans; [apply Rabs_triang|]. lra.
Qed.
Lemma lp_scal a g : limit_poly g -> limit_poly (fun t => a * g t).
Proof.
  intros G B e He. assert (Ha : 0 < Rabs a + 1) by (pose proof (Rabs_pos a); lra).
  destruct (G B (e / (Rabs a + 1))) as (p & P & K); [apply Rdiv_lt_0_compat; lra|].
  exists (fun t => a * p t). split; [now apply ep_scal|]. intros t Ht. specialize (K t Ht).
  replace (a * g t - a * p t) with (a * (g t - p t)) by ring. rewrite Rabs_mult.
  apply Rle_trans with ((Rabs a + 1) * (e / (Rabs a + 1))); [|right; field; lra].
  apply Rmult_le_compat; try apply Rabs_pos; lra.
Qed.
Lemma lp_mul g h : limit_poly g -> limit_poly h -> limit_poly (fun t => g t * h t).
Proof.
  intros G H B e He. destruct (lp_bounded g B G) as (M & M0 & BM).
  destruct (H B (e / (2 * M)) ltac:(apply Rdiv_lt_0_compat; lra)) as (q & Q & L).
  destruct (ep_bounded q B Q) as (M' & M0' & BM').
  destruct (G B (e / (2 * (M' + 1))) ltac:(apply Rdiv_lt_0_compat; lra)) as (p & P & K).
  exists (fun t => p t * q t). split; [now apply ep_mul|]. intros t Ht. specialize (K t Ht). specialize (L t Ht). specialize (BM t Ht). specialize (BM' t Ht).
  replace (g t * h t - p t * q t) with (g t * (h t - q t) + (g t - p t) * q t) by ring. eapply Rle_trans; [apply Rabs_triang|]. rewrite !Rabs_mult.
  apply Rle_trans with (M * (e / (2 * M)) + e / (2 * (M' + 1)) * (M' + 1)); [|right; field; lra].
  apply Rplus_le_compat; apply Rmult_le_compat; try apply Rabs_pos; lra.
Qed.

(** ---- square roots: s' = s + (y^2 - s^2) / 2 ---- *)
Fixpoint root (k : nat) (Y : R) : R := match k with O => 0 | S k => root k Y + / 2 * (Y + (-1) * (root k Y * root k Y)) end.
Lemma root_bound v k : 0 <= v <= 1 -> 0 <= root k (v * v) <= v /\ (v - root k (v * v)) * (1 + INR k * v / 2) <= v.
Proof.
  intros Hv. induction k as [|k (IH1 & IH2)].
  - cbn [root]. change (INR 0) with 0. split; [lra|]. lra.
  - cbn [root]. rewrite S_INR. set (s := root k (v * v)) in *. pose proof (pos_INR k) as Hk.
    assert (E : v - (s + / 2 * (v * v + (-1) * (s * s))) = (v - s) * (1 - (v + s) / 2)) by field.
    split; [split; nra|]. rewrite E.
    apply Rle_trans with ((v - s) * (1 + INR k * v / 2)); [|exact IH2].
    rewrite Rmult_assoc. apply Rmult_le_compat_l; [lra|].
    apply Rle_trans with ((1 - v / 2) * (1 + (INR k + 1) * v / 2)).
    + apply Rmult_le_compat_r; [nra|lra].
    + assert (0 <= (INR k + 1) * (v * v)) by (apply Rmult_le_pos; [lra|apply Rle_0_sqr]). lra.
Qed.
Lemma root_near v k : 0 <= v <= 1 -> (0 < k)%nat -> 0 <= v - root k (v * v) <= 2 / INR k.
Proof.
  intros Hv Hk. destruct (root_bound v k Hv) as (H1 & H2). assert (H0 : 0 < INR k) by (apply lt_0_INR; exact Hk).
  split; [lra|]. set (s := root k (v * v)) in *. apply (Rmult_le_reg_r (INR k)); [exact H0|]. replace (2 / INR k * INR k) with 2 by (field; lra).
  destruct (Req_dec v 0) as [E|E].
  - assert (v - s = 0) by lra. rewrite H. lra.
  - assert (0 < v) by lra. apply (Rmult_le_reg_r (v / 2)); [lra|]. nra.
Qed.
Lemma lp_root (y : R -> R) k : limit_poly (fun t => y t) -> limit_poly (fun t => root k (y t)).
Proof.
  intros H. induction k as [|k IH]; cbn [root]; [apply lp_poly, ep_const|].
  apply (lp_add (fun t => root k (y t)) (fun t => / 2 * (y t + -1 * (root k (y t) * root k (y t))))); [exact IH|].
  apply (lp_scal (/ 2) (fun t => y t + -1 * (root k (y t) * root k (y t)))).
  apply (lp_add (fun t => y t) (fun t => -1 * (root k (y t) * root k (y t)))); [exact H|].
  apply (lp_scal (-1) (fun t => root k (y t) * root k (y t))). apply (lp_mul (fun t => root k (y t)) (fun t => root k (y t))); exact IH.
Qed.
Lemma lp_abs (y : R -> R) : limit_poly (fun t => y t * y t) -> limit_poly (fun t => Rabs (y t)).
Proof.
  intros H. apply lp_limit. intros B e He.
  destruct (lp_bounded _ B H) as (M0 & HM0 & BM0). pose (M := M0 + 1).
  assert (BM : forall t, Rabs t <= B -> Rabs (y t) <= M).
  { intros t Ht. specialize (BM0 t Ht). cbv beta in BM0. rewrite Rabs_mult in BM0. pose proof (Rabs_pos (y t)). unfold M. nra. }
  assert (HM : 0 < M) by (unfold M; lra).
  destruct (nfloor_ex (2 * M / e)) as (k0 & Hk0); [left; apply Rdiv_lt_0_compat; lra|]. pose (k := S k0). assert (Hk : 2 * M / e < INR k) by (unfold k; rewrite S_INR; lra).
  assert (K0 : (0 < k)%nat) by (unfold k; lia).
  exists (fun t => M * root k (/ (M * M) * (y t * y t))). split.
  - apply (lp_scal M (fun t => root k (/ (M * M) * (y t * y t)))). apply (lp_root (fun t => / (M * M) * (y t * y t)) k). now apply (lp_scal (/ (M * M)) (fun t => y t * y t)).
  - intros t Ht. specialize (BM t Ht). pose (v := Rabs (y t) / M).
    assert (Hv : 0 <= v <= 1).
    { unfold v. split; [apply Rmult_le_pos; [apply Rabs_pos|left; now apply Rinv_0_lt_compat]|].
      apply (Rmult_le_reg_r M); [exact HM|]. unfold Rdiv. rewrite Rmult_assoc, Rinv_l by lra. lra. }
    replace (/ (M * M) * (y t * y t)) with (v * v).
    2:{ unfold v, Rdiv. replace (y t * y t) with (Rabs (y t) * Rabs (y t)) by (rewrite <- Rabs_mult; apply Rabs_right, Rle_ge, Rle_0_sqr). field. lra. }
    destruct (root_near v k Hv K0) as (R1 & R2).
    replace (Rabs (y t)) with (M * v) by (unfold v; field; lra). replace (M * v - M * root k (v * v)) with (M * (v - root k (v * v))) by ring.
    rewrite Rabs_mult, (Rabs_right M), (Rabs_right (v - _)) by lra.
    apply Rle_trans with (M * (2 / INR k)); [apply Rmult_le_compat_l; lra|].
    assert (H0 : 0 < INR k) by (apply lt_0_INR; exact K0). apply (Rmult_le_reg_r (INR k)); [exact H0|].
    replace (M * (2 / INR k) * INR k) with (2 * M) by (field; lra).
    assert (2 * M / e * e < INR k * e) by (apply Rmult_lt_compat_r; lra). replace (2 * M / e * e) with (2 * M) in H1 by (field; lra). lra.
Qed.

Lemma lp_h : limit_poly (fun t => Rabs t).
Proof. apply (lp_abs (fun t => t)). apply lp_poly. apply (ep_ext (fun t => t * t * 1)); [intros; ring|]. apply ep_sq, ep_const. Qed.
Lemma lp_c1 : limit_poly c1.
Proof.
  assert (H1 : limit_poly (fun t => 1 + -1 * Rabs t)) by (apply (lp_add (fun _ => 1) (fun t => -1 * Rabs t)); [apply lp_poly, ep_const|apply (lp_scal (-1) (fun t => Rabs t)), lp_h]).
  assert (H2 : limit_poly (fun t => Rabs (1 + -1 * Rabs t))) by (apply (lp_abs (fun t => 1 + -1 * Rabs t)), lp_mul; exact H1).
  apply (lp_ext (fun t => (/ 2 * ((1 + -1 * Rabs t) + Rabs (1 + -1 * Rabs t))) * (1 + -2 * (Rabs t + Rabs t * Rabs t)))).
  - intros t. unfold c1. destruct (Rle_dec (Rabs t) 1) as [H|H].
    + rewrite (Rabs_right (1 + -1 * Rabs t)) by lra. field.
    + rewrite (Rabs_left (1 + -1 * Rabs t)) by lra. field.
  - apply (lp_mul (fun t => / 2 * ((1 + -1 * Rabs t) + Rabs (1 + -1 * Rabs t))) (fun t => 1 + -2 * (Rabs t + Rabs t * Rabs t))).
    + apply (lp_scal (/ 2) (fun t => (1 + -1 * Rabs t) + Rabs (1 + -1 * Rabs t))). apply (lp_add (fun t => 1 + -1 * Rabs t) (fun t => Rabs (1 + -1 * Rabs t))); assumption.
    + apply (lp_add (fun _ => 1) (fun t => -2 * (Rabs t + Rabs t * Rabs t))); [apply lp_poly, ep_const|].
      apply (lp_scal (-2) (fun t => Rabs t + Rabs t * Rabs t)). apply (lp_add (fun t => Rabs t) (fun t => Rabs t * Rabs t)); [apply lp_h|].
      apply (lp_mul (fun t => Rabs t) (fun t => Rabs t)); apply lp_h.
Qed.
