(** PROOFS: text layer. *)
From Coq Require Import String Ascii ZArith QArith Qround Qpower Qabs Qfield Lia List.
From Verif Require Import Base M_Text S_Text.
From Coq Require Import Lqa.
Import ListNotations.
Open Scope string_scope.
Open Scope Z_scope.

(** ** strings *)
Lemma app_s_assoc a b c : (a ++ b) ++ c = a ++ (b ++ c).
Proof. induction a as [|x a IH]; [reflexivity|]. cbn. now rewrite IH. Qed.
Lemma app_s_nil a : a ++ "" = a.
Proof. induction a as [|x a IH]; [reflexivity|]. cbn. now rewrite IH. Qed.
Lemma length_app a b : String.length (a ++ b) = (String.length a + String.length b)%nat.
Proof. induction a as [|x a IH]; [reflexivity|]. cbn. now rewrite IH. Qed.
Lemma length_spaces n : String.length (spaces n) = n.
Proof. induction n as [|n IH]; [reflexivity|]. cbn. now rewrite IH. Qed.

Fixpoint chars (P : ascii -> bool) (s : string) : bool :=
  match s with "" => true | String c r => P c && chars P r end.
Lemma chars_app P a b : chars P (a ++ b) = (chars P a && chars P b)%bool.
Proof. induction a as [|x a IH]; [reflexivity|]. cbn. rewrite IH. now destruct (P x). Qed.
Lemma chars_imp (P Q' : ascii -> bool) s : (forall c, P c = true -> Q' c = true) -> chars P s = true -> chars Q' s = true.
Proof. intros H. induction s as [|c s IH]; [reflexivity|]. cbn. intros K. apply andb_prop in K. now rewrite (H c), IH. Qed.

Definition nosp (c : ascii) : bool := negb (is_space c).
Definition nonl (c : ascii) : bool := negb (nat_of_ascii c =? 10)%nat.

Lemma words_aux_tok t : forall acc s, chars nosp t = true -> words_aux acc (t ++ s) = words_aux (acc ++ t) s.
Proof.
  induction t as [|c t IH]; intros acc s H; [now rewrite app_s_nil|].
  cbn in H. apply andb_prop in H as [H1 H2]. unfold nosp in H1. cbn. destruct (is_space c); [discriminate|].
  rewrite IH by assumption. now rewrite app_s_assoc.
Qed.
Lemma words_spaces n s : words (spaces n ++ s) = words s.
Proof. induction n as [|n IH]; [reflexivity|exact IH]. Qed.
Lemma words_aux_spaces n acc s : acc <> "" -> (0 < n)%nat -> words_aux acc (spaces n ++ s) = acc :: words s.
Proof.
  intros H Hn. destruct n as [|n]; [lia|]. cbn. destruct acc as [|c a]; [now destruct H|].
  change (words_aux "" (spaces n ++ s)) with (words (spaces n ++ s)). now rewrite words_spaces.
Qed.
Lemma words_tok t n s : t <> "" -> chars nosp t = true -> (0 < n)%nat -> words (t ++ spaces n ++ s) = t :: words s.
Proof. intros H K Hn. unfold words. rewrite words_aux_tok by assumption. now apply words_aux_spaces. Qed.
Lemma words_last t : t <> "" -> chars nosp t = true -> words t = [t].
Proof.
  intros H K. unfold words. rewrite <- (app_s_nil t) at 1. rewrite words_aux_tok by assumption.
  destruct t; [now destruct H|reflexivity].
Qed.

Lemma lines_aux_tok t : forall acc s, chars nonl t = true -> lines_aux acc (t ++ s) = lines_aux (acc ++ t) s.
Proof.
  induction t as [|c t IH]; intros acc s H; [now rewrite app_s_nil|].
  cbn in H. apply andb_prop in H as [H1 H2]. unfold nonl in H1. cbn [append lines_aux].
  destruct (nat_of_ascii c =? 10)%nat; [discriminate|].
  rewrite IH by assumption. now rewrite app_s_assoc.
Qed.
Lemma lines_cons t s : chars nonl t = true -> lines (t ++ nl ++ s) = t :: lines s.
Proof. intros H. unfold lines. rewrite lines_aux_tok by assumption. reflexivity. Qed.
Lemma lines_last t : t <> "" -> chars nonl t = true -> lines t = [t].
Proof.
  intros H K. unfold lines. rewrite <- (app_s_nil t) at 1. rewrite lines_aux_tok by assumption.
  destruct t; [now destruct H|reflexivity].
Qed.

Lemma chars_spaces P n : P " "%char = true -> chars P (spaces n) = true.
Proof. intros H. induction n as [|n IH]; [reflexivity|]. cbn. now rewrite H. Qed.

(** ** digits *)
Definition is_digit (c : ascii) : bool := match char_digit c with Some _ => true | None => false end.

Lemma digit_cases d (P : Z -> Prop) : 0 <= d < 10 -> P 0 -> P 1 -> P 2 -> P 3 -> P 4 -> P 5 -> P 6 -> P 7 -> P 8 -> P 9 -> P d.
Proof. intros H. assert (E : d = 0 \/ d = 1 \/ d = 2 \/ d = 3 \/ d = 4 \/ d = 5 \/ d = 6 \/ d = 7 \/ d = 8 \/ d = 9) by lia. intros. intuition (subst; assumption). Qed.
Lemma char_digit_char d : 0 <= d < 10 -> char_digit (digit_char d) = Some d.
Proof. intros H. apply (digit_cases d (fun d => char_digit (digit_char d) = Some d) H); reflexivity. Qed.

Lemma length_pad k : forall n, String.length (pad k n) = k.
Proof. induction k as [|k IH]; intros n; [reflexivity|]. cbn [pad]. rewrite length_app, IH. cbn. lia. Qed.
Lemma chars_pad k : forall n, chars is_digit (pad k n) = true.
Proof.
  induction k as [|k IH]; intros n; [reflexivity|]. cbn [pad]. rewrite chars_app, IH. cbn [chars].
  unfold is_digit. rewrite char_digit_char by (apply Z.mod_pos_bound; lia). reflexivity.
Qed.

Lemma pow10_pos k : 0 < 10 ^ Z.of_nat k. Proof. apply Z.pow_pos_nonneg; lia. Qed.
Lemma pow10_S k : 10 ^ Z.of_nat (S k) = 10 * 10 ^ Z.of_nat k.
Proof. rewrite Nat2Z.inj_succ, Z.pow_succ_r by lia. reflexivity. Qed.
Lemma mod10_S k n : n mod 10 ^ Z.of_nat (S k) = 10 * ((n / 10) mod 10 ^ Z.of_nat k) + n mod 10.
Proof. rewrite pow10_S. rewrite Z.rem_mul_r by (pose proof (pow10_pos k); lia). lia. Qed.

Lemma pdigits_pad k : forall acc any n s,
  pdigits acc any (pad k n ++ s) = pdigits (acc * 10 ^ Z.of_nat k + n mod 10 ^ Z.of_nat k) (any || negb (k =? 0)%nat)%bool s.
Proof.
  induction k as [|k IH]; intros acc any n s.
  - cbn [pad append]. change (10 ^ Z.of_nat 0) with 1. rewrite Z.mod_1_r. replace (acc * 1 + 0) with acc by lia. cbn. now rewrite orb_false_r.
  - cbn [pad]. rewrite app_s_assoc, IH. cbn [append pdigits]. rewrite char_digit_char by (apply Z.mod_pos_bound; lia).
    rewrite mod10_S, pow10_S. cbn [Nat.eqb negb]. rewrite orb_true_r. f_equal. ring.
Qed.
Lemma pmant_pad k : forall acc any fd n s,
  pmant acc any fd (pad k n ++ s) =
  pmant (acc * 10 ^ Z.of_nat k + n mod 10 ^ Z.of_nat k) (any || negb (k =? 0)%nat)%bool (option_map (Z.add (Z.of_nat k)) fd) s.
Proof.
  induction k as [|k IH]; intros acc any fd n s.
  - cbn [pad append]. change (10 ^ Z.of_nat 0) with 1. rewrite Z.mod_1_r. replace (acc * 1 + 0) with acc by lia. cbn. rewrite orb_false_r.
    now destruct fd.
  - cbn [pad]. rewrite app_s_assoc, IH. cbn [append pmant]. rewrite char_digit_char by (apply Z.mod_pos_bound; lia).
    rewrite mod10_S, pow10_S. cbn [Nat.eqb negb]. rewrite orb_true_r. f_equal; [ring|]. destruct fd as [z|]; cbn [option_map]; [f_equal; rewrite Nat2Z.inj_succ; lia|reflexivity].
Qed.

Lemma ndig_aux_spec f : forall n, 0 <= n < 2 ^ Z.of_nat f -> n < 10 ^ Z.of_nat (ndig_aux f n).
Proof.
  induction f as [|f IH]; intros n H.
  - cbn in H |- *. lia.
  - cbn [ndig_aux]. destruct (n <? 10) eqn:E.
    + apply Z.ltb_lt in E. change (10 ^ Z.of_nat 1) with 10. lia.
    + apply Z.ltb_ge in E. rewrite pow10_S.
      assert (K : 0 <= n / 10 < 2 ^ Z.of_nat f).
      { rewrite Nat2Z.inj_succ, Z.pow_succ_r in H by lia. split; [apply Z.div_pos; lia|]. apply Z.div_lt_upper_bound; lia. }
      specialize (IH _ K). pose proof (Z.div_mod n 10). pose proof (Z.mod_pos_bound n 10). lia.
Qed.
Lemma ndig_pos n : (0 < ndig n)%nat.
Proof. unfold ndig. cbn [ndig_aux]. destruct (n <? 10); lia. Qed.
Lemma ndig_spec n : 0 <= n -> n < 10 ^ Z.of_nat (ndig n).
Proof.
  intros H. apply ndig_aux_spec. split; [assumption|]. rewrite Nat2Z.inj_succ, Z2Nat.id by apply Z.log2_nonneg.
  destruct (Z.eq_dec n 0) as [->|]; [cbn; lia|]. apply Z.log2_spec. lia.
Qed.
Lemma ndig_aux_lower f : forall n, 0 <= n -> n <> 0 -> 10 ^ (Z.of_nat (ndig_aux f n) - 1) <= n.
Proof.
  induction f as [|f IH]; intros n H H0; [cbn; lia|].
  cbn [ndig_aux]. destruct (n <? 10) eqn:E; [cbn; lia|]. apply Z.ltb_ge in E.
  assert (K : 0 <= n / 10) by (apply Z.div_pos; lia).
  assert (K' : n / 10 <> 0). { intros K'. apply Z.div_small_iff in K'; lia. }
  specialize (IH _ K K'). replace (Z.of_nat (S (ndig_aux f (n / 10))) - 1) with (Z.succ (Z.of_nat (ndig_aux f (n / 10)) - 1)) by lia.
  assert (P : (0 < ndig_aux f (n / 10))%nat). { clear. destruct f; cbn; [lia|]. destruct (_ <? 10); lia. }
  rewrite Z.pow_succ_r by lia. pose proof (Z.div_mod n 10). pose proof (Z.mod_pos_bound n 10). lia.
Qed.
Lemma ndig_lower n : 0 < n -> 10 ^ (Z.of_nat (ndig n) - 1) <= n.
Proof. intros H. apply ndig_aux_lower; lia. Qed.

Lemma chars_fmt_nat n : chars is_digit (fmt_nat n) = true. Proof. apply chars_pad. Qed.
Lemma fmt_nat_ne n : fmt_nat n <> "".
Proof. intros H. apply (f_equal String.length) in H. unfold fmt_nat in H. rewrite length_pad in H. pose proof (ndig_pos n). change (String.length "") with 0%nat in H. lia. Qed.

(** a string that starts with a digit *)
Definition starts_digit (s : string) : Prop := exists c r, s = String c r /\ is_digit c = true.
Lemma starts_app a b : starts_digit a -> starts_digit (a ++ b).
Proof. intros (c & r & -> & H). exists c, (r ++ b). auto. Qed.
Lemma starts_fmt_nat n : starts_digit (fmt_nat n).
Proof. pose proof (chars_fmt_nat n). pose proof (fmt_nat_ne n). destruct (fmt_nat n) as [|c r]; [easy|]. cbn in H. apply andb_prop in H. exists c, r. tauto. Qed.
Lemma starts_pad1 n : starts_digit (pad 1 n).
Proof. exists (digit_char (n mod 10)), "". split; [reflexivity|]. unfold is_digit. now rewrite char_digit_char by (apply Z.mod_pos_bound; lia). Qed.

Lemma digit_not_sign c : is_digit c = true -> c <> "-"%char /\ c <> "+"%char.
Proof. intros H. split; intros ->; discriminate. Qed.

Lemma parse_int_digits s : starts_digit s -> parse_int s = pdigits 0 false s.
Proof.
  intros (c & r & -> & H). unfold is_digit in H.
  destruct c as [[][][][][][][][]]; try reflexivity; discriminate.
Qed.
Lemma decimal_digits s : starts_digit s -> decimal s = pmant 0 false None s.
Proof.
  intros (c & r & -> & H). unfold is_digit in H.
  destruct c as [[][][][][][][][]]; try reflexivity; discriminate.
Qed.

Lemma parse_fmt_int n : parse_int (fmt_int n) = Some n.
Proof.
  unfold fmt_int. assert (K : pdigits 0 false (fmt_nat (Z.abs n)) = Some (Z.abs n)).
  { unfold fmt_nat. rewrite <- (app_s_nil (pad _ _)). rewrite pdigits_pad. cbn [pdigits].
    pose proof (ndig_pos (Z.abs n)). destruct (ndig (Z.abs n) =? 0)%nat eqn:E; [apply Nat.eqb_eq in E; lia|]. cbn.
    rewrite Z.mod_small; [reflexivity|]. split; [lia|]. apply ndig_spec. lia. }
  destruct (n <? 0) eqn:E.
  - apply Z.ltb_lt in E. cbn [append parse_int]. rewrite K. cbn. f_equal. lia.
  - apply Z.ltb_ge in E. cbn [append]. rewrite parse_int_digits by apply starts_fmt_nat. rewrite K. f_equal. lia.
Qed.

(** ** rounding *)
Open Scope Q_scope.

Lemma Qabs_le_iff a b : Qabs a <= b <-> -b <= a /\ a <= b.
Proof. split; [apply Qabs_Qle_condition|apply Qabs_Qle_condition]. Qed.

Lemma rhe_nearest q : nearest_multiple 1 q (inject_Z (rhe q)).
Proof.
  destruct q as [n d]. unfold rhe. cbn [Qnum Qden].
  pose proof (Z.div_mod n (Zpos d) ltac:(lia)) as E. pose proof (Z.mod_pos_bound n (Zpos d) ltac:(lia)) as B.
  set (f := (n / Zpos d)%Z) in *. set (r := (n mod Zpos d)%Z) in *.
  assert (Hq : forall m, (n # d) - inject_Z m == ((n - m * Zpos d) # d)).
  { intros m. unfold Qminus, Qplus, Qopp, inject_Z, Qeq. cbn. lia. }
  unfold nearest_multiple.
  assert (Hd : forall m, (2 * Z.abs (n - m * Zpos d) <= Zpos d)%Z -> (2 * Z.abs (n - m * Zpos d) = Zpos d -> Z.Even m)%Z ->
    exists n0 : Z, inject_Z m == inject_Z n0 * 1 /\ Qabs ((n # d) - inject_Z m) <= 1 / 2 /\ (Qabs ((n # d) - inject_Z m) == 1 / 2 -> Z.Even n0)).
  { intros m H1 H2. exists m. split; [ring|]. rewrite Hq. split.
    - unfold Qle, Qabs. cbn. lia.
    - intros H3. apply H2. unfold Qeq, Qabs in H3. cbn in H3. lia. }
  assert (A0 : (n - f * Zpos d = r)%Z) by (rewrite E at 1; ring).
  assert (A1 : (n - (f + 1) * Zpos d = r - Zpos d)%Z) by (rewrite E at 1; ring).
  pose proof (Hd f) as D0. pose proof (Hd (f + 1)%Z) as D1. rewrite A0 in D0. rewrite A1 in D1.
  destruct (2 * r ?= Zpos d)%Z eqn:C.
  - apply Z.compare_eq_iff in C. destruct (Z.even f) eqn:Ev.
    + apply D0; [lia|]. intros _. now apply Z.even_spec.
    + apply D1; [lia|]. intros _. rewrite <- Z.even_spec, Z.even_add, Ev. reflexivity.
  - rewrite Z.compare_lt_iff in C. apply D0; lia.
  - rewrite Z.compare_gt_iff in C. apply D1; lia.
Qed.

Lemma nearest_scale u q d : 0 < u -> nearest_multiple 1 (q / u) d -> nearest_multiple u q (d * u).
Proof.
  intros Hu (n & E & H & K). exists n. split; [rewrite E; ring|].
  assert (A : q - d * u == (q / u - d) * u) by (field; lra).
  rewrite A, Qabs_Qmult, (Qabs_pos u) by lra. split.
  - setoid_replace (u / 2) with (1 / 2 * u) by field. apply Qmult_le_compat_r; [assumption|lra].
  - intros B. apply K. setoid_replace (u / 2) with (1 / 2 * u) in B by field. apply Qmult_inj_r in B; [assumption|lra].
Qed.
Lemma nearest_opp u q d : nearest_multiple u q d -> nearest_multiple u (- q) (- d).
Proof.
  intros (n & E & H & K). exists (- n)%Z. rewrite inject_Z_opp. split; [rewrite E; ring|].
  setoid_replace (- q - - d) with (- (q - d)) by ring. rewrite Qabs_opp. split; [assumption|].
  intros B. destruct (K B) as (m & ->). exists (- m)%Z. lia.
Qed.
Lemma nearest_compat u u' q q' d d' : u == u' -> q == q' -> d == d' -> nearest_multiple u q d -> nearest_multiple u' q' d'.
Proof.
  intros A B C (n & E & H & K). exists n. split; [|split].
  - rewrite <- A, <- C. assumption.
  - rewrite <- A, <- B, <- C. assumption.
  - rewrite <- A, <- B, <- C. assumption.
Qed.

Lemma rhe_nonneg q : 0 <= q -> (0 <= rhe q)%Z.
Proof.
  intros H. destruct q as [n d]. unfold Qle in H. cbn in H. unfold rhe. cbn [Qnum Qden].
  assert (0 <= n / Zpos d)%Z by (apply Z.div_pos; lia).
  destruct (_ ?= _)%Z; [destruct (Z.even _)| |]; lia.
Qed.

(** ** fixed-point text reads back as the rounded number *)
Lemma pow10_Q k : pow10 (Z.of_nat k) == inject_Z (10 ^ Z.of_nat k).
Proof. unfold pow10. change 10 with (inject_Z 10). symmetry. apply Zpower_Qpower. lia. Qed.
Lemma Qpow10_pos e : 0 < 10 ^ e. Proof. apply Qpower_0_lt. reflexivity. Qed.

Lemma inject_pow10_nz k : ~ inject_Z (10 ^ Z.of_nat k) == 0.
Proof. pose proof (pow10_pos k). unfold Qeq. cbn. lia. Qed.

Definition fixed_value (p : nat) (q : Q) : Q :=
  let n := rhe (Qabs q * pow10 (Z.of_nat p)) in
  let v := scale (n / 10 ^ Z.of_nat p * 10 ^ Z.of_nat p + n mod 10 ^ Z.of_nat p)%Z (- Z.of_nat p) in
  if (Qnum q <? 0)%Z then - v else v.

Lemma decimal_neg s : decimal ("-" ++ s) = option_map Qopp (pmant 0 false None s).
Proof. reflexivity. Qed.
Lemma app_empty s : "" ++ s = s. Proof. reflexivity. Qed.

Lemma decimal_fixed p q : (0 < p)%nat -> decimal (fmt_fixed p q) = Some (fixed_value p q).
Proof.
  intros Hp. unfold fmt_fixed, fixed_value. set (n := rhe _).
  assert (Hn : (0 <= n)%Z). { apply rhe_nonneg. apply Qmult_le_0_compat; [apply Qabs_nonneg|]. apply Qlt_le_weak, Qpow10_pos. }
  assert (K : pmant 0 false None (fmt_nat (n / 10 ^ Z.of_nat p) ++ "." ++ pad p n) =
    Some (scale (n / 10 ^ Z.of_nat p * 10 ^ Z.of_nat p + n mod 10 ^ Z.of_nat p) (- Z.of_nat p))).
  { unfold fmt_nat. rewrite pmant_pad. cbn [append pmant]. change (char_digit ".") with (@None Z). cbn [Ascii.eqb Bool.eqb option_map orb].
    set (m := (n / _)%Z). assert (Hm : (0 <= m)%Z) by (apply Z.div_pos; [assumption|apply pow10_pos]).
    rewrite Z.mod_small by (split; [assumption|now apply ndig_spec]).
    rewrite <- (app_s_nil (pad p n)). rewrite pmant_pad. cbn [pmant option_map].
    replace (negb (p =? 0)%nat) with true by (symmetry; apply negb_true_iff, Nat.eqb_neq; lia). rewrite orb_true_r.
    f_equal. f_equal; lia. }
  destruct (Qnum q <? 0)%Z.
  - rewrite decimal_neg, K. reflexivity.
  - rewrite app_empty, decimal_digits by (apply starts_app, starts_fmt_nat). exact K.
Qed.

Lemma fixed_nearest p q u : u == 1 / inject_Z (10 ^ Z.of_nat p) -> nearest_multiple u q (fixed_value p q).
Proof.
  intros Hu. unfold fixed_value. set (n := rhe _). pose proof (inject_pow10_nz p) as Hz.
  assert (Hp : 0 < inject_Z (10 ^ Z.of_nat p)). { pose proof (pow10_pos p). unfold Qlt. cbn. lia. }
  rewrite (Z.mul_comm (n / _)), <- Z.div_mod by (pose proof (pow10_pos p); lia).
  assert (Hu0 : 0 < u). { rewrite Hu. apply Qlt_shift_div_l; lra. }
  assert (A : scale n (- Z.of_nat p) == inject_Z n * u).
  { unfold scale, pow10. rewrite Qpower_opp. fold (pow10 (Z.of_nat p)). rewrite pow10_Q, Hu. field. assumption. }
  assert (B : nearest_multiple u (Qabs q) (scale n (- Z.of_nat p))).
  { eapply nearest_compat; [reflexivity|reflexivity|symmetry; exact A|]. apply nearest_scale; [assumption|].
    eapply nearest_compat; [reflexivity| |reflexivity|apply rhe_nearest]. rewrite pow10_Q, Hu. field. assumption. }
  destruct (Qnum q <? 0)%Z eqn:E.
  - apply Z.ltb_lt in E. apply nearest_opp in B. eapply nearest_compat; [reflexivity| |reflexivity|exact B].
    rewrite Qabs_neg by (unfold Qle; cbn; lia). ring.
  - apply Z.ltb_ge in E. eapply nearest_compat; [reflexivity| |reflexivity|exact B].
    apply Qabs_pos. unfold Qle. cbn. lia.
Qed.

(** ** E-notation *)
Definition sci_value (p : nat) (q : Q) : Q :=
  let '(m, e) := sci p q in
  let v := scale m (e - Z.of_nat p) in
  if (Qnum q <? 0)%Z then - v else v.

Lemma dec_exp_spec q : 0 < q -> 10 ^ dec_exp q <= q /\ q < 10 ^ (dec_exp q + 1).
Proof.
  intros H. destruct q as [n d]. unfold Qlt in H. cbn in H. unfold dec_exp. cbn [Qnum Qden].
  set (a := Z.of_nat (ndig n)). set (b := Z.of_nat (ndig (Zpos d))).
  assert (Hn1 : (10 ^ (a - 1) <= n)%Z) by (apply ndig_lower; lia).
  assert (Hn2 : (n < 10 ^ a)%Z) by (apply ndig_spec; lia).
  assert (Hd1 : (10 ^ (b - 1) <= Zpos d)%Z) by (apply ndig_lower; lia).
  assert (Hd2 : (Zpos d < 10 ^ b)%Z) by (apply ndig_spec; lia).
  assert (Ha : (0 < a)%Z) by (pose proof (ndig_pos n); lia). assert (Hb : (0 < b)%Z) by (pose proof (ndig_pos (Zpos d)); lia).
  assert (Qz : forall k, (0 <= k)%Z -> 10 ^ k == inject_Z (10 ^ k)). { intros k Hk. change 10 with (inject_Z 10). symmetry. now apply Zpower_Qpower. }
  assert (Eq : (n # d) == inject_Z n / inject_Z (Zpos d)).
  { rewrite (Qmake_Qdiv n d). reflexivity. }
  assert (Dp : 0 < inject_Z (Zpos d)) by reflexivity.
  (* lower: 10^(a-1-b) <= q *)
  assert (L : 10 ^ (a - b - 1) <= (n # d)).
  { rewrite Eq. apply Qle_shift_div_l; [assumption|].
    apply Qle_trans with (10 ^ (a - b - 1) * 10 ^ b).
    - apply Qmult_le_l; [apply Qpow10_pos|]. rewrite (Qz b) by lia. rewrite <- Zle_Qle. lia.
    - rewrite <- Qpower_plus by lra. replace (a - b - 1 + b)%Z with (a - 1)%Z by lia. rewrite Qz by lia. rewrite <- Zle_Qle. lia. }
  assert (U : (n # d) < 10 ^ (a - b + 1)).
  { rewrite Eq. apply Qlt_shift_div_r; [assumption|].
    apply Qlt_le_trans with (10 ^ (a - b + 1) * 10 ^ (b - 1)).
    - rewrite <- Qpower_plus by lra. replace (a - b + 1 + (b - 1))%Z with a by lia. rewrite Qz by lia. rewrite <- Zlt_Qlt. lia.
    - apply Qmult_le_l; [apply Qpow10_pos|]. rewrite Qz by lia. rewrite <- Zle_Qle. lia. }
  destruct (Qle_bool (pow10 (a - b)) (n # d)) eqn:E.
  - apply Qle_bool_iff in E. split; assumption.
  - split; [exact L|]. replace (a - b - 1 + 1)%Z with (a - b)%Z by lia. apply Qnot_le_lt. intros K. apply Qle_bool_iff in K. unfold pow10 in E. congruence.
Qed.

Lemma dec_exp_unique q e e' : 10 ^ e <= q -> q < 10 ^ (e + 1) -> 10 ^ e' <= q -> q < 10 ^ (e' + 1) -> e = e'.
Proof.
  assert (M : forall a b, (a < b)%Z -> 10 ^ (a + 1) <= 10 ^ b).
  { intros a b H. apply Qpower_le_compat_l; [lia|]. lra. }
  intros A B C D. destruct (Z.lt_trichotomy e e') as [H|[H|H]]; [|assumption|].
  - specialize (M _ _ H). lra.
  - specialize (M _ _ H). lra.
Qed.

Lemma sci_spec p q m e : sci p q = (m, e) ->
  (0 <= m < 10 ^ (Z.of_nat p + 1))%Z /\
  (q == 0 -> m = 0%Z) /\
  (forall e', 10 ^ e' <= Qabs q -> Qabs q < 10 ^ (e' + 1) ->
    nearest_multiple (10 ^ (e' - Z.of_nat p)) (Qabs q) (scale m (e - Z.of_nat p))).
Proof.
  unfold sci. destruct (Qnum q =? 0)%Z eqn:E0.
  - apply Z.eqb_eq in E0. intros E. injection E as <- <-. split; [split; [lia|apply Z.pow_pos_nonneg; lia]|]. split; [reflexivity|].
    intros e' H _. exfalso. assert (Qabs q == 0). { destruct q as [n d]. cbn in E0. subst n. reflexivity. }
    pose proof (Qpow10_pos e'). lra.
  - apply Z.eqb_neq in E0. set (a := Qabs q). set (e0 := dec_exp a).
    assert (Ha : 0 < a). { destruct q as [n d]. unfold a, Qlt, Qabs. cbn in E0 |- *. lia. }
    destruct (dec_exp_spec a Ha) as [L U]. fold e0 in L, U.
    set (x := a * pow10 (Z.of_nat p - e0)).
    assert (Lx : inject_Z (10 ^ Z.of_nat p) <= x).
    { unfold x. rewrite <- pow10_Q. unfold pow10. apply Qle_trans with (10 ^ e0 * 10 ^ (Z.of_nat p - e0)).
      - rewrite <- Qpower_plus by lra. replace (e0 + (Z.of_nat p - e0))%Z with (Z.of_nat p) by lia. lra.
      - apply Qmult_le_compat_r; [assumption|]. apply Qlt_le_weak, Qpow10_pos. }
    assert (Ux : x < inject_Z (10 ^ (Z.of_nat p + 1))).
    { unfold x. change 10%Z with (10 ^ 1)%Z at 1. rewrite Z.pow_1_r.
      rewrite Zpower_Qpower by lia. change (inject_Z 10) with 10. unfold pow10.
      apply Qlt_le_trans with (10 ^ (e0 + 1) * 10 ^ (Z.of_nat p - e0)).
      - apply Qmult_lt_r; [apply Qpow10_pos|assumption].
      - rewrite <- Qpower_plus by lra. replace (e0 + 1 + (Z.of_nat p - e0))%Z with (Z.of_nat p + 1)%Z by lia. lra. }
    pose proof (rhe_nearest x) as N. set (m0 := rhe x) in *.
    assert (Hm : (10 ^ Z.of_nat p <= m0 <= 10 ^ (Z.of_nat p + 1))%Z).
    { destruct N as (_ & _ & H & _). apply Qabs_le_iff in H. destruct H as [H1 H2]. change (1 / 2) with (1 # 2) in H1, H2.
      assert (X1 : inject_Z (10 ^ Z.of_nat p) < inject_Z (m0 + 1)).
      { rewrite inject_Z_plus. change (inject_Z 1) with 1. clear Ux. revert Lx H1 H2. generalize (inject_Z (10 ^ Z.of_nat p)) (inject_Z m0) x. intros; lra. }
      assert (X2 : inject_Z m0 < inject_Z (10 ^ (Z.of_nat p + 1) + 1)).
      { rewrite inject_Z_plus. change (inject_Z 1) with 1. clear Lx X1. revert Ux H1 H2. generalize (inject_Z (10 ^ (Z.of_nat p + 1))) (inject_Z m0) x. intros; lra. }
      rewrite <- Zlt_Qlt in X1, X2. lia. }
    assert (NN : nearest_multiple (10 ^ (e0 - Z.of_nat p)) a (inject_Z m0 * 10 ^ (e0 - Z.of_nat p))).
    { apply nearest_scale; [apply Qpow10_pos|]. eapply nearest_compat; [reflexivity| |reflexivity|exact N].
      unfold x, pow10. replace (Z.of_nat p - e0)%Z with (- (e0 - Z.of_nat p))%Z by lia. rewrite Qpower_opp. reflexivity. }
    pose proof (pow10_pos p) as Pp.
    assert (P1 : (10 ^ (Z.of_nat p + 1) = 10 * 10 ^ Z.of_nat p)%Z). { rewrite Z.add_1_r, Z.pow_succ_r by lia. reflexivity. }
    assert (Z0 : q == 0 -> False). { intros Hq. destruct q as [n d]. unfold Qeq in Hq. cbn in Hq, E0. lia. }
    destruct (m0 =? 10 ^ (Z.of_nat p + 1))%Z eqn:E1.
    + apply Z.eqb_eq in E1. intros E. injection E as <- <-. split; [lia|]. split; [intros Hq; now destruct Z0|].
      intros e' L' U'. assert (e' = e0) by (apply (dec_exp_unique a); assumption). subst e'.
      eapply nearest_compat; [reflexivity|reflexivity| |exact NN]. unfold scale, pow10. rewrite E1, P1, inject_Z_mult.
      replace (e0 + 1 - Z.of_nat p)%Z with (1 + (e0 - Z.of_nat p))%Z by lia. rewrite Qpower_plus by lra. change (10 ^ 1) with 10. change (inject_Z 10) with 10. ring.
    + apply Z.eqb_neq in E1. intros E. injection E as <- <-. split; [lia|]. split; [intros Hq; now destruct Z0|].
      intros e' L' U'. assert (e' = e0) by (apply (dec_exp_unique a); assumption). subst e'. exact NN.
Qed.

Lemma parse_exp e : parse_int ((if (e <? 0)%Z then "-" else "+") ++ pad (Nat.max 2 (ndig (Z.abs e))) (Z.abs e)) = Some e.
Proof.
  assert (K : pdigits 0 false (pad (Nat.max 2 (ndig (Z.abs e))) (Z.abs e)) = Some (Z.abs e)).
  { rewrite <- (app_s_nil (pad _ _)). rewrite pdigits_pad. cbn [pdigits]. set (k := Nat.max 2 _).
    replace (negb (k =? 0)%nat) with true by (symmetry; apply negb_true_iff, Nat.eqb_neq; unfold k; lia). cbn [orb].
    rewrite Z.mod_small; [reflexivity|]. split; [lia|]. apply Z.lt_le_trans with (10 ^ Z.of_nat (ndig (Z.abs e)))%Z; [apply ndig_spec; lia|].
    apply Z.pow_le_mono_r; lia. }
  destruct (e <? 0)%Z eqn:E.
  - apply Z.ltb_lt in E. cbn [append parse_int]. rewrite K. cbn [option_map]. f_equal. lia.
  - apply Z.ltb_ge in E. cbn [append parse_int]. rewrite K. f_equal. lia.
Qed.

Lemma decimal_sci p q : (0 < p)%nat -> exists d, decimal (fmt_sci p q) = Some d /\ d == sci_value p q.
Proof.
  intros Hp. unfold fmt_sci, sci_value. destruct (sci p q) as [m e] eqn:S. apply sci_spec in S as (B & _ & _).
  pose proof (pow10_pos p) as Pp.
  set (T := pad 1 _ ++ _).
  assert (K : pmant 0 false None T = Some (scale m (e - Z.of_nat p))).
  { unfold T. rewrite pmant_pad. cbn [append pmant]. change (char_digit ".") with (@None Z). cbn [Ascii.eqb Bool.eqb option_map orb].
    rewrite pmant_pad. cbn [append pmant]. change (char_digit "E") with (@None Z). cbn [Ascii.eqb Bool.eqb option_map orb].
    replace (negb (p =? 0)%nat) with true by (symmetry; apply negb_true_iff, Nat.eqb_neq; lia). cbn [orb Nat.eqb negb].
    change ((if (e <? 0)%Z then "-" else "+") ++ pad (Nat.max 2 (ndig (Z.abs e))) (Z.abs e)) with
           ((if (e <? 0)%Z then "-" else "+") ++ pad (Nat.max 2 (ndig (Z.abs e))) (Z.abs e)).
    rewrite parse_exp. f_equal. f_equal; [|lia].
    rewrite (Z.mod_small (m / _)).
    - rewrite Z.mul_0_l, Z.add_0_l, (Z.mul_comm (m / _)), <- Z.div_mod by lia. reflexivity.
    - split; [apply Z.div_pos; lia|]. apply Z.div_lt_upper_bound; [lia|]. rewrite Z.add_1_r, Z.pow_succ_r in B by lia. change (10 ^ Z.of_nat 1)%Z with 10%Z. lia. }
  destruct (Qnum q <? 0)%Z.
  - rewrite decimal_neg, K. eexists. split; [reflexivity|reflexivity].
  - rewrite app_empty, decimal_digits by (apply starts_app, starts_pad1). rewrite K. eexists. split; reflexivity.
Qed.

Lemma sci_eight q d : d == sci_value 7 q -> eight_digits q d.
Proof.
  intros E. unfold sci_value in E. destruct (sci 7 q) as [m e] eqn:S. apply sci_spec in S as (_ & B & C). split.
  - intros Hq. specialize (B Hq). subst m. rewrite E. unfold scale. destruct (Qnum q <? 0)%Z; ring.
  - intros e' L U. specialize (C e' L U). change (Z.of_nat 7) with 7%Z in C, E.
    destruct (Qnum q <? 0)%Z eqn:G.
    + apply Z.ltb_lt in G. apply nearest_opp in C. eapply nearest_compat; [reflexivity| |symmetry; exact E|exact C].
      rewrite Qabs_neg by (unfold Qle; cbn; lia). ring.
    + apply Z.ltb_ge in G. eapply nearest_compat; [reflexivity| |symmetry; exact E|exact C].
      apply Qabs_pos. unfold Qle. cbn. lia.
Qed.

(** ** characters of printed numbers *)
Definition numchar (c : ascii) : bool :=
  (is_digit c || Ascii.eqb c "-" || Ascii.eqb c "." || Ascii.eqb c "E" || Ascii.eqb c "+")%bool.
Lemma numchar_ok c : numchar c = true ->
  nosp c = true /\ nonl c = true /\ Ascii.eqb c " " = false /\ Ascii.eqb c "#" = false /\ Ascii.eqb c "," = false /\
  Ascii.eqb c "!" = false /\ Ascii.eqb c "@" = false.
Proof. destruct c as [[][][][][][][][]]; intros H; try discriminate H; repeat split; reflexivity. Qed.
Lemma digit_numchar s : chars is_digit s = true -> chars numchar s = true.
Proof. apply chars_imp. intros c H. unfold numchar. now rewrite H. Qed.
Lemma numchar_nosp s : chars numchar s = true -> chars nosp s = true.
Proof. apply chars_imp. intros c H. now apply numchar_ok in H. Qed.
Lemma numchar_nonl s : chars numchar s = true -> chars nonl s = true.
Proof. apply chars_imp. intros c H. now apply numchar_ok in H. Qed.

Lemma chars_fixed p q : chars numchar (fmt_fixed p q) = true.
Proof.
  unfold fmt_fixed. rewrite !chars_app, (digit_numchar _ (chars_fmt_nat _)), (digit_numchar _ (chars_pad _ _)).
  destruct (Qnum q <? 0)%Z; reflexivity.
Qed.
Lemma chars_int n : chars numchar (fmt_int n) = true.
Proof. unfold fmt_int. rewrite !chars_app, (digit_numchar _ (chars_fmt_nat _)). destruct (n <? 0)%Z; reflexivity. Qed.
Lemma chars_sci p q : chars numchar (fmt_sci p q) = true.
Proof.
  unfold fmt_sci. destruct (sci p q) as [m e]. rewrite !chars_app, !(digit_numchar _ (chars_pad _ _)).
  destruct (Qnum q <? 0)%Z, (e <? 0)%Z; reflexivity.
Qed.
Lemma fixed_ne p q : fmt_fixed p q <> "".
Proof.
  intros H. apply (f_equal String.length) in H. unfold fmt_fixed in H. rewrite !length_app in H. cbn [String.length] in H. lia.
Qed.
Lemma int_ne n : fmt_int n <> "".
Proof.
  intros H. apply (f_equal String.length) in H. unfold fmt_int in H. rewrite length_app in H.
  assert (String.length (fmt_nat (Z.abs n)) = 0)%nat by (cbn [String.length] in H; lia).
  unfold fmt_nat in H0. rewrite length_pad in H0. pose proof (ndig_pos (Z.abs n)). lia.
Qed.
Lemma length_sci p q : (p + 6 <= String.length (fmt_sci p q))%nat.
Proof. unfold fmt_sci. destruct (sci p q) as [m e]. rewrite !length_app, !length_pad. cbn [String.length]. destruct (e <? 0)%Z; cbn [String.length]; lia. Qed.
