(** PROOFS: zmap files. *)
From Coq Require Import String Ascii ZArith QArith Qround Qpower Qabs Qfield Lia List.
From Verif Require Import Base M_Text S_Text P_Text M_AscGrid S_AscGrid P_AscGrid P_AscGrid2 P_AscGrid3 M_Zmap S_Zmap.
From Coq Require Import Lqa.
Import ListNotations.
Open Scope string_scope.
Open Scope Z_scope.

(** ** space_back_to_front *)
Lemma prefix_app t s : prefix t (t ++ s) = true.
Proof. induction t as [|c t IH]; [now destruct s|]. cbn. destruct (ascii_dec c c) as [_|N]; [exact IH|now destruct N]. Qed.
Lemma index_app t s : t <> "" -> String.index 0 t (t ++ s) = Some 0%nat.
Proof.
  intros H. destruct t as [|c t]; [now destruct H|]. pose proof (prefix_app (String c t) s) as K. cbn [append] in *. cbn [String.index].
  rewrite K. reflexivity.
Qed.
Lemma substring_all s n : (String.length s <= n)%nat -> substring 0 n s = s.
Proof. revert n. induction s as [|c s IH]; intros n H; [now destruct n|]. destruct n; cbn in H; [lia|]. cbn. rewrite IH by lia. reflexivity. Qed.
Lemma substring_skip t s n : (String.length s <= n)%nat -> substring (String.length t) n (t ++ s) = s.
Proof. intros H. induction t as [|c t IH]; [now apply substring_all|]. cbn. exact IH. Qed.
Lemma remove_char_app c a b : remove_char c (a ++ b) = remove_char c a ++ remove_char c b.
Proof. induction a as [|x a IH]; [reflexivity|]. cbn. rewrite IH. now destruct (Ascii.eqb x c). Qed.
Lemma remove_char_none c s : chars (fun x => negb (Ascii.eqb x c)) s = true -> remove_char c s = s.
Proof. induction s as [|x s IH]; [reflexivity|]. cbn. destruct (Ascii.eqb x c); [discriminate|]. cbn. intros H. now rewrite IH. Qed.
Lemma remove_spaces k : remove_char " " (spaces k) = "".
Proof. induction k as [|k IH]; [reflexivity|exact IH]. Qed.

Lemma sbtf t k : t <> "" -> chars numchar t = true -> space_back_to_front (t ++ spaces k) = spaces k ++ t.
Proof.
  intros H K. unfold space_back_to_front. rewrite remove_char_app, remove_spaces, app_s_nil.
  rewrite (remove_char_none " " t).
  2:{ revert K. apply chars_imp. intros c Hc. apply numchar_ok in Hc as (_ & _ & -> & _). reflexivity. }
  rewrite index_app by assumption. replace (substring 0 0 (t ++ spaces k)) with "" by (destruct (t ++ spaces k); reflexivity).
  cbn [plus append]. rewrite substring_skip; [reflexivity|]. rewrite length_app. lia.
Qed.

(** ** fields *)
Definition ztext (nd : Q) (c : cell) : string :=
  match c with
  | Num q => if Qle_bool million (Qabs q) then fmt_sci 7 q else fmt_fixed 4 q
  | _ => fmt_sci 7 nd
  end.
Lemma sci_ne q : fmt_sci 7 q <> "".
Proof. intros E. pose proof (length_sci 7 q) as H. rewrite E in H. cbn in H. lia. Qed.
Lemma rjust_sci q : rjust 13 (fmt_sci 7 q) = fmt_sci 7 q.
Proof. unfold rjust. pose proof (length_sci 7 q). replace (13 - _)%nat with 0%nat by lia. reflexivity. Qed.
Lemma ztext_chars nd c : chars numchar (ztext nd c) = true.
Proof. destruct c as [q| |]; cbn; [destruct (Qle_bool _ _)|..]; try apply chars_sci; apply chars_fixed. Qed.
Lemma ztext_ne nd c : ztext nd c <> "".
Proof. destruct c as [q| |]; cbn; [destruct (Qle_bool _ _)|..]; try apply sci_ne; apply fixed_ne. Qed.
Lemma spaces_add a b : spaces a ++ spaces b = spaces (a + b).
Proof. induction a as [|a IH]; [reflexivity|]. cbn. now rewrite IH. Qed.

Lemma field_text nd c : exists j, zmap_field nd c = spaces (S j) ++ ztext nd c.
Proof.
  destruct c as [q| |]; cbn [zmap_field ztext].
  - destruct (Qle_bool googol (Qabs q)) eqn:G.
    + assert (M : Qle_bool million (Qabs q) = true).
      { apply Qle_bool_iff in G. apply Qle_bool_iff. apply Qle_trans with googol; [|assumption]. vm_compute. discriminate. }
      rewrite M, rjust_sci. exists 0%nat. change " " with (spaces 1) at 1. apply sbtf; [apply sci_ne|apply chars_sci].
    + destruct (Qle_bool million (Qabs q)).
      * rewrite rjust_sci. exists 1%nat. change "  " with (spaces 2) at 1. apply sbtf; [apply sci_ne|apply chars_sci].
      * unfold ljust. change "  " with (spaces 2). rewrite app_s_assoc, spaces_add. rewrite sbtf; [|apply fixed_ne|apply chars_fixed].
        exists (13 - String.length (fmt_fixed 4 q) + 1)%nat. f_equal. f_equal. lia.
  - rewrite rjust_sci. exists 1%nat. change "  " with (spaces 2) at 1. apply sbtf; [apply sci_ne|apply chars_sci].
  - rewrite rjust_sci. exists 1%nat. change "  " with (spaces 2) at 1. apply sbtf; [apply sci_ne|apply chars_sci].
Qed.

(** ** the body as a sequence of fields *)
Definition item : Type := (nat * string * bool)%type.        (* extra spaces, text, newline *)
Definition item_text (i : item) : string := let '(j, t, b) := i in spaces (S j) ++ t ++ (if b : bool then nl else "").
Definition item_ok (i : item) : Prop := let '(_, t, _) := i in t <> "" /\ chars numchar t = true.
Definition tok (i : item) : string := snd (fst i).
Definition text (l : list item) : string := String.concat "" (map item_text l).

Definition dline (l : string) : Prop := words l <> [] /\ prefix "!" l = false /\ Forall (fun w => w <> "" /\ chars numchar w = true) (words l).
Definition good (acc : string) (ts : list string) : Prop :=
  chars nonl acc = true /\ (forall j s, words (acc ++ spaces (S j) ++ s) = (ts ++ words s)%list) /\ words acc = ts /\
  (acc = "" /\ ts = [] \/ exists r, acc = String " " r).

Lemma good_0 : good "" []. Proof. repeat split; [|now left]. intros j s. cbn [append]. apply (words_spaces (S j)). Qed.
Lemma good_add acc ts j t : good acc ts -> t <> "" -> chars numchar t = true -> good (acc ++ spaces (S j) ++ t) (ts ++ [t]).
Proof.
  intros (A & B & C & D) H K. pose proof (numchar_nosp _ K) as K'. split; [|split; [|split]].
  - rewrite !chars_app, A, (chars_spaces nonl) by reflexivity. now rewrite (numchar_nonl _ K).
  - intros i s. rewrite !app_s_assoc, B. rewrite words_tok by (assumption || lia). now rewrite <- app_assoc.
  - rewrite B, words_last by assumption. reflexivity.
  - right. destruct D as [[-> _]|(r & ->)]; cbn [append spaces]; eexists; reflexivity.
Qed.

Lemma space_not_bang r : prefix "!" (String " " r) = false. Proof. reflexivity. Qed.

Lemma body_structure : forall l acc ts, Forall item_ok l -> Forall (fun w => w <> "" /\ chars numchar w = true) ts -> good acc ts ->
  (l = [] -> acc = "") -> (l <> [] -> snd (last l (0%nat, "", false)) = true) ->
  exists ls, lines_aux acc (text l) = ls /\ List.concat (map words ls) = (ts ++ map tok l)%list /\ Forall dline ls.
Proof.
  induction l as [|[[j t] b] l IH]; intros acc ts F FT G E0 EL.
  - exists []. rewrite (E0 eq_refl). cbn. split; [reflexivity|]. split; [|constructor].
    destruct G as (_ & _ & C & _). rewrite (E0 eq_refl) in C. cbn in C. subst. reflexivity.
  - inversion F as [|? ? HK F']; subst. cbn [item_ok] in HK. destruct HK as [H K]. pose proof (good_add acc ts j t G H K) as G'.
    unfold text. cbn [map]. rewrite concat_cons. cbn [item_text]. fold (text l).
    assert (FT' : Forall (fun w => w <> "" /\ chars numchar w = true) (ts ++ [t])) by (apply Forall_app; auto).
    destruct b.
    + assert (X : lines_aux acc ((spaces (S j) ++ t ++ nl) ++ text l) = (acc ++ spaces (S j) ++ t) :: lines_aux "" (text l)).
      { replace ((spaces (S j) ++ t ++ nl) ++ text l) with ((spaces (S j) ++ t) ++ nl ++ text l) by now rewrite !app_s_assoc.
        rewrite lines_aux_tok.
        - reflexivity.
        - rewrite chars_app, (chars_spaces nonl) by reflexivity. now rewrite (numchar_nonl _ K). }
      rewrite X. destruct (IH "" [] F' ltac:(constructor) good_0 ltac:(auto)) as (ls & L1 & L2 & L3).
      { intros N. rewrite <- EL by discriminate. destruct l; [now destruct N|reflexivity]. }
      exists ((acc ++ spaces (S j) ++ t) :: ls). split; [now rewrite L1|].
      destruct G' as (_ & _ & C' & D').
      split. { cbn [map List.concat]. rewrite C', L2. cbn [tok fst snd]. now rewrite <- app_assoc. }
      constructor; [|assumption]. split; [rewrite C'; now destruct ts|]. split; [|now rewrite C'].
      destruct D' as [[D' _]|(r & ->)]; [|reflexivity]. exfalso. apply (f_equal String.length) in D'. rewrite !length_app in D'. cbn in D'. lia.
    + rewrite app_s_nil. rewrite lines_aux_tok.
      2:{ rewrite chars_app, (chars_spaces nonl) by reflexivity. now rewrite (numchar_nonl _ K). }
      destruct (IH (acc ++ spaces (S j) ++ t) (ts ++ [t])%list F' FT' G') as (ls & L1 & L2 & L3).
      * intros ->. exfalso. specialize (EL ltac:(discriminate)). discriminate EL.
      * intros N. rewrite <- EL by discriminate. destruct l; [now destruct N|reflexivity].
      * exists ls. split; [assumption|]. split; [|assumption]. rewrite L2, <- app_assoc. reflexivity.
Qed.

(** items of a column and of the whole body *)
Lemma column_items nd z n : forall k count,
  exists l, text l = zmap_column nd z n count (rev (seq 0 k)) /\ Forall item_ok l /\
    map tok l = map (fun m => ztext nd (g_at z m n)) (rev (seq 0 k)) /\ (l <> [] -> snd (last l (0%nat, "", false)) = true).
Proof.
  induction k as [|k IH]; intros count.
  - exists []. repeat split; [constructor|]. now intros [].
  - rewrite rev_seq_S. cbn [zmap_column map]. destruct (IH (S count)) as (l & L1 & L2 & L3 & L4).
    destruct (field_text nd (g_at z k n)) as (j & J).
    set (b := (((S count) mod 5 =? 0) || (k =? 0))%nat%bool).
    exists ((j, ztext nd (g_at z k n), b) :: l). split; [|split; [|split]].
    + unfold text. cbn [map]. rewrite concat_cons. fold (text l). rewrite L1. cbn [item_text]. rewrite J, !app_s_assoc. reflexivity.
    + constructor; [|assumption]. split; [apply ztext_ne|apply ztext_chars].
    + cbn [map tok fst snd]. now rewrite L3.
    + intros _. destruct l as [|i l].
      * cbn [last snd]. unfold b. destruct k; [now rewrite orb_true_r|]. rewrite rev_seq_S in L3. discriminate L3.
      * cbn [last]. apply L4. discriminate.
Qed.

Lemma text_app a b : text (a ++ b)%list = text a ++ text b.
Proof. unfold text. induction a as [|i a IH]; [reflexivity|]. cbn [app map]. rewrite !concat_cons, IH, app_s_assoc. reflexivity. Qed.
Lemma last_app {A} (a b : list A) d : b <> [] -> last (a ++ b) d = last b d.
Proof. intros H. induction a as [|x a IH]; [reflexivity|]. cbn [app]. cbn [last]. destruct (a ++ b)%list eqn:E; [|exact IH]. destruct a, b; easy. Qed.

Lemma body_items nd z : exists l, text l = zmap_body nd z /\ Forall item_ok l /\
  map tok l = List.concat (map (fun n => map (fun m => ztext nd (g_at z m n)) (rev (seq 0 (g_rows z)))) (seq 0 (g_cols z))) /\
  (l <> [] -> snd (last l (0%nat, "", false)) = true).
Proof.
  unfold zmap_body. generalize (seq 0 (g_cols z)) as ns. induction ns as [|n ns IH].
  - exists []. repeat split; [constructor|]. now intros [].
  - destruct IH as (l & L1 & L2 & L3 & L4). destruct (column_items nd z n (g_rows z) 0%nat) as (c & C1 & C2 & C3 & C4).
    exists (c ++ l)%list. split; [|split; [|split]].
    + cbn [map]. rewrite concat_cons, text_app, C1, L1. reflexivity.
    + now apply Forall_app.
    + cbn [map List.concat]. now rewrite map_app, C3, L3.
    + intros N. destruct l as [|i l]; [rewrite app_nil_r in *; now apply C4|]. rewrite last_app by discriminate. apply L4. discriminate.
Qed.

(** ** the reader in data mode *)
Lemma store_app fl a b i d : store fl (a ++ b)%list i d = (do p <- store fl a i d ;; let '(i', d') := p in store fl b i' d').
Proof.
  revert i d. induction a as [|w a IH]; intros i d; [reflexivity|]. cbn [app store].
  destruct (parse_float fl w); [|reflexivity]. destruct (assign i _ d); [|reflexivity]. apply IH.
Qed.
Lemma numchar_comma w : chars numchar w = true -> remove_char "," w = w.
Proof. intros H. apply remove_char_none. revert H. apply chars_imp. intros c Hc. apply numchar_ok in Hc as (_&_&_&_& -> &_). reflexivity. Qed.
Lemma numchar_prefix w p : (p = "!" \/ p = "@")%char -> w <> "" -> chars numchar w = true -> prefix (String p "") w = false.
Proof.
  intros P H K. destruct w as [|c w]; [now destruct H|]. cbn in K. apply andb_prop in K as [K _]. apply numchar_ok in K as (_&_&_&_&_& A & B).
  cbn. destruct (ascii_dec p c) as [<-|]; [|reflexivity]. destruct P as [-> | ->]; discriminate.
Qed.

Definition with_data (s : rst) (iv : nat) (da : list (option Q)) : rst :=
  Build_rst (r_line s) iv (r_coord s) (r_nodata s) (r_ny s) (r_nx s) (r_ox s) (r_mx s) (r_oy s) (r_my s) da.

Lemma read_data_line fl l s : r_line s = -1 -> dline l ->
  read_line fl l s = (do p <- store fl (words l) (r_iv s) (r_data s) ;; Ok (Some (with_data s (fst p) (snd p)))).
Proof.
  intros R (D1 & D2 & D3). unfold read_line, line_words. rewrite D2. cbn [bind].
  replace (map (remove_char ",") (words l)) with (words l).
  2:{ symmetry. rewrite <- (map_id (words l)) at 2. apply map_ext_in. intros w Hw. rewrite Forall_forall in D3. apply numchar_comma. now apply D3. }
  destruct (words l) as [|w ws] eqn:E; [now destruct D1|].
  inversion D3 as [|? ? [W1 W2] _]; subst.
  rewrite (numchar_prefix w "!") by auto. rewrite (numchar_prefix w "@") by auto.
  cbn [r_line r_iv r_data]. rewrite R. cbn [Z.eqb Pos.eqb andb negb].
  destruct (store fl (w :: ws) (r_iv s) (r_data s)) as [[iv da]|x]; [|reflexivity]. cbn. unfold with_data. now rewrite R.
Qed.
Lemma read_data_lines fl : forall ls s, r_line s = -1 -> Forall dline ls ->
  read_lines fl ls s = (do p <- store fl (List.concat (map words ls)) (r_iv s) (r_data s) ;; Ok (with_data s (fst p) (snd p))).
Proof.
  induction ls as [|l ls IH]; intros s R F.
  - cbn. destruct s; reflexivity.
  - inversion F; subst. cbn [read_lines map List.concat]. rewrite (read_data_line fl l s R) by assumption. rewrite store_app.
    destruct (store fl (words l) (r_iv s) (r_data s)) as [[iv da]|x]; [|reflexivity]. cbn [bind fst snd].
    rewrite IH by assumption. reflexivity.
Qed.

Lemma assign_mid {A} (pre : list A) a b post : assign (List.length pre) a (pre ++ b :: post)%list = Some (pre ++ a :: post)%list.
Proof. induction pre as [|x pre IH]; [reflexivity|]. cbn. rewrite IH. reflexivity. Qed.
Lemma store_all fl : forall toks (vals : list Q) pre, Forall2 (fun t v => parse_float fl t = Some v) toks vals ->
  store fl toks (List.length pre) (pre ++ repeat None (List.length toks))%list = Ok ((List.length pre + List.length toks)%nat, (pre ++ map Some vals)%list).
Proof.
  induction toks as [|t toks IH]; intros vals pre F; inversion F as [|? v ? vals' P F']; subst.
  - cbn. rewrite !app_nil_r, Nat.add_0_r. reflexivity.
  - cbn [store List.length repeat]. rewrite P, assign_mid. specialize (IH vals' (pre ++ [Some v])%list F').
    rewrite app_length in IH. cbn [List.length] in IH. rewrite <- app_assoc in IH. cbn [app] in IH.
    replace (S (List.length pre)) with (List.length pre + 1)%nat by lia. rewrite IH. cbn [map]. rewrite <- app_assoc. cbn [app]. f_equal. f_equal. lia.
Qed.
