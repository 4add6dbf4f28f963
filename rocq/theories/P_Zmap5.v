(** C48: the name that the reader reports, for any text. *)
From Coq Require Import String Ascii ZArith QArith Lia List.
From Verif Require Import Base M_Text M_AscGrid M_Zmap S_Text S_AscGrid S_Zmap P_Text P_Zmap P_Zmap2 P_Zmap3.
Import ListNotations.
Open Scope string_scope.
Open Scope Z_scope.

Lemma substring_split t : forall s m, substring m (String.length t) s = t -> exists p q, s = p ++ t ++ q.
Proof.
  assert (P : forall t s, substring 0 (String.length t) s = t -> exists q, s = t ++ q).
  { clear. induction t as [|c t IH]; intros s H; [exists s; reflexivity|].
    destruct s as [|d s]; [discriminate|]. cbn in H. injection H as -> H. destruct (IH s H) as (q & E).
    exists q. cbn. now rewrite <- E. }
  induction s as [|d s IH]; intros m H.
  - destruct (P t "") as (q & E); [destruct m, t; try reflexivity; cbn in H; discriminate|]. exists "", q. exact E.
  - destruct m as [|m].
    + destruct (P t _ H) as (q & E). exists "", q. exact E.
    + cbn in H. destruct (IH m H) as (p & q & E). exists (String d p), q. cbn. now rewrite <- E.
Qed.
Lemma substring_mid t : forall p q, substring (String.length p) (String.length t) (p ++ t ++ q) = t.
Proof.
  induction p as [|c p IH]; intros q; [|exact (IH q)].
  cbn [append String.length]. induction t as [|d t IH]; [destruct q; reflexivity|]. cbn. f_equal. exact IH.
Qed.
Lemma contains_iff t s : t <> "" -> contains t s = true <-> mentions t s.
Proof.
  intros N. unfold contains. split.
  - destruct (String.index 0 t s) as [m|] eqn:E; [|discriminate]. intros _.
    apply index_correct1 in E. destruct (substring_split t s m E) as (p & q & ->). now exists p, q.
  - intros (p & q & ->). destruct (String.index 0 t (p ++ t ++ q)) eqn:E; [reflexivity|].
    exfalso. apply (index_correct3 0 (String.length p)) in E; [|exact N|lia]. apply E, substring_mid.
Qed.

Lemma no_colon_nosep a : no_colon a <-> chars (nosep ":") a = true.
Proof.
  split; [intros H; apply chars_get; intros i c E; unfold nosep; destruct (Ascii.eqb_spec c ":"); [subst; now apply H in E|reflexivity]|].
  induction a as [|d a IH]; intros H i; [destruct i; discriminate|]. cbn in H. apply andb_prop in H as [H1 H2].
  destruct i; cbn; [|now apply IH]. intros E. injection E as ->. discriminate.
Qed.
Lemma before_colon_none s : no_colon (before_colon s).
Proof.
  induction s as [|c s IH]; intros i; [destruct i; discriminate|]. cbn. destruct (Ascii.eqb_spec c ":"); [destruct i; discriminate|].
  destruct i; cbn; [congruence|apply IH].
Qed.
Lemma split_two s : (split_on ":" s = [s] /\ no_colon s) \/
  exists a b r, s = a ++ ":" ++ b /\ no_colon a /\ split_on ":" s = a :: before_colon b :: r.
Proof.
  unfold split_on.
  assert (G : forall s acc, (split_on_aux ":" acc s = [acc ++ s] /\ no_colon s) \/
    exists a b r, s = a ++ ":" ++ b /\ no_colon a /\ split_on_aux ":" acc s = (acc ++ a) :: before_colon b :: r).
  { clear. induction s as [|c s IH]; intros acc.
    - left. split; [cbn; now rewrite app_s_nil|]. intros i; destruct i; discriminate.
    - cbn. destruct (Ascii.eqb_spec c ":") as [->|N].
      + right. destruct (split_head s "") as (r & E). exists "", s, r. split; [reflexivity|]. split; [intros i; destruct i; discriminate|].
        rewrite E, app_s_nil. reflexivity.
      + destruct (IH (acc ++ String c "")) as [(E & NC)|(a & b & r & E & NC & F)].
        * left. rewrite E. split; [now rewrite app_s_assoc|]. intros i; destruct i; cbn; [congruence|apply NC].
        * right. exists (String c a), b, r. cbn. rewrite E. split; [reflexivity|]. split; [intros i; destruct i; cbn; [congruence|apply NC]|].
          rewrite <- E, F. now rewrite app_s_assoc. }
  destruct (G s "") as [H|H]; [left|right]; exact H.
Qed.

Lemma prefix_bang_app a s : prefix "!" (a ++ s) = true -> a <> "" -> prefix "!" a = true.
Proof. destruct a as [|c a]; [congruence|]. intros H _. cbn [append prefix] in *. destruct (ascii_dec "!" c); [now destruct a|discriminate H]. Qed.
Lemma no_colon_unique a : forall a' b b', no_colon a -> no_colon a' -> a ++ ":" ++ b = a' ++ ":" ++ b' -> a = a' /\ b = b'.
Proof.
  induction a as [|c a IH]; intros [|c' a'] b b' N N' E; cbn in E.
  - now injection E as ->.
  - injection E as <- _. exfalso. now apply (N' 0%nat).
  - injection E as -> _. exfalso. now apply (N 0%nat).
  - injection E as -> E. destruct (IH a' b b') as (-> & ->); auto; intros i; [apply (N (S i))|apply (N' (S i))].
Qed.

(** what one line does to the name *)
Lemma line_words_name l co ws co' : line_words l co = Ok (ws, co') ->
  (forall n, names_coord l n -> co' = n) /\ ((forall n, ~ names_coord l n) -> co' = co) /\
  (ws = [] <-> words l = []).
Proof.
  unfold line_words. destruct (prefix "!" l) eqn:PB.
  - assert (WN : words l <> []).
    { destruct l as [|c l]; [discriminate|]. cbn [prefix] in PB. destruct (ascii_dec "!" c) as [<-|]; [|discriminate].
      unfold words. cbn. clear. assert (G : forall s acc, acc <> "" -> words_aux acc s <> []).
      { induction s as [|d s IH]; intros acc N; cbn; [destruct acc; [congruence|discriminate]|]. destruct (is_space d); [destruct acc; [congruence|discriminate]|].
        apply IH. destruct acc; discriminate. }
      apply G. discriminate. }
    destruct (split_two l) as [(E & NC)|(a & b & r & El & NC & E)]; rewrite E; cbn [hd].
    + destruct (contains _ l) eqn:C; cbn [word nth_error bind]; intros H; [discriminate|]. injection H as <- <-.
      split; [|split; [reflexivity|split; [discriminate|contradiction]]].
      intros n (a & b & El & _). exfalso. apply (NC (String.length a)). rewrite El. clear. induction a as [|c a IH]; [reflexivity|exact IH].
    + assert (Pa : prefix "!" a = true).
      { apply (prefix_bang_app a (":" ++ b)); [now rewrite <- El|]. intros ->. rewrite El in PB. discriminate. }
      destruct (contains _ a) eqn:C; cbn [word nth_error bind]; intros H; injection H as <- <-.
      * split; [|split; [|split; [discriminate|contradiction]]].
        -- intros n (a' & b' & El' & NC' & _ & _ & ->). rewrite El in El'. now destruct (no_colon_unique _ _ _ _ NC NC' El') as (_ & ->).
        -- intros H. exfalso. apply (H (before_colon b)). exists a, b. repeat split; auto. now apply contains_iff.
      * split; [|split; [reflexivity|split; [discriminate|contradiction]]].
        intros n (a' & b' & El' & NC' & _ & M & ->). exfalso. rewrite El in El'.
        destruct (no_colon_unique _ _ _ _ NC NC' El') as (-> & _). apply contains_iff in M; [congruence|discriminate].
  - intros H. injection H as <- <-. split; [|split; [reflexivity|]].
    + intros n (a & b & -> & _ & Pa & _). exfalso. destruct a as [|c a]; [discriminate|]. cbn [append prefix] in Pa, PB.
      destruct (ascii_dec "!" c); [now destruct a|discriminate].
    + split; [intros H; now apply map_eq_nil in H|now intros ->].
Qed.

Lemma header_line_name fl ws s s' : header_line fl ws s = Ok s' -> r_coord s' = r_coord s.
Proof.
  destruct s as [ln iv co nd ny nx ox mx oy my da]. unfold header_line. intros H.
  repeat match type of H with
  | (if ?b then _ else _) = _ => destruct b
  | (do x <- ?e ;; _) = _ => destruct e; cbn [bind] in H; [|discriminate]
  end; try discriminate; injection H as <-; reflexivity.
Qed.
Lemma read_line_name fl l s s' : read_line fl l s = Ok (Some s') ->
  words l <> [] /\ exists ws, line_words l (r_coord s) = Ok (ws, r_coord s').
Proof.
  unfold read_line. destruct (line_words l (r_coord s)) as [(ws & co)|] eqn:L; cbn [bind]; [|discriminate].
  destruct (line_words_name _ _ _ _ L) as (_ & _ & W). destruct ws as [|w ws]; [discriminate|].
  intros H. split; [intros E; apply W in E; discriminate|]. exists (w :: ws). f_equal. f_equal.
  match type of H with (do s0 <- ?e ;; _) = _ => destruct e as [s1|] eqn:E1; cbn [bind] in H; [|discriminate] end.
  match type of H with (if ?b then _ else _) = _ => destruct b end.
  - match type of H with (do s0 <- ?e ;; _) = _ => destruct e as [s2|] eqn:E2; cbn [bind] in H; [|discriminate] end.
    injection H as <-. apply header_line_name in E2. now cbn in E2.
  - injection H as <-. reflexivity.
Qed.
Lemma read_line_stop fl l s : read_line fl l s = Ok None -> words l = [].
Proof.
  unfold read_line. destruct (line_words l (r_coord s)) as [(ws & co)|] eqn:L; cbn [bind]; [|discriminate].
  destruct (line_words_name _ _ _ _ L) as (_ & _ & W). destruct ws as [|w ws]; [intros _; now apply W|].
  intros H. match type of H with (do s0 <- ?e ;; _) = _ => destruct e as [s1|] eqn:E1; cbn [bind] in H; [|discriminate] end.
  match type of H with (if ?b then _ else _) = _ => destruct b end; [|discriminate].
  match type of H with (do s0 <- ?e ;; _) = _ => destruct e as [s2|] eqn:E2; cbn [bind] in H; discriminate end.
Qed.

Lemma read_lines_name fl : forall ls s s', read_lines fl ls s = Ok s' ->
  ((forall l n, In l (until_blank ls) -> ~ names_coord l n) -> r_coord s' = r_coord s) /\
  (forall a l b n, until_blank ls = (a ++ l :: b)%list -> names_coord l n -> (forall l' n', In l' b -> ~ names_coord l' n') -> r_coord s' = n).
Proof.
  induction ls as [|l ls IH]; intros s s' H.
  - cbn in H. injection H as <-. split; [reflexivity|]. intros a l b n E. destruct a; discriminate.
  - cbn [read_lines] in H. destruct (read_line fl l s) as [[s1|]|] eqn:R; cbn [bind] in H; [| |discriminate].
    + destruct (read_line_name _ _ _ _ R) as (W & ws & L). destruct (line_words_name _ _ _ _ L) as (L1 & L2 & _).
      destruct (IH _ _ H) as (I1 & I2).
      assert (U : until_blank (l :: ls) = l :: until_blank ls) by (cbn; destruct (words l); [congruence|reflexivity]).
      rewrite U. split.
      * intros N. rewrite I1 by (intros; apply N; now right). apply L2. intros n. apply N. now left.
      * intros [|a0 a] l' b n E Nm Nb; cbn in E.
        -- injection E as El Eb. subst l' b. rewrite I1 by exact Nb. now apply L1.
        -- injection E as _ E. now apply (I2 a l' b n).
    + injection H as <-. apply read_line_stop in R. cbn. rewrite R. split; [reflexivity|]. intros [|a0 a] l' b n E; discriminate.
Qed.

Lemma read_zmap_name fl junk t m : read_zmap fl junk t = Ok m ->
  exists s, read_lines fl (lines t) rst0 = Ok s /\ zm_coord m = r_coord s.
Proof.
  unfold read_zmap. destruct (read_lines fl (lines t) rst0) as [s|]; cbn [bind]; [|discriminate]. intros H. exists s. split; [reflexivity|].
  repeat match type of H with
  | (if ?b then _ else _) = _ => destruct b; [discriminate|]
  | (do x <- ?e ;; _) = _ => destruct e; cbn [bind] in H; [|discriminate]
  end. injection H as <-. reflexivity.
Qed.

Lemma reported_name fl junk t m : read_zmap fl junk t = Ok m ->
  ((forall l n, In l (until_blank (lines t)) -> ~ names_coord l n) -> zm_coord m = "<null>") /\
  (forall a l b n, until_blank (lines t) = (a ++ l :: b)%list -> names_coord l n -> (forall l' n', In l' b -> ~ names_coord l' n') -> zm_coord m = n).
Proof.
  intros H. destruct (read_zmap_name _ _ _ _ H) as (s & R & ->). exact (read_lines_name fl _ _ _ R).
Qed.
