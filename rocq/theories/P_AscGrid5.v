(** Proofs for C45: comments, blank lines and ragged rows in the body. *)
From Coq Require Import String Ascii ZArith QArith Lia List Permutation.
From Verif Require Import Base M_Text P_Text M_AscGrid S_AscGrid P_AscGrid P_AscGrid3.
Import ListNotations.
Open Scope string_scope.

Lemma cut_app l t : cut_comment (l ++ String "#" t) = cut_comment l.
Proof. induction l as [|c l IH]; [reflexivity|]. cbn. destruct (Ascii.eqb c "#"); [reflexivity|]. now rewrite IH. Qed.

Lemma words_aux_ne a c l : words_aux (a ++ String c "") l <> [].
Proof.
  revert a c. induction l as [|d l IH]; intros a c; cbn.
  - destruct a; discriminate.
  - destruct (is_space d); [destruct a; discriminate|]. apply IH.
Qed.

Lemma words_cut_nil l : words l = [] -> words (cut_comment l) = [].
Proof.
  unfold words. induction l as [|c l IH]; [reflexivity|]. cbn.
  destruct (is_space c) eqn:S.
  - intros H. destruct (Ascii.eqb c "#"); [reflexivity|]. cbn. rewrite S. now apply IH.
  - intros H. exfalso. exact (words_aux_ne "" c l H).
Qed.

Lemma void_words l : void_line l -> words (cut_comment l) = [].
Proof.
  intros [H|(b & t & -> & H & K)]; [now apply words_cut_nil|]. rewrite cut_app. now apply words_cut_nil.
Qed.

Lemma commented_rows ls ls' : commented ls ls' ->
  filter (fun w : list string => match w with [] => false | _ => true end) (map (fun l => words (cut_comment l)) ls') =
  filter (fun w : list string => match w with [] => false | _ => true end) (map (fun l => words (cut_comment l)) ls).
Proof.
  induction 1 as [|l ls ls' H IH|l t ls ls' H IH|l ls ls' V H IH]; [reflexivity| | |].
  - cbn. now rewrite IH.
  - cbn [map filter]. rewrite cut_app. now rewrite IH.
  - cbn [map filter]. rewrite (void_words l V). exact IH.
Qed.

Theorem comments_ignored fl es L body body' footer :
  Forall2 header_text es L -> Forall no_newline L -> minimal_header (map fst es) ->
  commented (lines body) (lines body') ->
  read_asc fl (unlines L ++ body') footer = read_asc fl (unlines L ++ body) footer.
Proof.
  intros F N M C. unfold read_asc. rewrite !lines_unlines by assumption.
  rewrite !(read_header_all fl _ es L [] hdr0 F tracks_0 (minimal_ne _ M) M).
  destruct (apply_all fl es hdr0) as [h|e]; [|reflexivity]. cbn [bind].
  assert (G : genfromtxt fl (lines body') footer = genfromtxt fl (lines body) footer).
  { unfold genfromtxt. now rewrite (commented_rows _ _ C). }
  now rewrite G.
Qed.

Theorem ragged_rejected fl es L body footer i :
  Forall2 header_text es L -> Forall readable es -> Forall no_newline L -> minimal_header (map fst es) ->
  (forall l, In l (lines body) -> plain_row l) ->
  (i + footer < List.length (lines body))%nat ->
  List.length (words (nth i (lines body) "")) <> List.length (words (hd "" (lines body))) ->
  read_asc fl (unlines L ++ body) footer = Err ValueError.
Proof.
  intros F R N M B I W. unfold read_asc. rewrite lines_unlines by assumption.
  rewrite (read_header_all fl (lines body) es L [] hdr0 F tracks_0 (minimal_ne _ M) M).
  destruct (apply_readable fl es R hdr0) as (h & E). rewrite E. cbn [bind].
  set (rows := map words (lines body)).
  assert (RW : map (fun l => words (cut_comment l)) (lines body) = rows).
  { apply map_ext_in. intros l Hl. destruct (B l Hl) as [_ K]. now rewrite no_hash. }
  assert (G : genfromtxt fl (lines body) footer = Err ValueError).
  { unfold genfromtxt. rewrite RW. rewrite filter_all.
    2:{ intros w Hw. apply in_map_iff in Hw as (l & <- & Hl). destruct (B l Hl) as [K _]. destruct (words l); [congruence|reflexivity]. }
    destruct (forallb _ _) eqn:FB; [|reflexivity]. exfalso. apply W.
    rewrite forallb_forall in FB.
    assert (LR : List.length rows = List.length (lines body)) by apply map_length.
    specialize (FB (words (nth i (lines body) ""))). cbv beta in FB.
    rewrite Nat.eqb_eq in FB. rewrite FB.
    - unfold rows. destruct (lines body); reflexivity.
    - replace (words (nth i (lines body) "")) with (nth i (firstn (List.length rows - footer) rows) (words "")).
      + apply nth_In. rewrite firstn_length. lia.
      + assert (FN : forall (l : list (list string)) k j d, (j < k)%nat -> nth j (firstn k l) d = nth j l d).
        { clear. induction l as [|a l IH]; intros k j d Hj; destruct k; try lia; [destruct j; reflexivity|]. destruct j; [reflexivity|]. cbn. apply IH. lia. }
        rewrite FN by lia. unfold rows. rewrite map_nth. reflexivity. }
  now rewrite G.
Qed.

(** ** grids that squeeze to fewer dimensions *)
Lemma plane_iff {A} (z : grid A) : two_dim z = true <-> plane z.
Proof. unfold two_dim, plane. rewrite negb_true_iff, orb_false_iff, !Nat.eqb_neq. tauto. Qed.
Lemma plane_true {A} (z : grid A) : plane z -> two_dim z = true. Proof. apply plane_iff. Qed.
Lemma plane_false {A} (z : grid A) : ~ plane z -> two_dim z = false.
Proof. intros H. destruct (two_dim z) eqn:E; [|reflexivity]. destruct H. now apply plane_iff. Qed.

Theorem flat_rejected fl x y z nd style : ~ plane z -> write_asc fl x y z nd style = (None, Err IndexError).
Proof. intros H. unfold write_asc. now rewrite (plane_false _ H). Qed.
