(** PROOFS: C45, headers in any order. *)
From Coq Require Import String Ascii ZArith QArith Lia List Permutation.
From Verif Require Import Base M_Text P_Text M_AscGrid S_AscGrid P_AscGrid.
Import ListNotations.
Open Scope string_scope.
Open Scope Z_scope.

Lemma spelled_keyword k f : spelled k f -> keyword k = Some f.
Proof. unfold keyword. destruct f; cbn [spelled]; intros H; try (destruct H as [H|H]); rewrite H; reflexivity. Qed.
Lemma unknown_keyword k : (forall f, ~ spelled k f) -> keyword k = None.
Proof.
  intros H. unfold keyword. repeat match goal with |- context [String.eqb ?a ?b] => destruct (String.eqb_spec a b) as [E|_];
    [exfalso; first [now apply (H Ncols)|now apply (H Nrows)|now apply (H Xcorner)|now apply (H Xcenter)|now apply (H Ycorner)|
     now apply (H Ycenter)|now apply (H Cellsize); left|now apply (H Cellsize); right|now apply (H Dx)|now apply (H Dy)|now apply (H Nodata); left|now apply (H Nodata); right]|] end.
  reflexivity.
Qed.

Fixpoint apply_all (fl : Q -> Q) (es : list (field * string)) (h : hdr) : res hdr :=
  match es with [] => Ok h | e :: r => do h' <- set_field fl (fst e) (snd e) h ;; apply_all fl r h' end.

Lemma set_swap fl f g v w h : f <> g ->
  (do h1 <- set_field fl f v h ;; set_field fl g w h1) = (do h1 <- set_field fl g w h ;; set_field fl f v h1).
Proof.
  intros N. destruct h. destruct f, g; try (now destruct N); cbn [set_field bind];
    destruct (parse_int v) eqn:A; destruct (parse_int w) eqn:B; destruct (parse_float fl v) eqn:C; destruct (parse_float fl w) eqn:D;
    cbn [set_field bind]; rewrite ?A, ?B, ?C, ?D; reflexivity.
Qed.

Lemma bind_assoc {A B C} (x : res A) (f : A -> res B) (g : B -> res C) : bind (bind x f) g = bind x (fun a => bind (f a) g).
Proof. now destruct x. Qed.

Lemma apply_perm fl es es' : Permutation es es' -> NoDup (map fst es) -> forall h, apply_all fl es h = apply_all fl es' h.
Proof.
  induction 1 as [|e es es' P IH|e e' es|es1 es2 es3 P1 IH1 P2 IH2]; intros ND h.
  - reflexivity.
  - cbn [apply_all]. inversion ND; subst. destruct (set_field _ _ _ _); cbn [bind]; auto.
  - cbn [apply_all]. inversion ND as [|? ? NI ND']; subst. rewrite <- !bind_assoc. rewrite set_swap; [reflexivity|].
    intros E. apply NI. cbn. now left.
  - rewrite IH1 by assumption. apply IH2. eapply Permutation_NoDup; [|exact ND]. now apply Permutation_map.
Qed.

Definition setb (f : field) (h : hdr) : bool :=
  match f with
  | Ncols => some (h_ncols h) | Nrows => some (h_nrows h) | Xcorner => some (h_xcorner h) | Xcenter => some (h_xcenter h)
  | Ycorner => some (h_ycorner h) | Ycenter => some (h_ycenter h) | Cellsize => some (h_cellsize h)
  | Dx => some (h_dx h) | Dy => some (h_dy h) | Nodata => some (h_nodata h)
  end.
Definition tracks (fs : list field) (h : hdr) : Prop := forall f, setb f h = true <-> In f fs.

Lemma tracks_0 : tracks [] hdr0. Proof. intros f. destruct f; cbn; split; easy. Qed.
Lemma setb_set fl f v h h' g : set_field fl f v h = Ok h' -> setb g h' = true <-> (f = g \/ setb g h = true).
Proof.
  destruct h. destruct f; cbn [set_field]; [destruct (parse_int v)|destruct (parse_int v)|destruct (parse_float fl v)..];
    intros E; try discriminate; injection E as <-; destruct g; cbn; intuition discriminate.
Qed.
Lemma tracks_set fl f v h h' fs : set_field fl f v h = Ok h' -> tracks fs h -> tracks (f :: fs) h'.
Proof. intros E T g. rewrite (setb_set _ _ _ _ _ g E). specialize (T g). cbn [In]. tauto. Qed.

Lemma complete_iff h fs : tracks fs h -> complete h = true <-> enough fs.
Proof.
  intros T. unfold tracks in T. unfold complete, enough. rewrite <- !T. cbn [setb]. rewrite !andb_true_iff, !orb_true_iff, !andb_true_iff. tauto.
Qed.

Lemma enough_ext fs gs : (forall f, In f fs <-> In f gs) -> enough fs <-> enough gs.
Proof. intros H. unfold enough. rewrite !H. reflexivity. Qed.

Lemma enough_mono fs gs : (forall f, In f fs -> In f gs) -> enough fs -> enough gs.
Proof.
  intros I (A & B & C & D & E). split; [auto|]. split; [auto|]. split; [destruct C as [[]|[]]; [left|right]; auto|].
  split; [destruct D as [|[]]; [left|right]; auto|auto].
Qed.

(** a minimal header is enough, and nothing in it can be left out *)
Lemma minimal_cases fs : minimal_header fs -> exists K, Permutation fs K /\ NoDup K /\
  enough K /\ forall gs, incl gs K -> enough gs -> incl K gs.
Proof.
  assert (T : forall K, NoDup K -> enough K -> (forall gs, incl gs K -> enough gs -> incl K gs) -> Permutation fs K ->
    exists K, Permutation fs K /\ NoDup K /\ enough K /\ forall gs, incl gs K -> enough gs -> incl K gs) by eauto.
  assert (X : forall K gs f, incl gs K -> In f gs -> existsb (fun g => match g, f with
      | Ncols, Ncols | Nrows, Nrows | Xcorner, Xcorner | Xcenter, Xcenter | Ycorner, Ycorner | Ycenter, Ycenter
      | Cellsize, Cellsize | Dx, Dx | Dy, Dy | Nodata, Nodata => true | _, _ => false end) K = true).
  { intros K gs f I H. apply I in H. apply existsb_exists. exists f. split; [assumption|]. destruct f; reflexivity. }
  unfold minimal_header. intros [P|[P|[P|P]]]; revert P; apply T; clear T;
    try (repeat (constructor; [cbn; repeat (intros [H|H]; [discriminate|revert H]); intros H; destruct H|]); constructor);
    try (unfold enough; cbn; tauto).
  all: intros gs I (A & B & C & D & E) f Hf;
       destruct C as [[C1 C2]|[C1 C2]]; try (specialize (X _ _ _ I C1); discriminate X);
       destruct D as [D|[D D']]; try (specialize (X _ _ _ I D); discriminate X);
       cbn in Hf; repeat (destruct Hf as [<-|Hf]; [assumption|]); destruct Hf.
Qed.

Lemma read_header_all fl rest : forall es L p h, Forall2 header_text es L -> tracks p h -> es <> [] ->
  minimal_header (rev p ++ map fst es)%list ->
  read_header fl (L ++ rest)%list h = match apply_all fl es h with Ok h' => Ok (h', rest) | Err e => Err e end.
Proof.
  induction es as [|e es IH]; intros L p h F T NE M; [now destruct NE|].
  inversion F as [|? l ? L' (k & W & S) F']; subst. cbn [app read_header apply_all]. rewrite W, (spelled_keyword _ _ S).
  destruct (set_field fl (fst e) (snd e) h) as [h'|x] eqn:E; [|reflexivity]. cbn [bind].
  pose proof (tracks_set _ _ _ _ _ _ E T) as T'. pose proof (complete_iff _ _ T') as C.
  destruct (minimal_cases _ M) as (K & P & ND & En & Min).
  destruct es as [|e' es].
  - inversion F'; subst. cbn [app apply_all]. replace (complete h') with true; [reflexivity|]. symmetry. apply C.
    apply (enough_ext K); [|assumption]. intros f. split; intros H.
    + apply (Permutation_in f (Permutation_sym P)) in H. apply in_app_or in H. cbn in H. rewrite <- in_rev in H. cbn. tauto.
    + apply (Permutation_in f P). apply in_or_app. cbn in H |- *. rewrite <- in_rev. tauto.
  - replace (complete h') with false.
    + apply (IH L' (fst e :: p)%list h'); [assumption|assumption|discriminate|]. cbn [rev]. rewrite <- app_assoc. exact M.
    + symmetry. apply not_true_iff_false. intros H. apply C in H.
      assert (ND' : NoDup (rev p ++ map fst (e :: e' :: es))%list) by (eapply Permutation_NoDup; [exact (Permutation_sym P)|exact ND]).
      assert (I : incl (fst e :: p) K).
      { intros f Hf. apply (Permutation_in f P). apply in_or_app. rewrite <- in_rev. cbn in Hf |- *. tauto. }
      specialize (Min _ I H (fst e')). assert (J : In (fst e') K). { apply (Permutation_in _ P). apply in_or_app. right. cbn. auto. }
      specialize (Min J).
      apply (Permutation_NoDup (l' := (map fst (e :: e' :: es) ++ rev p)%list)) in ND'; [|apply Permutation_app_comm].
      cbn [map app] in ND'. inversion ND' as [|? ? N1 N2]; subst. inversion N2 as [|? ? N3 N4]; subst.
      destruct Min as [Min|Min]; [apply N1; left; congruence|]. apply N3. apply in_or_app. right. now rewrite <- in_rev.
Qed.

Lemma no_newline_nonl s : no_newline s -> chars nonl s = true.
Proof.
  unfold no_newline. induction s as [|c s IH]; intros H; [reflexivity|]. cbn [chars]. rewrite IH.
  - rewrite andb_true_r. unfold nonl. apply negb_true_iff, Nat.eqb_neq. intros E. apply (H 0%nat). cbn [String.get]. f_equal.
    rewrite <- (ascii_nat_embedding c), E. reflexivity.
  - intros i. exact (H (S i)).
Qed.
Lemma lines_unlines L s : Forall no_newline L -> lines (unlines L ++ s) = (L ++ lines s)%list.
Proof.
  induction L as [|l L IH]; intros F; [reflexivity|]. inversion F; subst. cbn [unlines]. rewrite !app_s_assoc.
  rewrite lines_cons by now apply no_newline_nonl. cbn [app]. now rewrite IH.
Qed.

Lemma minimal_NoDup fs : minimal_header fs -> NoDup fs.
Proof. intros M. destruct (minimal_cases fs M) as (K & P & ND & _). eapply Permutation_NoDup; [apply Permutation_sym, P|exact ND]. Qed.
Lemma minimal_ne (es : list (field * string)) : minimal_header (map fst es) -> es <> [].
Proof.
  intros M ->. destruct (minimal_cases _ M) as (K & P & _ & (A & _) & _). cbn in P. apply Permutation_nil in P. subst. destruct A.
Qed.

Lemma header_in_order fl es es' L L' : Permutation es es' -> minimal_header (map fst es) -> Forall2 header_text es L -> Forall2 header_text es' L' ->
  forall rest, read_header fl (L ++ rest)%list hdr0 = read_header fl (L' ++ rest)%list hdr0.
Proof.
  intros P M F F' rest. rewrite (read_header_all fl rest es L [] hdr0 F tracks_0 (minimal_ne _ M) M).
  assert (M' : minimal_header (map fst es')).
  { pose proof (Permutation_map fst P) as Q. unfold minimal_header in *.
    destruct M as [M|[M|[M|M]]]; apply (Permutation_trans (Permutation_sym Q)) in M; tauto. }
  rewrite (read_header_all fl rest es' L' [] hdr0 F' tracks_0 (minimal_ne _ M') M').
  rewrite (apply_perm fl es es' P (minimal_NoDup _ M)). reflexivity.
Qed.

Theorem any_order fl es es' L L' body footer :
  Permutation es es' -> minimal_header (map fst es) -> Forall2 header_text es L -> Forall2 header_text es' L' ->
  Forall no_newline L -> Forall no_newline L' ->
  read_asc fl (unlines L ++ body) footer = read_asc fl (unlines L' ++ body) footer.
Proof.
  intros P M F F' N N'. unfold read_asc. rewrite !lines_unlines by assumption. now rewrite (header_in_order fl es es' L L' P M F F').
Qed.

(** ** unknown keywords *)
Lemma set_readable fl e h : readable e -> exists h', set_field fl (fst e) (snd e) h = Ok h'.
Proof.
  intros R. destruct e as [f v]. destruct h. unfold readable in R. cbn [fst snd] in *. destruct f; destruct R as (n & R); cbn [set_field]; unfold parse_float; rewrite R; eexists; reflexivity.
Qed.
Lemma read_header_part fl rest : forall es L p h, Forall2 header_text es L -> tracks p h -> Forall readable es ->
  ~ enough (rev p ++ map fst es)%list -> exists h', tracks (rev (map fst es) ++ p)%list h' /\ read_header fl (L ++ rest)%list h = read_header fl rest h'.
Proof.
  induction es as [|e es IH]; intros L p h F T R NE.
  - inversion F; subst. exists h. cbn. split; [assumption|reflexivity].
  - inversion F as [|? l ? L' (k & W & S) F']; subst. inversion R as [|? ? R1 R2]; subst.
    cbn [app read_header]. rewrite W, (spelled_keyword _ _ S). destruct (set_readable fl e h R1) as (h' & E). rewrite E. cbn [bind].
    pose proof (tracks_set _ _ _ _ _ _ E T) as T'.
    replace (complete h') with false.
    + destruct (IH L' (fst e :: p)%list h' F' T' R2) as (h2 & T2 & E2).
      { cbn [rev]. rewrite <- app_assoc. exact NE. }
      exists h2. split; [|assumption]. cbn [map rev]. rewrite <- app_assoc. exact T2.
    + symmetry. apply not_true_iff_false. intros H. apply (complete_iff _ _ T') in H. apply NE.
      assert (I : forall f, In f (fst e :: p) -> In f (rev p ++ map fst (e :: es))%list).
      { intros f Hf. apply in_or_app. rewrite <- in_rev. cbn in Hf |- *. tauto. }
      exact (enough_mono _ _ I H).
Qed.

Theorem unknown_rejected fl es L k v line rest footer :
  Forall2 header_text es L -> Forall readable es -> Forall no_newline L -> no_newline line ->
  ~ enough (map fst es) -> words line = [k; v] -> (forall f, ~ spelled k f) ->
  read_asc fl (unlines L ++ line ++ nl ++ rest) footer = Err OSErr.
Proof.
  intros F R N Nl NE W U. unfold read_asc. rewrite lines_unlines by assumption. rewrite lines_cons by now apply no_newline_nonl.
  destruct (read_header_part fl (line :: lines rest) es L [] hdr0 F tracks_0 R NE) as (h & T & E). rewrite E.
  cbn [read_header]. rewrite W, (unknown_keyword k U). reflexivity.
Qed.

(** a header line that is not two words *)
Theorem malformed_rejected fl es L line rest footer :
  Forall2 header_text es L -> Forall readable es -> Forall no_newline L -> no_newline line ->
  ~ enough (map fst es) -> List.length (words line) <> 2%nat ->
  read_asc fl (unlines L ++ line ++ nl ++ rest) footer = Err ValueError.
Proof.
  intros F R N Nl NE W. unfold read_asc. rewrite lines_unlines by assumption. rewrite lines_cons by now apply no_newline_nonl.
  destruct (read_header_part fl (line :: lines rest) es L [] hdr0 F tracks_0 R NE) as (h & T & E). rewrite E.
  cbn [read_header]. destruct (words line) as [|a [|b [|c w]]]; try reflexivity. now destruct W.
Qed.

(** ** a header that does not match the body *)
Lemma apply_readable fl es : Forall readable es -> forall h, exists h', apply_all fl es h = Ok h'.
Proof.
  induction 1 as [|e es R _ IH]; intros h; [eexists; reflexivity|]. cbn [apply_all]. destruct (set_readable fl e h R) as (h' & ->). apply IH.
Qed.
Lemma apply_keeps fl es : forall h h', apply_all fl es h = Ok h' ->
  (~ In Ncols (map fst es) -> h_ncols h' = h_ncols h) /\ (~ In Nrows (map fst es) -> h_nrows h' = h_nrows h).
Proof.
  induction es as [|e es IH]; intros h h' E.
  - injection E as <-. auto.
  - cbn [apply_all] in E. destruct (set_field fl (fst e) (snd e) h) as [h1|] eqn:S; [|discriminate]. cbn [bind] in E.
    destruct (IH _ _ E) as [A B]. destruct e as [f v]. cbn [fst snd map] in *. destruct h.
    split; intros N; cbn [In] in N; [rewrite A by tauto|rewrite B by tauto];
      destruct f; try (exfalso; now apply N; left); cbn [set_field] in S; (destruct (parse_int v)||idtac); (destruct (parse_float fl v)||idtac); try discriminate; injection S as <-; reflexivity.
Qed.
Lemma apply_ncols fl es v n h h' : apply_all fl es h = Ok h' -> NoDup (map fst es) -> In (Ncols, v) es -> parse_int v = Some n -> h_ncols h' = Some n.
Proof.
  revert h. induction es as [|e es IH]; intros h E ND I P; [destruct I|].
  cbn [apply_all] in E. destruct (set_field fl (fst e) (snd e) h) as [h1|] eqn:S; [|discriminate]. cbn [bind] in E. inversion ND; subst.
  destruct I as [-> | I]; [|eauto]. cbn [fst snd] in *. destruct (apply_keeps fl es _ _ E) as [A _]. rewrite A by assumption.
  destruct h. cbn [set_field] in S. rewrite P in S. injection S as <-. reflexivity.
Qed.
Lemma apply_nrows fl es v n h h' : apply_all fl es h = Ok h' -> NoDup (map fst es) -> In (Nrows, v) es -> parse_int v = Some n -> h_nrows h' = Some n.
Proof.
  revert h. induction es as [|e es IH]; intros h E ND I P; [destruct I|].
  cbn [apply_all] in E. destruct (set_field fl (fst e) (snd e) h) as [h1|] eqn:S; [|discriminate]. cbn [bind] in E. inversion ND; subst.
  destruct I as [-> | I]; [|eauto]. cbn [fst snd] in *. destruct (apply_keeps fl es _ _ E) as [_ A]. rewrite A by assumption.
  destruct h. cbn [set_field] in S. rewrite P in S. injection S as <-. reflexivity.
Qed.

Lemma no_hash l : (forall i, String.get i l <> Some "#"%char) -> cut_comment l = l.
Proof.
  induction l as [|c l IH]; intros H; [reflexivity|]. cbn. destruct (Ascii.eqb_spec c "#") as [->|_]; [exfalso; now apply (H 0%nat)|].
  f_equal. apply IH. intros i. exact (H (S i)).
Qed.

Theorem wrong_size_rejected fl es L body r c vn vr nn nr :
  Forall2 header_text es L -> Forall readable es -> Forall no_newline L -> minimal_header (map fst es) ->
  In (Ncols, vn) es -> parse_int vn = Some nn -> In (Nrows, vr) es -> parse_int vr = Some nr ->
  body_table body r c -> (2 <= r)%nat -> (2 <= c)%nat -> (nn <> Z.of_nat c \/ nr <> Z.of_nat r) ->
  read_asc fl (unlines L ++ body) 0 = Err OSErr.
Proof.
  intros F R N M I1 P1 I2 P2 (B1 & B2) Hr Hc W. unfold read_asc. rewrite lines_unlines by assumption.
  rewrite (read_header_all fl (lines body) es L [] hdr0 F tracks_0 (minimal_ne _ M) M).
  destruct (apply_readable fl es R hdr0) as (h & E). rewrite E. cbn [bind].
  pose proof (minimal_NoDup _ M) as ND. pose proof (apply_ncols fl es vn nn _ _ E ND I1 P1) as H1. pose proof (apply_nrows fl es vr nr _ _ E ND I2 P2) as H2.
  rewrite H1, H2.
  set (rows := map (fun l => words (cut_comment l)) (lines body)).
  assert (GR : forall w, In w rows -> List.length w = c).
  { intros w Hw. apply in_map_iff in Hw as (l & <- & Hl). destruct (B2 l Hl) as [K1 K2]. now rewrite no_hash. }
  assert (LR : List.length rows = r) by (unfold rows; now rewrite map_length).
  assert (G : genfromtxt fl (lines body) 0 = Ok (map (map (parse_float fl)) rows)).
  { unfold genfromtxt. fold rows. rewrite filter_all by (intros w Hw; apply GR in Hw; destruct w; [cbn in Hw; lia|reflexivity]).
    rewrite Nat.sub_0_r, firstn_all. replace (forallb _ rows) with true; [reflexivity|]. symmetry. apply forallb_forall.
    intros w Hw. apply Nat.eqb_eq. rewrite (GR w Hw). destruct rows as [|w0 rows']; [destruct Hw|]. cbn [hd]. symmetry. apply GR. now left. }
  rewrite G. cbn [bind].
  assert (C : check_shape nr nn (map (map (parse_float fl)) rows) = Err OSErr).
  { unfold check_shape. rewrite map_length, LR.
    replace (List.length (hd [] (map (map (parse_float fl)) rows))) with c.
    2:{ destruct rows as [|w0 rows']; [cbn in LR; lia|]. cbn [map hd]. rewrite map_length. symmetry. apply GR. now left. }
    replace (r =? 1)%nat with false by (symmetry; apply Nat.eqb_neq; lia).
    replace (r =? 0)%nat with false by (symmetry; apply Nat.eqb_neq; lia).
    replace (c =? 1)%nat with false by (symmetry; apply Nat.eqb_neq; lia). cbn [andb orb].
    replace ((nr =? Z.of_nat r) && (nn =? Z.of_nat c))%bool with false; [reflexivity|]. symmetry. apply andb_false_iff.
    rewrite !Z.eqb_neq. tauto. }
  rewrite C. reflexivity.
Qed.
