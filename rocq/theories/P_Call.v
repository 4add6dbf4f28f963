(** Proofs for C69: argument binding. *)
From Coq Require Import String Permutation.
From Verif Require Import Base Sums Matrix M_Variogram M_Geometry M_Kriging M_Init M_Object M_Execute S_Execute S_Geometry M_UK M_Compat S_State M_Call S_Call S_Compat P_State P_State5 P_UK2.

Lemma dict_get_in {A} (d : list (string * A)) k v : dict_get d k = Some v -> In (k, v) d.
Proof.
  induction d as [|[k' v'] d IH]; cbn; [discriminate|]. destruct (String.eqb_spec k k') as [->|]; [|auto].
  intros H; injection H as ->; auto.
Qed.
Lemma dict_get_none {A} (d : list (string * A)) k : dict_get d k = None <-> ~ In k (map fst d).
Proof.
  induction d as [|[k' v'] d IH]; cbn; [tauto|]. destruct (String.eqb_spec k k') as [->|Hn].
  - split; [discriminate|]. intros H. exfalso. apply H. left. reflexivity.
  - rewrite IH. intuition congruence.
Qed.
Lemma dict_get_nodup {A} (d : list (string * A)) k v : NoDup (map fst d) -> In (k, v) d -> dict_get d k = Some v.
Proof.
  induction d as [|[k' v'] d IH]; cbn; intros HN H; [destruct H|]. destruct H as [H|H].
  - injection H as -> ->. rewrite String.eqb_refl. reflexivity.
  - inversion HN as [|? ? H1 H2]; subst. destruct (String.eqb_spec k k') as [->|_]; [|auto].
    exfalso. apply H1. apply in_map_iff. exists (k', v). auto.
Qed.
Lemma dict_get_perm {A} (d d' : list (string * A)) k : NoDup (map fst d) -> Permutation d d' -> dict_get d k = dict_get d' k.
Proof.
  intros HN HP. assert (HN' : NoDup (map fst d')) by (apply (Permutation_NoDup (l := map fst d)); [apply Permutation_map; exact HP|exact HN]).
  destruct (dict_get d k) as [v|] eqn:E.
  - symmetry. apply dict_get_nodup; [exact HN'|]. apply (Permutation_in _ HP). apply dict_get_in. exact E.
  - symmetry. apply dict_get_none. apply dict_get_none in E. intros H. apply E.
    apply (Permutation_in (l := map fst d')); [apply Permutation_map; symmetry; exact HP|exact H].
Qed.
Lemma in_names_iff k l : in_names k l = true <-> In k l.
Proof.
  unfold in_names. rewrite existsb_exists. split.
  - intros (x & Hx & E). apply String.eqb_eq in E. subst. exact Hx.
  - intros H. exists k. split; [exact H|apply String.eqb_refl].
Qed.
Lemma in_names_false k l : in_names k l = false <-> ~ In k l.
Proof. rewrite <- in_names_iff. destruct (in_names k l); split; congruence. Qed.

Lemma mapM_ext {A B} (f g : A -> res B) l : (forall a, In a l -> f a = g a) -> mapM f l = mapM g l.
Proof.
  induction l as [|a l IH]; intros H; cbn; [reflexivity|]. rewrite (H a) by (left; reflexivity).
  rewrite IH by (intros b Hb; apply H; right; exact Hb). reflexivity.
Qed.
Lemma mapM_err {A B} (f : A -> res B) l a e : In a l -> f a = Err e -> (forall b e', In b l -> f b = Err e' -> e' = e) -> mapM f l = Err e.
Proof.
  induction l as [|b l IH]; intros HI Ha HE; [destruct HI|]. cbn. destruct (f b) as [y|e'] eqn:Eb.
  - cbn [bind]. destruct HI as [<-|HI]; [congruence|]. rewrite IH; [reflexivity|exact HI|exact Ha|].
    intros c e' Hc. apply HE. right. exact Hc.
  - cbn [bind]. f_equal. apply (HE b); [left; reflexivity|exact Eb].
Qed.

(** ---- signatures ---- *)
Section Sig.
Variable sig : signature.
Hypothesis names : NoDup (map fst sig).

Lemma bind_same kw kw' : (forall k, dict_get kw k = dict_get kw' k) ->
  (forall k, In k (map fst kw) -> In k (map fst sig)) -> (forall k, In k (map fst kw') -> In k (map fst sig)) -> bind_args sig kw = bind_args sig kw'.
Proof.
  intros HG H1 H2. unfold bind_args.
  assert (HF : forall d : kwargs, (forall k, In k (map fst d) -> In k (map fst sig)) -> forallb (fun '(k, _) => in_names k (map fst sig)) d = true).
  { intros d Hd. apply forallb_forall. intros [k v] Hk. apply in_names_iff. apply Hd. apply in_map_iff. exists (k, v). auto. }
  rewrite !HF by assumption. apply mapM_ext. intros [k dft] _. rewrite HG. reflexivity.
Qed.
Lemma bind_unknown kw k v : In (k, v) kw -> ~ In k (map fst sig) -> bind_args sig kw = Err TypeError.
Proof.
  intros Hk Hn. unfold bind_args. destruct (forallb _ kw) eqn:E; [|reflexivity]. exfalso.
  rewrite forallb_forall in E. specialize (E _ Hk). cbn in E. apply in_names_iff in E. contradiction.
Qed.
Lemma bind_missing kw k : In (k, None) sig -> ~ In k (map fst kw) -> bind_args sig kw = Err TypeError.
Proof.
  intros Hk Hn. unfold bind_args. destruct (forallb _ kw); [|reflexivity].
  apply (mapM_err _ sig (k, None)); [exact Hk| |].
  - rewrite (proj2 (dict_get_none kw k) Hn). reflexivity.
  - intros [k' d] e _. destruct (dict_get kw k'); [discriminate|]. destruct d; [discriminate|]. intros H; injection H as <-. reflexivity.
Qed.
Lemma bind_default kw k v : In (k, Some v) sig -> ~ In k (map fst kw) -> bind_args sig kw = bind_args sig ((k, v) :: kw).
Proof.
  intros Hk Hn. unfold bind_args. cbn [forallb].
  assert (HK : In k (map fst sig)) by (apply in_map_iff; exists (k, Some v); auto).
  rewrite (proj2 (in_names_iff k _) HK). cbn [andb]. destruct (forallb _ kw); [|reflexivity].
  apply mapM_ext. intros [k' d] Hd. cbn [dict_get]. destruct (String.eqb_spec k' k) as [->|_]; [|reflexivity].
  rewrite (proj2 (dict_get_none kw k) Hn).
  pose proof (dict_get_nodup sig k d names Hd) as D1. pose proof (dict_get_nodup sig k (Some v) names Hk) as D2.
  rewrite D1 in D2. injection D2 as ->. reflexivity.
Qed.
Lemma bind_perm kw kw' : NoDup (map fst kw) -> Permutation kw kw' -> bind_args sig kw = bind_args sig kw'.
Proof.
  intros HN HP. unfold bind_args.
  assert (HF : forallb (fun '(k, _) => in_names k (map fst sig)) kw = forallb (fun '(k, _) => in_names k (map fst sig)) kw').
  { apply eq_true_iff_eq. rewrite !forallb_forall. split; intros H x Hx; apply H; [apply (Permutation_in _ (Permutation_sym HP))|apply (Permutation_in _ HP)]; exact Hx. }
  rewrite HF. destruct (forallb _ kw'); [|reflexivity]. apply mapM_ext. intros [k d] _. rewrite (dict_get_perm kw kw' k HN HP). reflexivity.
Qed.

Lemma combine_fst {A B} (l : list A) (l' : list B) : map fst (combine l l') = firstn (List.length l') l.
Proof. revert l'. induction l as [|a l IH]; intros [|b l']; cbn; auto. f_equal. apply IH. Qed.
Lemma positional_ok pos kw : (List.length pos <= List.length sig)%nat ->
  (forall k, In k (map fst kw) -> ~ In k (firstn (List.length pos) (map fst sig))) ->
  positional sig pos kw = Ok (combine (map fst sig) pos ++ kw)%list.
Proof.
  intros HL HD. unfold positional. destruct (Nat.ltb_spec (List.length sig) (List.length pos)); [lia|].
  destruct (existsb _ kw) eqn:E; [exfalso|reflexivity].
  apply existsb_exists in E. destruct E as ([k v] & Hk & E). apply in_names_iff in E. rewrite combine_fst in E.
  apply (HD k); [|exact E]. apply in_map_iff. exists (k, v). auto.
Qed.
Lemma positional_nil kw : positional sig [] kw = Ok kw.
Proof.
  clear names. rewrite positional_ok; [|cbn; lia|intros k _ []]. destruct (map fst sig); reflexivity.
Qed.
Lemma positional_many pos kw : (List.length sig < List.length pos)%nat -> positional sig pos kw = Err TypeError.
Proof. intros H. unfold positional. destruct (Nat.ltb_spec (List.length sig) (List.length pos)); [reflexivity|lia]. Qed.
Lemma positional_twice pos kw k : In k (map fst kw) -> In k (firstn (List.length pos) (map fst sig)) -> positional sig pos kw = Err TypeError.
Proof.
  intros H1 H2. unfold positional. destruct (Nat.ltb _ _); [reflexivity|]. destruct (existsb _ kw) eqn:E; [reflexivity|exfalso].
  assert (E' : existsb (fun '(k, _) => in_names k (map fst (combine (map fst sig) pos))) kw = true).
  { apply in_map_iff in H1. destruct H1 as ([k' v] & <- & Hk). apply existsb_exists. exists (k', v). split; [exact Hk|].
    apply in_names_iff. rewrite combine_fst. exact H2. }
  congruence.
Qed.
Lemma positional_keys pos kw kw' : positional sig pos kw = Ok kw' -> kw' = (combine (map fst sig) pos ++ kw)%list.
Proof. unfold positional. destruct (Nat.ltb _ _); [discriminate|]. destruct (existsb _ _); [discriminate|]. intros H; injection H as <-. reflexivity. Qed.
End Sig.

(** A call that binds to a signature and goes on from there. *)
Definition bound_call {A} (sig : signature) (go : kwargs -> res A) (pos : list pyval) (kw : kwargs) : res A :=
  do kw' <- positional sig pos kw ;; do d <- bind_args sig kw' ;; go d.
Definition sig_of (required : list string) (dfl : kwargs) : signature := (map (fun k => (k, None)) required ++ map (fun '(k, v) => (k, Some v)) dfl)%list.
Lemma sig_of_names r d : map fst (sig_of r d) = (r ++ map fst d)%list.
Proof. unfold sig_of. rewrite map_app, !map_map, map_id. f_equal. apply map_ext. intros [k v]. reflexivity. Qed.

Section Calls.
Context {A : Type} (required : list string) (dfl : kwargs) (go : kwargs -> res A).
Let sig := sig_of required dfl.
Let call := bound_call sig go.
Hypothesis names : NoDup (required ++ map fst dfl).

Lemma call_positional pos kw : (List.length pos <= List.length (required ++ map fst dfl))%nat ->
  (forall k, In k (map fst kw) -> ~ In k (firstn (List.length pos) (required ++ map fst dfl))) ->
  call pos kw = call [] (combine (required ++ map fst dfl) pos ++ kw)%list.
Proof.
  intros HL HD. unfold call, bound_call. rewrite positional_nil. rewrite (positional_ok sig pos kw).
  - unfold sig at 1. rewrite sig_of_names. reflexivity.
  - rewrite <- (map_length fst sig). unfold sig. rewrite sig_of_names. exact HL.
  - unfold sig. rewrite sig_of_names. exact HD.
Qed.
Lemma call_default kw k v : In (k, v) dfl -> ~ In k (map fst kw) -> call [] kw = call [] ((k, v) :: kw).
Proof.
  intros Hk Hn. unfold call, bound_call. rewrite !positional_nil. cbn [bind]. rewrite (bind_default sig) with (k := k) (v := v); [reflexivity| | |exact Hn].
  - unfold sig. rewrite sig_of_names. exact names.
  - unfold sig, sig_of. apply in_or_app. right. apply in_map_iff. exists (k, v). auto.
Qed.
Lemma call_perm kw kw' : NoDup (map fst kw) -> Permutation kw kw' -> call [] kw = call [] kw'.
Proof. intros HN HP. unfold call, bound_call. rewrite !positional_nil. cbn [bind]. rewrite (bind_perm sig kw kw' HN HP). reflexivity. Qed.
Lemma call_type_error pos kw :
  (List.length (required ++ map fst dfl) < List.length pos)%nat \/
  (exists k, In k (map fst kw) /\ ~ In k (required ++ map fst dfl)) \/
  (exists k, In k (map fst kw) /\ In k (firstn (List.length pos) (required ++ map fst dfl))) \/
  (exists k, In k required /\ ~ In k (map fst kw) /\ ~ In k (firstn (List.length pos) (required ++ map fst dfl))) ->
  call pos kw = Err TypeError.
Proof.
  intros H. unfold call, bound_call.
  assert (HS : map fst sig = (required ++ map fst dfl)%list) by apply sig_of_names.
  destruct H as [H|[(k & H1 & H2)|[(k & H1 & H2)|(k & H1 & H2 & H3)]]].
  - rewrite positional_many; [reflexivity|]. rewrite <- (map_length fst sig), HS. exact H.
  - destruct (positional sig pos kw) as [kw'|e] eqn:E.
    + cbn [bind]. apply positional_keys in E. subst kw'. apply in_map_iff in H1. destruct H1 as ([k' v] & <- & Hk).
      rewrite (bind_unknown sig _ k' v); [reflexivity|apply in_or_app; right; exact Hk|rewrite HS; exact H2].
    + unfold positional in E. destruct (Nat.ltb _ _); [injection E as <-; reflexivity|]. destruct (existsb _ _); [injection E as <-; reflexivity|discriminate].
  - rewrite (positional_twice sig pos kw k); [reflexivity|exact H1|rewrite HS; exact H2].
  - destruct (positional sig pos kw) as [kw'|e] eqn:E.
    + cbn [bind]. apply positional_keys in E. subst kw'. rewrite (bind_missing sig _ k); [reflexivity| |].
      * unfold sig, sig_of. apply in_or_app. left. apply in_map_iff. exists k. auto.
      * rewrite map_app, combine_fst, HS. intros K. apply in_app_or in K. destruct K; contradiction.
    + unfold positional in E. destruct (Nat.ltb _ _); [injection E as <-; reflexivity|]. destruct (existsb _ _); [injection E as <-; reflexivity|discriminate].
Qed.
End Calls.

Lemma bound_convention {A} required dfl (go : kwargs -> res A) : NoDup (required ++ map fst dfl) ->
  convention (bound_call (sig_of required dfl) go) (Err TypeError) required dfl.
Proof.
  intros HN. split.
  - intros pos kw ps. apply call_positional.
  - intros kw k v. apply call_default. exact HN.
  - intros kw kw'. apply call_perm.
  - intros pos kw ps. apply call_type_error.
Qed.
Lemma convention_map {A B} (call : list pyval -> kwargs -> A) (call' : list pyval -> kwargs -> B) (f : A -> B) e required dfl :
  (forall pos kw, call' pos kw = f (call pos kw)) -> convention call e required dfl -> convention call' (f e) required dfl.
Proof.
  intros HF [H1 H2 H3 H4]. split.
  - intros pos kw ps Hl Hd. rewrite !HF. f_equal. apply H1; assumption.
  - intros kw k v Hk Hn. rewrite !HF. f_equal. apply H2; assumption.
  - intros kw kw' Hn Hp. rewrite !HF. f_equal. apply H3; assumption.
  - intros pos kw ps Hb. rewrite HF. f_equal. apply H4. exact Hb.
Qed.

(** ---- the calls of the library ---- *)
Definition constructed (E : env) (c : kclass) (d : kwargs) : res kmodel :=
  do A <- cargs_of c d ;;
  if is_ordinary c then do o <- construct E c A ;; Ok (KOrd o)
  else do D <- dargs_of c d ;; do u <- construct_uk E c A D ;; Ok (KUni u).
Ltac distinct_names := repeat (constructor; [cbn; intuition discriminate|]); constructor.
Lemma constructor_convention E c : convention (construct_call E c) (Err TypeError) (data_names c) (defaults c).
Proof.
  apply (convention_map (bound_call (sig_of (data_names c) (defaults c)) (constructed E c)) _ (fun r => r)).
  - intros pos kw. destruct c; reflexivity.
  - apply bound_convention. destruct c; distinct_names.
Qed.
Definition updated (E : env) (m : kmodel) (v : res vargs) : kmodel * option exn :=
  match v with
  | Err e => (m, Some e)
  | Ok v => match m with
            | KOrd o => let '(o', e) := update_variogram_model E o v in (KOrd o', e)
            | KUni u => let '(u', e) := update_uk E u v in (KUni u', e)
            end
  end.
Lemma update_convention E m : convention (update_call E m) (m, Some TypeError) ["variogram_model"%string] (update_defaults (model_dim m)).
Proof.
  assert (HS : update_sig (model_dim m) = sig_of ["variogram_model"%string] (update_defaults (model_dim m))).
  { unfold update_sig, update_defaults, aniso_sig. destruct (Nat.eqb (model_dim m) 2); reflexivity. }
  apply (convention_map (bound_call (sig_of ["variogram_model"%string] (update_defaults (model_dim m))) (vargs_of (model_dim m))) _ (updated E m) (Err TypeError)).
  - intros pos kw. rewrite <- HS. reflexivity.
  - apply bound_convention. unfold update_defaults. destruct (Nat.eqb (model_dim m) 2); distinct_names.
Qed.
Definition executed (E : env) (m : kmodel) (d : kwargs) : res result :=
  match m with
  | KOrd o => do q <- query_of true (o_dim o) d ;; execute E o q
  | KUni u => do q <- query_of false (o_dim (u_obj u)) d ;;
              do s <- get_specs d "specified_drift_arrays" ;;
              do (r, _) <- execute_uk E u q s ;; Ok r
  end.
Lemma execute_convention E m : convention (execute_call E m) (Err TypeError) (query_names (model_dim m)) (execute_defaults m).
Proof.
  assert (HS : model_exec_sig m = sig_of (query_names (model_dim m)) (execute_defaults m)).
  { destruct m as [o|u]; unfold model_exec_sig, exec_sig, query_names, model_dim; [destruct (Nat.eqb (o_dim o) 3)|destruct (Nat.eqb (o_dim (u_obj u)) 3)]; reflexivity. }
  apply (convention_map (bound_call (sig_of (query_names (model_dim m)) (execute_defaults m)) (executed E m)) _ (fun r => r)).
  - intros pos kw. rewrite <- HS. destruct m; reflexivity.
  - apply bound_convention. unfold query_names. destruct m; destruct (Nat.eqb _ 3); distinct_names.
Qed.
Lemma krige_convention : convention krige_call (Err TypeError) [] krige_defaults.
Proof.
  apply (convention_map (bound_call (sig_of [] krige_defaults) (fun d => do k <- krige_of d ;; krige_init k)) _ (fun r => r)).
  - reflexivity.
  - apply bound_convention. distinct_names.
Qed.

(** ---- spelled out ---- *)
Lemma only_data_ordinary E x y z val i j k l :
  construct_call E OK2 [V_array i x; V_array j y; V_array k z] [] = (do o <- construct E OK2 (only_data [x; y] z) ;; Ok (KOrd o)) /\
  construct_call E OK3 [V_array i x; V_array j y; V_array k z; V_array l val] [] = (do o <- construct E OK3 (only_data [x; y; z] val) ;; Ok (KOrd o)).
Proof. split; reflexivity. Qed.
Lemma only_data_universal E x y z val i j k l :
  construct_call E UK2 [V_array i x; V_array j y; V_array k z] [] = (do u <- construct_uk E UK2 (only_data [x; y] z) no_drift ;; Ok (KUni u)) /\
  construct_call E UK3 [V_array i x; V_array j y; V_array k z; V_array l val] [] =
    (do u <- construct_uk E UK3 (only_data [x; y; z] val) no_drift ;; Ok (KUni u)).
Proof. split; reflexivity. Qed.

Lemma bind_get sig kw d : NoDup (map fst sig) -> bind_args sig kw = Ok d ->
  forall k dft, In (k, dft) sig -> dict_get d k = match dict_get kw k with Some v => Some v | None => dft end.
Proof.
  unfold bind_args. intros HN HB. destruct (forallb _ kw); [|discriminate]. revert d HB.
  induction sig as [|[k0 d0] sig IH]; intros d HB k dft Hk; [destruct Hk|]. cbn in HB. inversion HN as [|? ? Hn1 Hn2]; subst.
  destruct (match dict_get kw k0 with Some v => Ok (k0, v) | None => match d0 with Some v => Ok (k0, v) | None => Err TypeError end end) as [[k1 v1]|e] eqn:E1; [|discriminate].
  cbn [bind] in HB. destruct (mapM _ sig) as [d'|e] eqn:E2; [|discriminate]. cbn [bind] in HB. injection HB as <-.
  assert (HK : k1 = k0 /\ match dict_get kw k0 with Some v => Some v | None => d0 end = Some v1).
  { destruct (dict_get kw k0) as [v|]; [injection E1 as <- <-; auto|]. destruct d0; [injection E1 as <- <-; auto|discriminate]. }
  destruct HK as [-> HV]. cbn [dict_get]. destruct Hk as [Hk|Hk].
  - injection Hk as -> ->. rewrite String.eqb_refl. symmetry. exact HV.
  - destruct (String.eqb_spec k k0) as [->|_]; [exfalso; apply Hn1; apply in_map_iff; exists (k0, dft); auto|].
    apply (IH Hn2 d' eq_refl). exact Hk.
Qed.

Lemma only_model_ordinary E o m : update_call E (KOrd o) [V_model m] [] =
  (KOrd (fst (update_variogram_model E o (only_model (o_dim o) m))), snd (update_variogram_model E o (only_model (o_dim o) m))).
Proof.
  unfold update_call, update_sig, vargs_of, only_model, model_dim. unfold o_dim. destruct (o_class o); cbn -[update_variogram_model];
    destruct (update_variogram_model _ _ _); reflexivity.
Qed.
Lemma only_model_universal E u m : update_call E (KUni u) [V_model m] [] =
  (KUni (fst (update_uk E u (only_model (o_dim (u_obj u)) m))), snd (update_uk E u (only_model (o_dim (u_obj u)) m))).
Proof.
  unfold update_call, update_sig, vargs_of, only_model, model_dim. unfold o_dim. destruct (o_class (u_obj u)); cbn -[update_uk];
    destruct (update_uk _ _ _); reflexivity.
Qed.
Lemma only_points_ordinary E o s x : List.length x = o_dim o ->
  execute_call E (KOrd o) (V_str s :: map (fun a => V_array (fst a) (snd a)) x) [] = execute E o (only_points s x).
Proof.
  unfold execute_call, model_exec_sig, execute_kw, o_dim. destruct (o_class o); cbn [cdim];
  destruct x as [|[a1 x1] [|[a2 x2] [|[a3 x3] [|]]]]; try discriminate; intros _; reflexivity.
Qed.
Lemma only_points_universal E u s x : List.length x = o_dim (u_obj u) ->
  execute_call E (KUni u) (V_str s :: map (fun a => V_array (fst a) (snd a)) x) [] =
  (do (r, _) <- execute_uk E u (only_points s x) [] ;; Ok r).
Proof.
  unfold execute_call, model_exec_sig, execute_kw, o_dim. destruct (o_class (u_obj u)); cbn [cdim];
  destruct x as [|[a1 x1] [|[a2 x2] [|[a3 x3] [|]]]]; try discriminate; intros _; reflexivity.
Qed.

(** an update that does not mention the anisotropy removes it *)
Lemma aniso2_none d : aniso2 1 0 d = sqrt (fst (fst d) * fst (fst d) + snd (fst d) * snd (fst d)).
Proof.
  destruct d as [[x y] z]. unfold aniso2, rad, dot3. cbv zeta. replace (0 * PI / 180) with 0 by field. rewrite cos_0, sin_0. cbn [fst snd]. f_equal. unfold Rsqr. ring.
Qed.
Lemma aniso3_none d : aniso3 1 1 0 0 0 d = sqrt (fst (fst d) * fst (fst d) + snd (fst d) * snd (fst d) + snd d * snd d).
Proof.
  destruct d as [[x y] z]. unfold aniso3, rad, rotated_axis, rotx, roty, rotz, dot3. cbv zeta. replace (0 * PI / 180) with 0 by field. rewrite cos_0, sin_0.
  cbn [fst snd]. f_equal. unfold Rsqr. ring.
Qed.
Lemma separation_none o p q : o_ct o = Euclidean -> same_anisotropy (o_dim o) (rnth (repeat 1 (o_dim o - 1))) (o_scaling o)
    (rnth (repeat 0 (if Nat.eqb (o_dim o) 2 then 1%nat else 3%nat))) (o_angle o) ->
  separation o p q = plain_distance (o_dim o) p q.
Proof.
  intros HE [H1 H2]. unfold separation, plain_distance. rewrite HE. unfold o_dim in *.
  destruct (o_class o); cbn [cdim Nat.eqb Nat.sub repeat] in *.
  1,2: rewrite <- (H1 0%nat), <- H2 by lia; cbn [rnth nth]; unfold rnth; cbn [nth]; rewrite aniso2_none;
       destruct p as [[p0 p1] p2], q as [[q0 q1] q2]; reflexivity.
  all: rewrite <- (H1 0%nat), <- (H1 1%nat), <- (H2 0%nat), <- (H2 1%nat), <- (H2 2%nat) by lia; unfold rnth; cbn [nth]; rewrite aniso3_none;
       destruct p as [[p0 p1] p2], q as [[q0 q1] q2]; reflexivity.
Qed.

(** every argument reaches its place *)
Lemma every_construct E x y z val i j k l m sc sy sz an ax ay az stat ct D :
  construct_call E OK2 ([V_array i x; V_array j y; V_array k z] ++ head_values m ++ [V_real sc; V_real an] ++ talk_values m ++ [V_bool stat; V_str ct] ++ solver_values m) [] =
    (do o <- construct E OK2 (all_args [x; y] z m [sc] [an] stat ct) ;; Ok (KOrd o)) /\
  construct_call E OK3 ([V_array i x; V_array j y; V_array k z; V_array l val] ++ head_values m ++ [V_real sy; V_real sz; V_real ax; V_real ay; V_real az] ++
      talk_values m ++ solver_values m) [] =
    (do o <- construct E OK3 (all_args [x; y; z] val m [sy; sz] [ax; ay; az] false "euclidean") ;; Ok (KOrd o)) /\
  construct_call E UK2 ([V_array i x; V_array j y; V_array k z] ++ head_values m ++ [V_real sc; V_real an] ++
      [V_terms (d_terms D); V_wells (d_point D); V_grid (d_ext D); V_axis (d_ext_x D); V_axis (d_ext_y D); V_spec (d_spec D); V_funs (d_fun D)] ++
      talk_values m ++ solver_values m) [] =
    (do u <- construct_uk E UK2 (all_args [x; y] z m [sc] [an] false "euclidean") D ;; Ok (KUni u)) /\
  construct_call E UK3 ([V_array i x; V_array j y; V_array k z; V_array l val] ++ head_values m ++ [V_real sy; V_real sz; V_real ax; V_real ay; V_real az] ++
      [V_terms (d_terms D); V_spec (d_spec D); V_funs (d_fun D)] ++ talk_values m ++ solver_values m) [] =
    (do u <- construct_uk E UK3 (all_args [x; y; z] val m [sy; sz] [ax; ay; az] false "euclidean")
       {| d_terms := d_terms D; d_point := None; d_ext := None; d_ext_x := None; d_ext_y := None; d_spec := d_spec D; d_fun := d_fun D |} ;; Ok (KUni u)).
Proof. destruct D. repeat (split; [reflexivity|]). reflexivity. Qed.
Lemma every_update E o u m sc sy sz an ax ay az :
  (o_dim o = 2%nat -> update_call E (KOrd o) (head_values m ++ [V_real sc; V_real an]) [] =
    (KOrd (fst (update_variogram_model E o (model_args m [sc] [an]))), snd (update_variogram_model E o (model_args m [sc] [an])))) /\
  (o_dim o = 3%nat -> update_call E (KOrd o) (head_values m ++ [V_real sy; V_real sz; V_real ax; V_real ay; V_real az]) [] =
    (KOrd (fst (update_variogram_model E o (model_args m [sy; sz] [ax; ay; az]))), snd (update_variogram_model E o (model_args m [sy; sz] [ax; ay; az])))) /\
  (o_dim (u_obj u) = 2%nat -> update_call E (KUni u) (head_values m ++ [V_real sc; V_real an]) [] =
    (KUni (fst (update_uk E u (model_args m [sc] [an]))), snd (update_uk E u (model_args m [sc] [an])))) /\
  (o_dim (u_obj u) = 3%nat -> update_call E (KUni u) (head_values m ++ [V_real sy; V_real sz; V_real ax; V_real ay; V_real az]) [] =
    (KUni (fst (update_uk E u (model_args m [sy; sz] [ax; ay; az]))), snd (update_uk E u (model_args m [sy; sz] [ax; ay; az])))).
Proof.
  unfold update_call, update_sig, vargs_of, model_dim. repeat split; intros ->; cbn -[update_variogram_model update_uk];
    first [destruct (update_variogram_model _ _ _)|destruct (update_uk _ _ _)]; reflexivity.
Qed.
Lemma every_execute E o u s x mask b w specs :
  (List.length x = o_dim o ->
   execute_call E (KOrd o) (V_str s :: map (fun a => V_array (fst a) (snd a)) x ++ [V_mask mask; V_str b; V_window w]) [] =
   execute E o {| q_style := s; q_pts := map snd x; q_int := map fst x; q_mask := mask; q_backend := b; q_window := w |}) /\
  (List.length x = o_dim (u_obj u) ->
   execute_call E (KUni u) (V_str s :: map (fun a => V_array (fst a) (snd a)) x ++ [V_mask mask; V_str b; V_specs specs]) [] =
   (do (r, _) <- execute_uk E u {| q_style := s; q_pts := map snd x; q_int := map fst x; q_mask := mask; q_backend := b; q_window := None |} specs ;; Ok r)).
Proof.
  split; unfold execute_call, model_exec_sig, execute_kw, o_dim; [destruct (o_class o)|destruct (o_class (u_obj u))]; cbn [cdim];
  destruct x as [|[a1 x1] [|[a2 x2] [|[a3 x3] [|]]]]; try discriminate; intros _; reflexivity.
Qed.
