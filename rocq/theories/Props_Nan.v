(** C84: data values some of which are NaN. *)
From Coq Require Import String.
From Verif Require Import Base Sums M_Variogram M_Geometry S_Geometry M_Kriging S_Kriging M_Init M_Object M_Execute S_Execute
  S_Stats Witness P_UK8 P_Pinv3 M_Values S_Values P_Values P_Values3 P_Values4 M_UK S_UK M_ValuesUK S_ValuesUK P_ValuesUK.

(** The model with values of any type, run on real values, is the model of execute used
    by the other properties. *)
Theorem C84_same_model :
  forall E o q,
  match execute E o q, execute_v Rval E o (o_values o) q with
  | Ok r, Ok r' => r_shape r = rv_shape r' /\ (forall p, r_value r p = rv_value r' p) /\ (forall p, r_variance r p = rv_variance r' p)
  | Err e, Err e' => e = e'
  | _, _ => False
  end.
Proof. intros E o q. rewrite execute_R. destruct (execute_v Rval E o (o_values o) q); cbn; auto. Qed.
Print Assumptions C84_same_model.

(** OrdinaryKriging or OrdinaryKriging3D built from values with NaN and given variogram
    parameters: it raises exactly when it would for numbers in place of the NaNs; the
    experimental variogram lacks the classes with a NaN pair; the statistics lack the
    residuals from the first NaN on; execute raises exactly when it would, and its result
    differs only in that estimates made of a NaN are NaN. *)
Theorem C84_constructor_and_execute :
  forall E c A z zs, List.length (c_coords A) = cdim c -> explicit_params (c_v A) -> filled z zs ->
  (forall e, construct_nan E c A z = Err e <-> construct E c (with_values A zs) = Err e) /\
  forall o', construct E c (with_values A zs) = Ok o' -> exists o zv sn, construct_nan E c A z = Ok (o, zv, sn) /\
    ((1 <= a_nlags (c_v A))%nat -> experimental_known_of o zv (a_nlags (c_v A))) /\ o_params o = o_params o' /\ nan_statistics E o' zv sn /\
    forall q, (forall e, execute_v Nval E o zv q = Err e <-> execute E o' q = Err e) /\
      forall r, run E o' q r -> exists rn, execute_v Nval E o zv q = Ok rn /\ nan_result o' q (fun i => nth i z (Some 0)) r rn.
Proof.
  intros E c A z zs HC HX HF. destruct (nan_construct E c A z zs HC HX HF) as [HE HO]. split; [exact HE|].
  intros o' Ho'. destruct (HO o' Ho') as (o & zv & sn & H1 & H2 & H3 & H4 & _ & _ & H5). exists o, zv, sn. auto 10.
Qed.
Print Assumptions C84_constructor_and_execute.

(** When no residual is left out: residual a (of datum a + 1, predicted from the data before
    it) is NaN exactly when one of the data 0 .. a + 1 is NaN, and with any NaN among the
    data Q1, Q2 and cR are NaN. *)
Theorem C84_statistics :
  forall E o z sn, nan_statistics E o z (Some sn) -> all_residuals o ->
  List.length (sn_delta sn) = (o_n o - 1)%nat /\ List.length (sn_epsilon sn) = (o_n o - 1)%nat /\
  (forall a, (a < o_n o - 1)%nat -> (nth a (sn_delta sn) (Some 0) = None <-> exists j, (j <= a + 1)%nat /\ z j = None) /\
                                    (nth a (sn_epsilon sn) (Some 0) = None <-> exists j, (j <= a + 1)%nat /\ z j = None)) /\
  ((2 <= o_n o)%nat -> (exists j, (j < o_n o)%nat /\ z j = None) -> sn_Q1 sn = None /\ sn_Q2 sn = None /\ sn_cR sn = None).
Proof. exact nan_residuals. Qed.
Print Assumptions C84_statistics.
Example C84_statistics_nonvacuous : exists A o' o zv sn, List.length (c_coords A) = cdim OK2 /\ explicit_params (c_v A) /\ filled three_nan [0; 1; 2] /\
  construct WE OK2 (with_values A [0; 1; 2]) = Ok o' /\ construct_nan WE OK2 A three_nan = Ok (o, zv, Some sn) /\
  nan_statistics WE o' zv (Some sn) /\ all_residuals o' /\
  (exists d, sn_delta sn = [Some d; None]) /\ sn_Q1 sn = None.
Proof. exact ex_nan_statistics. Qed.

(** execute of any reachable ordinary kriging object (2D and 3D): NaN values cause no exception ... *)
Theorem C84_nan_never_raises :
  forall E o q z e, execute_v Nval E o z q = Err e <-> execute E o q = Err e.
Proof. exact nan_raises. Qed.
Print Assumptions C84_nan_never_raises.

(** ... and reach exactly the estimates made of them *)
Theorem C84_nan_reaches_its_estimates :
  forall E o q z r, run E o q r -> (forall i v, (i < o_n o)%nat -> z i = Some v -> o_values o i = v) ->
  exists rn, execute_v Nval E o z q = Ok rn /\ nan_result o q z r rn.
Proof. exact nan_values. Qed.
Print Assumptions C84_nan_reaches_its_estimates.

(** Without a moving window a single NaN makes every estimate NaN (the variances are numbers). *)
Theorem C84_one_nan_spoils_all_estimates :
  forall E o q z r i, run E o q r -> (forall i v, (i < o_n o)%nat -> z i = Some v -> o_values o i = v) ->
  q_window q = None -> (i < o_n o)%nat -> z i = None ->
  exists rn, execute_v Nval E o z q = Ok rn /\ forall p pos, shown o q p pos -> rv_value rn p = Some None /\ exists s, rv_variance rn p = Some s.
Proof. exact one_nan_everywhere. Qed.
Print Assumptions C84_one_nan_spoils_all_estimates.

(** With a moving window of k points, a NaN with k data strictly nearer to the location has no effect there. *)
Theorem C84_nan_outside_the_window :
  forall E o q z r k p pos, run E o q r -> (forall i v, (i < o_n o)%nat -> z i = Some v -> o_values o i = v) ->
  q_window q = Some k -> shown o q p pos ->
  (forall i, (i < o_n o)%nat -> z i = None -> exists near,
     (forall a, (a < k)%nat -> (near a < o_n o)%nat /\ separation o pos (datum o (near a)) < separation o pos (datum o i)) /\
     (forall a b, (a < k)%nat -> (b < k)%nat -> near a = near b -> a = b)) ->
  exists rn v, execute_v Nval E o z q = Ok rn /\ r_value r p = Some v /\ rv_value rn p = Some (Some v).
Proof. exact nan_outside_window. Qed.
Print Assumptions C84_nan_outside_the_window.

(** Non-vacuity: data 0, NaN, 5, 7 at x = 0, 1, 3, 4 *)
Example C84_nonvacuous : exists o r, filled nan_data [0; 1; 5; 7] /\ construct WE OK2 (with_values (nan_args []) [0; 1; 5; 7]) = Ok o /\
  List.length (c_coords (nan_args [])) = 2%nat /\ explicit_params (c_v (nan_args [])) /\ c_stat (nan_args []) = false /\
  run WE o (one_point 2 0 "vectorized") r /\ shown o (one_point 2 0 "vectorized") 0 (2, 0, 0) /\ (1 < o_n o)%nat /\ nth 1 nan_data (Some 0) = None.
Proof.
  destruct nan_case as (o & r & rw & H1 & H2 & H3 & H4 & Hn & H5 & H6 & _). exists o, r. split; [apply nan_filled|].
  repeat (split; [assumption|]). split; [rewrite Hn; lia|reflexivity].
Qed.
(** in that case the estimate at x = 2 is NaN; with a window of two points, the one at x = 10 is a number *)
Example C84_nonvacuous_window : exists o rw rn v, construct WE OK2 (with_values (nan_args []) [0; 1; 5; 7]) = Ok o /\
  run WE o (windowed 10 0 2) rw /\ execute_v Nval WE o (fun i => nth i nan_data (Some 0)) (windowed 10 0 2) = Ok rn /\
  r_value rw 0%nat = Some v /\ rv_value rn 0%nat = Some (Some v).
Proof.
  destruct nan_case as (o & r & rw & H1 & _ & _ & _ & Hn & _ & _ & H5 & H6 & Hd & Hs & Hv). exists o, rw.
  destruct (nan_outside_window WE o (windowed 10 0 2) (fun i => nth i nan_data (Some 0)) rw 2 0 (10, 0, 0) H5) as (rn & v & K1 & K2 & K3).
  - intros i v Hi Hz. rewrite Hv. rewrite Hn in Hi.
    do 4 (destruct i as [|i]; [cbn in Hz |- *; first [discriminate Hz|injection Hz as Hz; exact Hz]|]). lia.
  - reflexivity.
  - exact H6.
  - exact (nan_case_near o Hd Hn Hs).
  - exists rn, v. auto.
Qed.

(** ---- universal kriging ---- *)
(** On real values the model with values of any type is the model of execute used by the other properties. *)
Theorem C84_universal_same_model :
  forall E u q specs,
  match execute_uk E u q specs, execute_uk_v Rval E u (o_values (u_obj u)) q specs with
  | Ok (r, w), Ok (r', w') => w = w' /\ r_shape r = rv_shape r' /\ (forall p, r_value r p = rv_value r' p) /\ (forall p, r_variance r p = rv_variance r' p)
  | Err e, Err e' => e = e'
  | _, _ => False
  end.
Proof. intros E u q specs. rewrite execute_uk_R. destruct (execute_uk_v Rval E u (o_values (u_obj u)) q specs) as [[r w]|]; cbn; auto. Qed.
Print Assumptions C84_universal_same_model.

Theorem C84_universal_nan_never_raises :
  forall E u q specs z e, execute_uk_v Nval E u z q specs = Err e <-> execute_uk E u q specs = Err e.
Proof. exact uk_nan_raises. Qed.
Print Assumptions C84_universal_nan_never_raises.

(** Universal kriging has no moving window: one NaN makes every shown estimate NaN; the
    shape, the mask, the variances and the warning are those without NaN; and values
    without NaN give exactly the estimates of the other properties. *)
Theorem C84_universal_nan_values :
  forall E u q specs z r w, ureachable E u -> execute_uk E u q specs = Ok (r, w) ->
  (forall i v, (i < o_n (u_obj u))%nat -> z i = Some v -> o_values (u_obj u) i = v) ->
  exists rn, execute_uk_v Nval E u z q specs = Ok (rn, w) /\ uk_nan_result u q z r rn.
Proof. exact uk_nan_values. Qed.
Print Assumptions C84_universal_nan_values.

(** the constructors of universal kriging (which always compute the statistics) *)
Theorem C84_universal_constructor_and_execute :
  forall E c A D z zs, c = UK2 \/ c = UK3 -> List.length (c_coords A) = cdim c -> explicit_params (c_v A) -> filled z zs ->
  (forall e, construct_uk_nan E c A z D = Err e <-> construct_uk E c (with_values A zs) D = Err e) /\
  forall u', construct_uk E c (with_values A zs) D = Ok u' -> exists u zv sn, construct_uk_nan E c A z D = Ok (u, zv, sn) /\
    ((1 <= a_nlags (c_v A))%nat -> experimental_known_of (u_obj u) zv (a_nlags (c_v A))) /\ o_params (u_obj u) = o_params (u_obj u') /\
    u_drift u = u_drift u' /\ nan_statistics E (u_obj u') zv sn /\
    forall q specs, (forall e, execute_uk_v Nval E u zv q specs = Err e <-> execute_uk E u' q specs = Err e) /\
      forall r w, execute_uk E u' q specs = Ok (r, w) ->
        exists rn, execute_uk_v Nval E u zv q specs = Ok (rn, w) /\ uk_nan_result u' q (fun i => nth i z (Some 0)) r rn.
Proof. exact uk_nan_construct. Qed.
Print Assumptions C84_universal_constructor_and_execute.

(** Non-vacuity: two data with a functional drift f(x, y) = x, the second value NaN *)
Example C84_universal_nonvacuous : exists u q r w, ureachable WE u /\ execute_uk WE u q [] = Ok (r, w) /\
  (forall i v, (i < o_n (u_obj u))%nat -> (fun i => nth i [Some 4; None] (Some 0)) i = Some v -> o_values (u_obj u) i = v) /\
  shown (u_obj u) q 0 (2, 1, 0) /\ (1 < o_n (u_obj u))%nat /\ exists rn, execute_uk_v Nval WE u (fun i => nth i [Some 4; None] (Some 0)) q [] = Ok (rn, w) /\
  rv_value rn 0%nat = Some None.
Proof.
  destruct (ex_functional 4 9 2 1) as (u & r & _ & _ & _ & _ & Hn & HC & _ & _ & (_ & HR & w & Hr) & HS).
  assert (HV : forall i v, (i < o_n (u_obj u))%nat -> (fun i => nth i [Some 4; None] (Some 0)) i = Some v -> o_values (u_obj u) i = v).
  { intros i v Hi Hv. destruct (Witness3.two_fields_u _ _ _ _ _ _ _ _ HC) as (_ & _ & _ & _ & _ & _ & Hval & _). rewrite Hval. rewrite Hn in Hi.
    destruct i as [|[|i]]; cbn in Hv |- *; [injection Hv as Hv; exact Hv|discriminate|lia]. }
  exists u, (one_point 2 1 "vectorized"), r, w. split; [exact HR|]. split; [exact Hr|]. split; [exact HV|]. split; [exact HS|]. split; [rewrite Hn; lia|].
  destruct (uk_nan_values _ _ _ _ _ _ _ HR Hr HV) as (rn & H1 & _ & _ & _ & H2). exists rn. split; [exact H1|].
  apply (H2 0%nat _ HS). exists 1%nat. split; [rewrite Hn; lia|reflexivity].
Qed.
