(** PROPERTIES C80 and C81: variogram functions, coordinates and the kriging system in IEEE
    binary64.  Vocabulary: S_Float.  [b64 x]: x is a binary64 number (no overflow);
    [libm_ok L]: what is asked of the C library's exp and pow.  Where a range is asked to be at
    least 2^-500 (or 2^-300), it is so that the program does not divide 0 by 0. *)
From Flocq Require Import Core.
From Verif Require Import Base Sums Matrix M_Init M_Float M_Float2 S_Float P_Float P_Float2 P_Float3 P_Float4 P_Float5.

(** ** C80: variogram functions *)
(** At lag 0 every model returns the nugget, bit for bit, in both implementations. *)
Theorem C80_zero_lag :
  forall L, libm_ok L -> forall p r e c, b64 r -> b64 c -> bpow radix2 (-300) <= r -> 0 < e ->
    f_linear64 p c 0 = c /\ f_power64 L p e c 0 = c /\ f_gaussian64 L p r c 0 = c /\
    f_exponential64 L p r c 0 = c /\ f_spherical64 L p r c 0 = c /\ f_hole64 L p r c 0 = c /\
    c_linear64 p c 0 = c /\ c_power64 L p e c 0 = c /\ c_gaussian64 L p r c 0 = c /\
    c_exponential64 L p r c 0 = c /\ c_spherical64 L p r c 0 = c.
Proof. exact all_zero. Qed.
Print Assumptions C80_zero_lag.

(** The unbounded models, the Gaussian and the exponential one never decrease: rounding does not
    break monotonicity. *)
Theorem C80_monotone :
  forall L, libm_ok L -> forall p r e c d d', 0 <= p -> bpow radix2 (-500) <= r -> 0 < e -> 0 <= d <= d' ->
    f_linear64 p c d <= f_linear64 p c d' /\ f_power64 L p e c d <= f_power64 L p e c d' /\
    f_gaussian64 L p r c d <= f_gaussian64 L p r c d' /\ f_exponential64 L p r c d <= f_exponential64 L p r c d' /\
    c_gaussian64 L p r c d <= c_gaussian64 L p r c d'.
Proof. exact all_monotone. Qed.
Print Assumptions C80_monotone.

(** No model returns less than the nugget ... *)
Theorem C80_nugget :
  forall L, libm_ok L -> forall p r e c d, 0 <= p -> b64 p -> b64 r -> b64 c -> b64 d -> bpow radix2 (-300) <= r -> 0 < e ->
    d = 0 \/ bpow radix2 (-300) <= d ->
    c <= f_linear64 p c d /\ c <= f_power64 L p e c d /\ c <= f_gaussian64 L p r c d /\
    c <= f_exponential64 L p r c d /\ c <= f_spherical64 L p r c d /\ c <= f_hole64 L p r c d /\
    c <= c_gaussian64 L p r c d /\ c <= c_spherical64 L p r c d.
Proof. exact all_nugget. Qed.
Print Assumptions C80_nugget.

(** ... and the Gaussian and exponential models never return more than the (rounded) sill, which
    is what the spherical model returns beyond its range. *)
Theorem C80_sill :
  forall L, libm_ok L -> forall p r c d, 0 <= p -> b64 p -> b64 c -> bpow radix2 (-500) <= r -> 0 <= d ->
    f_gaussian64 L p r c d <= rnd64 (p + c) /\ f_exponential64 L p r c d <= rnd64 (p + c) /\
    c_gaussian64 L p r c d <= rnd64 (p + c) /\
    (r < d -> f_spherical64 L p r c d = rnd64 (p + c)) /\ (r <= d -> c_spherical64 L p r c d = rnd64 (p + c)).
Proof. exact all_sill. Qed.
Print Assumptions C80_sill.

(** The spherical model can exceed its sill, by rounding, and so decrease: with the range
    0x1.d81faf8130c42p+0 (about 1.844), partial sill 1 and no nugget, the Python function returns
    1 + 2^-52 at the range and 1 beyond it (and the Cython function 1 at the range). *)
Theorem C80_spherical_refuted :
  forall L, libm_ok L -> exists r d, b64 r /\ b64 d /\ 1 < r < d /\
    f_spherical64 L 1 r 0 r = 1 + bpow radix2 (-52) /\ f_spherical64 L 1 r 0 d = 1 /\ c_spherical64 L 1 r 0 r = 1.
Proof. exact spherical_bad. Qed.
Print Assumptions C80_spherical_refuted.

(** Given the same C library, the Cython functions return the same bits as the Python ones for
    the linear, power and exponential models, and for the spherical one except at the range. *)
Theorem C80_backends :
  forall L p r e c d,
    c_linear64 p c d = f_linear64 p c d /\ c_power64 L p e c d = f_power64 L p e c d /\
    c_exponential64 L p r c d = f_exponential64 L p r c d /\
    (d <> r -> c_spherical64 L p r c d = f_spherical64 L p r c d).
Proof. exact all_backends. Qed.
Print Assumptions C80_backends.

(** For the Gaussian model they do not, even with a correctly rounded library: there are a range
    (about 1.976) and a lag where one returns twice the other. *)
Theorem C80_gaussian_refuted :
  exists L r d, libm_ok L /\ b64 r /\ b64 d /\ 1 < r /\ 0 < d /\
    f_gaussian64 L 1 r 0 d = bpow radix2 (-53) /\ c_gaussian64 L 1 r 0 d = bpow radix2 (-52).
Proof. exact gaussian_bad. Qed.
Print Assumptions C80_gaussian_refuted.

(** ** C81: coordinates with isotropic settings (scaling 1, angle 0: the stretching and rotation
    matrices are the identity) *)
(** A query point that equals a data point stays equal to it, and their distance is 0, even if
    the inner products of the two calls are computed in different ways. *)
Theorem C81_coincident :
  forall dot dot' ndim center p q, (ndim = 2 \/ ndim = 3)%nat -> exact_on_units dot -> exact_on_units dot' ->
    (forall j, (j < ndim)%nat -> p j = q j) ->
    (forall j, (j < ndim)%nat -> adjust64 dot ndim id_mat id_mat center p j = adjust64 dot' ndim id_mat id_mat center q j) /\
    dist64 ndim (adjust64 dot ndim id_mat id_mat center p) (adjust64 dot' ndim id_mat id_mat center q) = 0.
Proof. intros dot dot' ndim center p q N D D' H. split; [apply same_adjusted; assumption|apply same_distance; assumption]. Qed.
Print Assumptions C81_coincident.

(** The adjustment preserves the order of the coordinates and moves a coordinate by at most
    2^-51 of the largest coordinate. *)
Theorem C81_order_and_error :
  forall dot ndim center p q B j, exact_on_units dot -> (j < ndim)%nat ->
    (p j <= q j -> adjust64 dot ndim id_mat id_mat center p j <= adjust64 dot ndim id_mat id_mat center q j) /\
    (bpow radix2 (-1022) <= B -> Rabs (center j) <= B -> Rabs (p j) <= B ->
     Rabs (adjust64 dot ndim id_mat id_mat center p j - p j) <= bpow radix2 (-51) * B).
Proof. exact order_error. Qed.
Print Assumptions C81_order_and_error.

(** Positive coordinates within a factor three of each other are left exactly alone ... *)
Theorem C81_factor_three :
  forall dot ndim center p j l m, exact_on_units dot -> (j < ndim)%nat -> Forall b64 l -> center64 l = Some (center j) ->
    bpow radix2 (-900) <= m -> (forall x, List.In x l -> m <= x <= 3 * m) -> List.In (p j) l ->
    adjust64 dot ndim id_mat id_mat center p j = p j.
Proof. exact factor_three_adjust. Qed.
Print Assumptions C81_factor_three.

(** ... and so are multiples of a power of two that need at most 51 bits, such as whole numbers of
    metres: both the data and every query point of half that step. *)
Theorem C81_lattice :
  forall dot ndim center p j l k, exact_on_units dot -> (j < ndim)%nat -> (-1073 <= k)%Z -> center64 l = Some (center j) ->
    (forall x, List.In x l -> multiple k x /\ Rabs x < bpow radix2 (51 + k)) ->
    multiple (k - 1) (p j) -> Rabs (p j) < bpow radix2 (51 + k) ->
    adjust64 dot ndim id_mat id_mat center p j = p j.
Proof. exact lattice_adjust. Qed.
Print Assumptions C81_lattice.

(** In general distinct data points can become one, although nothing is stretched or rotated;
    without a nugget two columns of the kriging matrix are then equal, so it is singular. *)
Theorem C81_distinct_refuted :
  exists X center, (forall i j, b64 (X i j)) /\
    (forall j, (j < 2)%nat -> center64 [X 0%nat j; X 1%nat j; X 2%nat j] = Some (center j)) /\
    (forall i k, (i < 3)%nat -> (k < 3)%nat -> i <> k -> X i 0%nat <> X k 0%nat) /\
    forall dot vg, exact_on_units dot -> vg 0 = 0 ->
      let X' i := adjust64 dot 2 id_mat id_mat center (X i) in
      forall r, (r <= 3)%nat -> matrix64 2 3 vg X' r 0%nat = matrix64 2 3 vg X' r 1%nat.
Proof. exact distinct_bad. Qed.
Print Assumptions C81_distinct_refuted.

(** The kriging matrix is symmetric bit for bit, with zeros on the diagonal, and at a data point
    (no other one within 1e-10) the right-hand side is a column of it bit for bit. *)
Theorem C81_system :
  forall ndim n vg X, (ndim = 2 \/ ndim = 3)%nat ->
    (forall i j, matrix64 ndim n vg X i j = matrix64 ndim n vg X j i) /\
    (forall i, (i <= n)%nat -> matrix64 ndim n vg X i i = 0) /\
    forall p i, (i < n)%nat -> (forall k, (k < ndim)%nat -> p k = X i k) ->
      (forall j, (j < n)%nat -> j <> i -> rnd64 (1 / 10000000000) < dist64 ndim (X i) (X j)) ->
      forall j, (j <= n)%nat -> rhs64 ndim n vg true X p j = matrix64 ndim n vg X j i.
Proof. exact system_bits. Qed.
Print Assumptions C81_system.

(** Without exact_values the right-hand side at a data point differs from that column only in
    the row of the datum itself, where it is minus the variogram at 0 (minus the nugget, C80);
    and exact_values does not matter further than 1e-10 from all data. *)
Theorem C81_system_without_exact_values :
  forall ndim n vg X, (ndim = 2 \/ ndim = 3)%nat ->
    (forall p i, (i < n)%nat -> (forall k, (k < ndim)%nat -> p k = X i k) ->
      rhs64 ndim n vg false X p i = - vg 0 /\
      forall j, (j <= n)%nat -> j <> i -> rhs64 ndim n vg false X p j = matrix64 ndim n vg X j i) /\
    (forall p, (forall j, (j < n)%nat -> rnd64 (1 / 10000000000) < dist64 ndim p (X j)) ->
      forall exact j, (j <= n)%nat -> rhs64 ndim n vg exact X p j = rhs64 ndim n vg false X p j).
Proof. exact inexact_bits. Qed.
Print Assumptions C81_system_without_exact_values.

(** ** Non-vacuity *)
(** the correctly rounded library qualifies; inner products with and without fused operations *)
Example ex_library : libm_ok crlibm. Proof. exact crlibm_ok. Qed.
Example ex_dots : exact_on_units plain_dot /\ exact_on_units fused_dot.
Proof. split; [exact plain_dot_exact|exact fused_dot_exact]. Qed.
(** the lattice theorem applied to whole numbers: coordinates 0, 5000 and 12345 *)
Example ex_metres : exists c, center64 [0; 5000; 12345] = Some c /\
  forall x, List.In x [0; 5000; 12345] -> multiple 0 x /\ Rabs x < bpow radix2 (51 + 0).
Proof. exact metres. Qed.
(** and the factor-three theorem: eastings between 300 km and 700 km *)
Example ex_eastings : exists c, center64 [300000; 500000; 700000] = Some c /\ Forall b64 [300000; 500000; 700000] /\
  forall x, List.In x [300000; 500000; 700000] -> 300000 <= x <= 3 * 300000.
Proof. exact eastings. Qed.
