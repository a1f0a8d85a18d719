(** Generated by tools/gen_properties.py from PFloat2.v: the property theorems,
    verbatim, each closed by [exact]. Contains nothing else. *)
From Coq Require Import ZArith Reals Lra Lia Psatz List Floats.SpecFloat.
From Flocq Require Import Core Mult_error.
From Verif Require Import Num MFloat MFloat2 SFloat PFloat MDetector SDetector PDetector PDetector2 PDetector3.
From Verif Require Import PFloat2.
Open Scope R_scope.

(** In double precision, for every length and every requested number of rows, the array
    has the requested number of rows or one more - never fewer, never two more. *)
Theorem C30_requested_pixels_rounding : forall L n, finite_double L -> 0 < double_value L ->
  (1 <= n <= 2 ^ 50)%Z -> powerRZ 2 (-1022) <= double_value L / IZR n ->
  f64_grid_rows L n = n \/ f64_grid_rows L n = (n + 1)%Z.
Proof. exact pC30_requested_pixels_rounding. Qed.
Print Assumptions C30_requested_pixels_rounding.

(** A power of two is always met exactly. *)
Theorem C30_power_of_two_rounding : forall L k, finite_double L -> 0 < double_value L ->
  (0 <= k <= 50)%Z -> powerRZ 2 (-1022) <= double_value L / IZR (2 ^ k) ->
  f64_grid_rows L (2 ^ k) = (2 ^ k)%Z.
Proof. exact pC30_power_of_two_rounding. Qed.
Print Assumptions C30_power_of_two_rounding.

(** With a given pixel size the array has, in double precision, the number of rows of the
    exact quotient, or one fewer; the latter only if the missing row would cover less than
    2^-52 of the number of rows, in pixels. *)
Theorem C30_pixel_size_rounding : forall L p, finite_double L -> finite_double p ->
  0 < double_value p <= double_value L -> double_value L / double_value p <= powerRZ 2 50 ->
  f64_pixel_rows L p = ceil (double_value L / double_value p) \/
  (f64_pixel_rows L p = (ceil (double_value L / double_value p) - 1)%Z /\
   double_value L / double_value p - IZR (f64_pixel_rows L p) <= double_value L / double_value p * powerRZ 2 (-53)).
Proof. exact pC30_pixel_size_rounding. Qed.
Print Assumptions C30_pixel_size_rounding.

(** Such a request exists: 1 length unit in pixels of 1/3 rounded down. *)
Theorem C30_pixel_size_rounding_refuted : exists L p, finite_double L /\ finite_double p /\
  0 < double_value p <= double_value L /\
  f64_pixel_rows L p = 3%Z /\ ceil (double_value L / double_value p) = 4%Z.
Proof. exact pC30_pixel_size_rounding_refuted. Qed.
Print Assumptions C30_pixel_size_rounding_refuted.

Example C30_rounding_nonvacuous : f64_grid_rows (f64_of_Z 512) 49 = 50%Z /\ f64_grid_rows (f64_of_Z 512) 48 = 48%Z /\
  finite_double (f64_of_Z 512) /\ 0 < double_value (f64_of_Z 512) /\
  powerRZ 2 (-1022) <= double_value (f64_of_Z 512) / IZR 49.
Proof. exact xC30_rounding. Qed.

(** In double precision the frame of a time t is the frame f with f/n < t <= (f+1)/n up to
    2^-51 on either edge, for every number of frames up to 2^40. *)
Theorem C31_rounded_bin : forall n t, (1 <= n <= 2 ^ 40)%Z -> finite_double t -> 0 <= double_value t <= 1 ->
  (0 <= f64_frame n t < n)%Z /\
  (f64_frame n t = 0%Z \/ IZR (f64_frame n t) / IZR n - powerRZ 2 (-51) < double_value t) /\
  double_value t <= (IZR (f64_frame n t) + 1) / IZR n + powerRZ 2 (-51).
Proof. exact pC31_rounded_bin. Qed.
Print Assumptions C31_rounded_bin.

(** Away from the inner edges the rounded frame is the exact one, so that the theorems about
    frames in exact arithmetic hold of the program in double precision. *)
Theorem C31_rounded_exact : forall n t, (1 <= n <= 2 ^ 40)%Z -> finite_double t -> 0 <= double_value t <= 1 ->
  (forall k, (0 < k < n)%Z -> powerRZ 2 (-51) < Rabs (double_value t - IZR k / IZR n)) ->
  f64_frame n t = frame_of n (Fin (double_value t)).
Proof. exact pC31_rounded_exact. Qed.
Print Assumptions C31_rounded_exact.

(** Monotone in the time also in double precision. *)
Theorem C31_rounded_monotone : forall n t t', (1 <= n <= 2 ^ 40)%Z -> finite_double t -> finite_double t' ->
  0 <= double_value t -> double_value t <= double_value t' -> double_value t' <= 1 ->
  (f64_frame n t <= f64_frame n t')%Z.
Proof. exact pC31_rounded_monotone. Qed.
Print Assumptions C31_rounded_monotone.

(** But a time just above an inner edge can be put into the frame before it: with 3 frames
    the second inner edge is rounded up, and the double between 2/3 and it is in frame 1. *)
Theorem C31_rounded_refuted : exists n t, finite_double t /\ 0 <= double_value t <= 1 /\
  f64_frame n t = 1%Z /\ frame_of n (Fin (double_value t)) = 2%Z.
Proof. exact pC31_rounded_refuted. Qed.
Print Assumptions C31_rounded_refuted.

Example C31_rounded_nonvacuous : f64_frame 10 (f64_div (f64_of_Z 1) (f64_of_Z 4)) = 2%Z /\
  finite_double (f64_div (f64_of_Z 1) (f64_of_Z 4)) /\
  0 <= double_value (f64_div (f64_of_Z 1) (f64_of_Z 4)) <= 1 /\
  (forall k, (0 < k < 10)%Z -> powerRZ 2 (-51) < Rabs (double_value (f64_div (f64_of_Z 1) (f64_of_Z 4)) - IZR k / IZR 10)).
Proof. exact xC31_rounded. Qed.

