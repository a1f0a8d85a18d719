(** Generated by tools/gen_properties.py from PDetector.v: the property theorems,
    verbatim, each closed by [exact]. Contains nothing else. *)
From Verif Require Import Vec Spec MMotion PMotion MLaue PLaue MMesh SMesh PMesh MScattering SScattering PScattering.
From Verif Require Import MStrain SStrain PStrain MBeam SBeam PBeam MPolycrystal SPolycrystal PPolycrystal.
From Verif Require Import MDetector SDetector.
From Verif Require Import PDetector.
Open Scope R_scope.

(** A ray that reaches the detector plane going forward gets the coordinates of
    the point where it does. *)
Theorem C28_round_trip : forall z d v o s, built d ->
  rectangular (d_c0 d) (d_c1 d) (d_c2 d) ->
  dot v (plane_normal (d_c0 d) (d_c1 d) (d_c2 d)) <> 0 -> 0 <= s ->
  in_plane (d_c0 d) (d_c1 d) (d_c2 d) (ray_at o v s) ->
  exists zd yd a, get_intersection z d (nfin v) (nfin o) = (Fin zd, Fin yd, Fin a) /\
    surface_point (d_c0 d) (d_c1 d) (d_c2 d) zd yd = ray_at o v s.
Proof. exact pC28_round_trip. Qed.
Print Assumptions C28_round_trip.

(** Conversely a point of the plane with coordinates (zd, yd) that is ahead on the
    ray is reported with exactly those coordinates. *)
Theorem C28_coordinates_exact : forall z d v o s zd yd, built d ->
  rectangular (d_c0 d) (d_c1 d) (d_c2 d) ->
  dot v (plane_normal (d_c0 d) (d_c1 d) (d_c2 d)) <> 0 -> 0 <= s ->
  surface_point (d_c0 d) (d_c1 d) (d_c2 d) zd yd = ray_at o v s ->
  exists a, get_intersection z d (nfin v) (nfin o) = (Fin zd, Fin yd, Fin a).
Proof. exact pC28_coordinates_exact. Qed.
Print Assumptions C28_coordinates_exact.

(** The plane lies behind the source: both coordinates are NaN. *)
Theorem C28_backward_nan : forall z d v o s, built d ->
  dot v (plane_normal (d_c0 d) (d_c1 d) (d_c2 d)) <> 0 -> s < 0 ->
  in_plane (d_c0 d) (d_c1 d) (d_c2 d) (ray_at o v s) ->
  exists a, get_intersection z d (nfin v) (nfin o) = (NaN, NaN, Fin a).
Proof. exact pC28_backward_nan. Qed.
Print Assumptions C28_backward_nan.

(** A ray parallel to the detector plane (including one inside the plane) never
    gets a finite coordinate, whatever the sign of the zero denominator. *)
Theorem C28_parallel_not_finite : forall z d v o zd yd a, built d ->
  dot v (plane_normal (d_c0 d) (d_c1 d) (d_c2 d)) = 0 ->
  get_intersection z d (nfin v) (nfin o) = (zd, yd, a) -> is_finite zd = false /\ is_finite yd = false.
Proof. exact pC28_parallel_not_finite. Qed.
Print Assumptions C28_parallel_not_finite.

(** Collinear corners are accepted by the constructor, and then no ray ever gets a
    finite coordinate. *)
Theorem C28_collinear_not_finite : forall z d dir src zd yd a, built d ->
  ~ non_collinear (d_c0 d) (d_c1 d) (d_c2 d) ->
  get_intersection z d dir src = (zd, yd, a) -> is_finite zd = false /\ is_finite yd = false.
Proof. exact pC28_collinear_not_finite. Qed.
Print Assumptions C28_collinear_not_finite.

(** The square detector at distance 10 along x, and a ray that hits it. *)
Example C28_square_nonvacuous : exists d, built d /\ rectangular (d_c0 d) (d_c1 d) (d_c2 d) /\
  dot (V3 2 0 0) (plane_normal (d_c0 d) (d_c1 d) (d_c2 d)) <> 0 /\
  in_plane (d_c0 d) (d_c1 d) (d_c2 d) (ray_at (V3 1 0 0) (V3 2 0 0) (9/2)) /\
  surface_point (d_c0 d) (d_c1 d) (d_c2 d) 1 1 = ray_at (V3 1 0 0) (V3 2 0 0) (9/2).
Proof. exact xC28_square. Qed.

Example C28_collinear_nonvacuous : exists d, built d /\ ~ non_collinear (d_c0 d) (d_c1 d) (d_c2 d).
Proof. exact xC28_collinear. Qed.

(** Skew corners are accepted, but the reported coordinates do not locate the
    point that was hit. *)
Theorem C28_skew_refuted : exists d v o s, built d /\ non_collinear (d_c0 d) (d_c1 d) (d_c2 d) /\ 0 < s /\
  on_surface (d_c0 d) (d_c1 d) (d_c2 d) (ray_at o v s) /\
  forall z, exists zd yd a, get_intersection z d (nfin v) (nfin o) = (Fin zd, Fin yd, Fin a) /\
    surface_point (d_c0 d) (d_c1 d) (d_c2 d) zd yd <> ray_at o v s.
Proof. exact pC28_skew_refuted. Qed.
Print Assumptions C28_skew_refuted.

