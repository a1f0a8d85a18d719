(** Generated by tools/gen_properties.py from PDetector4.v: the property theorems,
    verbatim, each closed by [exact]. Contains nothing else. *)
From Verif Require Import Vec Spec MMotion PMotion MLaue PLaue MMesh SMesh PMesh MScattering SScattering PScattering.
From Verif Require Import MStrain SStrain PStrain MBeam SBeam PBeam MPolycrystal SPolycrystal PPolycrystal.
From Verif Require Import MDetector SDetector PDetector PDetector2 PDetector3 PPolycrystal3.
From Verif Require Import PDetector4.
Open Scope R_scope.

(** The recorded incident angle is the angle, in degrees, between the ray and the
    reversed normal -(zhat x yhat). *)
Theorem C49_incident_angle : forall z d pd frames out r, built d ->
  rectangular (d_c0 d) (d_c1 d) (d_c2 d) -> fresh pd -> project z d pd frames = Ok out -> In r (pd_peaks out) ->
  exists dir, has_vec out r "K_out_x" "K_out_y" "K_out_z" dir /\
    has out r "incident_angle"
      (angle_between dir (vneg (plane_normal (d_c0 d) (d_c1 d) (d_c2 d))) * (180 / PI)).
Proof. exact pC49_incident_angle. Qed.
Print Assumptions C49_incident_angle.

(** Exchanging corners 1 and 2 describes the same physical rectangle; zd and yd are
    exchanged and the incident angle becomes its supplement. *)
Theorem C49_corner_order : forall z d d' v o zd yd a, built d -> built d' ->
  d_c0 d' = d_c0 d -> d_c1 d' = d_c2 d -> d_c2 d' = d_c1 d ->
  dot v (plane_normal (d_c0 d) (d_c1 d) (d_c2 d)) <> 0 ->
  get_intersection z d (nfin v) (nfin o) = (zd, yd, Fin a) ->
  get_intersection z d' (nfin v) (nfin o) = (yd, zd, Fin (180 - a)).
Proof. exact pC49_corner_order. Qed.
Print Assumptions C49_corner_order.

Example C49_pair_nonvacuous : exists d d' v o, built d /\ built d' /\ d_c0 d' = d_c0 d /\ d_c1 d' = d_c2 d /\ d_c2 d' = d_c1 d /\
  dot v (plane_normal (d_c0 d) (d_c1 d) (d_c2 d)) <> 0 /\
  (exists zd yd, get_intersection false d (nfin v) (nfin o) = (Fin zd, Fin yd, Fin 0)) /\
  (exists zd yd, get_intersection false d' (nfin v) (nfin o) = (Fin zd, Fin yd, Fin 180)).
Proof. exact xC49_pair. Qed.

(** The maximum Bragg angle taken from the detector is half of the largest angle
    between the beam and the directions of the four corners. *)
Theorem C34_half_of_largest_corner_angle : forall z d k src, k <> vzero ->
  let cs := [d_c0 d; d_c1 d; d_c2 d; vadd (d_c2 d) (vsub (d_c1 d) (d_c0 d))] in
  (forall c, In c cs -> c <> src) ->
  exists m, wrapping_cone z d k src = Fin (m / 2) /\
    (forall c, In c cs -> angle_between (vsub c src) k <= m) /\
    (exists c, In c cs /\ angle_between (vsub c src) k = m).
Proof. exact pC34_half_of_largest_corner_angle. Qed.
Print Assumptions C34_half_of_largest_corner_angle.

(** If no corner is more than 90 degrees away from the beam direction, the whole
    sensitive area is inside the cone of twice the maximum Bragg angle. *)
Theorem C34_cone_covers_detector : forall z d k src m p, k <> vzero ->
  (forall c, In c [d_c0 d; d_c1 d; d_c2 d; vadd (d_c2 d) (vsub (d_c1 d) (d_c0 d))] -> c <> src) ->
  wrapping_cone z d k src = Fin m -> 2 * m <= PI / 2 ->
  on_surface (d_c0 d) (d_c1 d) (d_c2 d) p -> p <> src ->
  angle_between (vsub p src) k <= 2 * m.
Proof. exact pC34_cone_covers_detector. Qed.
Print Assumptions C34_cone_covers_detector.

(** Back-scatter: the centre of a detector behind the sample is outside of the cone. *)
Theorem C34_backscatter_refuted : exists d k src m p, built d /\ rectangular (d_c0 d) (d_c1 d) (d_c2 d) /\ k <> vzero /\
  (forall z, wrapping_cone z d k src = Fin m) /\ on_surface (d_c0 d) (d_c1 d) (d_c2 d) p /\
  2 * m < angle_between (vsub p src) k.
Proof. exact pC34_backscatter_refuted. Qed.
Print Assumptions C34_backscatter_refuted.

(** The cone is taken from one representative source point.  A ray starting at
    another point of the sample may reach the detector at a larger angle. *)
Theorem C34_other_source_refuted : exists d k src src' m p, built d /\ rectangular (d_c0 d) (d_c1 d) (d_c2 d) /\ k <> vzero /\
  (forall z, wrapping_cone z d k src = Fin m) /\ 2 * m <= PI / 2 /\
  on_surface (d_c0 d) (d_c1 d) (d_c2 d) p /\ 2 * m < angle_between (vsub p src') k.
Proof. exact pC34_other_source_refuted. Qed.
Print Assumptions C34_other_source_refuted.

Example C34_square_nonvacuous : exists d, built d /\ rectangular (d_c0 d) (d_c1 d) (d_c2 d) /\
  (forall c, In c [d_c0 d; d_c1 d; d_c2 d; vadd (d_c2 d) (vsub (d_c1 d) (d_c0 d))] -> c <> vzero) /\
  exists m, (forall z, wrapping_cone z d (V3 1 0 0) vzero = Fin m) /\ 2 * m <= PI / 2.
Proof. exact xC34_square. Qed.

(** The box lies inside of the pixel array, and only covers complete rows and
    columns: a partial last row or column is never part of any box. *)
Theorem C35_box_inside_complete_pixels : forall z d vs k r0 r1 c0 c1, built d -> 0 < d_zmax d -> 0 < d_ymax d ->
  projected_box z d vs k = Some (r0, r1, c0, c1) ->
  (0 <= r0 <= r1)%Z /\ (0 <= c0 <= c1)%Z /\ (r1 <= Z.of_nat (d_nz d))%Z /\ (c1 <= Z.of_nat (d_ny d))%Z /\
  (d_zmax d < INR (d_nz d) * d_pz d -> (r1 <= Z.of_nat (d_nz d) - 1)%Z) /\
  (d_ymax d < INR (d_ny d) * d_py d -> (c1 <= Z.of_nat (d_ny d) - 1)%Z).
Proof. exact pC35_box_inside_complete_pixels. Qed.
Print Assumptions C35_box_inside_complete_pixels.

(** Suppose every vertex of the body projects forward onto the detector plane.
    If any point q of the body projects onto the detector, there is a box, and it
    contains the pixel row and column of that projection, unless these are
    partial (not completely inside of the detector). *)
Theorem C35_box_covers_projection : forall z d vs k q zd yd a, built d -> 0 < d_pz d -> 0 < d_py d ->
  (forall v, In v vs -> exists x y a', get_intersection z d (nfin k) (nfin v) = (Fin x, Fin y, a')) ->
  in_hull vs q -> get_intersection z d (nfin k) (nfin q) = (Fin zd, Fin yd, a) ->
  0 <= zd <= d_zmax d -> 0 <= yd <= d_ymax d ->
  exists r0 r1 c0 c1, projected_box z d vs k = Some (r0, r1, c0, c1) /\
    forall i j, IZR i * d_pz d <= zd < (IZR i + 1) * d_pz d -> IZR j * d_py d <= yd < (IZR j + 1) * d_py d ->
      (r0 <= i)%Z /\ (c0 <= j)%Z /\
      ((IZR i + 1) * d_pz d <= d_zmax d -> (i < r1)%Z) /\ ((IZR j + 1) * d_py d <= d_ymax d -> (j < c1)%Z).
Proof. exact pC35_box_covers_projection. Qed.
Print Assumptions C35_box_covers_projection.

(** Vertices whose ray never meets the plane do not change the box; if none does there is no box. *)
Theorem C35_missing_vertices_ignored : forall z d vs v ws k a, get_intersection z d (nfin k) (nfin v) = (NaN, NaN, a) ->
  projected_box z d (vs ++ v :: ws) k = projected_box z d (vs ++ ws) k.
Proof. exact pC35_missing_vertices_ignored. Qed.
Print Assumptions C35_missing_vertices_ignored.

Theorem C35_nothing_projected : forall z d vs k, (forall v, In v vs -> exists a, get_intersection z d (nfin k) (nfin v) = (NaN, NaN, a)) ->
  projected_box z d vs k = None.
Proof. exact pC35_nothing_projected. Qed.
Print Assumptions C35_nothing_projected.

(** A point that projects onto the detector, into a pixel of the array, but outside
    of its own box. *)
Theorem C35_partial_row_refuted : exists d v k zd yd a r0 r1 c0 c1, built d /\
  get_intersection false d (nfin k) (nfin v) = (Fin zd, Fin yd, a) /\
  det_contains d (Fin zd) (Fin yd) = true /\ projected_box false d [v] k = Some (r0, r1, c0, c1) /\
  IZR 1 * d_pz d <= zd < (IZR 1 + 1) * d_pz d /\ (1 < d_nz d)%nat /\ ~ (r0 <= 1 < r1)%Z.
Proof. exact pC35_partial_row_refuted. Qed.
Print Assumptions C35_partial_row_refuted.

Example C35_box_nonvacuous : exists d v k q zd yd a, built d /\ 0 < d_pz d /\ 0 < d_py d /\ in_hull [v] q /\
  get_intersection false d (nfin k) (nfin v) = (Fin zd, Fin yd, a) /\
  get_intersection false d (nfin k) (nfin q) = (Fin zd, Fin yd, a) /\ 0 <= zd <= d_zmax d /\ 0 <= yd <= d_ymax d /\
  IZR 0 * d_pz d <= zd < (IZR 0 + 1) * d_pz d /\ (IZR 0 + 1) * d_pz d <= d_zmax d.
Proof. exact xC35_box. Qed.

