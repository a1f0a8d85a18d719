(** Generated by tools/gen_properties.py from PDeprecated.v: the property theorems,
    verbatim, each closed by [exact]. Contains nothing else. *)
From Verif Require Import Vec Spec MMotion MLaue MMesh MScattering MStrain MBeam MClip SClip PClip MPolycrystal SPolycrystal MDetector SDetector MDeprecated.
From Verif Require Import PScattering PDetector PDetector2 PDetector3 PDetector4 MRender SRender PRenderEx PExtra.
From Verif Require Import PDeprecated.
Open Scope R_scope.

(** The point returned is the point at which the ray meets the plane going forward; none is returned
    exactly when there is none (rays within 1e-10 of parallel aside). *)
Theorem C83_ray_point : forall d o v p, built d ->
  let n := plane_normal (d_c0 d) (d_c1 d) (d_c2 d) in
  n <> vzero -> / 10^10 <= Rabs (dot v n) / norm n ->
  (ray_hit d o v = Some (nfin p) <-> in_plane (d_c0 d) (d_c1 d) (d_c2 d) p /\ exists s, 0 <= s /\ p = ray_at o v s) /\
  (ray_hit d o v = None <-> forall s, 0 <= s -> ~ in_plane (d_c0 d) (d_c1 d) (d_c2 d) (ray_at o v s)).
Proof. exact pC83_ray_point. Qed.
Print Assumptions C83_ray_point.

(** The pixel coordinates of that point are the detector coordinates of the ray divided by the pixel sizes,
    and are returned exactly when they lie in the pixel array. *)
Theorem C83_pixel_coordinates : forall z d o v p, built d -> 0 < d_pz d -> 0 < d_py d ->
  dot v (plane_normal (d_c0 d) (d_c1 d) (d_c2 d)) <> 0 -> ray_hit d o v = Some p ->
  exists zd yd a, get_intersection z d (nfin v) (nfin o) = (Fin zd, Fin yd, a) /\
    (0 <= zd < INR (d_nz d) * d_pz d /\ 0 <= yd < INR (d_ny d) * d_py d -> world_to_pixel d p = Some (Fin (zd / d_pz d), Fin (yd / d_py d))) /\
    (~ (0 <= zd < INR (d_nz d) * d_pz d /\ 0 <= yd < INR (d_ny d) * d_py d) -> world_to_pixel d p = None).
Proof. exact pC83_pixel_coordinates. Qed.
Print Assumptions C83_pixel_coordinates.

(** On a detector of whole pixels both tests for a hit agree but on the two far edges. *)
Theorem C83_same_hits : forall z d o v p, built d -> 0 < d_pz d -> 0 < d_py d ->
  d_zmax d = INR (d_nz d) * d_pz d -> d_ymax d = INR (d_ny d) * d_py d ->
  dot v (plane_normal (d_c0 d) (d_c1 d) (d_c2 d)) <> 0 -> ray_hit d o v = Some p ->
  exists zd yd a, get_intersection z d (nfin v) (nfin o) = (Fin zd, Fin yd, a) /\
    (zd <> d_zmax d -> yd <> d_ymax d -> (det_contains d (Fin zd) (Fin yd) = true <-> world_to_pixel d p <> None)) /\
    (zd = d_zmax d \/ yd = d_ymax d -> world_to_pixel d p = None).
Proof. exact pC83_same_hits. Qed.
Print Assumptions C83_same_hits.

(** The two tests differ: a ray on the far edge is on the detector, but has no pixel ... *)
Theorem C83_far_edge_refuted : exists d o v p zd yd a, built d /\ norm v = 1 /\ ray_hit d o v = Some p /\
  get_intersection false d (nfin v) (nfin o) = (Fin zd, Fin yd, a) /\ det_contains d (Fin zd) (Fin yd) = true /\ world_to_pixel d p = None.
Proof. exact pC83_far_edge_refuted. Qed.
Print Assumptions C83_far_edge_refuted.

(** ... and with a partial last pixel a ray that misses the detector gets a pixel. *)
Theorem C83_beyond_edge_refuted : exists d o v p zd yd a zp yp, built d /\ norm v = 1 /\ ray_hit d o v = Some p /\
  get_intersection false d (nfin v) (nfin o) = (Fin zd, Fin yd, a) /\ det_contains d (Fin zd) (Fin yd) = false /\ world_to_pixel d p = Some (zp, yp).
Proof. exact pC83_beyond_edge_refuted. Qed.
Print Assumptions C83_beyond_edge_refuted.

(** A ray that hits the detector at grazing incidence is reported as parallel. *)
Theorem C83_grazing_refuted : exists d o v p, built d /\ norm v = 1 /\ hits (d_c0 d) (d_c1 d) (d_c2 d) o v p /\ ray_hit d o v = None.
Proof. exact pC83_grazing_refuted. Qed.
Print Assumptions C83_grazing_refuted.

(** The path length is the length of the ray inside the hull, up to the 1e-12 cut-off; 0 if there is no hull. *)
Theorem C83_path_length : forall hull points eqs simplices p dir L,
  hull points = Ok (eqs, simplices) -> List.length eqs = List.length simplices ->
  (forall h s, In (h, s) (combine eqs simplices) -> exists q, nth_error points (fst (fst s)) = Some q /\ dot (hs_n h) q + hs_d h = 0) ->
  unit_normals eqs -> (forall h, In h eqs -> dot (hs_n h) dir <> 0) -> length_inside eqs p dir L ->
  pixel_path_length hull p dir points = if Rltb (/ 10^12) L then L else 0.
Proof. exact pC83_path_length. Qed.
Print Assumptions C83_path_length.

Theorem C83_no_hull : forall hull points e p dir, hull points = Err e -> pixel_path_length hull p dir points = 0.
Proof. exact pC83_no_hull. Qed.
Print Assumptions C83_no_hull.

(** The pair is the sine of the Bragg angle and the length of G, whenever a Bragg angle exists. *)
Theorem C83_sin_theta : forall G wavelength s g, 0 < wavelength -> sin_theta_and_norm G wavelength = (s, g) ->
  g = norm G /\ (s <= 1 -> s = sin (bragg_angle G wavelength)) /\ (s <= 1 <-> wavelength * g <= 4 * PI).
Proof. exact pC83_sin_theta. Qed.
Print Assumptions C83_sin_theta.

(** A ray through the middle of a detector of whole pixels. *)
Example C83_middle_nonvacuous : exists d o v, built d /\ 0 < d_pz d /\ 0 < d_py d /\ d_zmax d = INR (d_nz d) * d_pz d /\ d_ymax d = INR (d_ny d) * d_py d /\
  dot v (plane_normal (d_c0 d) (d_c1 d) (d_c2 d)) <> 0 /\ norm v = 1 /\
  plane_normal (d_c0 d) (d_c1 d) (d_c2 d) <> vzero /\
  / 10^10 <= Rabs (dot v (plane_normal (d_c0 d) (d_c1 d) (d_c2 d))) / norm (plane_normal (d_c0 d) (d_c1 d) (d_c2 d)) /\
  ray_hit d o v = Some (nfin (V3 10 (3/2) (5/2))) /\ world_to_pixel d (nfin (V3 10 (3/2) (5/2))) = Some (Fin (5/2), Fin (3/2)).
Proof. exact xC83_middle. Qed.

(** A tetrahedron crossed from its right-angled corner to the middle of the opposite face. *)
Example C83_tetra_nonvacuous : exists (hull : list vec -> result (list halfspace * list (nat * nat * nat))) points eqs simplices p dir L,
  hull points = Ok (eqs, simplices) /\ List.length eqs = 4%nat /\ List.length simplices = 4%nat /\
  (forall h s, In (h, s) (combine eqs simplices) -> exists q, nth_error points (fst (fst s)) = Some q /\ dot (hs_n h) q + hs_d h = 0) /\
  unit_normals eqs /\ (forall h, In h eqs -> dot (hs_n h) dir <> 0) /\ norm dir = 1 /\ length_inside eqs p dir L /\ 1/2 < L.
Proof. exact xC83_tetra. Qed.

