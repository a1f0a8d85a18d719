(** Generated by tools/gen_properties.py from PBeam.v: the property theorems,
    verbatim, each closed by [exact]. Contains nothing else. *)
From Verif Require Import Vec MMotion MLaue MMesh MScattering MBeam Spec SBeam.
From Verif Require Import PMotion PLaue PMesh PScattering PStrain.
From Coq Require Import Classical.
From Verif Require Import PBeam.
Open Scope R_scope.

(** C22. Every constructed beam: |k| = 2 pi / wavelength, k along the given
    direction, unit polarization, nearly orthogonal to k. *)
Theorem C22_beam_normalised : forall q vs dir w pol b, make_beam q vs dir w pol = Ok b -> 0 < w ->
  norm (b_wave_vector b) = 2 * PI / w /\
  (exists s, 0 < s /\ b_wave_vector b = vscale s dir) /\
  unit (b_polarization b) /\ (exists s, 0 < s /\ b_polarization b = vscale s pol) /\
  Rabs (dot (b_polarization b) (b_wave_vector b)) <= / 10^8 /\
  b_wavelength b = w /\ b_vertices b = vs.
Proof. exact pC22_beam_normalised. Qed.
Print Assumptions C22_beam_normalised.

(** C22. Exactly which inputs are accepted, given that the hull routine accepts
    the vertices: the admitted misalignment of the polarization, as the cosine
    of its angle to the beam, is 1e-8*wavelength/(2 pi). *)
Theorem C22_beam_accepts_iff : forall q vs dir w pol eqs,
  qh_nvert q vs = Ok (length vs) -> qh_eqs_QJ q vs = Ok eqs -> 0 < w ->
  ((exists b, make_beam q vs dir w pol = Ok b) <->
   dir <> vzero /\ pol <> vzero /\ Rabs (dot pol dir) <= / 10^8 * (w / (2 * PI)) * (norm pol * norm dir)).
Proof. exact pC22_beam_accepts_iff. Qed.
Print Assumptions C22_beam_accepts_iff.

Example C22_beam_nonvacuous : exists b, make_beam cube_qhull cube_pts (V3 2 0 0) 1 (V3 0 3 0) = Ok b.
Proof. exact xC22_beam. Qed.

(** C23. contains is true exactly strictly inside every bounding half-space. *)
Theorem C23_contains_strict : forall hs p, beam_contains hs p = true <-> strictly_inside hs p.
Proof. exact pC23_contains_strict. Qed.
Print Assumptions C23_contains_strict.

(** C23. Boundary points are outside. *)
Theorem C23_boundary_outside : forall hs h p, In h hs -> on_boundary_of h p -> beam_contains hs p = false.
Proof. exact pC23_boundary_outside. Qed.
Print Assumptions C23_boundary_outside.

(** C23. The inside is convex. *)
Theorem C23_inside_convex : forall hs p q s, 0 <= s <= 1 ->
  beam_contains hs p = true -> beam_contains hs q = true -> beam_contains hs (between s p q) = true.
Proof. exact pC23_inside_convex. Qed.
Print Assumptions C23_inside_convex.

(** C23. The batched form is the single-point form at every position. *)
Theorem C23_batch_pointwise : forall hs ps i,
  nth_error (beam_contains_batch hs ps) i = option_map (beam_contains hs) (nth_error ps i).
Proof. exact pC23_batch_pointwise. Qed.
Print Assumptions C23_batch_pointwise.

(** C23. What a constructed beam contains, relative to the hull equations of its
    vertices: the stored coefficients are rounded to six decimals, so points
    deeper than [rounding_at] are contained and points further out than that
    are not. *)
Theorem C23_rounded_hull : forall q vs dir w pol b eqs, make_beam q vs dir w pol = Ok b ->
  qh_eqs_QJ q vs = Ok eqs ->
  forall p,
  ((forall h, In h eqs -> dot (hs_n h) p + hs_d h < - rounding_at p) -> beam_contains (b_halfspaces b) p = true) /\
  ((exists h, In h eqs /\ rounding_at p <= dot (hs_n h) p + hs_d h) -> beam_contains (b_halfspaces b) p = false).
Proof. exact pC23_rounded_hull. Qed.
Print Assumptions C23_rounded_hull.

Example C23_cube_nonvacuous : strictly_inside cube_hs vzero /\ on_boundary_of (HS (V3 1 0 0) (-1)) (V3 1 0 0) /\
  (forall h, In h cube_hs -> dot (hs_n h) vzero + hs_d h < - rounding_at vzero).
Proof. exact xC23_cube. Qed.

(** C24. Reading back what was written returns an identical beam, for every
    beam reachable by construction and any number of vertex updates. *)
Theorem C24_roundtrip : forall q b, reachable_beam q b -> beam_undump q (beam_dump b) = Ok b.
Proof. exact pC24_roundtrip. Qed.
Print Assumptions C24_roundtrip.

(** C24. The same holds when the file is read with another convex-hull routine than it was written
    with (the joggled hull is not reproducible): the half-spaces come from the file. *)
Theorem C24_roundtrip_other_hull : forall q q' b b', reachable_beam q b -> beam_undump q' (beam_dump b) = Ok b' -> b' = b.
Proof. exact pC24_roundtrip_other_hull. Qed.
Print Assumptions C24_roundtrip_other_hull.

Example C24_beam_nonvacuous : exists b, reachable_beam cube_qhull b.
Proof. exact xC24_beam. Qed.

(** C24. A negative wavelength is accepted at construction, and such a beam
    comes back reversed. *)
Theorem C24_negative_wavelength_reverses : forall q vs dir w pol b b',
  make_beam q vs dir w pol = Ok b -> w < 0 -> beam_undump q (beam_dump b) = Ok b' ->
  b_wave_vector b' = vneg (b_wave_vector b).
Proof. exact pC24_negative_wavelength_reverses. Qed.
Print Assumptions C24_negative_wavelength_reverses.

(** C25. The point found by linear programming, whatever the LP solver and the
    least-squares step returned, is at least 1e-8 inside every half-space of
    both bodies. *)
Theorem C25_feasible_point_checked : forall lp lsq hs p,
  find_feasible lp lsq hs = Ok (Some p) -> forall h, In h hs -> dot (hs_n h) p + hs_d h < - / 10^8.
Proof. exact pC25_feasible_point_checked. Qed.
Print Assumptions C25_feasible_point_checked.

(** C25. Whenever the intersection routine goes on to call the half-space
    intersection, the interior point it passes on is strictly inside all
    half-spaces it passes on, which are those of the beam and of the body -
    provided the body's centroid is deeper inside the body than 100 times the
    largest rounding effect at the points tried (half-space coefficients are
    rounded to six decimals). *)
Theorem C25_interior_point_strict : forall q lp lsq bhs vs eqs hs p delta,
  qh_eqs q vs = Ok eqs ->
  (forall h v, In h eqs -> In v vs -> dot (hs_n h) v + hs_d h <= 0) ->
  rounding_at (mean_list vs) <= delta ->
  (forall v, In v vs -> rounding_at (vadd (mean_list vs) (vscale (99/100) (vsub v (mean_list vs)))) <= delta) ->
  (forall h, In h eqs -> dot (hs_n h) (mean_list vs) + hs_d h < - (100 * delta)) ->
  beam_intersect q lp lsq bhs vs = Ok (HalfspaceProblem hs p) ->
  strictly_inside hs p /\ incl bhs hs /\ (forall e, In e eqs -> In (hs_round e) hs).
Proof. exact pC25_interior_point_strict. Qed.
Print Assumptions C25_interior_point_strict.

(** C25. The body is passed on whole exactly when all its corners are strictly inside the beam. *)
Theorem C25_whole_body_iff : forall q lp lsq bhs vs,
  beam_intersect q lp lsq bhs vs = Ok WholeBody <->
  forall v h, In v vs -> In h bhs -> dot (hs_n h) v + hs_d h < 0.
Proof. exact pC25_whole_body_iff. Qed.
Print Assumptions C25_whole_body_iff.

(** C25. Nothing is returned only after the LP failed or its point was rejected;
    in particular no vertex, centroid or trial point of the body is in the beam. *)
Theorem C25_no_intersection_means : forall q lp lsq bhs vs,
  beam_intersect q lp lsq bhs vs = Ok NoIntersection ->
  beam_contains bhs (mean_list vs) = false /\
  forall v, In v vs -> beam_contains bhs (vadd (mean_list vs) (vscale (99/100) (vsub v (mean_list vs)))) = false.
Proof. exact pC25_no_intersection_means. Qed.
Print Assumptions C25_no_intersection_means.

(** C25. Rounding refutes the unconditional claim: the centroid handed on as
    interior point can violate a (rounded) half-space handed on with it,
    although it is strictly inside the exact body and inside the beam. *)
Theorem C25_interior_point_refuted : exists q lp lsq bhs vs eqs hs p,
  qh_eqs q vs = Ok eqs /\
  (forall h, In h eqs -> unit (hs_n h)) /\
  (forall h v, In h eqs -> In v vs -> dot (hs_n h) v + hs_d h <= 0) /\
  beam_intersect q lp lsq bhs vs = Ok (HalfspaceProblem hs p) /\
  strictly_inside eqs p /\ strictly_inside bhs p /\ ~ strictly_inside hs p.
Proof. exact pC25_interior_point_refuted. Qed.
Print Assumptions C25_interior_point_refuted.

Example C25_cube_nonvacuous : exists delta,
  rounding_at (mean_list cube_pts) <= delta /\
  (forall v, In v cube_pts -> rounding_at (vadd (mean_list cube_pts) (vscale (99/100) (vsub v (mean_list cube_pts)))) <= delta) /\
  (forall h, In h cube_hs -> dot (hs_n h) (mean_list cube_pts) + hs_d h < - (100 * delta)) /\
  exists hs p, beam_intersect cube_qhull (fun _ => None) (fun _ => Err LinAlgError) [HS (V3 1 0 0) (-1/2)] cube_pts = Ok (HalfspaceProblem hs p).
Proof. exact xC25_cube. Qed.

(** C26. The sampled time i of a candidate is covered by the returned intervals
    unless it lies in the cut tail described by [tail_cut], in which case it is
    not covered. *)
Theorem C26_covered_iff : forall col ts l i,
  length col = length ts -> (2 <= length col)%nat ->
  (forall i j, (i < j < length ts)%nat -> nth i ts 0 < nth j ts 0) ->
  proximity col ts = Some l -> (i < length col)%nat -> nth i col false = true ->
  (covered (nth i ts 0) l <-> ~ tail_cut col i).
Proof. exact pC26_covered_iff. Qed.
Print Assumptions C26_covered_iff.

(** C26. Every returned interval runs between sampled times around at least one
    candidate sample; [None] is returned exactly when there is no candidate. *)
Theorem C26_intervals_sound : forall col ts, (2 <= length col)%nat -> length col = length ts ->
  (forall i j, (i <= j < length ts)%nat -> nth i ts 0 <= nth j ts 0) ->
  (proximity col ts = None <-> forall i, (i < length col)%nat -> nth i col false = false) /\
  (forall l a b, proximity col ts = Some l -> In (a, b) l ->
     exists j, (j < length col)%nat /\ nth j col false = true /\ a <= nth j ts 0 <= b).
Proof. exact pC26_intervals_sound. Qed.
Print Assumptions C26_intervals_sound.

(** C26. The cut tail occurs: candidates at the first four of five equidistant
    samples, the last of them is not covered. *)
Theorem C26_tail_refuted : exists col l, length col = 5%nat /\
  proximity col (linspace01 5) = Some l /\ nth 3 col false = true /\ ~ covered (nth 3 (linspace01 5) 0) l.
Proof. exact pC26_tail_refuted. Qed.
Print Assumptions C26_tail_refuted.

Example C26_covers_nonvacuous : exists l, proximity [false; true; true; false; false] (linspace01 5) = Some l /\
  ~ tail_cut [false; true; true; false; false] 2 /\ covered (nth 2 (linspace01 5) 0) l.
Proof. exact xC26_covers. Qed.

(** C27. Conservative at every sampled time t, if the motion's inverse really
    inverts at t (see C03): a sphere that reaches the beam then - up to the
    effect of rounding the half-spaces to six decimals - is marked as
    candidate.  [p] is a point of the beam, seen in the sample frame at
    [p'] (i.e. p is p' moved), [c] the centre. *)
Theorem C27_conservative : forall q vs a w T o m centres radii mask ts k j t row c r p' eqs,
  make_motion a w T o = Ok m -> unit a ->
  candidate_spheres q vs m centres radii = Ok (mask, ts) -> length centres = length radii ->
  nth_error ts k = Some t -> nth_error mask k = Some row ->
  nth_error centres j = Some c -> nth_error radii j = Some r ->
  right_handed_rotation a (w * t) (vscale t T) = vscale t T ->
  (forall inv, motion_inverse m = Ok inv -> qh_eqs q (map (move_at inv t) vs) = Ok eqs /\
     (forall h, In h eqs -> unit (hs_n h) /\ forall v, In v (map (move_at inv t) vs) -> dot (hs_n h) v + hs_d h <= 0)) ->
  in_hull vs (move_at m t p') ->
  (1 + 3 / (2 * 10^6)) * dist (move_at m t p') (move_at m t c) + rounding_at p' <= r ->
  nth_error row j = Some true.
Proof. exact pC27_conservative. Qed.
Print Assumptions C27_conservative.

(** C27. At least three times are sampled, from 0 to 1. *)
Theorem C27_sampling : forall q vs m centres radii mask ts, length centres = length radii ->
  candidate_spheres q vs m centres radii = Ok (mask, ts) ->
  (3 <= length ts)%nat /\ length mask = length ts /\ nth 0 ts 0 = 0 /\ nth (length ts - 1) ts 0 = 1.
Proof. exact pC27_sampling. Qed.
Print Assumptions C27_sampling.

(** C27. Not conservative in general: quarter turn about z while translating by
    10 along x, beam the cube [-1,1]^3.  The sphere of radius 1 about (0,10,0)
    sits at time 1 exactly at the centre of the beam, but is not marked at
    time 1, although the hull equations used for that time are exactly those of
    the inversely moved beam vertices. *)
Theorem C27_conservative_refuted : exists q m mask ts row,
  make_motion (V3 0 0 1) (PI/2) (V3 10 0 0) vzero = Ok m /\
  candidate_spheres q cube_pts m [V3 0 10 0] [1] = Ok (mask, ts) /\
  (forall inv, motion_inverse m = Ok inv ->
     exists eqs, qh_eqs q (map (move_at inv 1) cube_pts) = Ok eqs /\
     (forall h, In h eqs -> unit (hs_n h) /\ forall v, In v (map (move_at inv 1) cube_pts) -> dot (hs_n h) v + hs_d h <= 0) /\
     (forall h, In h eqs -> exists v, In v (map (move_at inv 1) cube_pts) /\ on_boundary_of h v)) /\
  nth (length ts - 1) ts 0 = 1 /\ nth_error mask (length ts - 1) = Some row /\ nth_error row 0 = Some false /\
  move_at m 1 (V3 0 10 0) = vzero.
Proof. exact pC27_conservative_refuted. Qed.
Print Assumptions C27_conservative_refuted.

(** C27. The documented (3,n) layout of the centres raises for every n other than
    3; for n = 3 the array is read with rows and columns exchanged. *)
Theorem C27_documented_layout_raises : forall q vs m xs ys zs radii n,
  length xs = n -> length ys = n -> length zs = n -> n <> 3%nat ->
  candidate_spheres_doc q vs m xs ys zs radii = Err RuntimeError.
Proof. exact pC27_documented_layout_raises. Qed.
Print Assumptions C27_documented_layout_raises.

(** With exactly three spheres the documented layout is accepted but read by rows: the mask is the one of three
    other spheres, whose centres are the x, the y and the z coordinates. *)
Theorem C27_documented_layout_transposed : forall q vs m x1 x2 x3 y1 y2 y3 z1 z2 z3 radii,
  candidate_spheres_doc q vs m [x1; x2; x3] [y1; y2; y3] [z1; z2; z3] radii =
  candidate_spheres q vs m [V3 x1 x2 x3; V3 y1 y2 y3; V3 z1 z2 z3] radii.
Proof. exact pC27_documented_layout_transposed. Qed.
Print Assumptions C27_documented_layout_transposed.

Example C27_cube_nonvacuous : exists m mask ts row,
  make_motion (V3 0 0 1) 1 (V3 1 0 0) vzero = Ok m /\
  candidate_spheres cube_qhull cube_pts m [V3 (3/2) 0 0] [1] = Ok (mask, ts) /\
  nth_error ts 0 = Some 0 /\ nth_error mask 0 = Some row /\
  right_handed_rotation (V3 0 0 1) (1 * 0) (vscale 0 (V3 1 0 0)) = vscale 0 (V3 1 0 0) /\
  (forall inv, motion_inverse m = Ok inv -> qh_eqs cube_qhull (map (move_at inv 0) cube_pts) = Ok cube_hs /\
     (forall h, In h cube_hs -> unit (hs_n h) /\ forall v, In v (map (move_at inv 0) cube_pts) -> dot (hs_n h) v + hs_d h <= 0)) /\
  in_hull cube_pts (move_at m 0 (V3 1 0 0)) /\
  (1 + 3 / (2 * 10^6)) * dist (move_at m 0 (V3 1 0 0)) (move_at m 0 (V3 (3/2) 0 0)) + rounding_at (V3 1 0 0) <= 1.
Proof. exact xC27_cube. Qed.

