(** Generated by tools/gen_properties.py from PMesh2.v: the property theorems,
    verbatim, each closed by [exact]. Contains nothing else. *)
From Verif Require Import Vec Spec MMotion PMotion MLaue PLaue MMesh SMesh PMesh.
From Verif Require Import PMesh2.
Open Scope R_scope.

(** When two corners of an element are the ends of a diameter of a ball around the element, then that
    ball, enlarged by 0.01%, is the one computed: the smallest possible one up to the enlargement. *)
Theorem C51_edge_ball_near_minimal : forall coord enod me i a b c d p q,
  build_mesh coord enod = Ok me -> corners me i a b c d -> In p [a; b; c; d] -> In q [a; b; c; d] ->
  (forall v, In v [a; b; c; d] -> in_ball (vscale (/ 2) (vadd p q)) (dist p q / 2) v) ->
  exists rad, nth_error (me_espherecentroids me) i = Some (vscale (/ 2) (vadd p q)) /\ nth_error (me_eradius me) i = Some rad /\
    rad = 10001 / 10000 * (dist p q / 2) /\
    forall ctr' rad', (forall v, In v [a; b; c; d] -> in_ball ctr' rad' v) -> rad <= 10001 / 10000 * rad'.
Proof. exact pC51_edge_ball_near_minimal. Qed.
Print Assumptions C51_edge_ball_near_minimal.

(** The ball is never larger than the circumscribed one, nor smaller than the longest edge demands
    (up to the enlargement). *)
Theorem C51_radius_bounds : forall coord enod me i a b c d ctr rad e,
  build_mesh coord enod = Ok me -> corners me i a b c d ->
  nth_error (me_espherecentroids me) i = Some ctr -> nth_error (me_eradius me) i = Some rad ->
  dist a e = dist b e -> dist a e = dist c e -> dist a e = dist d e ->
  rad <= 10001 / 10000 * dist a e /\ forall p q, In p [a; b; c; d] -> In q [a; b; c; d] -> 10001 / 10000 * (dist p q / 2) <= rad.
Proof. exact pC51_radius_bounds. Qed.
Print Assumptions C51_radius_bounds.

(** Every element centroid is the balance point of the four corners, the mesh centroid that of the
    element centroids. *)
Theorem C54_centroids : forall coord enod me i a b c d, build_mesh coord enod = Ok me -> corners me i a b c d ->
  (exists m, nth_error (me_ecentroids me) i = Some m /\ vadd (vadd (vsub a m) (vsub b m)) (vadd (vsub c m) (vsub d m)) = vzero) /\
  fold_right vadd vzero (map (fun m => vsub m (me_centroid me)) (me_ecentroids me)) = vzero.
Proof. exact pC54_centroids. Qed.
Print Assumptions C54_centroids.

(** translate shifts a mesh fresh from construction, rotate turns about the origin of the lab
    coordinates, update moves by the motion; the connectivity stays. *)
Theorem C53_operations : forall coord enod me, build_mesh coord enod = Ok me ->
  (forall v, me_coord (mesh_translate me v) = map (fun p => vadd p v) coord /\ me_enod (mesh_translate me v) = enod) /\
  (forall a w me', unit a -> mesh_rotate me a w = Ok me' -> me_coord me' = map (right_handed_rotation a w) coord /\ me_enod me' = enod) /\
  (forall a w, unit a -> (exists me', mesh_rotate me a w = Ok me') <-> 0 < w < PI) /\
  (forall m t, unit (m_axis m) -> me_coord (mesh_update me m t) = map (fun x => vadd (vadd (right_handed_rotation (m_axis m) (m_angle m * t) (vsub x (m_origin m))) (m_origin m)) (vscale t (m_trans m))) coord /\ me_enod (mesh_update me m t) = enod).
Proof. exact pC53_operations. Qed.
Print Assumptions C53_operations.

(** A flat tetrahedron covered by the ball on its longest edge. *)
Example C51_edge_ball_nonvacuous : exists me, build_mesh [V3 1 0 0; V3 (-1) 0 0; V3 0 (1/2) 0; V3 0 0 (1/2)] [(0, 1, 2, 3)%nat] = Ok me /\
  corners me 0 (V3 1 0 0) (V3 (-1) 0 0) (V3 0 (1/2) 0) (V3 0 0 (1/2)) /\
  (forall v, In v [V3 1 0 0; V3 (-1) 0 0; V3 0 (1/2) 0; V3 0 0 (1/2)] -> in_ball (vscale (/ 2) (vadd (V3 1 0 0) (V3 (-1) 0 0))) (dist (V3 1 0 0) (V3 (-1) 0 0) / 2) v) /\
  (exists e, dist (V3 1 0 0) e = dist (V3 (-1) 0 0) e /\ dist (V3 1 0 0) e = dist (V3 0 (1/2) 0) e /\ dist (V3 1 0 0) e = dist (V3 0 0 (1/2)) e).
Proof. exact xC51_edge_ball. Qed.

(** A translated, a rotated and a moved mesh exist. *)
Example C53_operations_nonvacuous : exists me me1, build_mesh [V3 7 6 1; V3 3 4 1; V3 7 3 7; V3 2 2 3] [(0, 1, 2, 3)%nat] = Ok me /\
  unit (V3 0 0 1) /\ mesh_rotate me (V3 0 0 1) (PI/2) = Ok me1.
Proof. exact xC53_operations. Qed.

(** C52. For every element of a built mesh, [evolumes] is a sixth of the signed
    parallelepiped volume of its corners, [ecentroids] their mean (four times the
    centroid is the sum of the corners) and [efaces] its four node triples. *)
Theorem C52_mesh_attributes : forall coord enod me i na nb nc nd a b c d,
  build_mesh coord enod = Ok me -> nth_error enod i = Some (na, nb, nc, nd) ->
  nth_error coord na = Some a -> nth_error coord nb = Some b -> nth_error coord nc = Some c -> nth_error coord nd = Some d ->
  corners me i a b c d /\
  nth_error (me_evolumes me) i = Some (signed_vol6 a b c d / 6) /\ signed_vol6 a b c d <> 0 /\
  nth_error (me_efaces me) i = Some [(na, nb, nc); (na, nb, nd); (na, nc, nd); (nb, nc, nd)] /\
  exists x, nth_error (me_ecentroids me) i = Some x /\ vscale 4 x = vadd (vadd (vadd a b) c) d.
Proof. exact pC52_mesh_attributes. Qed.
Print Assumptions C52_mesh_attributes.

(** C52. [centroid] is the plain mean of the element centroids: the number of elements
    times it is their sum. *)
Theorem C52_mesh_centroid : forall coord enod me,
  build_mesh coord enod = Ok me -> enod <> [] ->
  vscale (INR (List.length enod)) (me_centroid me) = fold_right vadd vzero (me_ecentroids me) /\
  List.length (me_ecentroids me) = List.length enod.
Proof. exact pC52_mesh_centroid. Qed.
Print Assumptions C52_mesh_centroid.

(** C52 finding. It is therefore not the centre of mass: two elements of different
    volume, whose volume-weighted mean centroid is elsewhere. *)
Theorem C52_centre_of_mass_refuted : exists coord enod me v0 v1 x0 x1,
  build_mesh coord enod = Ok me /\ me_evolumes me = [v0; v1] /\ me_ecentroids me = [x0; x1] /\ 0 < v0 /\ 0 < v1 /\
  vscale (v0 + v1) (me_centroid me) <> vadd (vscale v0 x0) (vscale v1 x1).
Proof. exact pC52_centre_of_mass_refuted. Qed.
Print Assumptions C52_centre_of_mass_refuted.

Example C52_mesh_nonvacuous : exists me, build_mesh [V3 7 6 1; V3 3 4 1; V3 7 3 7; V3 2 2 3] [(0, 1, 2, 3)%nat] = Ok me.
Proof. exact xC52_mesh. Qed.

