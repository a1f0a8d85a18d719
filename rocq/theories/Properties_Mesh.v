(** Generated by tools/gen_properties.py from PMesh.v: the property theorems,
    verbatim, each closed by [exact]. Contains nothing else. *)
From Verif Require Import Vec Spec MMotion PMotion MLaue PLaue MMesh SMesh.
From Verif Require Import PMesh.

(** Whenever a mesh is built from any coordinates and connectivity, each
    element's four face normals are the outward unit normals of the four faces,
    in the order in which the faces are listed. *)
Theorem C50_normals_outward : forall coord enod me i a b c d,
  build_mesh coord enod = Ok me -> corners me i a b c d ->
  exists n012 n013 n023 n123,
    nth_error (me_enormals me) i = Some [n012; n013; n023; n123] /\
    outward_normal a b c d n012 /\ outward_normal a b d c n013 /\
    outward_normal a c d b n023 /\ outward_normal b c d a n123.
Proof. exact pC50_normals_outward. Qed.
Print Assumptions C50_normals_outward.

(** Outward means: every normal sees every other point of the element behind the
    face, i.e. the element is exactly the intersection of the four half-spaces'
    closure side (here: all four corners are on the non-positive side). *)
Theorem C50_element_behind_faces : forall a b c d n p s t u,
  outward_normal a b c d n -> 0 <= s -> 0 <= t -> 0 <= u -> s + t + u <= 1 ->
  p = vadd a (vadd (vscale s (vsub b a)) (vadd (vscale t (vsub c a)) (vscale u (vsub d a)))) ->
  dot n (vsub p a) <= 0 /\ (dot n (vsub p a) = 0 <-> u = 0).
Proof. exact pC50_element_behind_faces. Qed.
Print Assumptions C50_element_behind_faces.

(** The bounding ball of each element of each mesh contains its four corners,
    and therefore the whole element. *)
Theorem C51_sphere_contains_element : forall coord enod me i a b c d,
  build_mesh coord enod = Ok me -> corners me i a b c d ->
  exists ctr rad, nth_error (me_espherecentroids me) i = Some ctr /\ nth_error (me_eradius me) i = Some rad /\
    forall s t u v, 0 <= s -> 0 <= t -> 0 <= u -> 0 <= v -> s + t + u + v = 1 ->
    in_ball ctr rad (vadd (vscale s a) (vadd (vscale t b) (vadd (vscale u c) (vscale v d)))).
Proof. exact pC51_sphere_contains_element. Qed.
Print Assumptions C51_sphere_contains_element.

(** Mesh construction succeeds exactly on in-range connectivity with no flat
    element; a flat element makes it raise LinAlgError. *)
Theorem C51_build_succeeds_iff : forall coord enod,
  (exists me, build_mesh coord enod = Ok me) <->
  (forall e, In e enod -> exists a b c d, gather_tet coord e = Ok (Tet a b c d) /\ signed_vol6 a b c d <> 0).
Proof. exact pC51_build_succeeds_iff. Qed.
Print Assumptions C51_build_succeeds_iff.

Theorem C51_flat_element_raises : forall a b c d, signed_vol6 a b c d = 0 ->
  build_mesh [a; b; c; d] [(0, 1, 2, 3)%nat] = Err LinAlgError.
Proof. exact pC51_flat_element_raises. Qed.
Print Assumptions C51_flat_element_raises.

Theorem C51_sphere_minimal_refuted : exists coord enod me a b c d ctr rad ctr' rad',
  build_mesh coord enod = Ok me /\ corners me 0 a b c d /\
  nth_error (me_espherecentroids me) 0 = Some ctr /\ nth_error (me_eradius me) 0 = Some rad /\
  (forall p, In p [a; b; c; d] -> in_ball ctr' rad' p) /\ rad > 13/10 * rad'.
Proof. exact pC51_sphere_minimal_refuted. Qed.
Print Assumptions C51_sphere_minimal_refuted.

(** ** C52 *)
Theorem C52_volume_rigid_invariant : forall f a b c d, proper_rigid f ->
  tet_volume (Tet (f a) (f b) (f c) (f d)) = tet_volume (Tet a b c d) /\
  evolume (Tet (f a) (f b) (f c) (f d)) = evolume (Tet a b c d).
Proof. exact pC52_volume_rigid_invariant. Qed.
Print Assumptions C52_volume_rigid_invariant.

(** The volume used for intensities is the absolute value of the mesh attribute,
    and both equal a sixth of the parallelepiped volume. *)
Theorem C52_volume_meaning : forall a b c d,
  tet_volume (Tet a b c d) = Rabs (signed_vol6 a b c d) / 6 /\
  evolume (Tet a b c d) = signed_vol6 a b c d / 6 /\
  tet_volume (Tet a b c d) = Rabs (evolume (Tet a b c d)) /\ 0 <= tet_volume (Tet a b c d) /\
  (0 < tet_volume (Tet a b c d) <-> signed_vol6 a b c d <> 0).
Proof. exact pC52_volume_meaning. Qed.
Print Assumptions C52_volume_meaning.

(** Reordering two nodes of an element flips the sign of the mesh attribute and
    leaves the volume used for intensities alone. *)
Theorem C52_node_order : forall a b c d,
  evolume (Tet a c b d) = - evolume (Tet a b c d) /\ tet_volume (Tet a c b d) = tet_volume (Tet a b c d) /\
  evolume (Tet b a c d) = - evolume (Tet a b c d) /\ tet_volume (Tet b a c d) = tet_volume (Tet a b c d).
Proof. exact pC52_node_order. Qed.
Print Assumptions C52_node_order.

(** "evolumes: per element volume" is negative for left-handed node orders. *)
Theorem C52_evolumes_nonneg_refuted : exists coord enod me v,
  build_mesh coord enod = Ok me /\ nth_error (me_evolumes me) 0 = Some v /\ v < 0.
Proof. exact pC52_evolumes_nonneg_refuted. Qed.
Print Assumptions C52_evolumes_nonneg_refuted.

(** Any number of translations followed by any number of updates and rotations
    (about exactly unit axes) leaves every public attribute equal to what a mesh
    freshly built from the current coordinates would have, and the current
    coordinates are a rigid image of the original ones. *)
Theorem C53_history_consistent : forall coord enod me vs ops me',
  enod <> [] -> build_mesh coord enod = Ok me -> Forall exact_move ops ->
  mesh_run me (map OTranslate vs ++ ops) = Ok me' ->
  (exists fresh, build_mesh (me_coord me') enod = Ok fresh /\ same_geometry me' fresh) /\
  me_enod me' = enod /\
  exists f, proper_rigid f /\ me_coord me' = map f coord.
Proof. exact pC53_history_consistent. Qed.
Print Assumptions C53_history_consistent.

(** A mesh that was updated and then translated has lost the update: its
    coordinates are the original coordinates plus the translation vector, for
    every motion, time and vector, while normals and centroids were moved. *)
Theorem C53_update_then_translate : forall coord enod me m t v me',
  build_mesh coord enod = Ok me -> mesh_run me [OUpdate m t; OTranslate v] = Ok me' ->
  me_coord me' = map (fun p => vadd p v) coord /\
  me_enormals me' = map (map (rot_at m t)) (me_enormals me) /\
  me_ecentroids me' = map (fun p => vadd (move_at m t p) v) (me_ecentroids me).
Proof. exact pC53_update_then_translate. Qed.
Print Assumptions C53_update_then_translate.

Theorem C53_any_history_refuted : exists coord enod me ops me' x,
  build_mesh coord enod = Ok me /\ mesh_run me ops = Ok me' /\
  Forall (fun o => match o with OUpdate m _ => unit (m_axis m) | ORotate a _ => unit a | OTranslate _ => True end) ops /\
  corners me' 0 (V3 0 0 0) (V3 1 0 0) (V3 0 1 0) (V3 0 0 1) /\
  nth_error (me_ecentroids me') 0 = Some x /\ x <> ecentroid (Tet (V3 0 0 0) (V3 1 0 0) (V3 0 1 0) (V3 0 0 1)).
Proof. exact pC53_any_history_refuted. Qed.
Print Assumptions C53_any_history_refuted.

(** Loading a saved mesh rebuilds it from the saved coordinates (mesh.py:300-320;
    the xdmf file itself is trusted to return what was written): after a
    translate-then-move history the loaded mesh has the same public attributes. *)
Theorem C53_rebuild_equals_incremental : forall coord enod me m t fresh,
  enod <> [] -> build_mesh coord enod = Ok me -> unit (m_axis m) ->
  build_mesh (map (move_at m t) coord) enod = Ok fresh ->
  same_geometry (mesh_update me m t) fresh.
Proof. exact pC53_rebuild_equals_incremental. Qed.
Print Assumptions C53_rebuild_equals_incremental.

(** Face j of element e consists of three of e's four nodes; each node is left
    out by exactly one face; normals are listed in face order. *)
Theorem C54_faces : forall coord enod me i a b c d,
  build_mesh coord enod = Ok me -> nth_error enod i = Some (a, b, c, d) ->
  nth_error (me_efaces me) i = Some [(a, b, c); (a, b, d); (a, c, d); (b, c, d)] /\
  length (me_efaces me) = length enod /\ length (me_enormals me) = length enod /\
  length (me_ecentroids me) = length enod /\ length (me_eradius me) = length enod /\
  length (me_espherecentroids me) = length enod /\ length (me_evolumes me) = length enod.
Proof. exact pC54_faces. Qed.
Print Assumptions C54_faces.

Example C50_mesh_nonvacuous : exists me, build_mesh [V3 7 6 1; V3 3 4 1; V3 7 3 7; V3 2 2 3] [(0, 1, 2, 3)%nat] = Ok me /\
  corners me 0 (V3 7 6 1) (V3 3 4 1) (V3 7 3 7) (V3 2 2 3).
Proof. exact xC50_mesh. Qed.

Example C53_history_nonvacuous : exists me me', build_mesh [V3 7 6 1; V3 3 4 1; V3 7 3 7; V3 2 2 3] [(0, 1, 2, 3)%nat] = Ok me /\
  mesh_run me (map OTranslate [V3 1 0 0; V3 0 2 0] ++ [ORotate (V3 0 0 1) (PI/2); OUpdate (Motion (V3 0 0 1) 1 vzero vzero) (1/2)]) = Ok me' /\
  Forall exact_move [ORotate (V3 0 0 1) (PI/2); OUpdate (Motion (V3 0 0 1) 1 vzero vzero) (1/2)].
Proof. exact xC53_history. Qed.

