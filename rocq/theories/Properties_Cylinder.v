(** Generated by tools/gen_properties.py from PCylinder.v: the property theorems,
    verbatim, each closed by [exact]. Contains nothing else. *)
From Verif Require Import Vec Spec MMotion MLaue MMesh MScattering MStrain MBeam MPolycrystal MDetector MTemplates STemplates.
From Verif Require Import PDetector PDetector4 PRender PMesh PLaue PStrain PPolycrystal PPolycrystal3 PPowder POdf POdf2.
From Coq Require Import String Permutation Ratan.
From Verif Require Import PCylinder.
Open Scope R_scope.

(** The surface handed to the mesh generator: 2n + 2 points, 4n triangles between them, closed
    without gaps - every edge belongs to exactly two triangles. *)
Theorem C76_watertight : forall n radius dz, (3 <= n)%nat ->
  List.length (cylinder_points n radius dz) = (2 * n + 2)%nat /\ List.length (cylinder_facets n) = (4 * n)%nat /\
  (forall a b c, In (a, b, c) (cylinder_facets n) -> (a < 2 * n + 2)%nat /\ (b < 2 * n + 2)%nat /\ (c < 2 * n + 2)%nat /\ a <> b /\ b <> c /\ c <> a) /\
  exists edges, NoDup edges /\ Permutation (flat_map facet_edges (cylinder_facets n)) (edges ++ edges).
Proof. exact pC76_watertight. Qed.
Print Assumptions C76_watertight.

(** Every point lies on the cylinder of the given radius and half-height: on a rim or at the
    centre of a cap. *)
Theorem C76_on_cylinder : forall n radius dz v, In v (cylinder_points n radius dz) ->
  (vz v = dz \/ vz v = - dz) /\ (vx v * vx v + vy v * vy v = radius * radius \/ (vx v = 0 /\ vy v = 0)).
Proof. exact pC76_on_cylinder. Qed.
Print Assumptions C76_on_cylinder.

(** The source says the caps are wound "for outward-facing normal": both caps face inward, while
    the side faces outward. *)
Theorem C76_outward_refuted : forall n radius dz i, (3 <= n)%nat -> 0 < radius -> 0 < dz -> (i < n)%nat ->
  let pts := cylinder_points n radius dz in let next := ((i + 1) mod n)%nat in
  In (2 * n, i, next)%nat (cylinder_facets n) /\ faces_in pts (2 * n, i, next)%nat /\
  In (2 * n + 1, n + next, n + i)%nat (cylinder_facets n) /\ faces_in pts (2 * n + 1, n + next, n + i)%nat /\
  In (i, next, n + i)%nat (cylinder_facets n) /\ faces_out pts (i, next, n + i)%nat /\
  In (next, n + next, n + i)%nat (cylinder_facets n) /\ faces_out pts (next, n + next, n + i)%nat.
Proof. exact pC76_outward_refuted. Qed.
Print Assumptions C76_outward_refuted.

(** Every element of the mesh the generator returns gets a rotation matrix as its orientation, the
    strain function's value at its own centroid, and the one phase. *)
Theorem C76_sample : forall x gen tetgen odf crystals height radius cell sg cif separation strain p,
  polycrystal_from_odf x gen tetgen odf crystals height radius cell sg cif separation strain = Ok p ->
  let N := List.length (me_enod (pc_mesh_lab p)) in
  List.length (pc_U p) = N /\ (forall U, In U (pc_U p) -> is_rotation U) /\
  pc_eps p = map strain (me_ecentroids (pc_mesh_lab p)) /\ List.length (pc_eps p) = N /\
  pc_map p = MapTensor (repeat 0 N) /\ pc_phases p = [Phase cell sg cif None None].
Proof. exact pC76_sample. Qed.
Print Assumptions C76_sample.

(** The cylinder has at least eight sides. *)
Theorem C76_sides : forall height radius crystals, (8 <= cylinder_sides height radius crystals)%nat.
Proof. exact pC76_sides. Qed.
Print Assumptions C76_sides.

(** Without strain, whenever the mesh generator returns a usable mesh and the density passes the
    sampler's checks at every element centroid, the sample is delivered. *)
Theorem C76_succeeds : forall x gen tetgen odf crystals height radius cell sg cif separation vertices elements me,
  (1 <= crystals)%nat -> (forall pts facets v, tetgen pts facets v = (vertices, elements)) -> build_mesh vertices elements = Ok me ->
  0 < separation <= PI -> INR (odf_count separation) < 10^7 ->
  (forall c, In c (me_ecentroids me) -> Rabs (odf_total (odf_bin_step separation) odf c - 1) < 5/100 /\
     forall g, In g (odf_grid (odf_bin_step separation)) -> 0 <= odf c (grid_quat g)) ->
  exists p, polycrystal_from_odf x gen tetgen odf crystals height radius cell sg cif separation (fun _ => mzero) = Ok p.
Proof. exact pC76_succeeds. Qed.
Print Assumptions C76_succeeds.

(** One regular corner tetrahedron as the generator's answer, uniform density. *)
Example C76_sample_nonvacuous : exists p, polycrystal_from_odf (ex_xtal []) first_gen (fun _ _ _ => (ex_coord, ex_enod)) (fun _ _ => / (PI * PI)) 1 1 1 [] "" None (PI / 4) (fun _ => mzero) = Ok p.
Proof. exact xC76_sample. Qed.

