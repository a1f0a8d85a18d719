(** Generated by tools/gen_properties.py from PLevelset.v: the property theorems,
    verbatim, each closed by [exact]. Contains nothing else. *)
From Coq Require Import Ranalysis1 Rsqrt_def.
From Verif Require Import Vec Spec MLaue MMesh MDetector MBeam MLevelset SMesh SBeam SLevelset PLaue PMesh PDetector4 PBeam.
From Verif Require Import PLevelset.
Open Scope R_scope.

(** The mesh depends on the level set only through its values on an n x n x n grid over the cube. *)
Theorem C80_grid_only : forall marching build level_set level_set' R0 c n,
  0 < R0 -> 0 < c -> resolution R0 c n ->
  (forall p, sample_point R0 n p -> level_set p = level_set' p) ->
  mesh_from_levelset marching build level_set R0 c = mesh_from_levelset marching build level_set' R0 c.
Proof. exact pC80_grid_only. Qed.
Print Assumptions C80_grid_only.

(** Every surface vertex handed to the mesher lies in the cube and closer than the requested
    cell circumradius to a true zero of the level set. *)
Theorem C80_surface_close : forall marching build level_set f R0 c me,
  0 < R0 -> 0 < c -> vertices_in_crossed_cells marching -> (forall p, level_set p = Ok (f p)) -> continuous_along_lines f ->
  mesh_from_levelset marching build level_set R0 c = Ok me ->
  exists verts faces, verts <> [] /\ faces <> [] /\ me_enod me <> [] /\
    build verts faces (c^3/6) = Ok (me_coord me, me_enod me) /\
    forall v, In v verts -> in_cube R0 v /\ exists p, f p = 0 /\ in_cube R0 p /\ dist v p < c.
Proof. exact pC80_surface_close. Qed.
Print Assumptions C80_surface_close.

(** All nodes of the mesh lie in the cube [-R, R]^3, if the mesher does not leave the hull of the surface. *)
Theorem C80_mesh_in_cube : forall marching build level_set f R0 c me,
  0 < R0 -> 0 < c -> vertices_in_crossed_cells marching -> stays_in_hull build -> (forall p, level_set p = Ok (f p)) ->
  mesh_from_levelset marching build level_set R0 c = Ok me ->
  forall p, In p (me_coord me) -> in_cube R0 p.
Proof. exact pC80_mesh_in_cube. Qed.
Print Assumptions C80_mesh_in_cube.

(** Every exception is accounted for. *)
Theorem C80_errors : forall marching build level_set R0 c e,
  mesh_from_levelset marching build level_set R0 c = Err e ->
  (c = 0 /\ e = ZeroDivisionError) \/ (exists p, level_set p = Err e) \/ e = ValueError \/
  (exists vol n h, marching vol n h = Err e /\ e <> ValueError /\ e <> RuntimeError) \/
  (exists verts faces points elements, build verts faces (c^3/6) = Ok (points, elements) /\ build_mesh points elements = Err e).
Proof. exact pC80_errors. Qed.
Print Assumptions C80_errors.

Theorem C80_zero_circumradius : forall marching build level_set R0, mesh_from_levelset marching build level_set R0 0 = Err ZeroDivisionError.
Proof. exact pC80_zero_circumradius. Qed.
Print Assumptions C80_zero_circumradius.

(** A mesher that fails, or returns nothing, is reported as ValueError. *)
Theorem C80_mesher_fails : forall marching build level_set f R0 c,
  0 < R0 -> 0 < c -> (forall p, level_set p = Ok (f p)) ->
  (forall vol n h e, marching vol n h = Err e -> e = ValueError \/ e = RuntimeError) ->
  (forall verts faces vmax, (exists e, build verts faces vmax = Err e) \/ (exists es, build verts faces vmax = Ok ([], es)) \/ (exists ps, build verts faces vmax = Ok (ps, []))) ->
  mesh_from_levelset marching build level_set R0 c = Err ValueError.
Proof. exact pC80_mesher_fails. Qed.
Print Assumptions C80_mesher_fails.

(** A level set without a sign change on the grid is refused. *)
Theorem C80_no_sign_change : forall marching build level_set f R0 c n,
  0 < R0 -> 0 < c -> resolution R0 c n -> refuses_one_sign marching -> (forall p, level_set p = Ok (f p)) ->
  (forall p, sample_point R0 n p -> f p < 0) \/ (forall p, sample_point R0 n p -> 0 < f p) ->
  mesh_from_levelset marching build level_set R0 c = Err ValueError.
Proof. exact pC80_no_sign_change. Qed.
Print Assumptions C80_no_sign_change.

Theorem C80_small_body_missed : forall marching build level_set f R0 c,
  0 < R0 -> 4 * R0 / 21 < c -> refuses_one_sign marching -> (forall p, level_set p = Ok (f p)) ->
  (forall p, sqrt 3 * R0 / 19 <= norm p -> f p < 0) ->
  mesh_from_levelset marching build level_set R0 c = Err ValueError.
Proof. exact pC80_small_body_missed. Qed.
Print Assumptions C80_small_body_missed.

Example C80_slabs_nonvacuous : exists me, mesh_from_levelset mc_edges slab_build (fun p => Ok (slabs p)) 1 1 = Ok me /\
  vertices_in_crossed_cells mc_edges /\ vertex_on_crossed_edges mc_edges /\ refuses_one_sign mc_edges /\ stays_in_hull slab_build /\ keeps_nodes slab_build /\
  continuous_along_lines slabs.
Proof. exact xC80_slabs. Qed.

(** "bounding_radius: bounding radius of mesh" does not hold: the bound is the cube, not the ball.  For the
    level set |x|^2 - 1/4 every marching cubes that puts vertices on crossed edges and every mesher that keeps
    its input nodes give a mesh with a node outside the ball. *)
Theorem C80_bounding_radius_refuted : exists level_set R0 c, 0 < R0 /\ 0 < c /\
  (exists marching build me, vertices_in_crossed_cells marching /\ vertex_on_crossed_edges marching /\ refuses_one_sign marching /\
     stays_in_hull build /\ keeps_nodes build /\ mesh_from_levelset marching build level_set R0 c = Ok me) /\
  forall marching build me, vertex_on_crossed_edges marching -> keeps_nodes build ->
    mesh_from_levelset marching build level_set R0 c = Ok me -> exists p, In p (me_coord me) /\ R0 < norm p.
Proof. exact pC80_bounding_radius_refuted. Qed.
Print Assumptions C80_bounding_radius_refuted.

Theorem C80_circumradius_refuted : exists build,
  (forall verts faces vmax, 0 < vmax -> exists points elements, build verts faces vmax = Ok (points, elements) /\
     forall e, In e elements -> exists a b c d, gather_tet points e = Ok (Tet a b c d) /\ quality vmax a b c d) /\
  (exists marching level_set R0 c me, vertices_in_crossed_cells marching /\ 0 < R0 /\ 0 < c /\ mesh_from_levelset marching build level_set R0 c = Ok me) /\
  forall marching level_set f R0 c me, 0 < R0 -> 0 < c -> (forall p, level_set p = Ok (f p)) ->
    mesh_from_levelset marching build level_set R0 c = Ok me ->
    exists i rad, nth_error (me_eradius me) i = Some rad /\ c < rad.
Proof. exact pC80_circumradius_refuted. Qed.
Print Assumptions C80_circumradius_refuted.

Example C80_small_body_nonvacuous : exists f, f vzero > 0 /\ (forall p, sqrt 3 * 1 / 19 <= norm p -> f p < 0) /\
  4 * 1 / 21 < 1 /\ refuses_one_sign mc_edges /\ (exists p, f p = 0 /\ 2 * norm p > 2 * 1 / 19).
Proof. exact xC80_small_body. Qed.

Example C80_grid_nonvacuous : exists (level_set level_set' : vec -> result R) n, level_set <> level_set' /\ resolution 1 1 n /\
  (forall p, sample_point 1 n p -> level_set p = level_set' p).
Proof. exact xC80_grid. Qed.

Example C80_mesher_nonvacuous : forall vol n h e, mc_edges vol n h = Err e -> e = ValueError \/ e = RuntimeError.
Proof. exact xC80_mesher. Qed.

