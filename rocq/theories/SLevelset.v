(** * Specification vocabulary for meshes made from a level set. *)
From Verif Require Import Vec Spec MLevelset SBeam.
Open Scope R_scope.

(** n is the largest whole number up to 4 R / c, but at least 20. *)
Definition resolution (R0 c : R) (n : nat) : Prop :=
  (20 <= n)%nat /\ 4 * R0 / c < INR n + 1 /\ (n = 20%nat \/ INR n <= 4 * R0 / c).
(** The n equidistant numbers from -R to R. *)
Definition tick (R0 : R) (n i : nat) : R := - R0 + 2 * R0 * INR i / (INR n - 1).
Definition sample_point (R0 : R) (n : nat) (p : vec) : Prop :=
  exists i j k, (i < n)%nat /\ (j < n)%nat /\ (k < n)%nat /\ p = V3 (tick R0 n i) (tick R0 n j) (tick R0 n k).
Definition in_cube (R0 : R) (p : vec) : Prop :=
  - R0 <= vx p <= R0 /\ - R0 <= vy p <= R0 /\ - R0 <= vz p <= R0.
(** Continuity, as far as it is needed: along every straight line. *)
Definition continuous_along_lines (f : vec -> R) : Prop :=
  forall p d, continuity (fun t => f (vadd p (vscale t d))).

(** What the manual of scikit-image promises about marching cubes at level 0.
    Every vertex lies in a cell of the grid two of whose corners have values of
    opposite sign (or zero); *)
Definition at_ends (i a : nat) : Prop := a = i \/ a = S i.
Definition vertices_in_crossed_cells (marching : marching_cubes) : Prop :=
  forall vol n h verts faces, 0 < vx h -> 0 < vy h -> 0 < vz h -> marching vol n h = Ok (verts, faces) ->
  forall v, In v verts -> exists i j k, (S i < n)%nat /\ (S j < n)%nat /\ (S k < n)%nat /\
    INR i * vx h <= vx v <= INR (S i) * vx h /\ INR j * vy h <= vy v <= INR (S j) * vy h /\
    INR k * vz h <= vz v <= INR (S k) * vz h /\
    exists a b c a' b' c', at_ends i a /\ at_ends j b /\ at_ends k c /\ at_ends i a' /\ at_ends j b' /\ at_ends k c' /\
      vol a b c <= 0 <= vol a' b' c'.
(** every grid edge along the first axis whose ends have strictly opposite signs carries a vertex; *)
Definition vertex_on_crossed_edges (marching : marching_cubes) : Prop :=
  forall vol n h verts faces, 0 < vx h -> 0 < vy h -> 0 < vz h -> marching vol n h = Ok (verts, faces) ->
  forall i j k, (S i < n)%nat -> (j < n)%nat -> (k < n)%nat -> vol i j k * vol (S i) j k < 0 ->
  exists v, In v verts /\ INR i * vx h <= vx v <= INR (S i) * vx h /\ vy v = INR j * vy h /\ vz v = INR k * vz h.
(** and a volume whose values all have the same strict sign is refused with ValueError. *)
Definition refuses_one_sign (marching : marching_cubes) : Prop :=
  forall vol n h, (forall i j k, (i < n)%nat -> (j < n)%nat -> (k < n)%nat -> vol i j k < 0) \/
                  (forall i j k, (i < n)%nat -> (j < n)%nat -> (k < n)%nat -> 0 < vol i j k) ->
  marching vol n h = Err ValueError.
(** The mesher adds nodes only inside the surface's convex hull / returns the nodes it was given. *)
Definition stays_in_hull (build : tet_build) : Prop :=
  forall verts faces vmax points elements, build verts faces vmax = Ok (points, elements) ->
  forall p, In p points -> SBeam.in_hull verts p.
Definition keeps_nodes (build : tet_build) : Prop :=
  forall verts faces vmax points elements, build verts faces vmax = Ok (points, elements) ->
  forall p, In p verts -> In p points.
(** What TetGen promises for a volume bound vmax (and its default quality bound 2): no element larger than
    vmax, and every element has all its corners on a sphere whose radius is at most twice its shortest edge. *)
Definition quality (vmax : R) (a b c d : vec) : Prop :=
  Rabs (signed_vol6 a b c d) / 6 <= vmax /\
  exists ctr rad, (forall p, In p [a; b; c; d] -> dist p ctr = rad) /\
    forall p q, In p [a; b; c; d] -> In q [a; b; c; d] -> p <> q -> rad <= 2 * dist p q.
