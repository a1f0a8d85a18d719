(** Generated by tools/gen_properties.py from PClip.v: the property theorems,
    verbatim, each closed by [exact]. Contains nothing else. *)
From Verif Require Import Vec MBeam MClip SClip.
From Verif Require Import PClip.
Open Scope R_scope.

(** A line that is inside the body exactly for t in [lo, hi] gets the length hi - lo
    (0 when it is at most 1e-12), provided it lies on the inner side of the faces
    parallel to it -- in particular when no face is parallel to it. *)
Theorem C48_chord_length : forall planes p dir lo hi, chord planes p dir lo hi -> lo <= hi ->
  clip_length p dir planes = if Rltb (lo + / 10^12) hi then hi - lo else 0.
Proof. exact pC48_chord_length. Qed.
Print Assumptions C48_chord_length.

(** A line that misses a body without faces parallel to it gets length 0. *)
Theorem C48_miss_is_zero : forall planes p dir, (forall pl, In pl planes -> ~ parallel_to dir pl) -> misses planes p dir ->
  clip_length p dir planes = 0.
Proof. exact pC48_miss_is_zero. Qed.
Print Assumptions C48_miss_is_zero.

(** The length is never negative. *)
Theorem C48_nonnegative : forall planes p dir, 0 <= clip_length p dir planes.
Proof. exact pC48_nonnegative. Qed.
Print Assumptions C48_nonnegative.

(** Sliding the start point along the line changes nothing. *)
Theorem C48_start_point_irrelevant : forall planes p dir s, clip_length (on_line p dir s) dir planes = clip_length p dir planes.
Proof. exact pC48_start_point_irrelevant. Qed.
Print Assumptions C48_start_point_irrelevant.

(** Faces parallel to the line are ignored altogether ... *)
Theorem C48_parallel_faces_ignored : forall planes p dir par, (forall pl, In pl par -> parallel_to dir pl) ->
  clip_length p dir (par ++ planes) = clip_length p dir planes.
Proof. exact pC48_parallel_faces_ignored. Qed.
Print Assumptions C48_parallel_faces_ignored.

Theorem C48_parallel_face_refuted : exists planes p dir, norm dir = 1 /\ in_body planes (V3 (1/2) (1/2) (1/2)) /\
  misses planes p dir /\ clip_length p dir planes = 1.
Proof. exact pC48_parallel_face_refuted. Qed.
Print Assumptions C48_parallel_face_refuted.

(** The chord of the cube along x through its middle. *)
Example C48_cube_nonvacuous : chord unit_cube (V3 (-5) (1/2) (1/2)) (V3 1 0 0) 5 6 /\
  exists planes p dir, (forall pl, In pl planes -> ~ parallel_to dir pl) /\ misses planes p dir /\ (0 < List.length planes)%nat.
Proof. exact xC48_cube. Qed.

(** The planes handed to the clipping routine bound the same body as the hull equations. *)
Theorem C48_hull_body : forall eqs x, unit_normals eqs -> (in_body (hull_planes eqs) x <-> in_halfspaces eqs x).
Proof. exact pC48_hull_body. Qed.
Print Assumptions C48_hull_body.

(** So the clipped length is the length of the ray inside the hull, up to the 1e-12 cut-off, when no
    face is parallel to the ray. *)
Theorem C48_hull_length : forall eqs p dir L, unit_normals eqs -> (forall h, In h eqs -> dot (hs_n h) dir <> 0) -> length_inside eqs p dir L ->
  clip_length p dir (hull_planes eqs) = if Rltb (/ 10^12) L then L else 0.
Proof. exact pC48_hull_length. Qed.
Print Assumptions C48_hull_length.

Example C48_hull_nonvacuous : exists eqs p dir, unit_normals eqs /\ (forall h, In h eqs -> dot (hs_n h) dir <> 0) /\ length_inside eqs p dir (3/2) /\ List.length eqs = 3%nat.
Proof. exact xC48_hull. Qed.

