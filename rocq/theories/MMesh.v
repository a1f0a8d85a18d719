(** * Model of xrd_simulator/mesh.py (TetraMesh) and the tetrahedron helpers of
    utils.py.  No proofs in this file. *)
From Verif Require Import Vec MMotion MLaue.

(** One tetrahedron: coord[enod[i]] (mesh.py:454, 491). *)
Record tet := Tet { q0 : vec; q1 : vec; q2 : vec; q3 : vec }.
Definition tet_list (t : tet) : list vec := [q0 t; q1 t; q2 t; q3 t].
Definition tet_map (f : vec -> vec) (t : tet) : tet := Tet (f (q0 t)) (f (q1 t)) (f (q2 t)) (f (q3 t)).

(** mesh.py:406, coord[efaces]: the corner points of the four faces (012, 013, 023,
    123) of an element; [elem_faces] below is the index version. *)
Definition tet_faces (t : tet) : list (vec * vec * vec) :=
  [(q0 t, q1 t, q2 t); (q0 t, q1 t, q3 t); (q0 t, q2 t, q3 t); (q1 t, q2 t, q3 t)].

(** mesh.py:439-459 _compute_mesh_volumes: (1/6) (a x b).c, signed. *)
Definition evolume (t : tet) : R :=
  (1/6) * dot (cross (vsub (q1 t) (q0 t)) (vsub (q2 t) (q0 t))) (vsub (q3 t) (q0 t)).

(** utils.py:797-806 _compute_tetrahedra_volumes: |det [v21 v31 v41]| / 6 with the
    edge vectors as columns. *)
Definition tet_volume (t : tet) : R :=
  Rabs (det (mT (M3 (vsub (q1 t) (q0 t)) (vsub (q2 t) (q0 t)) (vsub (q3 t) (q0 t))))) / 6.

(** torch.mean over 3 / 4 points. *)
Definition mean3 (a b c : vec) : vec := vscale (/3) (vadd (vadd a b) c).
Definition mean4 (a b c d : vec) : vec := vscale (/4) (vadd (vadd (vadd a b) c) d).
(** mesh.py:436 element centroid. *)
Definition ecentroid (t : tet) : vec := mean4 (q0 t) (q1 t) (q2 t) (q3 t).

(** mesh.py:407-418 _compute_mesh_normals for one face of one element.
    [c] is the mean of the face centres (414).  The division by a zero norm
    (degenerate face) yields NaN in the code; such elements never survive mesh
    construction (see [build_mesh]), so the result type is a plain vector. *)
Definition face_normal_raw (f : vec * vec * vec) : vec :=
  let '(a, b, c) := f in cross (vsub b a) (vsub c a).
Definition face_center (f : vec * vec * vec) : vec := let '(a, b, c) := f in mean3 a b c.
Definition face_normal (t : tet) (f : vec * vec * vec) : vec :=
  let n := face_normal_raw f in
  let fc := map face_center (tet_faces t) in
  let c := match fc with [a; b; c; d] => mean4 a b c d | _ => vzero end in
  let s := dot (vsub (face_center f) c) n in
  let sign := if Rle_dec 0 s then 1 else -1 in
  vscale sign (vscale (/ norm n) n).
Definition enormals (t : tet) : list vec := map (face_normal t) (tet_faces t).

(** ** Bounding spheres, mesh.py:461-562 *)
(** utils.py:390-427 _compute_sides in the order 01 02 03 12 13 23. *)
Definition tet_sides (t : tet) : list R :=
  [dist (q0 t) (q1 t); dist (q0 t) (q2 t); dist (q0 t) (q3 t);
   dist (q1 t) (q2 t); dist (q1 t) (q3 t); dist (q2 t) (q3 t)].

(** torch.argmax: first index of a maximal value. *)
Fixpoint argmax_from (i best : nat) (bv : R) (l : list R) : nat :=
  match l with
  | [] => best
  | x :: xs => if Rlt_dec bv x then argmax_from (S i) i x xs else argmax_from (S i) best bv xs
  end.
Definition argmax (l : list R) : nat :=
  match l with [] => 0%nat | x :: xs => argmax_from 1 0 x xs end.

(** mesh.py:493-514: the furthest pair and the two other vertices (the latter in
    increasing index order). *)
Definition split_pair (t : tet) (k : nat) : (vec * vec) * (vec * vec) :=
  match k with
  | 0%nat => ((q0 t, q1 t), (q2 t, q3 t))
  | 1%nat => ((q0 t, q2 t), (q1 t, q3 t))
  | 2%nat => ((q0 t, q3 t), (q1 t, q2 t))
  | 3%nat => ((q1 t, q2 t), (q0 t, q3 t))
  | 4%nat => ((q1 t, q3 t), (q0 t, q2 t))
  | _ => ((q2 t, q3 t), (q0 t, q1 t))
  end.

(** the slack factor 1.0001 of utils.py:449, 485, 538 *)
Definition slack : R := 10001 / 10000.

(** utils.py:447-449 _circumsphere_of_segments. *)
Definition seg_sphere (a b : vec) : vec * R :=
  let c := vscale (/2) (vadd a b) in (c, norm (vsub c a) * slack).
(** utils.py:469-485 _circumsphere_of_triangles. *)
Definition tri_sphere (p q r : vec) : vec * R :=
  let ab := vsub q p in
  let ac := vsub r p in
  let n := cross ab ac in
  let n' := cross ac ab in
  let d := vscale (/ (2 * (norm n)^2))
             (vadd (vscale ((norm ac)^2) (cross n ab)) (vscale ((norm ab)^2) (cross n' ac))) in
  (vadd p d, norm d * slack).
(** Inverse of a 3x3 matrix times a vector (torch.linalg.inv(A) @ B), by Cramer. *)
Definition solve3 (A : mat) (b : vec) : vec :=
  let C := M3 (cross (r2 A) (r3 A)) (cross (r3 A) (r1 A)) (cross (r1 A) (r2 A)) in
  vscale (/ det A) (mv (mT C) b).
(** utils.py:506-538 _circumsphere_of_tetrahedrons; torch.linalg.inv raises
    LinAlgError on an exactly singular matrix. *)
Definition tet_A (t : tet) : mat := M3 (vsub (q1 t) (q0 t)) (vsub (q2 t) (q0 t)) (vsub (q3 t) (q0 t)).
Definition tet_sphere (t : tet) : result (vec * R) :=
  let A := tet_A t in
  let b := vscale (1/2) (V3 ((norm (q1 t))^2 - (norm (q0 t))^2)
                            ((norm (q2 t))^2 - (norm (q0 t))^2)
                            ((norm (q3 t))^2 - (norm (q0 t))^2)) in
  if Req_EM_T (det A) 0 then Err LinAlgError
  else let c := solve3 A b in Ok (c, norm (vsub (q0 t) c) * slack).

(** mesh.py:504-560 for one element: (centre, radius).  The 3-d system is solved
    for every element before selection (548), so singular elements raise even
    when a lower-dimensional sphere would have been selected. *)
Definition bounding_sphere (t : tet) : result (vec * R) :=
  let '((f1, f2), (o1, o2)) := split_pair t (argmax (tet_sides t)) in
  let '(c1, rad1) := seg_sphere f1 f2 in
  let d1 := dist o1 c1 in
  let d2 := dist o2 c1 in
  let solved1 := Rleb (d1 - rad1) 0 && Rleb (d2 - rad1) 0 in
  let third := if Nat.eqb (argmax [d1; d2]) 0 then o1 else o2 in
  let '(c2, rad2) := tri_sphere f1 f2 third in
  let solved2 := forallb (fun v => Rleb (dist v c2 - rad2) 0) (tet_list t) in
  let* s3 := tet_sphere t in
  if solved1 then Ok (c1, rad1) else if solved2 then Ok (c2, rad2) else Ok s3.

(** ** The mesh object (mesh.py:71-83).  [me_points] is the meshio mesh's own
    point array (_mesh.points); at construction it is the same memory as coord,
    [update] rebinds coord but not _mesh.points. *)
Record mesh := Mesh {
  me_points : list vec;
  me_coord : list vec;
  me_enod : list (nat * nat * nat * nat);
  me_efaces : list (list (nat * nat * nat));
  me_enormals : list (list vec);
  me_ecentroids : list vec;
  me_eradius : list R;
  me_espherecentroids : list vec;
  me_centroid : vec;
  me_evolumes : list R
}.

(** coord[enod]: gather; out-of-range indices raise IndexError. *)
Definition gather_tet (coord : list vec) (e : nat * nat * nat * nat) : result tet :=
  let '(a, b, c, d) := e in
  match nth_error coord a, nth_error coord b, nth_error coord c, nth_error coord d with
  | Some va, Some vb, Some vc, Some vd => Ok (Tet va vb vc vd)
  | _, _, _, _ => Err IndexError
  end.
(** mesh.py:362-388 _compute_mesh_faces: enod[:, permutations] with the node
    permutations 012, 013, 023, 123. *)
Definition elem_faces (e : nat * nat * nat * nat) : list (nat * nat * nat) :=
  let '(a, b, c, d) := e in [(a, b, c); (a, b, d); (a, c, d); (b, c, d)].
(** mesh.py:608 torch.mean(ecentroids, dim=0).  (An empty element list gives NaN
    in the code; here an arbitrary vector: meshes without elements are outside
    the scope of every theorem about the centroid.) *)
Definition mean_list (l : list vec) : vec := vscale (/ INR (length l)) (fold_right vadd vzero l).

(** mesh.py:85-106, 322-360, 564-612: generate_mesh_from_vertices. *)
Definition build_mesh (coord : list vec) (enod : list (nat * nat * nat * nat)) : result mesh :=
  let* tets := traverse (gather_tet coord) enod in
  let* spheres := traverse bounding_sphere tets in
  let ecs := map ecentroid tets in
  Ok (Mesh coord coord enod (map elem_faces enod) (map enormals tets) ecs (map snd spheres) (map fst spheres)
        (mean_list ecs) (map evolume tets)).

(** mesh.py:217-233 translate. *)
Definition mesh_translate (me : mesh) (v : vec) : mesh :=
  let pts := map (fun p => vadd p v) (me_points me) in
  Mesh pts pts (me_enod me) (me_efaces me) (me_enormals me)
    (map (fun p => vadd p v) (me_ecentroids me)) (me_eradius me)
    (map (fun p => vadd p v) (me_espherecentroids me)) (vadd (me_centroid me) v) (me_evolumes me).

(** mesh.py:248-270 update (scalar time; the batched motion calls are the
    per-point maps proved in PMotion: call_P2_S0). *)
Definition mesh_update (me : mesh) (m : motion) (t : R) : mesh :=
  Mesh (me_points me) (map (move_at m t) (me_coord me)) (me_enod me) (me_efaces me)
    (map (map (rot_at m t)) (me_enormals me))
    (map (move_at m t) (me_ecentroids me)) (me_eradius me)
    (map (move_at m t) (me_espherecentroids me)) (move_at m t (me_centroid me)) (me_evolumes me).

(** mesh.py:235-246 rotate: a motion with zero translation about the zero
    origin, applied at time 1; the constructor's assertions may raise. *)
Definition mesh_rotate (me : mesh) (axis : vec) (angle : R) : result mesh :=
  let* m := make_motion axis angle vzero vzero in Ok (mesh_update me m 1).

(** Any sequence of the three public in-place operations. *)
Inductive mesh_op := OTranslate (v : vec) | OUpdate (m : motion) (t : R) | ORotate (axis : vec) (angle : R).
Definition mesh_step (me : mesh) (o : mesh_op) : result mesh :=
  match o with
  | OTranslate v => Ok (mesh_translate me v)
  | OUpdate m t => Ok (mesh_update me m t)
  | ORotate a w => mesh_rotate me a w
  end.
Fixpoint mesh_run (me : mesh) (ops : list mesh_op) : result mesh :=
  match ops with [] => Ok me | o :: os => let* me' := mesh_step me o in mesh_run me' os end.
