(** * Model of mesh.py:108-213 TetraMesh.generate_mesh_from_levelset.  No proofs in this file. *)
From Verif Require Import Vec MLaue MMesh MDetector.
Open Scope R_scope.

(** skimage.measure.marching_cubes(volume, level=0, spacing): vertices and faces
    (mesh.py:156-158; the normals and values it also returns are not used). *)
Definition marching_cubes := (nat -> nat -> nat -> R) -> nat -> vec -> result (list vec * list (nat * nat * nat)).
(** meshpy.tet.build(points, facets, max_volume) (mesh.py:183-191). *)
Definition tet_build := list vec -> list (nat * nat * nat) -> R -> result (list vec * list (nat * nat * nat * nat)).

(** mesh.py:143: n = max(int(2 R / (c * 0.5)), 20); python's float division by zero raises. *)
Definition levelset_n (bounding_radius c : R) : result nat :=
  if Req_EM_T (c * (1/2)) 0 then Err ZeroDivisionError
  else Ok (Z.to_nat (Z.max (ztrunc (2 * bounding_radius / (c * (1/2)))) 20)).
(** numpy.linspace(a, b, n), n >= 2 (mesh.py:144-146). *)
Definition linspace (a b : R) (n : nat) : list R := map (fun i => a + INR i * ((b - a) / INR (n - 1))) (seq 0 n).
(** mesh.py:147-150: meshgrid(indexing='ij') raveled: x slowest, z fastest. *)
Definition levelset_grid (xs ys zs : list R) : list vec :=
  flat_map (fun x => flat_map (fun y => map (fun z => V3 x y z) zs) ys) xs.
(** mesh.py:152: values.reshape(X.shape). *)
Definition reshape3 (n : nat) (values : list R) : nat -> nat -> nat -> R :=
  fun i j k => nth ((i * n + j) * n + k) values 0.
(** mesh.py:156-166: ValueError and RuntimeError of marching cubes become ValueError. *)
Definition marching_step (marching : marching_cubes) vol n sp : result (list vec * list (nat * nat * nat)) :=
  match marching vol n sp with
  | Ok s => Ok s
  | Err ValueError | Err RuntimeError => Err ValueError
  | Err e => Err e
  end.
(** mesh.py:190-201: every exception of the mesher becomes ValueError. *)
Definition tetra_step (build : tet_build) verts faces vmax : result (list vec * list (nat * nat * nat * nat)) :=
  match build verts faces vmax with Ok s => Ok s | Err _ => Err ValueError end.
Definition isnil {A} (l : list A) : bool := match l with [] => true | _ => false end.

(** mesh.py:108-213.  [level_set] may raise.  float32 vertices of skimage are
    idealised (real numbers), as everywhere. *)
Definition mesh_from_levelset (marching : marching_cubes) (build : tet_build) (level_set : vec -> result R)
  (bounding_radius c : R) : result mesh :=
  let* n := levelset_n bounding_radius c in
  let xs := linspace (- bounding_radius) bounding_radius n in
  let* values := traverse level_set (levelset_grid xs xs xs) in
  let x0 := nth 0 xs 0 in
  let h := nth 1 xs 0 - x0 in
  let* (verts, faces) := marching_step marching (reshape3 n values) n (V3 h h h) in
  let verts := map (fun v => vadd v (V3 x0 x0 x0)) verts in
  if isnil verts || isnil faces then Err ValueError else
  let* (points, elements) := tetra_step build verts faces (c^3 / 6) in
  if isnil points || isnil elements then Err ValueError else build_mesh points elements.
