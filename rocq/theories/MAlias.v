(** * Memory sharing between the caller's arrays and the objects built from them:
    utils.py:541-628 (ensure_torch, ensure_numpy) as used by the constructors of motion.py,
    detector.py, beam.py and mesh.py.  CPU device.  No proofs in this file. *)
From Verif Require Import Vec MMotion MMesh MBeam MDetector.
Open Scope R_scope.

(** Array memory: buffers of 3-vectors by address; a vector of shape (3,) is a buffer of one. *)
Definition store := list (list vec).
Definition buf (st : store) (a : nat) : list vec := nth a st [].
Definition vec_at (st : store) (a : nat) : vec := hd vzero (buf st a).
(** In-place assignment to an existing array. *)
Fixpoint write (st : store) (a : nat) (v : list vec) : store :=
  match st, a with
  | [], _ => []
  | _ :: s, O => v :: s
  | b :: s, S a => b :: write s a v
  end.
(** An argument: a float64 array or tensor at an address, or anything else (list, tuple, other dtype) by content. *)
Inductive arg := Float64 (a : nat) | Other (v : list vec).
Definition content (st : store) (x : arg) : list vec := match x with Float64 a => buf st a | Other v => v end.
Definition vcontent (st : store) (x : arg) : vec := hd vzero (content st x).
(** utils.py:541-590 ensure_torch: torch.from_numpy and Tensor.to share memory when dtype and device
    already agree; everything else is converted into new memory. *)
Definition ensure_torch (st : store) (x : arg) : store * nat :=
  match x with Float64 a => (st, a) | Other v => ((st ++ [v])%list, List.length st) end.
(** utils.py:593-628 ensure_numpy: ndarray.astype copies. *)
Definition ensure_numpy (st : store) (x : arg) : store * nat := ((st ++ [content st x])%list, List.length st).

(** ** motion.py:66-76, 283-291.  [mo_K] is the axis from which the rotator's K, K2 were computed
    (new memory, 290-291). *)
Record motion_obj := MotionObj { mo_K : vec; mo_axis : nat; mo_angle : R; mo_trans : nat; mo_origin : nat }.
Definition new_motion (st : store) (axis : arg) (angle : R) (trans origin : arg) : result (store * motion_obj) :=
  let* _ := assert_ (Rltb angle PI && Rltb 0 angle) in
  let '(st, r) := ensure_torch st axis in                    (* 284: the rotator's own conversion *)
  let* _ := assert_ (axis_ok (vec_at st r)) in
  let k := vec_at st r in
  let '(st, a) := ensure_torch st axis in
  let '(st, t) := ensure_torch st trans in
  let '(st, o) := ensure_torch st origin in
  Ok (st, MotionObj k a angle t o).
(** What __call__, rotate and translate compute with at a given moment (78-199): the rotator's matrices
    and the present contents of translation and origin. *)
Definition motion_now (st : store) (m : motion_obj) : motion :=
  Motion (mo_K m) (mo_angle m) (vec_at st (mo_trans m)) (vec_at st (mo_origin m)).
(** 201-217 inverse: clones of the attributes. *)
Definition inverse_obj (st : store) (m : motion_obj) : result (store * motion_obj) :=
  new_motion st (Other [vneg (vec_at st (mo_axis m))]) (mo_angle m) (Other [vneg (vec_at st (mo_trans m))]) (Other [vec_at st (mo_origin m)]).

(** ** detector.py:138-183: the corners may be shared, all else is computed once. *)
Record detector_obj := DetObj { do_det : detector; do_c0 : nat; do_c1 : nat; do_c2 : nat; do_pixels : list (list nvec) }.
Definition new_detector (st : store) (c0 c1 c2 : arg) (n_pixels : option (one_or_two Z)) (pixel_size : option (one_or_two R))
  (sigma threshold : R) (max_radius : Z) (use_lorentz use_polarization use_structure : bool) : result (store * detector_obj) :=
  let '(st, a0) := ensure_torch st c0 in
  let '(st, a1) := ensure_torch st c1 in
  let '(st, a2) := ensure_torch st c2 in
  let* d := make_detector (vec_at st a0) (vec_at st a1) (vec_at st a2) n_pixels pixel_size sigma threshold max_radius
              use_lorentz use_polarization use_structure in
  Ok (st, DetObj d a0 a1 a2 (pixel_coordinates d)).
(** What the detector's methods compute with at a given moment. *)
Definition detector_now (st : store) (o : detector_obj) : detector :=
  let d := do_det o in
  Det (vec_at st (do_c0 o)) (vec_at st (do_c1 o)) (vec_at st (do_c2 o)) (d_zmax d) (d_ymax d) (d_pz d) (d_py d) (d_zdhat d) (d_ydhat d)
      (d_normal d) (d_nz d) (d_ny d) (d_sigma d) (d_threshold d) (d_max_radius d) (d_lorentz d) (d_polarization d) (d_structure d).

(** ** mesh.py:85-106, 322-360, 570: meshio keeps the caller's array, ensure_torch shares it, but
    _build_tetramesh stores an ensure_numpy copy in _mesh (353-356) and coord is rebound to that copy (570).
    The derived quantities are computed once and are the object's own. *)
Record mesh_obj := MeshObj { mb_points : nat; mb_coord : nat; mb_rest : mesh }.
Definition new_mesh (st : store) (coord : arg) (enod : list (nat * nat * nat * nat)) : result (store * mesh_obj) :=
  let '(st, c) := ensure_torch st coord in
  let '(st, p) := ensure_numpy st (Float64 c) in
  let '(st, c) := ensure_torch st (Float64 p) in
  let* me := build_mesh (buf st c) enod in
  Ok (st, MeshObj p c me).
Definition mesh_now (st : store) (m : mesh_obj) : mesh :=
  let r := mb_rest m in
  Mesh (buf st (mb_points m)) (buf st (mb_coord m)) (me_enod r) (me_efaces r) (me_enormals r) (me_ecentroids r) (me_eradius r)
       (me_espherecentroids r) (me_centroid r) (me_evolumes r).
(** 217-233 translate: _mesh.points += v in place; coord is bound to that memory. *)
Definition translate_obj (st : store) (m : mesh_obj) (v : vec) : store * mesh_obj :=
  let st := write st (mb_points m) (map (fun p => vadd p v) (buf st (mb_points m))) in
  (st, MeshObj (mb_points m) (mb_points m) (mesh_translate (mb_rest m) v)).
(** 248-270 update: coord is bound to a new array. *)
Definition update_obj (st : store) (m : mesh_obj) (mo : motion) (t : R) : store * mesh_obj :=
  ((st ++ [map (move_at mo t) (buf st (mb_coord m))])%list, MeshObj (mb_points m) (List.length st) (mesh_update (mb_rest m) mo t)).
(** 235-246 rotate. *)
Definition rotate_obj (st : store) (m : mesh_obj) (axis : vec) (angle : R) : result (store * mesh_obj) :=
  let* mo := make_motion axis angle vzero vzero in Ok (update_obj st m mo 1).
Definition mesh_do (st : store) (m : mesh_obj) (o : mesh_op) : result (store * mesh_obj) :=
  match o with
  | OTranslate v => Ok (translate_obj st m v)
  | OUpdate mo t => Ok (update_obj st m mo t)
  | ORotate a w => rotate_obj st m a w
  end.
