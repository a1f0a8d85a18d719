(** Generated by tools/gen_properties.py from PAlias.v: the property theorems,
    verbatim, each closed by [exact]. Contains nothing else. *)
From Verif Require Import Vec Spec MMotion MMesh MBeam MDetector MAlias SAlias SDetector PMotion PMesh PDetector PRenderEx.
From Verif Require Import PAlias.
Open Scope R_scope.

(** The object of the heap model behaves, when built, as the value of the functional model. *)
Theorem C81_motion_built : forall st axis angle trans origin, valid st axis -> valid st trans -> valid st origin ->
  match new_motion st axis angle trans origin with
  | Ok (st', m) => make_motion (vcontent st axis) angle (vcontent st trans) (vcontent st origin) = Ok (motion_now st' m) /\
                   forall b, (b < List.length st)%nat -> buf st' b = buf st b
  | Err e => make_motion (vcontent st axis) angle (vcontent st trans) (vcontent st origin) = Err e
  end.
Proof. exact pC81_motion_built. Qed.
Print Assumptions C81_motion_built.

(** Translation and origin given as lists (or in another number format): nothing the caller writes afterwards
    to its arrays -- the axis array included -- changes how the motion moves points. *)
Theorem C81_motion_isolated : forall st axis angle trans origin st' m ws, valid st axis ->
  is_copy trans -> is_copy origin -> new_motion st axis angle trans origin = Ok (st', m) -> own_arrays st ws ->
  motion_now (after st' ws) m = motion_now st' m.
Proof. exact pC81_motion_isolated. Qed.
Print Assumptions C81_motion_isolated.

(** Given as float64 arrays, translation and origin stay shared: the motion always moves points with their present contents. *)
Theorem C81_motion_follows : forall st axis angle t o st' m ws, valid st axis -> (t < List.length st)%nat -> (o < List.length st)%nat ->
  new_motion st axis angle (Float64 t) (Float64 o) = Ok (st', m) ->
  motion_now (after st' ws) m = Motion (vcontent st axis) angle (vec_at (after st' ws) t) (vec_at (after st' ws) o).
Proof. exact pC81_motion_follows. Qed.
Print Assumptions C81_motion_follows.

(** In particular a motion is not isolated from its caller. *)
Theorem C81_motion_isolated_refuted : exists st t angle st' m v, new_motion st (Other [V3 0 0 1]) angle (Float64 t) (Other [vzero]) = Ok (st', m) /\
  (t < List.length st)%nat /\ move_at (motion_now (write st' t [v]) m) 1 vzero <> move_at (motion_now st' m) 1 vzero.
Proof. exact pC81_motion_isolated_refuted. Qed.
Print Assumptions C81_motion_isolated_refuted.

(** Writing to the array given as rotation axis changes the attribute and the result of inverse(), but not the motion itself. *)
Theorem C81_axis_write : forall st a angle trans origin st' m v, (a < List.length st)%nat -> valid st trans -> valid st origin ->
  trans <> Float64 a -> origin <> Float64 a -> new_motion st (Float64 a) angle trans origin = Ok (st', m) ->
  motion_now (write st' a [v]) m = motion_now st' m /\
  match inverse_obj (write st' a [v]) m with
  | Ok (st'', i) => make_motion (vneg v) angle (vneg (vcontent st trans)) (vcontent st origin) = Ok (motion_now st'' i)
  | Err e => make_motion (vneg v) angle (vneg (vcontent st trans)) (vcontent st origin) = Err e
  end.
Proof. exact pC81_axis_write. Qed.
Print Assumptions C81_axis_write.

Theorem C81_detector_built : forall st c0 c1 c2 np ps sg th mr ul up us st' o, valid st c0 -> valid st c1 -> valid st c2 ->
  new_detector st c0 c1 c2 np ps sg th mr ul up us = Ok (st', o) ->
  make_detector (vcontent st c0) (vcontent st c1) (vcontent st c2) np ps sg th mr ul up us = Ok (detector_now st' o) /\
  do_pixels o = pixel_coordinates (detector_now st' o) /\ forall b, (b < List.length st)%nat -> buf st' b = buf st b.
Proof. exact pC81_detector_built. Qed.
Print Assumptions C81_detector_built.

(** Corners given as lists: nothing the caller writes afterwards changes the detector. *)
Theorem C81_detector_isolated : forall st c0 c1 c2 np ps sg th mr ul up us st' o ws, is_copy c0 -> is_copy c1 -> is_copy c2 ->
  new_detector st c0 c1 c2 np ps sg th mr ul up us = Ok (st', o) -> own_arrays st ws -> detector_now (after st' ws) o = detector_now st' o.
Proof. exact pC81_detector_isolated. Qed.
Print Assumptions C81_detector_isolated.

(** Given as float64 arrays the corners stay shared: a later write moves them, but the axes, the normal, the sizes and
    the pixel positions stay those of the construction. *)
Theorem C81_detector_follows : forall st a0 a1 a2 np ps sg th mr ul up us st' o ws,
  (a0 < List.length st)%nat -> (a1 < List.length st)%nat -> (a2 < List.length st)%nat ->
  new_detector st (Float64 a0) (Float64 a1) (Float64 a2) np ps sg th mr ul up us = Ok (st', o) ->
  d_c0 (detector_now (after st' ws) o) = vec_at (after st' ws) a0 /\
  d_c1 (detector_now (after st' ws) o) = vec_at (after st' ws) a1 /\
  d_c2 (detector_now (after st' ws) o) = vec_at (after st' ws) a2 /\
  d_zdhat (detector_now (after st' ws) o) = d_zdhat (detector_now st' o) /\ d_ydhat (detector_now (after st' ws) o) = d_ydhat (detector_now st' o) /\
  d_normal (detector_now (after st' ws) o) = d_normal (detector_now st' o) /\
  d_zmax (detector_now (after st' ws) o) = d_zmax (detector_now st' o) /\ d_ymax (detector_now (after st' ws) o) = d_ymax (detector_now st' o).
Proof. exact pC81_detector_follows. Qed.
Print Assumptions C81_detector_follows.

(** Such a write can leave the detector in a state that no constructor call produces. *)
Theorem C81_detector_isolated_refuted : exists st a0 a1 a2 ps st' o v, new_detector st (Float64 a0) (Float64 a1) (Float64 a2) None (Some ps) 1 (2/100) 2 true true true = Ok (st', o) /\
  (a0 < List.length st)%nat /\ built (detector_now st' o) /\ ~ built (detector_now (write st' a0 [v]) o).
Proof. exact pC81_detector_isolated_refuted. Qed.
Print Assumptions C81_detector_isolated_refuted.

(** A mesh is isolated from the array it was built from, in both directions and for every interleaving of writes and operations. *)
Theorem C81_mesh_isolated : forall st coord enod st' m es, valid st coord ->
  new_mesh st coord enod = Ok (st', m) -> own_arrays st (writes_of es) ->
  build_mesh (content st coord) enod = Ok (mesh_now st' m) /\
  match history st' m es with
  | Ok (st'', m'') => mesh_run (mesh_now st' m) (ops_of es) = Ok (mesh_now st'' m'') /\
                      forall b, (b < List.length st)%nat -> buf st'' b = buf (after st (writes_of es)) b
  | Err e => mesh_run (mesh_now st' m) (ops_of es) = Err e
  end.
Proof. exact pC81_mesh_isolated. Qed.
Print Assumptions C81_mesh_isolated.

Example C81_motion_nonvacuous : exists st axis trans origin st' m ws, valid st axis /\ is_copy trans /\ is_copy origin /\
  new_motion st axis 1 trans origin = Ok (st', m) /\ own_arrays st ws /\ ws <> [] /\ after st' ws <> st'.
Proof. exact xC81_motion. Qed.

Example C81_axis_write_nonvacuous : exists st a trans origin st' m, (a < List.length st)%nat /\ valid st trans /\ valid st origin /\
  trans <> Float64 a /\ origin <> Float64 a /\ new_motion st (Float64 a) 1 trans origin = Ok (st', m).
Proof. exact xC81_axis_write. Qed.

Example C81_mesh_nonvacuous : exists st coord enod st' m es, valid st coord /\ new_mesh st coord enod = Ok (st', m) /\ own_arrays st (writes_of es) /\
  (exists r, history st' m es = Ok r) /\ ops_of es <> [] /\ writes_of es <> [].
Proof. exact xC81_mesh. Qed.

Example C81_detector_nonvacuous : exists st c0 c1 c2 ps st' o ws, is_copy c0 /\ is_copy c1 /\ is_copy c2 /\
  new_detector st c0 c1 c2 None (Some ps) 1 (2/100) 2 true true true = Ok (st', o) /\ own_arrays st ws /\ ws <> [].
Proof. exact xC81_detector. Qed.

