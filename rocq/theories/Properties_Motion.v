(** Generated by tools/gen_properties.py from PMotion.v: the property theorems,
    verbatim, each closed by [exact]. Contains nothing else. *)
From Verif Require Import Vec MMotion Spec.
From Verif Require Import PMotion.

(** C01. Every constructed motion with unit axis acts, at every time, as a proper
    rigid map of space; at time 0 it is the identity. *)
Theorem C01_motion_is_rigid : forall a w T o m t,
  make_motion a w T o = Ok m -> unit a ->
  exists f : vec -> vec,
    (forall x, motion_call m (P1 x) (S0 t) = Ok (P1 (f x))) /\
    proper_rigid f /\
    (t = 0 -> forall x, f x = x).
Proof. exact pC01_motion_is_rigid. Qed.
Print Assumptions C01_motion_is_rigid.

(** C01 (vectors). rotate() preserves lengths and angles of diffraction vectors. *)
Theorem C01_rotate_isometry : forall a w T o m t x y,
  make_motion a w T o = Ok m -> unit a ->
  exists x' y', motion_rotate m (P1 x) (S0 t) = Ok (P1 x') /\
                motion_rotate m (P1 y) (S0 t) = Ok (P1 y') /\
                dot x' y' = dot x y /\ norm x' = norm x.
Proof. exact pC01_rotate_isometry. Qed.
Print Assumptions C01_rotate_isometry.

Example C01_motion_nonvacuous : exists m, make_motion (V3 0 0 1) (PI/2) (V3 1 2 3) (V3 4 5 6) = Ok m /\ unit (V3 0 0 1).
Proof. exact xC01_motion. Qed.

(** C02. The motion is the right-handed rotation by t*angle about the axis
    through the origin point, followed by the translation t*translation. *)
Theorem C02_motion_semantics : forall a w T o m t x,
  make_motion a w T o = Ok m -> unit a ->
  motion_call m (P1 x) (S0 t) =
  Ok (P1 (vadd (vadd o (right_handed_rotation a (w * t) (vsub x o))) (vscale t T))).
Proof. exact pC02_motion_semantics. Qed.
Print Assumptions C02_motion_semantics.

(** C02. The origin point only translates; so does every point of the axis. *)
Theorem C02_axis_points_translate : forall a w T o m t s,
  make_motion a w T o = Ok m -> unit a ->
  motion_call m (P1 (vadd o (vscale s a))) (S0 t) = Ok (P1 (vadd (vadd o (vscale s a)) (vscale t T))).
Proof. exact pC02_axis_points_translate. Qed.
Print Assumptions C02_axis_points_translate.

(** C02. rotate() is right-handed rotation by w*t and is additive in time. *)
Theorem C02_rotate_semantics : forall a w T o m t x,
  make_motion a w T o = Ok m -> unit a ->
  motion_rotate m (P1 x) (S0 t) = Ok (P1 (right_handed_rotation a (w * t) x)).
Proof. exact pC02_rotate_semantics. Qed.
Print Assumptions C02_rotate_semantics.

Theorem C02_rotate_additive : forall a w T o m s t x y z,
  make_motion a w T o = Ok m -> unit a ->
  motion_rotate m (P1 x) (S0 t) = Ok (P1 y) ->
  motion_rotate m (P1 y) (S0 s) = Ok (P1 z) ->
  motion_rotate m (P1 x) (S0 (s + t)) = Ok (P1 z).
Proof. exact pC02_rotate_additive. Qed.
Print Assumptions C02_rotate_additive.

(** C02. Concrete sense check: about +z by pi/2, +x goes to +y. *)
Example C02_sense_nonvacuous : forall T o m,
  make_motion (V3 0 0 1) (PI/2) T o = Ok m -> motion_rotate m (P1 (V3 1 0 0)) (S0 1) = Ok (P1 (V3 0 1 0)).
Proof. exact xC02_sense. Qed.

(** C03. inverse() of a constructed motion always constructs. *)
Theorem C03_inverse_constructs : forall a w T o m,
  make_motion a w T o = Ok m -> exists mi, motion_inverse m = Ok mi /\ motion_inverse mi = Ok m.
Proof. exact pC03_inverse_constructs. Qed.
Print Assumptions C03_inverse_constructs.

(** C03. rotate() of the inverse undoes rotate() at every time. *)
Theorem C03_inverse_rotate_undoes : forall a w T o m mi t x y,
  make_motion a w T o = Ok m -> unit a -> motion_inverse m = Ok mi ->
  motion_rotate m (P1 x) (S0 t) = Ok (P1 y) -> motion_rotate mi (P1 y) (S0 t) = Ok (P1 x).
Proof. exact pC03_inverse_rotate_undoes. Qed.
Print Assumptions C03_inverse_rotate_undoes.

(** C03. The inverse motion undoes the motion at time t exactly when the rotation
    at time t fixes t*translation. *)
Theorem C03_inverse_undoes_iff : forall a w T o m mi t,
  make_motion a w T o = Ok m -> unit a -> motion_inverse m = Ok mi ->
  ((forall x y, motion_call m (P1 x) (S0 t) = Ok (P1 y) -> motion_call mi (P1 y) (S0 t) = Ok (P1 x))
   <-> right_handed_rotation a (w * t) (vscale t T) = vscale t T).
Proof. exact pC03_inverse_undoes_iff. Qed.
Print Assumptions C03_inverse_undoes_iff.

(** C03. In every case the round trip is off by a constant vector that does not
    depend on the point. *)
Theorem C03_inverse_residual : forall a w T o m mi t,
  make_motion a w T o = Ok m -> unit a -> motion_inverse m = Ok mi ->
  forall x y, motion_call m (P1 x) (S0 t) = Ok (P1 y) ->
  motion_call mi (P1 y) (S0 t) =
  Ok (P1 (vadd x (vsub (right_handed_rotation a (- (w * t)) (vscale t T)) (vscale t T)))).
Proof. exact pC03_inverse_residual. Qed.
Print Assumptions C03_inverse_residual.

(** C03 finding. A motion whose documented inverse does not undo it. *)
Theorem C03_inverse_refuted : exists a w T o m mi x y,
  make_motion a w T o = Ok m /\ unit a /\ motion_inverse m = Ok mi /\
  motion_call m (P1 x) (S0 1) = Ok (P1 y) /\ motion_call mi (P1 y) (S0 1) <> Ok (P1 x).
Proof. exact pC03_inverse_refuted. Qed.
Print Assumptions C03_inverse_refuted.

(** C04. Construction succeeds exactly under the two guards, and otherwise
    raises AssertionError. *)
Theorem C04_constructor_guard : forall a w T o,
  (0 < w < PI /\ Rabs (norm a - 1) <= / 10^8 + / 10^5 ->
     make_motion a w T o = Ok (Motion a w T o)) /\
  (~ (0 < w < PI /\ Rabs (norm a - 1) <= / 10^8 + / 10^5) ->
     make_motion a w T o = Err AssertionError).
Proof. exact pC04_constructor_guard. Qed.
Print Assumptions C04_constructor_guard.

(** C04. Exact length defect for an arbitrary accepted axis. *)
Theorem C04_length_defect : forall a w T o m t x y,
  make_motion a w T o = Ok m -> motion_rotate m (P1 x) (S0 t) = Ok (P1 y) ->
  normsq y = normsq x + (1 - cos (w * t))^2 * (normsq a - 1) * normsq (cross a x).
Proof. exact pC04_length_defect. Qed.
Print Assumptions C04_length_defect.

(** C04 finding. An accepted motion that is not an isometry. *)
Theorem C04_accepted_not_rigid_refuted : exists a w T o m x y x' y',
  make_motion a w T o = Ok m /\
  motion_call m (P1 x) (S0 1) = Ok (P1 x') /\ motion_call m (P1 y) (S0 1) = Ok (P1 y') /\
  dist x' y' <> dist x y.
Proof. exact pC04_accepted_not_rigid_refuted. Qed.
Print Assumptions C04_accepted_not_rigid_refuted.

(** C05. (N,3) with one scalar time: element-wise the single-point call. *)
Theorem C05_batch_scalar_time : forall m l t, exists out,
  motion_call m (P2 l) (S0 t) = Ok (P2 out) /\ length out = length l /\
  forall i x, nth_error l i = Some x ->
    exists y, motion_call m (P1 x) (S0 t) = Ok (P1 y) /\ nth_error out i = Some y.
Proof. exact pC05_batch_scalar_time. Qed.
Print Assumptions C05_batch_scalar_time.

(** C05. (N,3) with N times: element-wise, same order; any other count raises. *)
Theorem C05_batch_vector_time : forall m l ts,
  (length ts = length l -> exists out,
     motion_call m (P2 l) (S1 ts) = Ok (P2 out) /\ length out = length l /\
     forall i x t, nth_error l i = Some x -> nth_error ts i = Some t ->
       exists y, motion_call m (P1 x) (S0 t) = Ok (P1 y) /\ nth_error out i = Some y) /\
  (length ts <> length l -> motion_call m (P2 l) (S1 ts) = Err RuntimeError).
Proof. exact pC05_batch_vector_time. Qed.
Print Assumptions C05_batch_vector_time.

(** C05. (N,M,3) with N times: vertex j of element i is moved at time i. *)
Theorem C05_batch_elements : forall m M ll ts,
  (forall l, In l ll -> length l = M) ->
  (length ts = length ll -> exists out,
     motion_call m (P3 M ll) (S1 ts) = Ok (P3 M out) /\ length out = length ll /\
     forall i row t, nth_error ll i = Some row -> nth_error ts i = Some t ->
       exists row', nth_error out i = Some row' /\ length row' = M /\
       forall j x, nth_error row j = Some x ->
         exists y, motion_call m (P1 x) (S0 t) = Ok (P1 y) /\ nth_error row' j = Some y) /\
  ((0 < M)%nat -> length ts <> length ll -> motion_call m (P3 M ll) (S1 ts) = Err RuntimeError).
Proof. exact pC05_batch_elements. Qed.
Print Assumptions C05_batch_elements.

(** C05. Scalar time with (N,M,3) always raises, whatever N and M. *)
Theorem C05_elements_scalar_time_raises : forall m M ll t,
  exists e, motion_call m (P3 M ll) (S0 t) = Err e.
Proof. exact pC05_elements_scalar_time_raises. Qed.
Print Assumptions C05_elements_scalar_time_raises.

(** C05. Single point with an array of times: one time only. *)
Theorem C05_single_point_times : forall m v ts,
  (forall t, ts = [t] -> motion_call m (P1 v) (S1 ts) = motion_call m (P1 v) (S0 t)) /\
  (length ts <> 1%nat -> motion_call m (P1 v) (S1 ts) = Err RuntimeError).
Proof. exact pC05_single_point_times. Qed.
Print Assumptions C05_single_point_times.

(** C05. rotate() on (N,3): element-wise for every N other than 1; for N = 1 and
    scalar time the row dimension is dropped. *)
Theorem C05_rotate_batch : forall m l ts t,
  (length ts = length l -> exists out, motion_rotate m (P2 l) (S1 ts) = Ok (P2 out) /\ length out = length l /\
     forall i x t, nth_error l i = Some x -> nth_error ts i = Some t ->
       exists y, motion_rotate m (P1 x) (S0 t) = Ok (P1 y) /\ nth_error out i = Some y) /\
  (length l <> 1%nat -> exists out, motion_rotate m (P2 l) (S0 t) = Ok (P2 out) /\ length out = length l /\
     forall i x, nth_error l i = Some x ->
       exists y, motion_rotate m (P1 x) (S0 t) = Ok (P1 y) /\ nth_error out i = Some y) /\
  (forall x, l = [x] -> exists y, motion_rotate m (P2 l) (S0 t) = Ok (P1 y) /\ motion_rotate m (P1 x) (S0 t) = Ok (P1 y)).
Proof. exact pC05_rotate_batch. Qed.
Print Assumptions C05_rotate_batch.

Example C05_batch_nonvacuous : exists m, make_motion (V3 0 0 1) 1 (V3 1 2 3) (V3 4 5 6) = Ok m /\
  length [0; 1/2] = length [V3 1 2 3; V3 0 1 0] /\
  (forall l, In l [[V3 1 2 3; V3 0 0 1]; [V3 0 1 0; V3 1 0 0]] -> length l = 2%nat).
Proof. exact xC05_batch. Qed.

(** C06. translate outside [0,1] raises; a (3,) vector is translated. *)
Theorem C06_translate_guard_and_vector : forall m x t,
  (0 <= t <= 1 -> motion_translate m (A1 (vlist x)) t = Ok (A1 (vlist (vadd x (vscale t (m_trans m)))))) /\
  (forall a, ~ (0 <= t <= 1) -> motion_translate m a t = Err AssertionError).
Proof. exact pC06_translate_guard_and_vector. Qed.
Print Assumptions C06_translate_guard_and_vector.

(** C06. On a (3,N) array every column is translated. *)
Theorem C06_translate_columns : forall m t (pts : list vec),
  0 <= t <= 1 ->
  motion_translate m (A2 (length pts) [map vx pts; map vy pts; map vz pts]) t =
  Ok (let pts' := map (fun p => vadd p (vscale t (m_trans m))) pts in
      A2 (length pts) [map vx pts'; map vy pts'; map vz pts']).
Proof. exact pC06_translate_columns. Qed.
Print Assumptions C06_translate_columns.

(** C06. What happens on the equally documented (N,3) layout. *)
Theorem C06_translate_rows : forall m t (pts : list vec),
  0 <= t <= 1 ->
  (length pts <> 1%nat -> length pts <> 3%nat ->
     motion_translate m (A2 3 (map vlist pts)) t = Err RuntimeError) /\
  (forall p q r, pts = [p; q; r] ->
     let T := vscale t (m_trans m) in
     motion_translate m (A2 3 (map vlist pts)) t =
     Ok (A2 3 [vlist (vadd p (V3 (vx T) (vx T) (vx T)));
               vlist (vadd q (V3 (vy T) (vy T) (vy T)));
               vlist (vadd r (V3 (vz T) (vz T) (vz T)))])) /\
  (forall p, pts = [p] -> exists rows, motion_translate m (A2 3 (map vlist pts)) t = Ok (A2 3 rows) /\ length rows = 3%nat).
Proof. exact pC06_translate_rows. Qed.
Print Assumptions C06_translate_rows.

(** C06 finding: the documented (N,3) use is wrong. *)
Theorem C06_translate_rows_refuted : exists m p q r,
  make_motion (m_axis m) (m_angle m) (m_trans m) (m_origin m) = Ok m /\
  motion_translate m (A2 3 (map vlist [p; q; r])) 1 <>
  Ok (A2 3 (map vlist (map (fun x => vadd x (vscale 1 (m_trans m))) [p; q; r]))).
Proof. exact pC06_translate_rows_refuted. Qed.
Print Assumptions C06_translate_rows_refuted.

