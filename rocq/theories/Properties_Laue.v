(** Generated by tools/gen_properties.py from PLaue.v: the property theorems,
    verbatim, each closed by [exact]. Contains nothing else. *)
From Verif Require Import Vec MMotion MLaue Spec.
From Verif Require Import PMotion.
From Coq Require Import Sorted.
From Verif Require Import PLaue.

(** C07. Every event reported by the Laue solver for wave vector k and a motion
    with unit axis happens at a time in [0,1] at which the rotated diffraction
    vector satisfies the Laue condition exactly. *)
Theorem C07_laue_sound : forall k a w T o m G0 evs e,
  make_motion a w T o = Ok m -> unit a ->
  find_solutions (laue_factors k (m_axis m)) (m_angle m) G0 = Ok evs -> In e evs ->
  0 <= ev_time e <= 1 /\
  exists G, motion_rotate m (P1 (ev_G e)) (S0 (ev_time e)) = Ok (P1 G) /\ laue_condition k G.
Proof. exact pC07_laue_sound. Qed.
Print Assumptions C07_laue_sound.

(** C07 non-vacuity: the reflection G = (-1,1,0), k = (1,0,0), rotation about z. *)
Example C07_sound_nonvacuous : exists m evs e,
  make_motion (V3 0 0 1) (PI/2) vzero vzero = Ok m /\
  find_solutions (laue_factors (V3 1 0 0) (m_axis m)) (m_angle m) [[V3 (-1) 1 0]] = Ok evs /\ In e evs.
Proof. exact xC07_sound. Qed.

(** C08. Completeness: if element g's plane p satisfies the Laue condition at
    time t in [0,1], and not also when turned by exactly pi (the half-angle
    substitution's blind spot), then the event (g,p,t) is reported. *)
Theorem C08_laue_complete : forall k a w T o m G0 evs g p G t Gt,
  make_motion a w T o = Ok m -> unit a ->
  find_solutions (laue_factors k (m_axis m)) (m_angle m) G0 = Ok evs ->
  (match nth_error G0 g with Some row => nth_error row p | None => None end) = Some G ->
  0 <= t <= 1 ->
  motion_rotate m (P1 G) (S0 t) = Ok (P1 Gt) -> laue_condition k Gt ->
  ~ laue_condition k (right_handed_rotation a PI G) ->
  In (Event g p t G) evs.
Proof. exact pC08_laue_complete. Qed.
Print Assumptions C08_laue_complete.

(** C08 finding. A reflection that satisfies the Laue condition at t = 1 and is
    nevertheless dropped (it also diffracts at an angle of exactly pi). *)
Theorem C08_laue_complete_refuted : exists k a w T o m G,
  make_motion a w T o = Ok m /\ unit a /\
  (exists Gt, motion_rotate m (P1 G) (S0 1) = Ok (P1 Gt) /\ laue_condition k Gt) /\
  find_solutions (laue_factors k (m_axis m)) (m_angle m) [[G]] = Ok [].
Proof. exact pC08_laue_complete_refuted. Qed.
Print Assumptions C08_laue_complete_refuted.

(** C08. In particular nothing is ever reported for a reflection that also
    diffracts when turned by exactly pi. *)
Theorem C08_blind_spot : forall k a w T o m G0 evs e,
  make_motion a w T o = Ok m -> unit a ->
  find_solutions (laue_factors k (m_axis m)) (m_angle m) G0 = Ok evs -> In e evs ->
  ~ laue_condition k (right_handed_rotation a PI (ev_G e)).
Proof. exact pC08_blind_spot. Qed.
Print Assumptions C08_blind_spot.

(** C08 finding. A tangential reflection is reported twice: both roots coincide. *)
Theorem C08_double_report_refuted : exists k a w T o m G e,
  make_motion a w T o = Ok m /\ unit a /\
  find_solutions (laue_factors k (m_axis m)) (m_angle m) [[G]] = Ok [e; e].
Proof. exact pC08_double_report_refuted. Qed.
Print Assumptions C08_double_report_refuted.

(** C09. The solver always returns; every reported event has in-range indices and
    carries the G vector of its own grain and plane. *)
Theorem C09_laue_indices : forall f w G0, exists evs,
  find_solutions f w G0 = Ok evs /\
  forall e, In e evs -> exists row, nth_error G0 (ev_grain e) = Some row /\ nth_error row (ev_plane e) = Some (ev_G e).
Proof. exact pC09_laue_indices. Qed.
Print Assumptions C09_laue_indices.

(** C09. Order: a first block and a second block, each strictly increasing
    lexicographically in (grain, plane). *)
Theorem C09_laue_order : forall f w G0 evs, find_solutions f w G0 = Ok evs ->
  exists l1 l2, evs = l1 ++ l2 /\
    (forall i j e e', (i < j)%nat ->
       (nth_error l1 i = Some e /\ nth_error l1 j = Some e' \/ nth_error l2 i = Some e /\ nth_error l2 j = Some e') ->
       (ev_grain e < ev_grain e' \/ ev_grain e = ev_grain e' /\ ev_plane e < ev_plane e')%nat).
Proof. exact pC09_laue_order. Qed.
Print Assumptions C09_laue_order.

(** C09. At most two events per (grain, plane). *)
Theorem C09_at_most_two : forall f w G0 evs g p, find_solutions f w G0 = Ok evs ->
  (length (filter (fun e => Nat.eqb (ev_grain e) g && Nat.eqb (ev_plane e) p) evs) <= 2)%nat.
Proof. exact pC09_at_most_two. Qed.
Print Assumptions C09_at_most_two.

(** C09 non-vacuity: a table for which the solver reports two events. *)
Example C09_two_events_nonvacuous : exists f w G0 evs, find_solutions f w G0 = Ok evs /\ length evs = 2%nat.
Proof. exact xC09_two_events. Qed.

