(** Generated by tools/gen_properties.py from PFriedel.v: the property theorems,
    verbatim, each closed by [exact]. Contains nothing else. *)
From Verif Require Import Vec Spec MMotion MLaue MMesh MScattering MStrain MBeam SBeam MPolycrystal SPolycrystal SEvents SFriedel.
From Verif Require Import PMotion PLaue PMesh PBeam PStrain PPolycrystal PPolycrystal2 PPolycrystal3 PEvents.
From Verif Require Import SPolycrystal.
From Verif Require Import PFriedel.
Open Scope list_scope. Open Scope R_scope.

(** C99. The rotation axis is perpendicular to the beam and the sample is turned by half a turn about the axis before the
    second scan.  Every peak of the first scan with Miller indices h has a Friedel mate in the second one - at the same time, with
    indices -h, mirrored in the plane perpendicular to the axis - as soon as -h is among the planes of the phase and the element
    is in the beam. *)
Theorem C99_mate : forall z x p b a w T o m moves lo hi det d p1 lo2 hi2 det2 d2 p2 r,
  make_motion a w T o = Ok m -> unit a -> dot a (b_wave_vector b) = 0 -> half_turn_about a moves ->
  diffract z x p b m lo hi det = (Ok d, p1) -> diffract z x (transforms moves p) b m lo2 hi2 det2 = (Ok d2, p2) -> In r (pd_peaks d) ->
  exists e i h t, has d r "grain_index" (INR e) /\ has d r "phase_number" (INR i) /\ has_vec d r "h" "k" "l" h /\ has d r "diffraction_times" t /\
    forall ph2 sf2 c src, nth_error (pc_phases p2) i = Some ph2 -> plane_of ph2 (vneg h) sf2 ->
      nth_error (me_espherecentroids (pc_mesh_lab (transforms moves p))) e = Some c -> motion_call m (P1 c) (S0 t) = Ok (P1 src) -> strictly_inside (b_halfspaces b) src ->
      exists r2, In r2 (pd_peaks d2) /\ friedel_mate a d d2 r r2 /\ has d2 r2 "structure_factors" sf2 /\
        has_vec d2 r2 "Source_x" "Source_y" "Source_z" src /\
        (dot a (b_polarization b) = 0 \/ cross a (b_polarization b) = vzero -> field d2 r2 "polarization_factors" = field d r "polarization_factors").
Proof. exact pC99_mate. Qed.
Print Assumptions C99_mate.

(** C99. And the other way round: the second scan contains nothing but mates. *)
Theorem C99_mate_back : forall z x p b a w T o m moves lo hi det d p1 lo2 hi2 det2 d2 p2 r2,
  make_motion a w T o = Ok m -> unit a -> dot a (b_wave_vector b) = 0 -> half_turn_about a moves ->
  diffract z x p b m lo hi det = (Ok d, p1) -> diffract z x (transforms moves p) b m lo2 hi2 det2 = (Ok d2, p2) -> In r2 (pd_peaks d2) ->
  exists e i h t, has d2 r2 "grain_index" (INR e) /\ has d2 r2 "phase_number" (INR i) /\ has_vec d2 r2 "h" "k" "l" h /\ has d2 r2 "diffraction_times" t /\
    forall ph sf c src, nth_error (pc_phases p1) i = Some ph -> plane_of ph (vneg h) sf ->
      nth_error (me_espherecentroids (pc_mesh_lab p)) e = Some c -> motion_call m (P1 c) (S0 t) = Ok (P1 src) -> strictly_inside (b_halfspaces b) src ->
      exists r, In r (pd_peaks d) /\ friedel_mate a d2 d r2 r /\ has d r "structure_factors" sf /\
        has_vec d r "Source_x" "Source_y" "Source_z" src /\
        (dot a (b_polarization b) = 0 \/ cross a (b_polarization b) = vzero -> field d r "polarization_factors" = field d2 r2 "polarization_factors").
Proof. exact pC99_mate_back. Qed.
Print Assumptions C99_mate_back.

(** C99. A tilted axis breaks the pairs: whatever the angle between axis and beam, a mate at the same time requires that the
    axis is perpendicular to the beam or to the scattering vector. *)
Theorem C99_tilted : forall z x p b a w T o m moves lo hi det d p1 lo2 hi2 det2 d2 p2 r r2 e h t,
  make_motion a w T o = Ok m -> unit a -> half_turn_about a moves ->
  diffract z x p b m lo hi det = (Ok d, p1) -> diffract z x (transforms moves p) b m lo2 hi2 det2 = (Ok d2, p2) ->
  In r (pd_peaks d) -> has d r "grain_index" (INR e) -> has_vec d r "h" "k" "l" h -> has d r "diffraction_times" t ->
  In r2 (pd_peaks d2) -> has d2 r2 "grain_index" (INR e) -> has_vec d2 r2 "h" "k" "l" (vneg h) -> has d2 r2 "diffraction_times" t ->
  exists G, has_vec d r "Gx" "Gy" "Gz" G /\ has_vec d2 r2 "Gx" "Gy" "Gz" (mirror a G) /\ (dot a (b_wave_vector b) = 0 \/ dot a G = 0).
Proof. exact pC99_tilted. Qed.
Print Assumptions C99_tilted.

