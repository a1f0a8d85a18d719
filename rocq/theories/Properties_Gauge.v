(** Generated by tools/gen_properties.py from PGauge.v: the property theorems,
    verbatim, each closed by [exact]. Contains nothing else. *)
From Verif Require Import Vec Spec MMotion PMotion MLaue PLaue MMesh SMesh PMesh MScattering SScattering PScattering.
From Verif Require Import MStrain SStrain PStrain MBeam SBeam PBeam MPolycrystal SPolycrystal PPolycrystal PPolycrystal2 PPolycrystal3 SGauge.
From Verif Require Import PGauge.
Open Scope list_scope. Open Scope R_scope.

(** C107. In every reported row (any sample with rotations as orientations and symmetric strains, any earlier
    transforms and diffract calls) the length of the scattering vector, and hence the reported 2theta, measures
    the current lab-frame strain of the row's element along the reported plane normal: with d0 and sin(theta0)
    those of the unstrained lattice, (d/d0)^2 = (sin theta0 / sin theta)^2 = 1 + 2 N.eps N. *)
Theorem C107_gauge : forall z x p0 ops p q b a w T o m lo hi det d p' row,
  proper_sample x p0 -> turns_rigidly ops -> p = pc_run z x ops p0 ->
  reachable_beam q b -> make_motion a w T o = Ok m -> unit a ->
  diffract z x p b m lo hi det = (Ok d, p') -> In row (pd_peaks d) ->
  exists e i ph h eps G0 tth,
    has d row "grain_index" (INR e) /\ has d row "phase_number" (INR i) /\ has_vec d row "h" "k" "l" h /\
    has_vec d row "G0_x" "G0_y" "G0_z" G0 /\ has d row "2theta" tth /\
    nth_error (pc_phases p) i = Some ph /\ nth_error (pc_eps p) e = Some eps /\
    0 < norm G0 /\ unit (direction G0) /\ (free_length x ph h / norm G0) ^ 2 = 1 + 2 * strain_along eps (direction G0) /\
    0 < sin (tth / 2) /\
    ((b_wavelength b * free_length x ph h / (4 * PI)) / sin (tth / 2)) ^ 2 = 1 + 2 * strain_along eps (direction G0).
Proof. exact pC107_gauge. Qed.
Print Assumptions C107_gauge.

(** C107. Tension along the plane normal moves the peak to a smaller angle, compression to a larger one, and a
    peak is at the angle of the unstrained lattice exactly when there is no strain along its normal. *)
Theorem C107_shift : forall z x p0 ops p q b a w T o m lo hi det d p' row e i ph h eps G0 tth theta0,
  proper_sample x p0 -> turns_rigidly ops -> p = pc_run z x ops p0 ->
  reachable_beam q b -> make_motion a w T o = Ok m -> unit a ->
  diffract z x p b m lo hi det = (Ok d, p') -> In row (pd_peaks d) ->
  has d row "grain_index" (INR e) -> has d row "phase_number" (INR i) -> has_vec d row "h" "k" "l" h ->
  has_vec d row "G0_x" "G0_y" "G0_z" G0 -> has d row "2theta" tth ->
  nth_error (pc_phases p) i = Some ph -> nth_error (pc_eps p) e = Some eps ->
  0 <= theta0 <= PI / 2 -> b_wavelength b * free_length x ph h = 4 * PI * sin theta0 ->
  (tth < 2 * theta0 <-> 0 < strain_along eps (direction G0)) /\
  (tth = 2 * theta0 <-> strain_along eps (direction G0) = 0) /\
  (2 * theta0 < tth <-> strain_along eps (direction G0) < 0).
Proof. exact pC107_shift. Qed.
Print Assumptions C107_shift.

