(** Generated by tools/gen_properties.py from PScattering.v: the property theorems,
    verbatim, each closed by [exact]. Contains nothing else. *)
From Verif Require Import Vec Spec MScattering SScattering.
From Verif Require Import PScattering.

(** For a unit polarization vector the factor is between 0 and 1, 1 exactly for
    scattering orthogonal to the polarization and 0 exactly along it. *)
Theorem C59_polarization_range : forall p kp, unit p -> kp <> vzero ->
  exists r, polarization p kp = Fin r /\ 0 <= r <= 1 /\ (r = 1 <-> orthogonal p kp) /\
    (r = 0 <-> cross p kp = vzero).
Proof. exact pC59_polarization_range. Qed.
Print Assumptions C59_polarization_range.

(** The factor depends on the direction of scattering only. *)
Theorem C59_polarization_direction : forall p kp c, c <> 0 -> kp <> vzero ->
  polarization p (vscale c kp) = polarization p kp.
Proof. exact pC59_polarization_direction. Qed.
Print Assumptions C59_polarization_direction.

(** The Lorentz factor of an elastically scattered reflection is NaN for exact
    backscattering only; otherwise it is +infinity (exactly when the scattering
    angle is below one degree or the scattered direction is within half a degree
    of the axis azimuth) or the finite number 1/(sin(2 theta) |sin(eta)|), which
    is at least 1.  It is never negative. *)
Theorem C59_lorentz_cases : forall z k a kp, unit a -> k <> vzero -> norm kp = norm k ->
  (kp = vneg k /\ lorentz z k a kp = NaN) \/
  (kp <> vneg k /\ lorentz z k a kp = PInf /\
     (kp = k \/ scattering_angle k kp < PI/180 \/ azimuth k a kp < PI/360 \/ PI - PI/360 < azimuth k a kp)) \/
  (exists r, lorentz z k a kp = Fin r /\ 1 <= r /\
     PI/180 <= scattering_angle k kp < PI /\ PI/360 <= azimuth k a kp <= PI - PI/360 /\
     r = 1 / (sin (scattering_angle k kp) * Rabs (sin (azimuth k a kp)))).
Proof. exact pC59_lorentz_cases. Qed.
Print Assumptions C59_lorentz_cases.

(** Meaning, for the usual geometry of a rotation axis orthogonal to the beam: a
    finite factor is |k|^2 / |a . (k x k')|, the inverse speed at which the
    reflection crosses the Ewald sphere per unit rotation angle. *)
Theorem C59_lorentz_speed : forall z k a kp r, unit a -> k <> vzero -> norm kp = norm k -> orthogonal a k ->
  lorentz z k a kp = Fin r -> r = normsq k / Rabs (triple a k kp).
Proof. exact pC59_lorentz_speed. Qed.
Print Assumptions C59_lorentz_speed.

(** A batch of n reflections is returned as n factors, except that a single
    reflection comes back as a scalar, on which the caller's unsqueeze raises. *)
Theorem C59_lorentz_batch : forall z k a kps,
  unsqueeze1 (lorentz_call z k a kps) =
  if Nat.eqb (length kps) 1 then Err IndexError else Ok (map (lorentz z k a) kps).
Proof. exact pC59_lorentz_batch. Qed.
Print Assumptions C59_lorentz_batch.

Example C59_finite_nonvacuous : exists r, lorentz false (V3 1 0 0) (V3 0 0 1) (V3 0 1 0) = Fin r /\ r = 1.
Proof. exact xC59_finite. Qed.

(** the size entering the formula is the diameter (in angstrom) of the sphere
    with the element's volume (in cubic microns) *)
Theorem C60_size_is_equivalent_diameter : forall d, 0 <= d -> crystallite_size (PI * d^3 / 6) = d * 10000.
Proof. exact pC60_size_is_equivalent_diameter. Qed.
Print Assumptions C60_size_is_equivalent_diameter.

Theorem C60_scherrer_positive : forall z v tt l, 0 < v -> 0 < l -> 0 <= tt < PI ->
  exists w, scherrer z v tt l = Fin w /\ 0 < w.
Proof. exact pC60_scherrer_positive. Qed.
Print Assumptions C60_scherrer_positive.

(** The Scherrer formula itself: an element with the volume of a ball of diameter d (microns, 10000
    angstroms each) broadens the peak by 0.9 wavelength / (d cos(theta)), theta half the scattering angle. *)
Theorem C60_scherrer_formula : forall z d tt l, 0 < d -> - PI < tt < PI ->
  exists w, scherrer z (PI * d^3 / 6) tt l = Fin w /\ w * (d * 10000) * cos (tt / 2) = 9 / 10 * l.
Proof. exact pC60_scherrer_formula. Qed.
Print Assumptions C60_scherrer_formula.

Theorem C60_scherrer_decreases_with_volume : forall z v v' tt l w w', 0 < v < v' -> 0 < l -> 0 <= tt < PI ->
  scherrer z v tt l = Fin w -> scherrer z v' tt l = Fin w' -> w' < w.
Proof. exact pC60_scherrer_decreases_with_volume. Qed.
Print Assumptions C60_scherrer_decreases_with_volume.

Theorem C60_scherrer_increases_with_angle : forall z v tt tt' l w w', 0 < v -> 0 < l -> 0 <= tt -> tt < tt' < PI ->
  scherrer z v tt l = Fin w -> scherrer z v tt' l = Fin w' -> w < w'.
Proof. exact pC60_scherrer_increases_with_angle. Qed.
Print Assumptions C60_scherrer_increases_with_angle.

(** Halving the linear size doubles the width; the width is proportional to the wavelength. *)
Theorem C60_scherrer_scaling : forall z v tt l w, 0 < v -> 0 <= tt < PI -> scherrer z (8 * v) tt l = Fin w ->
  scherrer z v tt l = Fin (2 * w) /\ (forall c, scherrer z (8 * v) tt (c * l) = Fin (c * w)).
Proof. exact pC60_scherrer_scaling. Qed.
Print Assumptions C60_scherrer_scaling.

(** Zero-volume elements (never produced by a mesh) would give an infinite width. *)
Theorem C60_zero_volume : forall z tt l, 0 < l -> exists s, scherrer z 0 tt l = nsign_inf s.
Proof. exact pC60_zero_volume. Qed.
Print Assumptions C60_zero_volume.

Example C60_value_nonvacuous : exists w, scherrer false (PI/6) 0 1 = Fin w /\ w = 9/100000.
Proof. exact xC60_value. Qed.

