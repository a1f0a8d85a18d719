(** Generated by tools/gen_properties.py from PTemplates.v: the property theorems,
    verbatim, each closed by [exact]. Contains nothing else. *)
From Verif Require Import Vec Spec MMotion MLaue MMesh MScattering MStrain MBeam SBeam MPolycrystal MDetector SDetector MTemplates STemplates.
From Verif Require Import PMesh PBeam PDetector PPolycrystal.
From Coq Require Import String Permutation.
From Verif Require Import PTemplates.
Open Scope R_scope.

(** A dictionary that lacks one of the documented keys is refused with ValueError. *)
Theorem C55_missing_key : forall q p k, In k documented_keys -> p k = None -> s3dxrd q p = Err ValueError.
Proof. exact pC55_missing_key. Qed.
Print Assumptions C55_missing_key.

(** Other keys are ignored. *)
Theorem C55_other_keys : forall q p p', (forall k, In k documented_keys -> p k = p' k) -> s3dxrd q p = s3dxrd q p'.
Proof. exact pC55_other_keys. Qed.
Print Assumptions C55_other_keys.

(** The detector has the configured numbers of pixels of the configured size, and the ray along
    the beam from any point (x, y, z) in front of it arrives, perpendicularly, at y and z counted
    from the configured centre position. *)
Theorem C55_detector : forall q p s b d m, given p s -> sane s -> s3dxrd q p = Ok (b, d, m) ->
  d_nz d = Z.to_nat (se_nz s) /\ d_ny d = Z.to_nat (se_ny s) /\ d_pz d = se_pz s /\ d_py d = se_py s /\
  forall zero x y z, x <= se_distance s ->
    get_intersection zero d (nfin (V3 1 0 0)) (nfin (V3 x y z)) = (Fin (se_cz s * se_pz s + z), Fin (se_cy s * se_py s + y), Fin 0).
Proof. exact pC55_detector. Qed.
Print Assumptions C55_detector.

(** So the beam through the origin arrives at the configured centre: it is on the detector iff
    the centre is between 0 and the number of pixels, and its pixel is the whole part. *)
Theorem C55_direct_beam : forall q p s b d m zero, given p s -> sane s -> 0 <= se_distance s -> s3dxrd q p = Ok (b, d, m) ->
  exists zd yd, get_intersection zero d (nfin (V3 1 0 0)) (nfin vzero) = (Fin zd, Fin yd, Fin 0) /\
    (det_contains d (Fin zd) (Fin yd) = true <-> 0 <= se_cz s <= IZR (se_nz s) /\ 0 <= se_cy s <= IZR (se_ny s)) /\
    (0 <= se_cz s -> 0 <= se_cy s -> pixel_index d zd yd = (Int_part (se_cz s), Int_part (se_cy s))).
Proof. exact pC55_direct_beam. Qed.
Print Assumptions C55_direct_beam.

Theorem C55_beam : forall q p s b d m, given p s -> 0 < se_distance s -> 0 < se_lz s -> 0 < se_ly s -> s3dxrd q p = Ok (b, d, m) ->
  b_wave_vector b = V3 (2 * PI / se_wavelength s) 0 0 /\ b_wavelength b = se_wavelength s /\ b_polarization b = V3 0 1 0 /\
  forall x y z, in_hull (b_vertices b) (V3 x y z) <-> Rabs x <= se_distance s /\ Rabs y <= se_ly s / 2 /\ Rabs z <= se_lz s / 2.
Proof. exact pC55_beam. Qed.
Print Assumptions C55_beam.

(** The sample motion is the configured rotation about the origin, without translation. *)
Theorem C55_motion : forall q p s b d m, given p s -> s3dxrd q p = Ok (b, d, m) -> m = Motion (se_axis s) (se_step s) vzero vzero /\ 0 < se_step s < PI.
Proof. exact pC55_motion. Qed.
Print Assumptions C55_motion.

(** With sane detector values the call succeeds exactly when the wavelength is not zero, the hull
    accepts the eight beam corners, the step is in (0, pi) and the axis is a unit vector (up to
    the tolerance of the motion class). *)
Theorem C55_succeeds : forall q p s eqs, given p s -> sane s -> (forall vs, qh_nvert q vs = Ok (List.length vs)) -> (forall vs, qh_eqs_QJ q vs = Ok eqs) ->
  (exists r, s3dxrd q p = Ok r) <-> se_wavelength s <> 0 /\ 0 < se_step s < PI /\ axis_ok (se_axis s) = true.
Proof. exact pC55_succeeds. Qed.
Print Assumptions C55_succeeds.

Example C55_experiment_nonvacuous : exists q p s r, given p s /\ sane s /\ s3dxrd q p = Ok r.
Proof. exact xC55_experiment. Qed.

