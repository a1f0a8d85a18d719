(** * Specification vocabulary: the same experiment with all lengths multiplied by s (C94). *)
From Verif Require Import Vec Spec MMotion MLaue MMesh MScattering MStrain MBeam SBeam MPolycrystal SPolycrystal MDetector SDetector.
Open Scope R_scope.

(** [p2] is the sample [p] enlarged by s about the lab origin: positions times s, volumes times s^3;
    orientations, lattices and phases unchanged. *)
Definition scaled_sample (s : R) (p p2 : polycrystal) : Prop :=
  me_coord (pc_mesh_lab p2) = map (vscale s) (me_coord (pc_mesh_lab p)) /\
  me_espherecentroids (pc_mesh_lab p2) = map (vscale s) (me_espherecentroids (pc_mesh_lab p)) /\
  me_centroid (pc_mesh_lab p2) = vscale s (me_centroid (pc_mesh_lab p)) /\
  pc_volumes p2 = map (Rmult (s ^ 3)) (pc_volumes p) /\
  pc_U p2 = pc_U p /\ pc_eB p2 = pc_eB p /\ pc_map p2 = pc_map p /\ pc_phases p2 = pc_phases p.
(** The beam region enlarged likewise; the X-rays are the same. *)
Definition scaled_beam (s : R) (b b2 : beam) : Prop :=
  b_wave_vector b2 = b_wave_vector b /\ b_polarization b2 = b_polarization b /\ b_wavelength b2 = b_wavelength b /\
  forall x, strictly_inside (b_halfspaces b2) (vscale s x) <-> strictly_inside (b_halfspaces b) x.
(** The sample motion: the same rotation, the translation and the origin enlarged. *)
Definition scaled_motion (s : R) (m m2 : motion) : Prop :=
  m2 = Motion (m_axis m) (m_angle m) (vscale s (m_trans m)) (vscale s (m_origin m)).
Definition scale_sizes (s : R) (p : option (one_or_two R)) : option (one_or_two R) :=
  option_map (fun q => match q with Single a => Single (s * a) | Pair a b => Pair (s * a) (s * b) end) p.
(** The detector constructed with enlarged corners and pixel sizes (a pixel count stays) and the same
    other arguments. *)
Definition scaled_detector (s : R) (d d2 : detector) : Prop :=
  exists c0 c1 c2 np ps sg th mr ul up us,
    make_detector c0 c1 c2 np ps sg th mr ul up us = Ok d /\
    make_detector (vscale s c0) (vscale s c1) (vscale s c2) np (scale_sizes s ps) sg th mr ul up us = Ok d2.
Definition scaled_choice (s : R) (d d2 : option detector) : Prop :=
  match d, d2 with
  | None, None => True
  | Some d, Some d2 => scaled_detector s d d2
  | _, _ => False
  end.

(** How each column of a peak table answers: lengths with s, volumes with s^3, the Scherrer peak width
    with 1/s, everything else not at all. *)
Definition column_factor (s : R) (c : string) : R :=
  if existsb (String.eqb c) ["Source_x"; "Source_y"; "Source_z"; "zd"; "yd"]%string then s
  else if String.eqb c "volumes" then s ^ 3
  else if String.eqb c "scherrer_fwhm" then / s
  else 1.
Definition scaled_row (s : R) (pd pd2 : peaks_dict) (r r2 : list num) : Prop :=
  forall c, field pd2 r2 c = option_map (nmul (Fin (column_factor s c))) (field pd r c).
(** A half-space enlarged. *)
Definition scaled_halfspace (s : R) (h : halfspace) : halfspace := HS (hs_n h) (s * hs_d h).
