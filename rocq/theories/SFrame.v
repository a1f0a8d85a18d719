(** * Specification vocabulary: the same experiment set up elsewhere in the laboratory (C89). *)
From Verif Require Import Vec Spec MMotion MLaue MMesh MScattering MStrain MBeam SBeam MPolycrystal SPolycrystal MDetector SDetector.
Open Scope R_scope.

(** The point x after turning everything by the rotation A about the lab origin and shifting it by t. *)
Definition put (A : mat) (t x : vec) : vec := vadd (mv A x) t.

(** [p2] is the sample [p] put there: element positions and orientations turned along, the material unchanged. *)
Definition moved_sample (A : mat) (t : vec) (p p2 : polycrystal) : Prop :=
  pc_U p2 = map (mm A) (pc_U p) /\
  me_coord (pc_mesh_lab p2) = map (put A t) (me_coord (pc_mesh_lab p)) /\
  me_espherecentroids (pc_mesh_lab p2) = map (put A t) (me_espherecentroids (pc_mesh_lab p)) /\
  me_centroid (pc_mesh_lab p2) = put A t (me_centroid (pc_mesh_lab p)) /\
  pc_volumes p2 = pc_volumes p /\ pc_eB p2 = pc_eB p /\ pc_map p2 = pc_map p /\ pc_phases p2 = pc_phases p.
(** The beam put there: direction and polarization turned along; it lights the moved image of what it lit before. *)
Definition moved_beam (A : mat) (t : vec) (b b2 : beam) : Prop :=
  b_wave_vector b2 = mv A (b_wave_vector b) /\ b_polarization b2 = mv A (b_polarization b) /\
  b_wavelength b2 = b_wavelength b /\
  forall x, strictly_inside (b_halfspaces b2) (put A t x) <-> strictly_inside (b_halfspaces b) x.
(** The sample motion put there. *)
Definition moved_motion (A : mat) (t : vec) (m m2 : motion) : Prop :=
  m2 = Motion (mv A (m_axis m)) (m_angle m) (mv A (m_trans m)) (put A t (m_origin m)).
(** The detector constructed with the moved corners and the same other arguments. *)
Definition moved_detector (A : mat) (t : vec) (d d2 : detector) : Prop :=
  exists c0 c1 c2 np ps sg th mr ul up us,
    make_detector c0 c1 c2 np ps sg th mr ul up us = Ok d /\
    make_detector (put A t c0) (put A t c1) (put A t c2) np ps sg th mr ul up us = Ok d2.

(** The columns that hold lab vectors. *)
Definition vector_columns : list string :=
  ["G0_x"; "G0_y"; "G0_z"; "Gx"; "Gy"; "Gz"; "K_out_x"; "K_out_y"; "K_out_z"; "Source_x"; "Source_y"; "Source_z"]%string.
(** Row [r2] of table [pd2] describes the reflection of row [r] of table [pd], seen from there. *)
Definition moved_row (A : mat) (t : vec) (pd pd2 : peaks_dict) (r r2 : list num) : Prop :=
  (forall c, ~ In c vector_columns -> field pd2 r2 c = field pd r c) /\
  exists g0 g k s,
    has_vec pd r "G0_x" "G0_y" "G0_z" g0 /\ has_vec pd2 r2 "G0_x" "G0_y" "G0_z" (mv A g0) /\
    has_vec pd r "Gx" "Gy" "Gz" g /\ has_vec pd2 r2 "Gx" "Gy" "Gz" (mv A g) /\
    has_vec pd r "K_out_x" "K_out_y" "K_out_z" k /\ has_vec pd2 r2 "K_out_x" "K_out_y" "K_out_z" (mv A k) /\
    has_vec pd r "Source_x" "Source_y" "Source_z" s /\ has_vec pd2 r2 "Source_x" "Source_y" "Source_z" (put A t s).

(** No detector in either call, or the detector and its moved copy (for the Bragg-angle limits of diffract). *)
Definition moved_choice (A : mat) (t : vec) (d d2 : option detector) : Prop :=
  match d, d2 with
  | None, None => True
  | Some d, Some d2 => moved_detector A t d d2
  | _, _ => False
  end.
Definition cone_arg (z : bool) (d : option detector) : option cone := option_map (wrapping_cone z) d.
(** Orientation and strain arguments of the moved sample. *)
Definition mats_map (f : mat -> mat) (a : mats) : mats :=
  match a with One M => One (f M) | Stack l => Stack (map f l) | OtherShape => OtherShape end.
(** A half-space moved along. *)
Definition moved_halfspace (A : mat) (t : vec) (h : halfspace) : halfspace :=
  HS (mv A (hs_n h)) (hs_d h - dot (mv A (hs_n h)) t).
