(** * Vocabulary for property C97: the columns a picture is made from. *)
From Verif Require Import Vec MPolycrystal MDetector SPolycrystal SDetector.
From Coq Require Import String.
Open Scope R_scope.

(** Columns of a peak table that some step of rendering on detector d looks at. *)
Definition picture_column (d : detector) (s : string) : Prop :=
  In s ["grain_index"; "diffraction_times"; "K_out_x"; "K_out_y"; "K_out_z";
        "Source_x"; "Source_y"; "Source_z"; "volumes"; "scherrer_fwhm"]%string \/
  (s = "structure_factors"%string /\ d_structure d = true) \/
  (s = "polarization_factors"%string /\ d_polarization d = true) \/
  (s = "lorentz_factors"%string /\ d_lorentz d = true).

(** Columns the detector adds to the table. *)
Definition added_column (s : string) : Prop :=
  In s ["zd"; "yd"; "incident_angle"; "frame"; "intensity_factors"]%string.

(** Two tables with equally many rows of which corresponding rows agree in the columns of C. *)
Definition agree_on (C : string -> Prop) (pd pd' : peaks_dict) : Prop :=
  Forall2 (fun r r' => forall s, C s -> field pd r s = field pd' r' s) (pd_peaks pd) (pd_peaks pd').

(** Same sample surface, same motion, same illuminated region. *)
Definition same_scene (pd pd' : peaks_dict) : Prop :=
  pd_mesh pd = pd_mesh pd' /\ pd_motion pd = pd_motion pd' /\
  MBeam.b_halfspaces (pd_beam pd) = MBeam.b_halfspaces (pd_beam pd').

(** * Vocabulary for property C98. *)
(** The same beam with another polarization vector. *)
Definition repolarized (b : MBeam.beam) (p : vec) : MBeam.beam :=
  MBeam.Beam (MBeam.b_wave_vector b) (MBeam.b_wavelength b) (MBeam.b_vertices b) (MBeam.b_centroid b) (MBeam.b_halfspaces b) p.
(** Two hull routines that accept the same points and report the same planes to six decimals, in any order
    and any number of times. *)
Definition same_planes (q q' : MBeam.qhull) (vs : list vec) : Prop :=
  MBeam.qh_nvert q vs = MBeam.qh_nvert q' vs /\
  match MBeam.qh_eqs_QJ q vs, MBeam.qh_eqs_QJ q' vs with
  | Ok l, Ok l' => forall h, In h (map MBeam.hs_round l) <-> In h (map MBeam.hs_round l')
  | Err x, Err x' => x = x'
  | _, _ => False
  end.
(** Everything but the table of rows and the stored beam. *)
Definition same_header (pd pd' : peaks_dict) : Prop :=
  pd_columns pd = pd_columns pd' /\ pd_incident pd = pd_incident pd' /\ pd_wavelength pd = pd_wavelength pd' /\
  pd_axis pd = pd_axis pd' /\ pd_mesh pd = pd_mesh pd' /\ pd_motion pd = pd_motion pd'.
