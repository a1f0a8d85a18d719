(** * Specification vocabulary: two beams that differ only in the illuminated region (C95). *)
From Verif Require Import Vec Spec MMotion MLaue MMesh MScattering MStrain MBeam SBeam MPolycrystal SPolycrystal.
Open Scope R_scope.

Definition same_xrays (b b2 : beam) : Prop :=
  b_wave_vector b2 = b_wave_vector b /\ b_wavelength b2 = b_wavelength b /\ b_polarization b2 = b_polarization b.
(** Every point b2 illuminates, b illuminates. *)
Definition narrower (b2 b : beam) : Prop :=
  same_xrays b b2 /\ forall x, strictly_inside (b_halfspaces b2) x -> strictly_inside (b_halfspaces b) x.
(** The source point of a row of a peak table. *)
Definition source_of (pd : peaks_dict) (r : list num) (s : vec) : Prop := has_vec pd r "Source_x" "Source_y" "Source_z" s.
Definition source_in (pd : peaks_dict) (b : beam) (r : list num) : Prop :=
  exists s, source_of pd r s /\ strictly_inside (b_halfspaces b) s.
(** Two rows with the same entries in every column, except for their number in the table. *)
Definition same_but_number (pd pd2 : peaks_dict) (r r2 : list num) : Prop :=
  forall c, c <> "peak_index"%string -> field pd2 r2 c = field pd r c.
(** The part of a beam on the inner side of a further plane, and the part on its other side. *)
Definition cut (h : halfspace) (b : beam) : beam :=
  Beam (b_wave_vector b) (b_wavelength b) (b_vertices b) (b_centroid b) (h :: b_halfspaces b) (b_polarization b).
Definition other_side (h : halfspace) : halfspace := HS (vneg (hs_n h)) (- hs_d h).
