(** * Specification vocabulary: the same crystals and the same rotation, displaced (C104). *)
From Verif Require Import Vec Spec MMotion MLaue MMesh MScattering MStrain MBeam SBeam MPolycrystal SPolycrystal MDetector SDetector SAperture.
Open Scope R_scope.

(** Motions of the same rotation (axis and angle); travel and rotation centre may differ. *)
Definition same_turning (m m2 : motion) : Prop := m_axis m2 = m_axis m /\ m_angle m2 = m_angle m.
(** Crystal points shifted by v in the sample and carried by m2 sit, at time s, w(s) away from where they sat unshifted and
    carried by m. *)
Definition displacement (m m2 : motion) (v : vec) (w : R -> vec) : Prop :=
  forall s x y, motion_call m (P1 x) (S0 s) = Ok (P1 y) -> motion_call m2 (P1 (vadd x v)) (S0 s) = Ok (P1 (vadd y (w s))).
(** The columns that may differ between the two tables. *)
Definition place_columns : list string := ["Source_x"; "Source_y"; "Source_z"; "peak_index"]%string.
(** Rows of the same reflection: the same entries, but the source point (and the number in the table); source points are w(time) apart. *)
Definition displaced_row (w : R -> vec) (pd pd2 : peaks_dict) (r r2 : list num) : Prop :=
  (forall c, ~ In c place_columns -> field pd2 r2 c = field pd r c) /\
  exists t s, has pd r "diffraction_times" t /\ source_of pd r s /\ source_of pd2 r2 (vadd s (w t)).
(** The beam contains the source point of the row, displaced by w at the time of the row. *)
Definition source_lands (w : R -> vec) (pd : peaks_dict) (b : beam) (r : list num) : Prop :=
  exists t s, has pd r "diffraction_times" t /\ source_of pd r s /\ strictly_inside (b_halfspaces b) (vadd s (w t)).
(** The shift of the sample by v. *)
Definition shifted (v : vec) (x : vec) : vec := vadd x v.
(** Unit vectors of the detector's edges. *)
Definition edge_dir (c c0 : vec) : vec := vscale (/ dist c c0) (vsub c c0).
(** Seen along the direction k, the displacement u is sz along the z edge and sy along the y edge of the detector. *)
Definition seen_as (d : detector) (k u : vec) (sz sy : R) : Prop :=
  exists a, vadd u (vscale a k) = vadd (vscale sz (edge_dir (d_c2 d) (d_c0 d))) (vscale sy (edge_dir (d_c1 d) (d_c0 d))).
