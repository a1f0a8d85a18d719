(** * Specification vocabulary: Friedel pairs (C99). *)
From Verif Require Import Vec Spec MMotion MLaue MMesh MStrain MBeam MPolycrystal SPolycrystal.
Open Scope list_scope. Open Scope R_scope.

(** The mirror image of [v] in the plane through zero perpendicular to the unit vector [a]. *)
Definition mirror (a v : vec) : vec := vsub v (vscale (2 * dot a v) a).

(** The moves turn about the axis [a] only, by an odd number of half turns altogether. *)
Definition half_turn_about (a : vec) (moves : list (motion * R)) : Prop :=
  (forall gs, In gs moves -> m_axis (fst gs) = a) /\
  exists n : Z, sum_list (map (fun gs => m_angle (fst gs) * snd gs) moves) = PI * (2 * IZR n + 1).

(** Row [r2] of table [d2] is the Friedel mate of row [r] of table [d]: the same element, phase, time, volume, Bragg angle,
    Lorentz factor and peak width; opposite Miller indices; scattering vector and scattered wave vector mirrored. *)
Definition friedel_mate (a : vec) (d d2 : peaks_dict) (r r2 : list num) : Prop :=
  (forall c, In c ["grain_index"; "phase_number"; "diffraction_times"; "volumes"; "2theta"; "lorentz_factors"; "scherrer_fwhm"]%string ->
     field d2 r2 c = field d r c) /\
  (exists h, has_vec d r "h" "k" "l" h /\ has_vec d2 r2 "h" "k" "l" (vneg h)) /\
  (exists G, has_vec d r "Gx" "Gy" "Gz" G /\ has_vec d2 r2 "Gx" "Gy" "Gz" (mirror a G)) /\
  (exists K, has_vec d r "K_out_x" "K_out_y" "K_out_z" K /\ has_vec d2 r2 "K_out_x" "K_out_y" "K_out_z" (mirror a K)).
