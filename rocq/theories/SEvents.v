(** * Specification vocabulary: diffraction events of a sample, without the solver (C13). *)
From Verif Require Import Vec Spec MMotion MLaue MMesh MStrain MBeam MPolycrystal SPolycrystal.
Open Scope R_scope.

(** The j-th Miller index of the phase is h and its squared structure factor, if the phase has
    structure factors, exceeds 1e-6. *)
Definition plane_at (ph : phase) (j : nat) (h : vec) : Prop :=
  exists hkl, ph_hkl ph = Some hkl /\ nth_error hkl j = Some h /\
    match ph_sf ph with
    | None => True
    | Some s => exists re im, nth_error s j = Some (re, im) /\ / 10^6 < re^2 + im^2
    end.
(** Plane number j of element e satisfies the Laue condition at time t in [0,1], with scattering
    vector G, while the sample turns about the axis a; reflections that also satisfy it half a
    turn away are excluded (the solver's blind spot, C08). *)
Definition diffracts_at (p : polycrystal) (b : beam) (a : vec) (m : motion) (e j : nat) (t : R) (G : vec) : Prop :=
  exists i ph h G0, in_phase p e i /\ nth_error (pc_phases p) i = Some ph /\ plane_at ph j h /\
    scattering_vector p e h G0 /\ 0 <= t <= 1 /\ motion_rotate m (P1 G0) (S0 t) = Ok (P1 G) /\
    laue_condition (b_wave_vector b) G /\ ~ laue_condition (b_wave_vector b) (right_handed_rotation a PI G0).
(** The scattering vector touches the Ewald sphere without crossing it: its velocity a x G is
    orthogonal to the incoming wave vector. *)
Definition grazing (k a G : vec) : Prop := dot k (cross a G) = 0.
