(** * Specification vocabulary: a scan taken in steps (C88). *)
From Verif Require Import Vec Spec MMotion MLaue MMesh MStrain MBeam MPolycrystal SPolycrystal SEvents SEnd.
Open Scope R_scope.

(** Plane number j of element e fulfils the Laue condition once the sample is turned by the angle th about a. *)
Definition reflects (p : polycrystal) (b : beam) (a : vec) (e j : nat) (th : R) : Prop :=
  exists i ph h G0, in_phase p e i /\ nth_error (pc_phases p) i = Some ph /\ plane_at ph j h /\
    scattering_vector p e h G0 /\ laue_condition (b_wave_vector b) (right_handed_rotation a th G0).
(** The spot of a single-frame picture of step number k, as a spot of the whole scan with n frames. *)
Definition in_scan (n k : nat) (s : seen) : seen :=
  Seen (sn_element s) (sn_plane s) ((INR k + sn_time s) / INR n) k (sn_zd s) (sn_yd s) (sn_intensity s) (sn_volume s).
