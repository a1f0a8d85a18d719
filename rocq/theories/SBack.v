(** * Specification vocabulary: a scan run backwards (C92). *)
From Verif Require Import Vec Spec MMotion MLaue MMesh MStrain MBeam MPolycrystal SPolycrystal SEvents SEnd SScan.
From Coq Require Import Permutation.
Open Scope list_scope. Open Scope R_scope.

(** Row [r'] of table [pd'] describes the reflection of row [r] of table [pd], found at time 1 - t instead of t: every
    other column is the same, except the row number and the scattering vector before the motion (G0). *)
Definition mirrored (pd pd' : peaks_dict) (r r' : list num) : Prop :=
  (forall c, c <> "diffraction_times"%string -> c <> "G0_x"%string -> c <> "G0_y"%string -> c <> "G0_z"%string ->
     c <> "peak_index"%string -> field pd' r' c = field pd r c) /\
  (exists t, has pd r "diffraction_times" t /\ has pd' r' "diffraction_times" (1 - t)) /\
  (exists G0 G0', has_vec pd r "G0_x" "G0_y" "G0_z" G0 /\ has_vec pd' r' "G0_x" "G0_y" "G0_z" G0' /\
     motion_rotate (pd_motion pd) (P1 G0) (S0 1) = Ok (P1 G0')).
(** The spot [s] of a picture with n frames, seen at the mirrored time in the mirrored frame. *)
Definition mirrored_spot (n : nat) (s : seen) : seen :=
  Seen (sn_element s) (sn_plane s) (1 - sn_time s) (n - 1 - sn_frame s) (sn_zd s) (sn_yd s) (sn_intensity s) (sn_volume s).
