(** * Specification vocabulary for scattering geometry (no model file used). *)
From Verif Require Import Vec Spec.

(** Geometric quantities of a reflection: the scattering angle and the
    angle between the axis and the transverse part of the scattered direction. *)
Definition scattering_angle (k kp : vec) : R := acos (dot k kp / normsq k).
Definition transverse (k kp : vec) : vec := vsub kp (vscale (dot k kp / normsq k) k).
Definition azimuth (k a kp : vec) : R := acos (dot a (transverse k kp) / norm (transverse k kp)).

