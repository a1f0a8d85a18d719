(** * Specification vocabulary: reading strain from peak positions (C107). *)
From Verif Require Import Vec Spec SStrain MMotion MMesh MStrain MBeam MPolycrystal SPolycrystal.
Open Scope list_scope. Open Scope R_scope.

(** A sample the constructor accepted, with rotations as orientations and symmetric strain tensors. *)
Definition proper_sample (x : xtal) (p : polycrystal) : Prop :=
  (exists me o s phs mp, make_polycrystal x me o s phs mp = Ok p) /\
  Forall is_rotation (pc_U p) /\ Forall symmetric (pc_eps p).
(** The transforms among a series of calls turn the sample about unit axes. *)
Definition turns_rigidly (ops : list pc_op) : Prop :=
  forall m t, In (OpTransform m t) ops -> unit (m_axis m).
(** The direction of a vector. *)
Definition direction (v : vec) : vec := vscale (/ norm v) v.
(** |G| of plane [h] in the unstrained lattice of [ph], as xfab gives it: 2 pi / d0. *)
Definition free_length (x : xtal) (ph : phase) (h : vec) : R := norm (mv (x_form_b x (ph_cell ph)) h).
(** The strain along [N]: the relative change that (d/d0)^2 = 1 + 2 (strain along N) measures. *)
Definition strain_along (eps : mat) (N : vec) : R := dot N (mv eps N).
