(** * Specification vocabulary: tables with the same spots under other numbers (C101). *)
From Verif Require Import Vec Spec MMotion MLaue MMesh MStrain MBeam MPolycrystal SPolycrystal MDetector SDetector MRender SRender SNano.
Open Scope R_scope.

(** Two rows of two tables hold the same entries, apart from the numbers of the grain, the phase and the peak. *)
Definition alike (pd pd' : peaks_dict) (r r' : list num) : Prop :=
  forall c, c <> "grain_index"%string -> c <> "phase_number"%string -> c <> "peak_index"%string -> field pd' r' c = field pd r c.
(** Discs that all get the same kernel radius: at most 2 pixels each, or equal. *)
Definition uniform_discs (d : detector) (pd : peaks_dict) : Prop :=
  (forall r, In r (pd_peaks pd) -> disc_radius d pd r <= 2) \/
  (forall r r', In r (pd_peaks pd) -> In r' (pd_peaks pd) -> disc_radius d pd r = disc_radius d pd r').
