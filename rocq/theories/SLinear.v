(** * Vocabulary for property C103: pictures of a rescaled table. *)
From Verif Require Import Vec MPolycrystal MDetector SPolycrystal SDetector MRender SRender.
From Coq Require Import String.
Open Scope R_scope.

(** A column whose numbers multiply the brightness of a spot on detector d. *)
Definition brightness_factor (d : detector) (s : string) : Prop :=
  (s = "structure_factors"%string /\ d_structure d = true) \/
  (s = "polarization_factors"%string /\ d_polarization d = true) \/
  (s = "lorentz_factors"%string /\ d_lorentz d = true).
(** Tables with corresponding rows, in which the columns of S are multiplied by c and all others are equal. *)
Definition rescaled (S : list string) (c : R) (pd pd' : peaks_dict) : Prop :=
  Forall2 (fun r r' => forall t,
      field pd' r' t = if existsb (String.eqb t) S then option_map (nmul (Fin c)) (field pd r t) else field pd r t)
    (pd_peaks pd) (pd_peaks pd').
(** The second picture is the first one times c. *)
Definition brighter (c : R) (im im' : frames3) : Prop :=
  has_shape im' (f_n im) (f_h im) (f_w im) /\ forall f i j, in_image im f i j -> f_at im' f i j = nmul (Fin c) (f_at im f i j).
