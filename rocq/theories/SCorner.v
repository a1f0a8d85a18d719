(** * Specification vocabulary: one rectangle, its corners listed in another order (C105). *)
From Verif Require Import Vec Spec MMotion MLaue MMesh MScattering MStrain MBeam SBeam MPolycrystal SPolycrystal MDetector MClip MRender SRender SDetector.
Open Scope R_scope.

(** The same point spread and the same correction switches. *)
Definition same_settings (d d2 : detector) : Prop :=
  d_sigma d2 = d_sigma d /\ d_threshold d2 = d_threshold d /\ d_max_radius d2 = d_max_radius d /\
  d_lorentz d2 = d_lorentz d /\ d_polarization d2 = d_polarization d /\ d_structure d2 = d_structure d.
(** Corner 1 and corner 2 are exchanged, and with them the pixel sizes along the two edges. *)
Definition transposed (d d2 : detector) : Prop :=
  built d /\ built d2 /\ d_c2 d <> d_c0 d /\ d_c1 d <> d_c0 d /\
  d_c0 d2 = d_c0 d /\ d_c1 d2 = d_c2 d /\ d_c2 d2 = d_c1 d /\ d_pz d2 = d_py d /\ d_py d2 = d_pz d /\ same_settings d d2.
(** The fourth corner. *)
Definition fourth_corner (d : detector) : vec := vadd (d_c2 d) (vsub (d_c1 d) (d_c0 d)).
(** Numbering starts at corner 2 and runs back to corner 0: the z edge is run through the other way. *)
Definition turned_over (d d2 : detector) : Prop :=
  built d /\ built d2 /\ rectangular (d_c0 d) (d_c1 d) (d_c2 d) /\ d_c2 d <> d_c0 d /\ d_c1 d <> d_c0 d /\
  d_c0 d2 = d_c2 d /\ d_c1 d2 = fourth_corner d /\ d_c2 d2 = d_c0 d /\ d_pz d2 = d_pz d /\ d_py d2 = d_py d /\ same_settings d d2.
(** The same reflection in both tables: the detector coordinates (zd, yd) become [to zd yd], the incident angle its supplement, and every
    other column is the same. *)
Definition relaid (to : R -> R -> R * R) (out out2 : peaks_dict) (r r2 : list num) : Prop :=
  (forall c, ~ In c ["zd"; "yd"; "incident_angle"]%string -> field out2 r2 c = field out r c) /\
  exists zd yd a, has out r "zd" zd /\ has out r "yd" yd /\ has out r "incident_angle" a /\
    has out2 r2 "zd" (fst (to zd yd)) /\ has out2 r2 "yd" (snd (to zd yd)) /\ has out2 r2 "incident_angle" (180 - a).
Definition exchanged (zd yd : R) : R * R := (yd, zd).
Definition from_far_end (d : detector) (zd yd : R) : R * R := (d_zmax d - zd, yd).
(** The transposed picture: rows and columns exchanged in every frame. *)
Definition transposed_image (im im2 : frames3) : Prop :=
  f_n im2 = f_n im /\ f_h im2 = f_w im /\ f_w im2 = f_h im /\ forall f i j, in_image im f i j -> f_at im2 f j i = f_at im f i j.
(** A value per axis, with the axes exchanged. *)
Definition swap {A} (x : one_or_two A) : one_or_two A := match x with Single a => Single a | Pair a b => Pair b a end.
