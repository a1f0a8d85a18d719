(** * Specification vocabulary: two detectors that sample the same plane on the same pixel grid (C96). *)
From Verif Require Import Vec Spec MMotion MLaue MMesh MScattering MStrain MBeam SBeam MPolycrystal SPolycrystal MDetector MClip MRender SRender SDetector.
Open Scope R_scope.

(** [d] is rectangular; the edges of [d2] are parallel to those of [d], of any length; its corner 0 is the corner of pixel (n, k) of
    the grid of [d] (any integers); the pixel size, the point-spread sigma and the correction switches agree. *)
Definition same_grid (n k : Z) (d d2 : detector) : Prop :=
  built d /\ built d2 /\ rectangular (d_c0 d) (d_c1 d) (d_c2 d) /\ d_c2 d <> d_c0 d /\ d_c1 d <> d_c0 d /\
  (exists a b, 0 < a /\ 0 < b /\ vsub (d_c2 d2) (d_c0 d2) = vscale a (vsub (d_c2 d) (d_c0 d)) /\ vsub (d_c1 d2) (d_c0 d2) = vscale b (vsub (d_c1 d) (d_c0 d))) /\
  d_c0 d2 = surface_point (d_c0 d) (d_c1 d) (d_c2 d) (IZR n * d_pz d) (IZR k * d_py d) /\
  d_pz d2 = d_pz d /\ d_py d2 = d_py d /\ d_sigma d2 = d_sigma d /\
  d_lorentz d2 = d_lorentz d /\ d_polarization d2 = d_polarization d /\ d_structure d2 = d_structure d.
(** Detector coordinates (zd, yd) on the sensitive area. *)
Definition on_panel (d : detector) (zd yd : R) : Prop := 0 <= zd <= d_zmax d /\ 0 <= yd <= d_ymax d.
(** The same reflection seen by both: all columns agree, except the detector coordinates, which are measured from another corner. *)
Definition same_hit (n k : Z) (d : detector) (out out2 : peaks_dict) (r r2 : list num) : Prop :=
  (forall c, c <> "zd"%string -> c <> "yd"%string -> field out2 r2 c = field out r c) /\
  read out2 r2 "zd" = read out r "zd" - IZR n * d_pz d /\ read out2 r2 "yd" = read out r "yd" - IZR k * d_py d.
(** Rows of [d]'s output that lie on the panel of [d2], and conversely. *)
Definition also_on (n k : Z) (d d2 : detector) (out : peaks_dict) (r : list num) : Prop :=
  on_panel d2 (read out r "zd" - IZR n * d_pz d) (read out r "yd" - IZR k * d_py d).
(** A position exactly halfway between two pixel indices. *)
Definition halfway (x : R) : Prop := exists m : Z, x = IZR m + 1/2.
(** Pixel (i, j) is farther than the radius of a 'micro' spot from all edges. *)
Definition well_inside (d : detector) (i j : nat) : Prop :=
  let m := IZR (micro_radius d) + 1/2 in
  m <= INR i /\ (INR i + m) * d_pz d <= d_zmax d /\ m <= INR j /\ (INR j + m) * d_py d <= d_ymax d.
(** The panel of [d2] is part of the panel of [d]. *)
Definition part_of (n k : Z) (d d2 : detector) : Prop :=
  (0 <= n)%Z /\ (0 <= k)%Z /\ IZR n * d_pz d + d_zmax d2 <= d_zmax d /\ IZR k * d_py d + d_ymax d2 <= d_ymax d.
(** No spot that matters here is halfway between pixels, or the offset is even. *)
Definition no_ties (n k : Z) (d : detector) (out : peaks_dict) : Prop :=
  (Z.even n = true \/ forall r, In r (pd_peaks out) -> ~ halfway (read out r "zd" / d_pz d)) /\
  (Z.even k = true \/ forall r, In r (pd_peaks out) -> ~ halfway (read out r "yd" / d_py d)).
