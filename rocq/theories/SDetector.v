(** * Specification vocabulary for detectors and projected peak tables. *)
From Verif Require Import Vec Spec MMotion MLaue MMesh MStrain MBeam MPolycrystal SPolycrystal MDetector.
Open Scope R_scope.

(** Detectors a program can obtain. *)
Definition built (d : detector) : Prop :=
  exists c0 c1 c2 np ps sg th mr ul up us, make_detector c0 c1 c2 np ps sg th mr ul up us = Ok d.

(** One value asks for both directions, a pair for z and y. *)
Inductive asks {A} : one_or_two A -> A -> A -> Prop :=
| asks_one a : asks (Single a) a a
| asks_two a b : asks (Pair a b) a b.

(** ** Corner geometry, in terms of the three corners only. *)
(** Normal direction (not normalised) of the plane through the corners. *)
Definition plane_normal (c0 c1 c2 : vec) : vec := cross (vsub c2 c0) (vsub c1 c0).
Definition non_collinear (c0 c1 c2 : vec) : Prop := plane_normal c0 c1 c2 <> vzero.
(** The two edges meet at a right angle. *)
Definition rectangular (c0 c1 c2 : vec) : Prop := dot (vsub c2 c0) (vsub c1 c0) = 0.
Definition in_plane (c0 c1 c2 p : vec) : Prop := dot (vsub p c0) (plane_normal c0 c1 c2) = 0.
(** The point z along the edge corner0->corner2 and y along corner0->corner1. *)
Definition surface_point (c0 c1 c2 : vec) (zd yd : R) : vec :=
  vadd c0 (vadd (vscale (zd / dist c2 c0) (vsub c2 c0)) (vscale (yd / dist c1 c0) (vsub c1 c0))).
(** The closed sensitive area: the parallelogram spanned by the edges. *)
Definition on_surface (c0 c1 c2 p : vec) : Prop :=
  exists a b, 0 <= a <= 1 /\ 0 <= b <= 1 /\
    p = vadd c0 (vadd (vscale a (vsub c2 c0)) (vscale b (vsub c1 c0))).
Definition ray_at (src dir : vec) (s : R) : vec := vadd src (vscale s dir).
(** The ray starting at src in direction dir crosses the sensitive area at p. *)
Definition hits (c0 c1 c2 src dir p : vec) : Prop :=
  dot dir (plane_normal c0 c1 c2) <> 0 /\ on_surface c0 c1 c2 p /\
  exists s, 0 <= s /\ p = ray_at src dir s.

(** Angle between two vectors, in radians. *)
Definition angle_between (a b : vec) : R := acos (dot a b / (norm a * norm b)).

(** ** Peak tables *)
(** A table with the layout diffract returns. *)
Definition fresh (pd : peaks_dict) : Prop :=
  pd_columns pd = column_names /\ Forall (fun r => List.length r = 25%nat) (pd_peaks pd).
(** The ray of a peak hits the detector at p. *)
Definition peak_hits (d : detector) (pd : peaks_dict) (r : list num) (p : vec) : Prop :=
  exists src dir,
    has_vec pd r "K_out_x" "K_out_y" "K_out_z" dir /\
    has_vec pd r "Source_x" "Source_y" "Source_z" src /\
    hits (d_c0 d) (d_c1 d) (d_c2 d) src dir p.
(** Value of a correction factor: the named column if enabled, else 1. *)
Definition factor (enabled : bool) (pd : peaks_dict) (r : list num) (name : string) (x : R) : Prop :=
  if enabled then has pd r name x else x = 1.
Definition intensity_is (d : detector) (pd : peaks_dict) (r : list num) (i : R) : Prop :=
  exists a b c, factor (d_structure d) pd r "structure_factors" a /\
    factor (d_polarization d) pd r "polarization_factors" b /\
    factor (d_lorentz d) pd r "lorentz_factors" c /\ i = a * b * c.
Definition visible (d : detector) (pd : peaks_dict) (r : list num) : Prop :=
  (exists p, peak_hits d pd r p) /\ (exists i, intensity_is d pd r i /\ 0 < i).

(** Time bin f out of n equal bins of [0,1]: left-open, right-closed, except that
    time 0 belongs to the first bin. *)
Definition in_bin (n : Z) (t : R) (f : Z) : Prop :=
  (0 <= f < n)%Z /\ ((t = 0 /\ f = 0%Z) \/ IZR f / IZR n < t) /\ t <= (IZR f + 1) / IZR n.
