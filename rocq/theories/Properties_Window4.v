(** Generated by tools/gen_properties.py from PWindow4.v: the property theorems,
    verbatim, each closed by [exact]. Contains nothing else. *)
From Verif Require Import Vec Spec MMotion MLaue MMesh MScattering MStrain MBeam SBeam MPolycrystal SPolycrystal MDetector MClip MRender SRender SWindow.
From Verif Require Import PMotion PLaue PMesh PBeam PStrain PPolycrystal PPolycrystal2 PPolycrystal3 PDetector PDetector2 PDetector3 PRender PRender2 PRender3 PEvents PEnd2 PJoin2 PFrame PFrame2 PFrame3 PFrame4 PNumber4 PWindow PWindow2 PWindow3.
From Verif Require Import SDetector.
From Verif Require Import PWindow4.
Open Scope list_scope. Open Scope R_scope.

(** C96. A detector whose three corners are taken from the surface of a rectangular one, corner 0 at a pixel corner, and that is
    constructed with the same explicit pixel size, is on the same grid. *)
Theorem C96_built : forall c0 c1 c2 ps sg th mr ul up us d th2 mr2 d2 n k zb yb,
  make_detector c0 c1 c2 None (Some ps) sg th mr ul up us = Ok d -> rectangular c0 c1 c2 -> c2 <> c0 -> c1 <> c0 ->
  IZR n * d_pz d < zb -> IZR k * d_py d < yb ->
  make_detector (surface_point c0 c1 c2 (IZR n * d_pz d) (IZR k * d_py d)) (surface_point c0 c1 c2 (IZR n * d_pz d) yb)
    (surface_point c0 c1 c2 zb (IZR k * d_py d)) None (Some ps) sg th2 mr2 ul up us = Ok d2 -> same_grid n k d d2.
Proof. exact pC96_built. Qed.
Print Assumptions C96_built.

(** C96. The exception is real: on every detector, a strong spot exactly halfway between two pixel rows is drawn on different pixels
    when the panel is displaced by one pixel: rounding to the nearest even index moves its window by two pixels or by none. *)
Theorem C96_odd_offset_refuted : forall d, exists zc yc T i j n, 0 < T /\ halfway zc /\
  gauss_spot (micro_sigma d) (micro_radius d) (zc - IZR n) yc T (i - n) j <> gauss_spot (micro_sigma d) (micro_radius d) zc yc T i j.
Proof. exact pC96_odd_offset_refuted. Qed.
Print Assumptions C96_odd_offset_refuted.

(** A 10 x 10 panel and the 7 x 7 part of it that starts at pixel (2, 2), both exposed to the same non-empty table. *)
Example C96_part_nonvacuous : exists e d d2 z x p b m lo hi pd im out im2 out2,
  same_grid 2 2 d d2 /\ part_of 2 2 d d2 /\ reachable_pc x p /\ fst (diffract z x p b m lo hi None) = Ok pd /\ pd_peaks pd <> [] /\
  render e d pd 1 "micro" None 1 = Ok (im, out) /\ render e d2 pd 1 "micro" None 1 = Ok (im2, out2) /\ no_ties 2 2 d out /\
  d_nz d = 10%nat /\ d_nz d2 = 7%nat /\ d_ny d2 = 7%nat.
Proof. exact xC96_part. Qed.

