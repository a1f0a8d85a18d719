(** Generated by tools/gen_properties.py from PCorner4.v: the property theorems,
    verbatim, each closed by [exact]. Contains nothing else. *)
From Verif Require Import Vec Spec MMotion MLaue MMesh MScattering MStrain MBeam SBeam MPolycrystal SPolycrystal MDetector MClip MRender SRender SDetector.
From Verif Require Import PMotion PLaue PMesh PBeam PStrain PPolycrystal PPolycrystal2 PPolycrystal3 PDetector PDetector2 PRender PRender2 PEvents PEnd PEnd2 PJoin PJoin2 PFrame PFrame2 PFrame3 PFrame4 PRenderEx.
From Verif Require Import PCorner PCorner2 SCorner SBeam SPolycrystal SDetector.
From Verif Require Import PCorner4.
Open Scope list_scope. Open Scope R_scope.

(** C105. Building with corners 1 and 2 exchanged, and the two pixel counts or sizes exchanged, succeeds exactly when the other
    listing does (same exception otherwise), and gives the transposed detector. *)
Theorem C105_built_transposed : forall c0 c1 c2 np ps sg th mr ul up us,
  (forall e, make_detector c0 c2 c1 (option_map swap np) (option_map swap ps) sg th mr ul up us = Err e <-> make_detector c0 c1 c2 np ps sg th mr ul up us = Err e) /\
  (forall d, make_detector c0 c1 c2 np ps sg th mr ul up us = Ok d -> c1 <> c0 -> c2 <> c0 ->
     exists d2, make_detector c0 c2 c1 (option_map swap np) (option_map swap ps) sg th mr ul up us = Ok d2 /\ transposed d d2).
Proof. exact pC105_built_transposed. Qed.
Print Assumptions C105_built_transposed.

(** C105. Building with the corners listed from corner 2 gives, for a rectangle, the turned over detector. *)
Theorem C105_built_turned : forall c0 c1 c2 np ps sg th mr ul up us,
  (forall e, make_detector c2 (vadd c2 (vsub c1 c0)) c0 np ps sg th mr ul up us = Err e <-> make_detector c0 c1 c2 np ps sg th mr ul up us = Err e) /\
  (forall d, make_detector c0 c1 c2 np ps sg th mr ul up us = Ok d -> rectangular c0 c1 c2 -> c1 <> c0 -> c2 <> c0 ->
     exists d2, make_detector c2 (vadd c2 (vsub c1 c0)) c0 np ps sg th mr ul up us = Ok d2 /\ turned_over d d2).
Proof. exact pC105_built_turned. Qed.
Print Assumptions C105_built_turned.

(** One reflection recorded by a 10 x 10 pixel detector and by its two relistings. *)
Example C105_relisted_nonvacuous : exists z x p b m lo hi pd e d dt dv out H im imt imv ot ov,
  transposed d dt /\ turned_over d dv /\ d_zmax d = IZR H * d_pz d /\ Z.even H = true /\ reachable_pc x p /\
  fst (diffract z x p b m lo hi None) = Ok pd /\ pd_peaks out <> [] /\ render e d pd 1 "micro" None 1 = Ok (im, out) /\
  render e dt pd 1 "micro" None 1 = Ok (imt, ot) /\ render e dv pd 1 "micro" None 1 = Ok (imv, ov).
Proof. exact xC105_relisted. Qed.

