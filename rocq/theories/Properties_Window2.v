(** Generated by tools/gen_properties.py from PWindow2.v: the property theorems,
    verbatim, each closed by [exact]. Contains nothing else. *)
From Verif Require Import Vec Spec MMotion MLaue MMesh MScattering MStrain MBeam SBeam MPolycrystal SPolycrystal MDetector MClip MRender SRender SWindow.
From Verif Require Import PMotion PLaue PMesh PBeam PStrain PPolycrystal PPolycrystal2 PDetector PDetector2 PDetector3 PRender PRender2 PRender3 PEvents PEnd2 PJoin2 PFrame PFrame2 PFrame3 PFrame4 PWindow.
From Verif Require Import SDetector.
From Verif Require Import PWindow2.
Open Scope list_scope. Open Scope R_scope.

(** C96. Two detectors on the same pixel grid, given the same peak table: the reflections that each of them sees on the common part of
    their panels are the same, in the same order, and their rows agree in every column, the detector coordinates up to the offset. *)
Theorem C96_same_reflections : forall n k d d2 z x p b m lo hi det pd z' frames out out2, same_grid n k d d2 ->
  fst (diffract z x p b m lo hi det) = Ok pd -> project z' d pd frames = Ok out -> project z' d2 pd frames = Ok out2 -> (1 <= frames)%Z ->
  exists both both2,
    (forall r, In r (pd_peaks out) -> (both r = true <-> also_on n k d d2 out r)) /\
    (forall r, In r (pd_peaks out2) -> (both2 r = true <-> also_on (- n) (- k) d2 d out2 r)) /\
    Forall2 (same_hit n k d out out2) (filter both (pd_peaks out)) (filter both2 (pd_peaks out2)).
Proof. exact pC96_same_reflections. Qed.
Print Assumptions C96_same_reflections.

