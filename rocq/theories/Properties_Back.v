(** Generated by tools/gen_properties.py from PBack.v: the property theorems,
    verbatim, each closed by [exact]. Contains nothing else. *)
From Verif Require Import Vec Spec MMotion MLaue MMesh MScattering MStrain MBeam SBeam MPolycrystal SPolycrystal SEvents MDetector SDetector MRender SRender SEnd SScan SBack.
From Verif Require Import PMotion PLaue PMesh PBeam PStrain PPolycrystal PPolycrystal2 PPolycrystal3 PEvents PDetector PRender PRender2 PRender3 PEnd PEnd2 PDetector2 SJoin PJoin PJoin2 PJoin3 PNumber PNumber2 PScan PLevelset.
From Verif Require Import SDetector.
From Coq Require Import Permutation.
From Verif Require Import PBack.
Open Scope list_scope. Open Scope R_scope.

(** C92. A scan run backwards: starting from the sample at the end of the motion, the motion that undoes the first one
    (reversed axis and translation, about the origin where it has got to) finds the same reflections.  Each is reported at
    1 - t instead of t, with the same element, phase, plane, scattered wave vector, source point, factors and volume. *)
Theorem C92_same_reflections : forall z x p b a w T o m mb lo hi pd p' mp,
  reachable_pc x p -> xtal_ok x -> pc_map p = MapTensor mp -> unit a ->
  make_motion a w T o = Ok m -> make_motion (vneg a) w (vneg T) (vadd o T) = Ok mb ->
  diffract z x p b m lo hi None = (Ok pd, p') ->
  (forall e pl th, 0 <= th <= w -> reflects p' b a e pl th -> ~ reflects p' b a e pl PI /\ ~ reflects p' b a e pl (w + PI)) ->
  exists pd' q' rows', diffract z x (transform p m 1) b mb lo hi None = (Ok pd', q') /\ Permutation (pd_peaks pd') rows' /\
    Forall2 (mirrored pd pd') (pd_peaks pd) rows'.
Proof. exact pC92_same_reflections. Qed.
Print Assumptions C92_same_reflections.

