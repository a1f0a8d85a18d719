(** Generated by tools/gen_properties.py from PAperture.v: the property theorems,
    verbatim, each closed by [exact]. Contains nothing else. *)
From Coq Require Import Permutation.
From Verif Require Import Vec Spec MMotion MLaue MMesh MScattering MStrain MBeam SBeam MPolycrystal SPolycrystal MDetector MClip MRender SRender SEnd SAperture.
From Verif Require Import PMotion PLaue PMesh PBeam PStrain PPolycrystal PPolycrystal2 PPolycrystal3 PDetector PDetector2 PDetector3 PRender PRender2 PRender3 PEvents PEnd PEnd2 PJoin PJoin2 PJoin3 PFrame4 PNumber4.
From Verif Require Import SDetector.
From Verif Require Import PAperture.
Open Scope list_scope. Open Scope R_scope.

(** C95. Two beams with the same X-rays: one diffract call raises exactly when the other does, with the same exception, and both
    leave the sample in the same state. *)
Theorem C95_same_failures : forall z x p b b2 m lo hi, same_xrays b b2 ->
  (forall e, fst (diffract z x p b m lo hi None) = Err e <-> fst (diffract z x p b2 m lo hi None) = Err e) /\
  snd (diffract z x p b m lo hi None) = snd (diffract z x p b2 m lo hi None).
Proof. exact pC95_same_failures. Qed.
Print Assumptions C95_same_failures.

(** C95. Narrowing the beam drops exactly the rows whose source point is outside the narrower beam; the others stay in their order,
    with the same entries, and are renumbered. *)
Theorem C95_narrowed_table : forall z x p b b2 m lo hi pd pd2, narrower b2 b ->
  fst (diffract z x p b m lo hi None) = Ok pd -> fst (diffract z x p b2 m lo hi None) = Ok pd2 ->
  exists keep, (forall r, In r (pd_peaks pd) -> (keep r = true <-> source_in pd b2 r)) /\
    Forall2 (same_but_number pd pd2) (filter keep (pd_peaks pd)) (pd_peaks pd2).
Proof. exact pC95_narrowed_table. Qed.
Print Assumptions C95_narrowed_table.

