(** Generated by tools/gen_properties.py from PCrystal.v: the property theorems,
    verbatim, each closed by [exact]. Contains nothing else. *)
From Verif Require Import Vec Spec MMotion PMotion MLaue PLaue MMesh SMesh PMesh MScattering SScattering PScattering.
From Verif Require Import MStrain SStrain PStrain MBeam SBeam PBeam MPolycrystal SPolycrystal SEvents PPolycrystal PPolycrystal2 PPolycrystal3 PEvents.
From Verif Require Import MDetector SDetector PDetector PDetector2 PDetector3 PDetector4 MClip MRender SRender PRender PRender2 PRender3 SEnd PEnd PEnd2 SJoin PJoin PJoin2 PJoin3 SNumber PNumber PNumber2 SCrystal.
From Coq Require Import Permutation.
From Verif Require Import PCrystal.
Open Scope list_scope. Open Scope R_scope.

(** C93. The diffraction table depends on the crystals only through their volumes, centres and scattering vectors: two samples whose
    elements hold the same reflections (whatever the cells, Miller indices, orientations and strains that describe them) get the
    same rows, apart from the Miller indices, phase numbers and peak numbers; the order may differ. *)
Theorem C93_same_table : forall z x s p q b a w T o m lo hi det lo' hi' det' pd pd' p' q', make_motion a w T o = Ok m -> unit a ->
  diffract z x p b m lo hi det = (Ok pd, p') -> diffract z x q b m lo' hi' det' = (Ok pd', q') -> same_crystals s p' q' ->
  exists rows', Permutation (pd_peaks pd') rows' /\ Forall2 (redescribed pd pd') (pd_peaks pd) rows'.
Proof. exact pC93_same_table. Qed.
Print Assumptions C93_same_table.

(** ... and the pictures are the same. *)
Theorem C93_same_picture : forall e z x s p q b a w T o m lo hi det lo' hi' det' pd pd' p' q' d frames ml mi im im' out out',
  make_motion a w T o = Ok m -> unit a -> reachable_pc x p -> reachable_pc x q ->
  diffract z x p b m lo hi det = (Ok pd, p') -> diffract z x q b m lo' hi' det' = (Ok pd', q') -> same_crystals s p' q' ->
  render e d pd frames "micro" ml mi = Ok (im, out) -> render e d pd' frames "micro" ml mi = Ok (im', out') ->
  same_image im' im.
Proof. exact pC93_same_picture. Qed.
Print Assumptions C93_same_picture.

(** ... this stays so when both samples are moved in the same way. *)
Theorem C93_stays_same : forall s p q m t, same_crystals s p q -> same_crystals s (transform p m t) (transform q m t).
Proof. exact pC93_stays_same. Qed.
Print Assumptions C93_stays_same.

