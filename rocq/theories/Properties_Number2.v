(** Generated by tools/gen_properties.py from PNumber2.v: the property theorems,
    verbatim, each closed by [exact]. Contains nothing else. *)
From Verif Require Import Vec Spec MMotion PMotion MLaue PLaue MMesh SMesh PMesh MScattering SScattering PScattering.
From Verif Require Import MStrain SStrain PStrain MBeam SBeam PBeam MPolycrystal SPolycrystal SEvents PPolycrystal PPolycrystal2 PPolycrystal3 PEvents.
From Verif Require Import MDetector SDetector PDetector PDetector2 PDetector3 PDetector4 MClip MRender SRender PRender PRender2 PRender3 SEnd PEnd PEnd2 SJoin PJoin PJoin2 PJoin3 SNumber PNumber.
From Coq Require Import Permutation.
From Verif Require Import PNumber2.
Open Scope list_scope. Open Scope R_scope.

(** C91. Renumbering the elements and the phases of a sample changes nothing but the numbers: the same reflections are reported,
    with the same values in every column except the element, phase and peak numbers (the rows may come in another order); this
    holds for given Bragg-angle limits and for limits taken from a detector. *)
Theorem C91_same_table : forall z x s u p q b m lo hi det pd p', reachable_pc x p -> renumbered s u p q ->
  diffract z x p b m lo hi det = (Ok pd, p') ->
  exists pd' q' rows', diffract z x q b m lo hi det = (Ok pd', q') /\ Permutation (pd_peaks pd') rows' /\
    Forall2 (renamed s u pd pd') (pd_peaks pd) rows'.
Proof. exact pC91_same_table. Qed.
Print Assumptions C91_same_table.

(** ... and raises the same exception. *)
Theorem C91_same_refusal : forall z x s u p q b m lo hi det e p', reachable_pc x p -> reachable_pc x q -> renumbered s u p q ->
  diffract z x p b m lo hi det = (Err e, p') -> fst (diffract z x q b m lo hi det) = Err e.
Proof. exact pC91_same_refusal. Qed.
Print Assumptions C91_same_refusal.

(** ... the two samples stay the same up to numbering through transform and diffract. *)
Theorem C91_stays_renumbered : forall z x s u p q b m lo hi det t, renumbered s u p q ->
  renumbered s u (transform p m t) (transform q m t) /\ renumbered s u (snd (diffract z x p b m lo hi det)) (snd (diffract z x q b m lo hi det)).
Proof. exact pC91_stays_renumbered. Qed.
Print Assumptions C91_stays_renumbered.

(** ... and the pictures are the same. *)
Theorem C91_same_picture : forall e z x s u p q b m lo hi det pd pd' p' q' d frames ml mi im im' out out',
  reachable_pc x p -> reachable_pc x q -> renumbered s u p q ->
  diffract z x p b m lo hi det = (Ok pd, p') -> diffract z x q b m lo hi det = (Ok pd', q') ->
  render e d pd frames "micro" ml mi = Ok (im, out) -> render e d pd' frames "micro" ml mi = Ok (im', out') ->
  same_image im' im.
Proof. exact pC91_same_picture. Qed.
Print Assumptions C91_same_picture.

