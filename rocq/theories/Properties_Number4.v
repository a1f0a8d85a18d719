(** Generated by tools/gen_properties.py from PNumber4.v: the property theorems,
    verbatim, each closed by [exact]. Contains nothing else. *)
From Verif Require Import Vec Spec MMotion PMotion MLaue PLaue MMesh SMesh PMesh MScattering SScattering PScattering.
From Verif Require Import MStrain SStrain PStrain MBeam SBeam PBeam MPolycrystal SPolycrystal SEvents PPolycrystal PPolycrystal2 PPolycrystal3 PEvents.
From Verif Require Import MDetector SDetector PDetector PDetector2 PDetector3 PDetector4 MClip MRender SRender PRender PRender2 PRender3 SEnd PEnd PEnd2 SJoin PJoin PJoin2 PJoin3 PJoin4 SNumber PNumber PNumber2 PNumber3.
From Coq Require Import Permutation.
From Verif Require Import PNumber4.
Open Scope list_scope. Open Scope R_scope.

(** The hypotheses are met: two crystals, one beside the other, with rows in the table, and the sample with vertices and
    elements in exchanged order. *)
Example C91_two_crystals_nonvacuous : exists e z x p q s u b m pd pd' p' q' d im im' out out',
  reachable_pc x p /\ reachable_pc x q /\ renumbered s u p q /\ pc_mesh_lab p <> pc_mesh_lab q /\
  diffract z x p b m 0 1 None = (Ok pd, p') /\ diffract z x q b m 0 1 None = (Ok pd', q') /\
  render e d pd 1 "micro" None 1 = Ok (im, out) /\ render e d pd' 1 "micro" None 1 = Ok (im', out') /\
  built d /\ pd_peaks pd <> [].
Proof. exact xC91_two_crystals. Qed.

