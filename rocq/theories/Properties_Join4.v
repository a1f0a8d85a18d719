(** Generated by tools/gen_properties.py from PJoin4.v: the property theorems,
    verbatim, each closed by [exact]. Contains nothing else. *)
From Verif Require Import Vec Spec MMotion PMotion MLaue PLaue MMesh SMesh PMesh MScattering SScattering PScattering.
From Verif Require Import MStrain SStrain PStrain MBeam SBeam PBeam MPolycrystal SPolycrystal SEvents PPolycrystal PPolycrystal2 PPolycrystal3 PEvents.
From Verif Require Import MDetector SDetector PDetector PDetector2 PDetector3 PDetector4 MClip MRender SRender PRender PRender2 PRender3 SEnd PEnd PEnd2 SJoin PJoin PJoin2 PJoin3.
From Coq Require Import Permutation.
From Verif Require Import PJoin4.
Open Scope list_scope. Open Scope R_scope.

(** The hypotheses are met: a table with rows, its double, and their pictures. *)
Example C90_two_crystals_nonvacuous : exists e z x p1 p2 p b m lo hi pd1 pd2 pd s1 s2 s d im1 im2 im out1 out2 out,
  reachable_pc x p1 /\ reachable_pc x p2 /\ reachable_pc x p /\ joined p1 p2 p /\
  diffract z x p1 b m lo hi None = (Ok pd1, s1) /\ diffract z x p2 b m lo hi None = (Ok pd2, s2) /\ diffract z x p b m lo hi None = (Ok pd, s) /\
  render e d pd1 1 "micro" None 1 = Ok (im1, out1) /\ render e d pd2 1 "micro" None 1 = Ok (im2, out2) /\ render e d pd 1 "micro" None 1 = Ok (im, out) /\
  built d /\ pd_peaks pd1 <> [].
Proof. exact xC90_two_crystals. Qed.

(** The converse fails: two crystals with one reflection each, for each of which diffract raises, together give a table. *)
Theorem C90_parts_return_refuted : exists x p1 p2 p b m, xtal_ok x /\ reachable_pc x p1 /\ reachable_pc x p2 /\ reachable_pc x p /\ joined p1 p2 p /\
  fst (diffract false x p1 b m 0 1 None) = Err IndexError /\ fst (diffract false x p2 b m 0 1 None) = Err IndexError /\
  exists pd, fst (diffract false x p b m 0 1 None) = Ok pd.
Proof. exact pC90_parts_return_refuted. Qed.
Print Assumptions C90_parts_return_refuted.

