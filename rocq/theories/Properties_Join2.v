(** Generated by tools/gen_properties.py from PJoin2.v: the property theorems,
    verbatim, each closed by [exact]. Contains nothing else. *)
From Verif Require Import Vec Spec MMotion PMotion MLaue PLaue MMesh SMesh PMesh MScattering SScattering PScattering.
From Verif Require Import MStrain SStrain PStrain MBeam SBeam PBeam MPolycrystal SPolycrystal SEvents PPolycrystal PPolycrystal2 PPolycrystal3 PEvents.
From Verif Require Import MDetector SDetector PDetector PDetector2 PDetector3 PDetector4 MClip MRender SRender PRender PRender2 SEnd PEnd PEnd2 SJoin PJoin.
From Coq Require Import Permutation.
From Verif Require Import PJoin2.
Open Scope list_scope. Open Scope R_scope.

(** C90. Two samples in the same beam and motion: when each of the two diffract calls returns, the call on the sample that
    holds the elements of both returns too, and its table holds exactly the rows of the two tables, in some order, the
    element numbers of the second sample shifted by the number of elements of the first. *)
Theorem C90_joint_table : forall z x p1 p2 p b m lo hi pd1 pd2 s1 s2, reachable_pc x p1 -> reachable_pc x p2 -> joined p1 p2 p ->
  diffract z x p1 b m lo hi None = (Ok pd1, s1) -> diffract z x p2 b m lo hi None = (Ok pd2, s2) ->
  exists pd s part1 part2, diffract z x p b m lo hi None = (Ok pd, s) /\ Permutation (pd_peaks pd) (part1 ++ part2) /\
    Forall2 (counterpart 0 pd1 pd) (pd_peaks pd1) part1 /\
    Forall2 (counterpart (List.length (pc_volumes p1)) pd2 pd) (pd_peaks pd2) part2.
Proof. exact pC90_joint_table. Qed.
Print Assumptions C90_joint_table.

