(** Generated by tools/gen_properties.py from PRefine2.v: the property theorems,
    verbatim, each closed by [exact]. Contains nothing else. *)
From Verif Require Import Vec Spec MMotion PMotion MLaue PLaue MMesh SMesh PMesh MScattering SScattering PScattering.
From Verif Require Import MStrain SStrain PStrain MBeam SBeam PBeam MPolycrystal SPolycrystal SEvents PPolycrystal PPolycrystal2 PPolycrystal3 PEvents.
From Verif Require Import MDetector SDetector MRender SRender SEnd PEnd PEnd2 SJoin PJoin PJoin2 PJoin3 SNumber PNumber PNumber2 PNumber3 PNano6 SRefine PRefine.
From Coq Require Import Permutation.
From Verif Require Import PRefine2.
Open Scope list_scope. Open Scope R_scope.

(** C106. Such samples are what the constructor makes of a mesh whose elements have been cut, with the orientations, strains and
    phase numbers handed down to the parts; if it accepts the coarse sample it accepts the fine one. *)
Theorem C106_built_refined : forall x f c c' en en' me me' o o' st st' phs mp mp' p, cuts f c c' en en' ->
  List.length mp = List.length en -> List.length mp' = List.length en' -> List.length o' = List.length en' -> List.length st' = List.length en' ->
  inherits f o o' -> inherits f st st' -> inherits f mp mp' ->
  build_mesh c en = Ok me -> build_mesh c' en' = Ok me' -> make_polycrystal x me (Stack o) (Stack st) phs (Some mp) = Ok p ->
  exists q, make_polycrystal x me' (Stack o') (Stack st') phs (Some mp') = Ok q /\ refines f p q.
Proof. exact pC106_built_refined. Qed.
Print Assumptions C106_built_refined.

(** The hypotheses are met: a tetrahedron and the same tetrahedron cut in two, with reflections. *)
Example C106_cut_in_two_nonvacuous : exists z x f p q b m pd p', reachable_pc x p /\ reachable_pc x q /\ refines f p q /\
  List.length (pc_volumes p) = 1%nat /\ List.length (pc_volumes q) = 2%nat /\ (forall v, In v (pc_volumes q) -> 0 < v < nth 0 (pc_volumes p) 0) /\
  always_lit p b m /\ always_lit q b m /\ diffract z x p b m 0 1 None = (Ok pd, p') /\ pd_peaks pd <> [].
Proof. exact xC106_cut_in_two. Qed.

