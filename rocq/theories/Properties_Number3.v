(** Generated by tools/gen_properties.py from PNumber3.v: the property theorems,
    verbatim, each closed by [exact]. Contains nothing else. *)
From Verif Require Import Vec Spec MMotion PMotion MLaue PLaue MMesh SMesh PMesh MScattering SScattering PScattering.
From Verif Require Import MStrain SStrain PStrain MBeam SBeam PBeam MPolycrystal SPolycrystal SEvents PPolycrystal PPolycrystal2 PPolycrystal3 PEvents.
From Verif Require Import MDetector SDetector PDetector PDetector2 PDetector3 PDetector4 MClip MRender SRender PRender PRender2 PRender3 SEnd PEnd PEnd2 SJoin PJoin PJoin2 PJoin3 PJoin4 SNumber PNumber PNumber2.
From Coq Require Import Permutation.
From Verif Require Import PNumber3.
Open Scope list_scope. Open Scope R_scope.

(** C91. A renumbered sample is what the constructors make of renumbered arguments: vertices in another order (and the elements
    referring to their new numbers), elements in another order, with their orientations, strains and phase numbers, and phases
    in another order; and the renumbered arguments are accepted when the original ones are. *)
Theorem C91_built_renumbered : forall x v s u c c' en en' me o o' st st' phs phs' mp mp' p,
  new_numbers (List.length c) v -> new_numbers (List.length en) s -> new_numbers (List.length phs) u ->
  rearranged v c c' -> rearranged s (map (rename_nodes v) en) en' -> rearranged s o o' -> rearranged s st st' ->
  rearranged u phs phs' -> same_phases s u (List.length en) (List.length phs) mp mp' ->
  build_mesh c en = Ok me -> make_polycrystal x me (Stack o) (Stack st) phs (Some mp) = Ok p ->
  exists me' q, build_mesh c' en' = Ok me' /\ make_polycrystal x me' (Stack o') (Stack st') phs' (Some mp') = Ok q /\ renumbered s u p q.
Proof. exact pC91_built_renumbered. Qed.
Print Assumptions C91_built_renumbered.

