(** Generated by tools/gen_properties.py from PCrystal2.v: the property theorems,
    verbatim, each closed by [exact]. Contains nothing else. *)
From Verif Require Import Vec Spec MMotion PMotion MLaue PLaue MMesh SMesh PMesh MScattering SScattering PScattering.
From Verif Require Import MStrain SStrain PStrain MBeam SBeam PBeam MPolycrystal SPolycrystal SEvents PPolycrystal PPolycrystal2 PPolycrystal3 PEvents.
From Verif Require Import MDetector SDetector PDetector PDetector2 PDetector3 PDetector4 MClip MRender SRender PRender PRender2 PRender3 SEnd PEnd PEnd2 SJoin PJoin PJoin2 PJoin3 PJoin4 SNumber PNumber PNumber2 PNumber3 SCrystal PCrystal.
From Coq Require Import Permutation.
From Verif Require Import PCrystal2.
Open Scope list_scope. Open Scope R_scope.

(** ... in particular, turning the crystal of any element by a symmetry operation of its (unstrained) lattice gives a sample that can
    be built and diffracts in the same way. *)
Theorem C93_symmetry_equivalent : forall z x coord enod me Us Us' Ss sg phs mp p b m lo hi det pd p',
  build_mesh coord enod = Ok me -> Forall (reachable_phase x) phs ->
  make_polycrystal x me (Stack Us) (One mzero) phs (Some mp) = Ok p ->
  List.length Us' = List.length Us -> (forall e U, nth_error Us e = Some U -> nth_error Us' e = Some (mm U (Ss e))) ->
  diffract z x p b m lo hi det = (Ok pd, p') ->
  (forall e i ph, in_phase p' e i -> nth_error (pc_phases p') i = Some ph -> lattice_symmetry (sg e) (x_form_b x (ph_cell ph)) ph (Ss e)) ->
  exists q pd' q', make_polycrystal x me (Stack Us') (One mzero) phs (Some mp) = Ok q /\ reachable_pc x q /\
    diffract z x q b m lo hi det = (Ok pd', q') /\ same_crystals sg p' q'.
Proof. exact pC93_symmetry_equivalent. Qed.
Print Assumptions C93_symmetry_equivalent.

