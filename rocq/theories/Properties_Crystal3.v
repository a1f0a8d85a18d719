(** Generated by tools/gen_properties.py from PCrystal3.v: the property theorems,
    verbatim, each closed by [exact]. Contains nothing else. *)
From Verif Require Import Vec Spec MMotion PMotion MLaue PLaue MMesh SMesh PMesh MScattering SScattering PScattering.
From Verif Require Import MStrain SStrain PStrain MBeam SBeam PBeam MPolycrystal SPolycrystal SEvents PPolycrystal PPolycrystal2 PPolycrystal3 PEvents.
From Verif Require Import MDetector SDetector PDetector PDetector2 PDetector3 PDetector4 MClip MRender SRender PRender PRender2 PRender3 SEnd PEnd PEnd2 SJoin PJoin PJoin2 PJoin3 PJoin4 SNumber PNumber PNumber2 PNumber3 SCrystal PCrystal PCrystal2.
From Verif Require Import PScan.
From Coq Require Import Permutation.
From Verif Require Import PCrystal3.
Open Scope list_scope. Open Scope R_scope.

(** ... a strained crystal, though, is not the same crystal when it is turned by a symmetry operation of its lattice: with a shear
    strain [e] in the laboratory frame, however small, a cubic crystal and the same crystal turned by a quarter turn about a cube
    axis (an operation that maps its planes one to one) have different scattering vectors, because the deformation is taken from a
    Cholesky factor that depends on the choice of crystal axes. *)
Theorem C93_strained_refuted : forall e, e <> 0 -> Rabs e < / 2 ->
  exists x me ph S sg p q, build_mesh ex_coord ex_enod = Ok me /\
    make_polycrystal x me (One mI) (One (M3 (V3 0 e 0) (V3 e 0 0) (V3 0 0 0))) [ph] (Some [0]) = Ok p /\
    make_polycrystal x me (One (mm mI S)) (One (M3 (V3 0 e 0) (V3 e 0 0) (V3 0 0 0))) [ph] (Some [0]) = Ok q /\
    mm (mT S) S = mI /\ det S = 1 /\
    forall z b m lo hi, let p' := snd (diffract z x p b m lo hi None) in let q' := snd (diffract z x q b m lo hi None) in
      (forall e' i ph', in_phase p' e' i -> nth_error (pc_phases p') i = Some ph' -> lattice_symmetry sg (x_form_b x (ph_cell ph')) ph' S) /\
      reflection q' 0 0 (V3 0 1 0) 1 /\ (forall j sf, ~ reflection p' 0 j (V3 0 1 0) sf) /\ ~ exists s, same_crystals s p' q'.
Proof. exact pC93_strained_refuted. Qed.
Print Assumptions C93_strained_refuted.

(** A crystal with two diffracting planes, turned by half a turn about the x axis: the planes change places. *)
Example C93_turned_nonvacuous : exists z q x coord enod me Us Us' Ss sg phs mp p b a w T o m lo hi pd p' row,
  build_mesh coord enod = Ok me /\ Forall (reachable_phase x) phs /\ make_polycrystal x me (Stack Us) (One mzero) phs (Some mp) = Ok p /\
  reachable_beam q b /\ make_motion a w T o = Ok m /\ unit a /\ List.length Us' = List.length Us /\
  (forall e U, nth_error Us e = Some U -> nth_error Us' e = Some (mm U (Ss e))) /\ Us' <> Us /\
  diffract z x p b m lo hi None = (Ok pd, p') /\ In row (pd_peaks pd) /\
  (forall e i ph, in_phase p' e i -> nth_error (pc_phases p') i = Some ph -> lattice_symmetry (sg e) (x_form_b x (ph_cell ph)) ph (Ss e)).
Proof. exact xC93_turned. Qed.

