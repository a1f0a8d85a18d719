(** Generated by tools/gen_properties.py from PTurn3.v: the property theorems,
    verbatim, each closed by [exact]. Contains nothing else. *)
From Verif Require Import Vec Spec MMotion PMotion MLaue PLaue MMesh SMesh PMesh MScattering SScattering PScattering.
From Verif Require Import MStrain SStrain PStrain MBeam SBeam PBeam MPolycrystal SPolycrystal SEvents SEnd PPolycrystal PPolycrystal2 PPolycrystal3 PEvents STurn PTurn PTurn2 PTurnEx.
From Verif Require Import PTurn3.
Open Scope list_scope. Open Scope R_scope.

(** C108 finding. A plane that would reflect half a turn after the start of a scan is not shown by that scan at
    all, not even at a time inside the scan at which it does reflect. *)
Theorem C108_lost : forall z x p b a w T o m j lo hi det d p' e i h G t,
  make_motion a w T o = Ok m -> unit a -> scattering_vector p e h G ->
  laue_condition (b_wave_vector b) (right_handed_rotation a (w * INR j + PI) G) ->
  diffract z x (turned m j p) b m lo hi det = (Ok d, p') -> ~ shows d e i h t.
Proof. exact pC108_lost. Qed.
Print Assumptions C108_lost.

(** C108. In one scan a plane of an element is shown at two times at most. *)
Theorem C108_at_most_two : forall z x p b a w T o m lo hi det d p' e i h t1 t2 t3,
  make_motion a w T o = Ok m -> unit a -> diffract z x p b m lo hi det = (Ok d, p') ->
  (forall G, scattering_vector p e h G -> ~ (dot (b_wave_vector b) a * dot G a + normsq G / 2 = 0 /\ normsq (cross a (b_wave_vector b)) * normsq (cross a G) = 0)) ->
  shows d e i h t1 -> shows d e i h t2 -> shows d e i h t3 -> t1 = t2 \/ t1 = t3 \/ t2 = t3.
Proof. exact pC108_at_most_two. Qed.
Print Assumptions C108_at_most_two.

Example C108_lost_nonvacuous : exists z x p b d p' e h G s,
  reachable_pc x p /\ scattering_vector p e h G /\ 0 <= 1/2 <= 1 /\ laue_condition (b_wave_vector b) (rot_at third (1/2) G) /\
  lit_at p b third e (1/2) s /\ laue_condition (b_wave_vector b) (right_handed_rotation (V3 0 0 1) (m_angle third * INR 0 + PI) G) /\
  diffract z x (turned third 0 p) b third 0 1 None = (Ok d, p').
Proof. exact xC108_lost. Qed.

