(** Generated by tools/gen_properties.py from PTurn2.v: the property theorems,
    verbatim, each closed by [exact]. Contains nothing else. *)
From Verif Require Import Vec Spec MMotion PMotion MLaue PLaue MMesh SMesh PMesh MScattering SScattering PScattering.
From Verif Require Import MStrain SStrain PStrain MBeam SBeam PBeam MPolycrystal SPolycrystal SEvents SEnd PPolycrystal PPolycrystal2 PPolycrystal3 STurn PTurn.
From Verif Require Import PTurn2.
Open Scope list_scope. Open Scope R_scope.

(** C108. A full turn in n scans (the sample moved on by the motion between scans; elements always in the
    beam): a reflection whose circle crosses the Ewald sphere is in the n tables together at exactly two places
    (scan, time), as long as it does not fall exactly on the start of a scan or half a turn away from one. *)
Theorem C108_twice : forall z x p b a w T o m n lo hi D P e i ph h sf G,
  reachable_pc x p -> make_motion a w T o = Ok m -> unit a -> w * INR n = 2 * PI ->
  (forall j, (j < n)%nat -> diffract z x (turned m j p) b m lo hi None = (Ok (D j), P j)) ->
  in_phase p e i -> nth_error (pc_phases p) i = Some ph ->
  plane_of (setup_planes x ph (b_wavelength b) lo hi) h sf -> scattering_vector p e h G ->
  (forall j t, (j < n)%nat -> 0 <= t <= 1 -> exists s, lit_at (turned m j p) b m e t s) ->
  clear_of_steps (b_wave_vector b) a w n G -> crosses (b_wave_vector b) a G ->
  exists j1 t1 j2 t2, (j1 < n)%nat /\ (j2 < n)%nat /\ (j1, t1) <> (j2, t2) /\
    forall j t, (j < n)%nat -> (shows (D j) e i h t <-> (j = j1 /\ t = t1) \/ (j = j2 /\ t = t2)).
Proof. exact pC108_twice. Qed.
Print Assumptions C108_twice.

(** C108. A reflection in the blind region of the axis is in no table, whatever the motion about that axis and
    however often the sample was turned about it before. *)
Theorem C108_never : forall z x p b a w T o m j lo hi det d p' e i h G t,
  make_motion a w T o = Ok m -> unit a -> scattering_vector p e h G ->
  misses (b_wave_vector b) a G -> diffract z x (turned m j p) b m lo hi det = (Ok d, p') -> ~ shows d e i h t.
Proof. exact pC108_never. Qed.
Print Assumptions C108_never.

