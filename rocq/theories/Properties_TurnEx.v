(** Generated by tools/gen_properties.py from PTurnEx.v: the property theorems,
    verbatim, each closed by [exact]. Contains nothing else. *)
From Verif Require Import Vec Spec MMotion PMotion MLaue PLaue MMesh SMesh PMesh MScattering SScattering PScattering.
From Verif Require Import MStrain SStrain PStrain MBeam SBeam PBeam MPolycrystal SPolycrystal SEvents SEnd PPolycrystal PPolycrystal2 PPolycrystal3 PEvents STurn PTurn PTurn2.
From Verif Require Import PTurnEx.
Open Scope list_scope. Open Scope R_scope.

Example C108_three_scans_nonvacuous : exists z x p b n D P e i ph h sf G,
  reachable_pc x p /\ INR n * m_angle third = 2 * PI /\
  (forall j, (j < n)%nat -> diffract z x (turned third j p) b third 0 1 None = (Ok (D j), P j)) /\
  in_phase p e i /\ nth_error (pc_phases p) i = Some ph /\ plane_of (setup_planes x ph (b_wavelength b) 0 1) h sf /\ scattering_vector p e h G /\
  (forall j t, (j < n)%nat -> 0 <= t <= 1 -> exists s, lit_at (turned third j p) b third e t s) /\
  clear_of_steps (b_wave_vector b) (m_axis third) (m_angle third) n G /\ crosses (b_wave_vector b) (m_axis third) G.
Proof. exact xC108_three_scans. Qed.

