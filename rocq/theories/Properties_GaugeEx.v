(** Generated by tools/gen_properties.py from PGaugeEx.v: the property theorems,
    verbatim, each closed by [exact]. Contains nothing else. *)
From Verif Require Import Vec Spec MMotion PMotion MLaue PLaue MMesh SMesh PMesh MScattering SScattering PScattering.
From Verif Require Import MStrain SStrain PStrain MBeam SBeam PBeam MPolycrystal SPolycrystal PPolycrystal PPolycrystal2 PPolycrystal3 SGauge PGauge PGauge2.
From Verif Require Import PGaugeEx.
Open Scope list_scope. Open Scope R_scope.

Example C107_expanded_nonvacuous : exists z x p ops q b a w T o m d p' row e i ph c G0,
  proper_sample x p /\ turns_rigidly ops /\ p = pc_run z x ops p /\ reachable_beam q b /\ make_motion a w T o = Ok m /\ unit a /\
  diffract z x p b m 0 1 None = (Ok d, p') /\ In row (pd_peaks d) /\
  has d row "grain_index" (INR e) /\ has d row "phase_number" (INR i) /\ has_vec d row "h" "k" "l" G0 /\ has_vec d row "G0_x" "G0_y" "G0_z" G0 /\
  nth_error (pc_phases p) i = Some ph /\ nth_error (pc_eps p) e = Some (mscale c mI) /\ c = 3/2 /\
  free_length x ph G0 = 2 * norm G0.
Proof. exact xC107_expanded. Qed.

