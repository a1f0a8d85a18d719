(** Generated by tools/gen_properties.py from PWitness.v: the property theorems,
    verbatim, each closed by [exact]. Contains nothing else. *)
From Verif Require Import Vec Spec MMotion PMotion MLaue PLaue MMesh SMesh PMesh MScattering SScattering PScattering.
From Verif Require Import MStrain SStrain PStrain MBeam SBeam PBeam MPolycrystal SPolycrystal PPolycrystal PPolycrystal2 PPolycrystal3.
From Verif Require Import PWitness.
Open Scope R_scope.

(** A screw motion (translation along the rotation axis) is inverted by inverse(). *)
Example C03_screw_nonvacuous : exists m mi,
  make_motion (V3 0 0 1) 1 (V3 0 0 2) (V3 1 2 3) = Ok m /\ unit (V3 0 0 1) /\ motion_inverse m = Ok mi /\
  right_handed_rotation (V3 0 0 1) (1 * (1/2)) (vscale (1/2) (V3 0 0 2)) = vscale (1/2) (V3 0 0 2) /\
  exists y, motion_call m (P1 (V3 1 0 0)) (S0 (1/2)) = Ok (P1 y) /\ y <> V3 1 0 0.
Proof. exact xC03_screw. Qed.

(** Plane (-1,1,0) in a beam along x diffracts at time 0 of a turn about z, and not at half a turn. *)
Example C08_event_nonvacuous : exists m evs Gt,
  make_motion (V3 0 0 1) (PI/2) vzero vzero = Ok m /\
  find_solutions (laue_factors (V3 1 0 0) (m_axis m)) (m_angle m) [[V3 (-1) 1 0]] = Ok evs /\
  motion_rotate m (P1 (V3 (-1) 1 0)) (S0 0) = Ok (P1 Gt) /\ laue_condition (V3 1 0 0) Gt /\
  ~ laue_condition (V3 1 0 0) (right_handed_rotation (V3 0 0 1) PI (V3 (-1) 1 0)) /\
  In (Event 0 0 0 (V3 (-1) 1 0)) evs.
Proof. exact xC08_event. Qed.

(** A built polycrystal, and a table with a row for an element, plane and time as in the claim. *)
Example C12_event_nonvacuous : exists q b a w T o m x p d p' row e i ph h sf t G0 G c s,
  reachable_beam q b /\ make_motion a w T o = Ok m /\ unit a /\ reachable_pc x p /\
  diffract false x p b m 0 1 None = (Ok d, p') /\ In row (pd_peaks d) /\
  in_phase p e i /\ nth_error (pc_phases p') i = Some ph /\ plane_of ph h sf /\ scattering_vector p e h G0 /\
  0 <= t <= 1 /\ motion_rotate m (P1 G0) (S0 t) = Ok (P1 G) /\ laue_condition (b_wave_vector b) G /\
  ~ laue_condition (b_wave_vector b) (right_handed_rotation a PI G0) /\
  nth_error (me_espherecentroids (pc_mesh_lab p)) e = Some c /\ motion_call m (P1 c) (S0 t) = Ok (P1 s) /\
  strictly_inside (b_halfspaces b) s.
Proof. exact xC12_event. Qed.

Example C19_lattice_nonvacuous : exists x me p ph, make_polycrystal x me (One mI) (One mzero) [ph] (Some [0]) = Ok p /\
  in_phase p 0 0 /\ nth_error (pc_U p) 0 = Some mI /\ nth_error (pc_eps p) 0 = Some mzero /\ symmetric mzero /\
  nth_error (pc_eB p) 0 = Some mI.
Proof. exact xC19_lattice. Qed.

(** The three outcomes of a strain batch all occur: small strain, compression through zero, compression to zero. *)
Example C21_outcomes_nonvacuous :
  (symmetric mzero /\ positive_definite (cauchy_green mzero)) /\
  (symmetric (mscale (-1) mI) /\ has_negative_direction (cauchy_green (mscale (-1) mI))) /\
  (symmetric (mscale (-1/2) mI) /\ ~ has_negative_direction (cauchy_green (mscale (-1/2) mI)) /\
   ~ positive_definite (cauchy_green (mscale (-1/2) mI))).
Proof. exact xC21_outcomes. Qed.

Example C54_tetrahedron_nonvacuous : exists me a b c d, build_mesh [V3 7 6 1; V3 3 4 1; V3 7 3 7; V3 2 2 3] [(0, 1, 2, 3)%nat] = Ok me /\ corners me 0 a b c d.
Proof. exact xC54_tetrahedron. Qed.

