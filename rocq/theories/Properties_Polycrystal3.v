(** Generated by tools/gen_properties.py from PPolycrystal3.v: the property theorems,
    verbatim, each closed by [exact]. Contains nothing else. *)
From Verif Require Import Vec Spec MMotion PMotion MLaue PLaue MMesh SMesh PMesh MScattering SScattering PScattering.
From Verif Require Import MStrain SStrain PStrain MBeam SBeam PBeam MPolycrystal SPolycrystal PPolycrystal PPolycrystal2.
From Verif Require Import PPolycrystal3.
Open Scope R_scope.

(** C13 finding: a lit sample with one perfectly ordinary reflection makes diffract raise. *)
Theorem C13_always_returns_refuted : exists q b a w T o m x p me h t G s,
  reachable_beam q b /\ make_motion a w T o = Ok m /\ unit a /\ xtal_ok x /\
  make_polycrystal x me (One mI) (One mzero) [ex_phase] (Some [0]) = Ok p /\
  scattering_vector p 0 h G /\ 0 <= t <= 1 /\ motion_rotate m (P1 G) (S0 t) = Ok (P1 G) /\
  laue_condition (b_wave_vector b) G /\
  nth_error (me_espherecentroids (pc_mesh_lab p)) 0 = Some s /\ strictly_inside (b_halfspaces b) s /\
  fst (diffract false x p b m 0 1 None) = Err IndexError.
Proof. exact pC13_always_returns_refuted. Qed.
Print Assumptions C13_always_returns_refuted.

(** Two reflections at time 0: a table with rows; this meets the hypotheses of
    C10, C11, C12 (shape and completeness). *)
Example C10_table_nonvacuous : exists q b a w T o m x p d p' row e i ph h sf t G0 G c s,
  reachable_beam q b /\ make_motion a w T o = Ok m /\ unit a /\ reachable_pc x p /\
  diffract false x p b m 0 1 None = (Ok d, p') /\ In row (pd_peaks d) /\
  in_phase p e i /\ nth_error (pc_phases p') i = Some ph /\ plane_of ph h sf /\ scattering_vector p e h G0 /\
  0 <= t <= 1 /\ motion_rotate m (P1 G0) (S0 t) = Ok (P1 G) /\ laue_condition (b_wave_vector b) G /\
  ~ laue_condition (b_wave_vector b) (right_handed_rotation a PI G0) /\
  nth_error (me_espherecentroids (pc_mesh_lab p)) e = Some c /\ motion_call m (P1 c) (S0 t) = Ok (P1 s) /\
  strictly_inside (b_halfspaces b) s.
Proof. exact xC10_table. Qed.

(** C13: both outcomes occur for reachable polycrystals. *)
Example C13_both_nonvacuous : exists x p b, reachable_pc x p /\ xtal_ok x /\ pc_map p = MapTensor [0] /\ limits_ok p b 0 None /\
  event_count (snd (diffract false x p b ex_motion 0 1 None)) b ex_motion = 2%nat.
Proof. exact xC13_both. Qed.

(** C14: a polycrystal and a transform history it can go through. *)
Example C14_moved_nonvacuous : exists x me p, build_mesh ex_coord ex_enod = Ok me /\
  make_polycrystal x me (One mI) (One mzero) [ex_phase] (Some [0]) = Ok p /\
  (forall mt, In mt [(ex_motion, 1); (ex_motion, 1/2)] -> unit (m_axis (fst mt))) /\
  pc_mesh_lab (transforms [(ex_motion, 1); (ex_motion, 1/2)] p) <> me.
Proof. exact xC14_moved. Qed.

Example C15_moved_nonvacuous : exists x p b a w T o m s d p' row e i ph h sf t G0 G c c1 src,
  reachable_pc x p /\ make_motion a w T o = Ok m /\ unit a /\ 0 < s /\
  diffract false x (transform p m s) b m 0 1 None = (Ok d, p') /\ In row (pd_peaks d) /\
  in_phase p e i /\ nth_error (pc_phases p') i = Some ph /\ plane_of ph h sf /\ scattering_vector p e h G0 /\
  0 <= t <= 1 /\ motion_rotate m (P1 G0) (S0 (s + t)) = Ok (P1 G) /\ laue_condition (b_wave_vector b) G /\
  ~ laue_condition (b_wave_vector b) (right_handed_rotation a (w * s + PI) G0) /\
  nth_error (me_espherecentroids (pc_mesh_lab p)) e = Some c /\ motion_call m (P1 c) (S0 s) = Ok (P1 c1) /\
  motion_call m (P1 c1) (S0 t) = Ok (P1 src) /\ strictly_inside (b_halfspaces b) src /\ c1 <> c.
Proof. exact xC15_moved. Qed.

(** C16 finding: the returned dictionary is not a snapshot of the sample. *)
Theorem C16_snapshot_refuted : exists x h o b m d o1 h2 o2,
  obj_diffract false x h o b m 0 1 None = Some (Ok d, o1) /\
  obj_transform h o1 m 1 = Some (h2, o2) /\ view_dict h d <> None /\ view_dict h2 d <> view_dict h d.
Proof. exact pC16_snapshot_refuted. Qed.
Print Assumptions C16_snapshot_refuted.

(** C19/C70: a two-element map whose second entry names no phase. *)
Example C70_unmapped_nonvacuous : exists x me p, build_mesh ex_coord ex_enod = Ok me /\
  make_polycrystal x me (One mI) (One mzero) [ex_phase] (Some [7/2]) = Ok p /\ (0 < List.length (me_enod me))%nat /\
  forall i, ~ in_phase p 0 i.
Proof. exact xC70_unmapped. Qed.

(** C17: a lit node and a cone for which the call goes on. *)
Example C17_lit_nonvacuous : exists x p b v det r, reachable_pc x p /\ In v (me_coord (pc_mesh_lab p)) /\
  strictly_inside (b_halfspaces b) v /\ det (b_wave_vector b) (bragg_source p b) = Fin r /\ 0 <= 0 < r.
Proof. exact xC17_lit. Qed.

