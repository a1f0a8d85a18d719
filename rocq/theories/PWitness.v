(** * Concrete cases that meet the hypotheses of properties whose own files show none. *)
From Verif Require Import Vec Spec MMotion PMotion MLaue PLaue MMesh SMesh PMesh MScattering SScattering PScattering.
From Verif Require Import MStrain SStrain PStrain MBeam SBeam PBeam MPolycrystal SPolycrystal PPolycrystal PPolycrystal2 PPolycrystal3.
Open Scope R_scope.

(** A screw motion (translation along the rotation axis) is inverted by inverse(). *)
Lemma xC03_screw : exists m mi,
  make_motion (V3 0 0 1) 1 (V3 0 0 2) (V3 1 2 3) = Ok m /\ unit (V3 0 0 1) /\ motion_inverse m = Ok mi /\
  right_handed_rotation (V3 0 0 1) (1 * (1/2)) (vscale (1/2) (V3 0 0 2)) = vscale (1/2) (V3 0 0 2) /\
  exists y, motion_call m (P1 (V3 1 0 0)) (S0 (1/2)) = Ok (P1 y) /\ y <> V3 1 0 0.
Proof.
  assert (H : make_motion (V3 0 0 1) 1 (V3 0 0 2) (V3 1 2 3) = Ok (Motion (V3 0 0 1) 1 (V3 0 0 2) (V3 1 2 3))).
  { apply make_motion_unit; [apply unit_ez|]. pose proof PI2_1. lra. }
  eexists. eexists. split; [exact H|]. split; [apply unit_ez|]. split; [apply (inverse_ok _ _ _ _ _ H)|]. split.
  - unfold right_handed_rotation, across, along. vext; vunf; field.
  - eexists. split; [apply call_P1_S0|]. intros E. apply (f_equal vz) in E.
    unfold move_at, rot_at in E. rewrite rod_closed in E. cbn [m_axis m_angle m_trans m_origin] in E. revert E. vunf. lra.
Qed.

(** Plane (-1,1,0) in a beam along x diffracts at time 0 of a turn about z, and not at half a turn. *)
Lemma xC08_event : exists m evs Gt,
  make_motion (V3 0 0 1) (PI/2) vzero vzero = Ok m /\
  find_solutions (laue_factors (V3 1 0 0) (m_axis m)) (m_angle m) [[V3 (-1) 1 0]] = Ok evs /\
  motion_rotate m (P1 (V3 (-1) 1 0)) (S0 0) = Ok (P1 Gt) /\ laue_condition (V3 1 0 0) Gt /\
  ~ laue_condition (V3 1 0 0) (right_handed_rotation (V3 0 0 1) PI (V3 (-1) 1 0)) /\
  In (Event 0 0 0 (V3 (-1) 1 0)) evs.
Proof.
  assert (H : make_motion (V3 0 0 1) (PI/2) vzero vzero = Ok (Motion (V3 0 0 1) (PI/2) vzero vzero)).
  { apply make_motion_unit; [apply unit_ez|]. pose proof PI_RGT_0; lra. }
  set (m := Motion (V3 0 0 1) (PI/2) vzero vzero) in *.
  destruct (find_solutions_total (laue_factors (V3 1 0 0) (m_axis m)) (m_angle m) [[V3 (-1) 1 0]]) as (evs & E).
  assert (R0 : motion_rotate m (P1 (V3 (-1) 1 0)) (S0 0) = Ok (P1 (V3 (-1) 1 0))).
  { rewrite rotate_P1_S0, rot_at_0. reflexivity. }
  assert (L0 : laue_condition (V3 1 0 0) (V3 (-1) 1 0)) by (unfold laue_condition, norm; f_equal; vunf; ring).
  assert (L1 : ~ laue_condition (V3 1 0 0) (right_handed_rotation (V3 0 0 1) PI (V3 (-1) 1 0))).
  { unfold right_handed_rotation, across, along. rewrite cos_PI, sin_PI. unfold laue_condition, norm. intros C. apply sqrt_inj in C; revert C; vunf; lra. }
  exists m, evs, (V3 (-1) 1 0). repeat split; auto.
  refine (pC08_laue_complete (V3 1 0 0) (V3 0 0 1) (PI/2) vzero vzero m [[V3 (-1) 1 0]] evs 0 0 (V3 (-1) 1 0) 0 (V3 (-1) 1 0) H unit_ez E eq_refl _ R0 L0 L1). lra.
Qed.

(** A built polycrystal, and a table with a row for an element, plane and time as in the claim. *)
Lemma xC12_event : exists q b a w T o m x p d p' row e i ph h sf t G0 G c s,
  reachable_beam q b /\ make_motion a w T o = Ok m /\ unit a /\ reachable_pc x p /\
  diffract false x p b m 0 1 None = (Ok d, p') /\ In row (pd_peaks d) /\
  in_phase p e i /\ nth_error (pc_phases p') i = Some ph /\ plane_of ph h sf /\ scattering_vector p e h G0 /\
  0 <= t <= 1 /\ motion_rotate m (P1 G0) (S0 t) = Ok (P1 G) /\ laue_condition (b_wave_vector b) G /\
  ~ laue_condition (b_wave_vector b) (right_handed_rotation a PI G0) /\
  nth_error (me_espherecentroids (pc_mesh_lab p)) e = Some c /\ motion_call m (P1 c) (S0 t) = Ok (P1 s) /\
  strictly_inside (b_halfspaces b) s.
Proof. exact xC10_table. Qed.

Lemma xC19_lattice : exists x me p ph, make_polycrystal x me (One mI) (One mzero) [ph] (Some [0]) = Ok p /\
  in_phase p 0 0 /\ nth_error (pc_U p) 0 = Some mI /\ nth_error (pc_eps p) 0 = Some mzero /\ symmetric mzero /\
  nth_error (pc_eB p) 0 = Some mI.
Proof.
  destruct (ex_pc [V3 (-1) 1 0]) as (me & p & Hb & Hm & HR & H1 & H2 & H3 & H4 & H5 & H6 & H7).
  exists (ex_xtal [V3 (-1) 1 0]), me, p, ex_phase. split; [exact Hm|]. unfold in_phase. rewrite H1, H3, H4.
  destruct (pC19_constructor (ex_xtal [V3 (-1) 1 0]) ex_coord ex_enod me (One mI) (One mzero) [ex_phase] (Some [0]) Hb) as (_ & _ & _ & H).
  destruct (H p Hm) as (_ & He & _). cbn in He. injection He as He. rewrite <- He.
  repeat split; cbn; auto.
Qed.

(** The three outcomes of a strain batch all occur: small strain, compression through zero, compression to zero. *)
Lemma xC21_outcomes :
  (symmetric mzero /\ positive_definite (cauchy_green mzero)) /\
  (symmetric (mscale (-1) mI) /\ has_negative_direction (cauchy_green (mscale (-1) mI))) /\
  (symmetric (mscale (-1/2) mI) /\ ~ has_negative_direction (cauchy_green (mscale (-1/2) mI)) /\
   ~ positive_definite (cauchy_green (mscale (-1/2) mI))).
Proof.
  assert (S : forall s, symmetric (mscale s mI)) by (intros s; unfold symmetric, mT, mscale, mI; cbn; f_equal; vext; vunf; ring).
  assert (Q : forall s v, quad (cauchy_green (mscale s mI)) v = (1 + 2 * s) * normsq v).
  { intros s v. unfold quad, cauchy_green, madd, mscale, mI. destruct v. vunf. ring. }
  split; [|split].
  - replace mzero with (mscale 0 mI) by (unfold mscale, mI, mzero; f_equal; vext; vunf; ring). split; [apply S|].
    intros v Hv. rewrite Q. pose proof (norm_pos v Hv) as P. assert (0 < normsq v); [|lra].
    destruct (Rle_lt_or_eq_dec 0 (normsq v)) as [L|L]; auto.
    { destruct v. vunf. nra. }
    unfold norm in P. rewrite <- L, sqrt_0 in P. lra.
  - split; [apply S|]. exists (V3 1 0 0). rewrite Q. vunf. lra.
  - split; [apply S|]. split.
    + intros (v & H). rewrite Q in H. lra.
    + intros H. specialize (H (V3 1 0 0)). rewrite Q in H. assert (V3 1 0 0 <> vzero) by (intros C; apply (f_equal vx) in C; cbn in C; lra).
      specialize (H H0). lra.
Qed.

Lemma xC54_tetrahedron : exists me a b c d, build_mesh [V3 7 6 1; V3 3 4 1; V3 7 3 7; V3 2 2 3] [(0, 1, 2, 3)%nat] = Ok me /\ corners me 0 a b c d.
Proof.
  destruct ex_mesh as (me & Hb & Hs & Hc & He). exists me. do 4 eexists. split; [exact Hb|].
  unfold corners. rewrite Hc, He. do 4 eexists. repeat split; reflexivity.
Qed.
