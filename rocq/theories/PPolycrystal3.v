(** * Concrete polycrystals: non-vacuity examples and refutations. *)
From Verif Require Import Vec Spec MMotion PMotion MLaue PLaue MMesh SMesh PMesh MScattering SScattering PScattering.
From Verif Require Import MStrain SStrain PStrain MBeam SBeam PBeam MPolycrystal SPolycrystal PPolycrystal PPolycrystal2.
Open Scope R_scope.
Local Notation len := List.length.

(** A cube beam [-100,100]^3 along x, wavelength 2 pi, so k = (1,0,0). *)
Definition big_hs : list halfspace :=
  [HS (V3 1 0 0) (-100); HS (V3 (-1) 0 0) (-100); HS (V3 0 1 0) (-100); HS (V3 0 (-1) 0) (-100);
   HS (V3 0 0 1) (-100); HS (V3 0 0 (-1)) (-100)].
Definition big_qhull : qhull := Qhull (fun l => Ok (len l)) (fun _ => Ok big_hs) (fun _ => Ok big_hs).
Definition big_pts : list vec := map (vscale 100) cube_pts.
Lemma big_beam : exists b, reachable_beam big_qhull b /\ b_wave_vector b = V3 1 0 0 /\
  (forall p, Rabs (vx p) < 50 -> Rabs (vy p) < 50 -> Rabs (vz p) < 50 -> strictly_inside (b_halfspaces b) p).
Proof.
  pose proof PI_RGT_0 as PP.
  assert (W : 0 < 2 * PI) by lra.
  assert (B : exists b, make_beam big_qhull big_pts (V3 1 0 0) (2 * PI) (V3 0 1 0) = Ok b).
  { eapply (proj2 (pC22_beam_accepts_iff big_qhull big_pts (V3 1 0 0) (2 * PI) (V3 0 1 0) big_hs eq_refl eq_refl W)).
    repeat split; try (intros C; apply (f_equal vx) in C; cbn in C; lra).
    - intros C; apply (f_equal vy) in C; cbn in C; lra.
    - replace (dot (V3 0 1 0) (V3 1 0 0)) with 0 by (vunf; ring). rewrite Rabs_R0.
      pose proof (norm_nonneg (V3 0 1 0)). pose proof (norm_nonneg (V3 1 0 0)).
      replace (2 * PI / (2 * PI)) with 1 by (field; lra).
      repeat apply Rmult_le_pos; auto; lra. }
  destruct B as (b & Hb). exists b. split; [eapply rb_make; eauto|].
  destruct (make_beam_inv _ _ _ _ _ _ Hb) as (_ & _ & _ & eqs & E1 & E2 & -> & _). cbn [b_wave_vector b_halfspaces].
  split.
  - replace (norm (V3 1 0 0)) with 1.
    + unfold vdiv. replace (2 * PI / (2 * PI)) with 1 by (field; lra). vext; vunf; lra.
    + unfold norm. replace (normsq (V3 1 0 0)) with 1 by (vunf; ring). now rewrite sqrt_1.
  - intros p Hx Hy Hz h Hh. apply clean_In in Hh as (e & He & ->). inversion E2; subst eqs. clear E2 E1 Hb.
    pose proof (hs_round_err e p) as Er. apply Rabs_le_inv in Er. unfold hs_val in Er.
    assert (RA : rounding_at p <= 1).
    { unfold rounding_at. apply Rle_trans with (/ (2 * 10^6) * (50 + 50 + 50 + 1)); [|lra].
      apply Rmult_le_compat_l; [|lra]. left. apply Rinv_0_lt_compat. lra. }
    apply Rabs_def2 in Hx. apply Rabs_def2 in Hy. apply Rabs_def2 in Hz.
    assert (dot (hs_n e) p + hs_d e < -40); [|lra].
    destruct He as [<-|[<-|[<-|[<-|[<-|[<-|[]]]]]]]; unfold dot; cbn [hs_n hs_d vx vy vz]; lra.
Qed.

(** One tetrahedron, identity orientation, no strain, cubic lattice with unit
    reciprocal matrix, and a plane generator answering a fixed list. *)
Definition ex_xtal (planes : list vec) : xtal :=
  Xtal (fun _ => mI) (fun _ _ _ _ => planes) (fun hkl _ _ _ => map (fun _ => (1, 0)) hkl).
Definition ex_phase : phase := make_phase [] "" None.
Lemma ex_xtal_ok planes : xtal_ok (ex_xtal planes).
Proof. intros hkl c g f. apply map_length. Qed.
Definition ex_coord : list vec := [V3 7 6 1; V3 3 4 1; V3 7 3 7; V3 2 2 3].
Definition ex_enod : list (nat * nat * nat * nat) := [(0, 1, 2, 3)%nat].
Lemma where_00 : where_eq [0] 0 = [0%nat].
Proof. unfold where_eq, mapi. simpl. destruct (Req_EM_T 0 0); auto. contradiction. Qed.
Lemma ex_mesh : exists me, build_mesh ex_coord ex_enod = Ok me /\
  me_espherecentroids me = [V3 7 1 (9/4)] /\ me_coord me = ex_coord /\ me_enod me = ex_enod.
Proof.
  unfold build_mesh, ex_coord, ex_enod. cbn [traverse gather_tet nth_error bind].
  change (Tet (V3 7 6 1) (V3 3 4 1) (V3 7 3 7) (V3 2 2 3)) with bad_tet. rewrite bad_tet_sphere. cbn [bind].
  eexists. split; [reflexivity|]. repeat split.
Qed.
Lemma ex_eB planes : instantiate_eB (ex_xtal planes) [mI] [mzero] [ex_phase] (MapTensor [0]) 1 = Ok [mI].
Proof.
  unfold instantiate_eB. cbn [map_values eB_loop repeat]. rewrite where_00. unfold gather. cbn [traverse nth_error bind].
  change (x_form_b (ex_xtal planes) (ph_cell ex_phase)) with mI. rewrite pC20_zero_strain. reflexivity.
Qed.
Lemma ex_pc planes : exists me p, build_mesh ex_coord ex_enod = Ok me /\
  make_polycrystal (ex_xtal planes) me (One mI) (One mzero) [ex_phase] (Some [0]) = Ok p /\
  reachable_pc (ex_xtal planes) p /\ pc_map p = MapTensor [0] /\ pc_phases p = [ex_phase] /\
  pc_U p = [mI] /\ pc_eB p = [mI] /\ pc_mesh_lab p = me /\
  me_espherecentroids me = [V3 7 1 (9/4)] /\ me_coord me = ex_coord.
Proof.
  destruct ex_mesh as (me & Hb & Hs & Hc & He). exists me.
  assert (M : exists p, make_polycrystal (ex_xtal planes) me (One mI) (One mzero) [ex_phase] (Some [0]) = Ok p /\
    pc_map p = MapTensor [0] /\ pc_phases p = [ex_phase] /\ pc_U p = [mI] /\ pc_eB p = [mI] /\ pc_mesh_lab p = me).
  { unfold make_polycrystal. rewrite Hc, He. unfold ex_coord, ex_enod. cbn [traverse gather_tet nth_error bind List.length].
    cbn [instantiate_mats instantiate_phase bind repeat]. rewrite ex_eB. cbn [bind]. eexists. split; [reflexivity|]. repeat split. }
  destruct M as (p & Hp & H1 & H2 & H3 & H4 & H5). exists p. repeat split; auto.
  apply (rpc_make _ ex_coord ex_enod me [] me (One mI) (One mzero) [ex_phase] (Some [0]) p); auto. repeat constructor.
Qed.
Lemma rot_at_0 m x : rot_at m 0 x = x.
Proof. unfold rot_at. now rewrite Rmult_0_r, rod_0, mv_I. Qed.
Definition ex_motion : motion := Motion (V3 0 0 1) 1 (V3 0 0 1) vzero.
Lemma ex_motion_ok : make_motion (V3 0 0 1) 1 (V3 0 0 1) vzero = Ok ex_motion.
Proof. apply make_motion_unit; [apply unit_ez|]. pose proof PI2_1. lra. Qed.
Lemma ex_motion_z t v : vz (move_at ex_motion t v) = vz v + t.
Proof. unfold move_at, rot_at, ex_motion, rod_matrix, rod_K2, rod_K. cbn [m_axis m_angle m_origin m_trans]. vunf. ring. Qed.
Lemma times_pos : let c := laue_candidates (laue_factors (V3 1 0 0) (V3 0 0 1)) 1 (V3 (-1) 1 0) in
  in01 (fst c) = 0%nat /\ in_unit_interval (snd c) = Some 0.
Proof.
  cbv zeta. rewrite candidates_closed by lra. set (f := laue_factors _ _).
  assert (R0 : rho0 f (V3 (-1) 1 0) = -1) by (unfold rho0, f, laue_factors, rod_K2, rod_K; cbn [rf0]; vunf; lra).
  assert (R1 : rho1 f (V3 (-1) 1 0) = -1) by (unfold rho1, f, laue_factors, rod_K2, rod_K; cbn [rf1]; vunf; lra).
  assert (R2 : rho2 f (V3 (-1) 1 0) = 1) by (unfold rho2, f, laue_factors, rod_K2, rod_K; cbn [rf2]; vunf; lra).
  assert (CA : cand_a f (V3 (-1) 1 0) = - / 2) by (unfold cand_a; rewrite R0, R1, R2; lra).
  assert (CD : cand_disc f (V3 (-1) 1 0) = (/2)²) by (unfold cand_disc, cand_b; rewrite CA, R0, R2; unfold Rsqr; lra).
  rewrite R0, R2, CA, CD, sqrt_Rsqr by lra.
  destruct (Req_EM_T (1 - -1) 0); [lra|]. destruct (Rlt_dec (/2)² 0); [unfold Rsqr in *; lra|]. cbn [fst snd].
  replace (- - / 2 + / 2) with 1 by lra. replace (- - / 2 - / 2) with 0 by lra. rewrite atan_1, atan_0. split.
  - unfold in01, in_unit_interval, nle. destruct (Rleb (2 * (PI / 4) / 1) 1) eqn:E; [|now rewrite Bool.andb_false_r].
    apply Rleb_true in E. pose proof PI2_1. lra.
  - apply in_unit_spec. split; [f_equal; lra|lra].
Qed.

Lemma times_neg : let c := laue_candidates (laue_factors (V3 1 0 0) (V3 0 0 1)) 1 (V3 (-1) (-1) 0) in
  in_unit_interval (fst c) = Some 0 /\ in01 (snd c) = 0%nat.
Proof.
  cbv zeta. rewrite candidates_closed by lra. set (f := laue_factors _ _).
  assert (R0 : rho0 f (V3 (-1) (-1) 0) = -1) by (unfold rho0, f, laue_factors, rod_K2, rod_K; cbn [rf0]; vunf; lra).
  assert (R1 : rho1 f (V3 (-1) (-1) 0) = 1) by (unfold rho1, f, laue_factors, rod_K2, rod_K; cbn [rf1]; vunf; lra).
  assert (R2 : rho2 f (V3 (-1) (-1) 0) = 1) by (unfold rho2, f, laue_factors, rod_K2, rod_K; cbn [rf2]; vunf; lra).
  assert (CA : cand_a f (V3 (-1) (-1) 0) = / 2) by (unfold cand_a; rewrite R0, R1, R2; lra).
  assert (CD : cand_disc f (V3 (-1) (-1) 0) = (/2)²) by (unfold cand_disc, cand_b; rewrite CA, R0, R2; unfold Rsqr; lra).
  rewrite R0, R2, CA, CD, sqrt_Rsqr by lra.
  destruct (Req_EM_T (1 - -1) 0); [lra|]. destruct (Rlt_dec (/2)² 0); [unfold Rsqr in *; lra|]. cbn [fst snd].
  replace (- / 2 + / 2) with 0 by lra. replace (- / 2 - / 2) with (-(1)) by lra. rewrite atan_opp, atan_1, atan_0. split.
  - apply in_unit_spec. split; [f_equal; lra|lra].
  - unfold in01, in_unit_interval, nle. destruct (Rleb 0 (2 * - (PI / 4) / 1)) eqn:E; [|reflexivity].
    apply Rleb_true in E. pose proof PI_RGT_0. lra.
Qed.
Lemma ex_events planes p b : pc_map p = MapTensor [0] -> pc_phases p = [setup_planes (ex_xtal planes) ex_phase (b_wavelength b) 0 1] ->
  pc_U p = [mI] -> pc_eB p = [mI] -> b_wave_vector b = V3 1 0 0 ->
  event_count p b ex_motion = list_sum (map (reflection_times b ex_motion) planes).
Proof.
  intros H1 H2 H3 H4 H5. unfold event_count. rewrite H2. unfold mapi. cbn [mapi_from list_sum fold_right]. rewrite Nat.add_0_r.
  unfold phase_events. rewrite H1. cbn [map_values]. rewrite where_00. unfold used_planes, setup_planes. cbn [ph_hkl ph_cif ex_phase make_phase ph_sf ex_xtal x_genhkl].
  cbn [map list_sum fold_right]. rewrite Nat.add_0_r. unfold element_events. rewrite H3, H4. cbn [nth_error].
  rewrite map_map. f_equal. apply map_ext. intros h. cbn [fst]. now rewrite !mv_I.
Qed.

Definition two_planes : list vec := [V3 (-1) 1 0; V3 (-1) (-1) 0].
Definition one_plane : list vec := [V3 (-1) 1 0].
Lemma ex_after planes p b m lo hi : pc_phases p = [ex_phase] ->
  snd (diffract false (ex_xtal planes) p b m lo hi None) =
  PC (pc_volumes p) (pc_U p) (pc_eps p) (pc_map p) [setup_planes (ex_xtal planes) ex_phase (b_wavelength b) lo hi] (pc_eB p)
                   (pc_mesh_lab p) (pc_mesh_sample p) (pc_eps_sample p) (pc_U_sample p).
Proof. intros H. unfold diffract. rewrite H. reflexivity. Qed.
Lemma ex_outcome planes me p b : b_wave_vector b = V3 1 0 0 ->
  reachable_pc (ex_xtal planes) p -> pc_map p = MapTensor [0] -> pc_phases p = [ex_phase] ->
  pc_U p = [mI] -> pc_eB p = [mI] -> pc_mesh_lab p = me ->
  let '(r, p') := diffract false (ex_xtal planes) p b ex_motion 0 1 None in
  (list_sum (map (reflection_times b ex_motion) planes) = 1%nat -> r = Err IndexError) /\
  (list_sum (map (reflection_times b ex_motion) planes) <> 1%nat -> exists d, r = Ok d) /\
  nth_error (pc_phases p') 0 = Some (setup_planes (ex_xtal planes) ex_phase (b_wavelength b) 0 1).
Proof.
  intros Hk HR Hm Hp HU HB Hme.
  pose proof (pC13_outcome false (ex_xtal planes) p b ex_motion 0 1 None [0] HR (ex_xtal_ok planes) Hm I) as H.
  pose proof (ex_after planes p b ex_motion 0 1 Hp) as E.
  destruct (diffract _ _ _ _ _ _ _ _) as [r p'] eqn:D. cbn [snd] in E.
  rewrite (ex_events planes p' b) in H by (subst p'; auto). subst p'. cbn [pc_phases nth_error]. tauto.
Qed.
Lemma refl_pos b : b_wave_vector b = V3 1 0 0 -> reflection_times b ex_motion (V3 (-1) 1 0) = 1%nat.
Proof.
  intros H. unfold reflection_times. rewrite H. cbn [ex_motion m_axis m_angle]. destruct times_pos as (A & B).
  cbv zeta in A, B |- *. rewrite A. unfold in01. now rewrite B.
Qed.
Lemma refl_neg b : b_wave_vector b = V3 1 0 0 -> reflection_times b ex_motion (V3 (-1) (-1) 0) = 1%nat.
Proof.
  intros H. unfold reflection_times. rewrite H. cbn [ex_motion m_axis m_angle]. destruct times_neg as (A & B).
  cbv zeta in A, B |- *. rewrite B. unfold in01. now rewrite A.
Qed.

(** C13 finding: a lit sample with one perfectly ordinary reflection makes diffract raise. *)
Lemma pC13_always_returns_refuted : exists q b a w T o m x p me h t G s,
  reachable_beam q b /\ make_motion a w T o = Ok m /\ unit a /\ xtal_ok x /\
  make_polycrystal x me (One mI) (One mzero) [ex_phase] (Some [0]) = Ok p /\
  scattering_vector p 0 h G /\ 0 <= t <= 1 /\ motion_rotate m (P1 G) (S0 t) = Ok (P1 G) /\
  laue_condition (b_wave_vector b) G /\
  nth_error (me_espherecentroids (pc_mesh_lab p)) 0 = Some s /\ strictly_inside (b_halfspaces b) s /\
  fst (diffract false x p b m 0 1 None) = Err IndexError.
Proof.
  destruct big_beam as (b & Hb & Hk & Hin). destruct (ex_pc one_plane) as (me & p & H1 & H2 & H3 & H4 & H5 & H6 & H7 & H8 & H9 & H10).
  exists big_qhull, b, (V3 0 0 1), 1, (V3 0 0 1), vzero, ex_motion, (ex_xtal one_plane), p, me, (V3 (-1) 1 0), 0, (V3 (-1) 1 0), (V3 7 1 (9/4)).
  pose proof (ex_outcome one_plane me p b Hk H3 H4 H5 H6 H7 H8) as O.
  split; [exact Hb|]. split; [apply ex_motion_ok|]. split; [apply unit_ez|]. split; [apply ex_xtal_ok|]. split; [exact H2|].
  split; [exists mI, mI; rewrite H6, H7; repeat split; now rewrite !mv_I|]. split; [lra|].
  split; [rewrite rotate_P1_S0; do 2 f_equal; apply rot_at_0|].
  split; [unfold laue_condition; rewrite Hk; unfold norm; f_equal; vunf; lra|].
  split; [rewrite H8, H9; reflexivity|].
  split; [apply Hin; cbn [vx vy vz]; rewrite Rabs_right; lra|].
  destruct (diffract _ _ _ _ _ _ _ _) as [r p']. destruct O as (O & _). cbn [fst]. apply O. cbn [map one_plane list_sum fold_right].
  now rewrite refl_pos.
Qed.

(** Two reflections at time 0: a table with rows; this meets the hypotheses of
    C10, C11, C12 (shape and completeness). *)
Lemma xC10_table : exists q b a w T o m x p d p' row e i ph h sf t G0 G c s,
  reachable_beam q b /\ make_motion a w T o = Ok m /\ unit a /\ reachable_pc x p /\
  diffract false x p b m 0 1 None = (Ok d, p') /\ In row (pd_peaks d) /\
  in_phase p e i /\ nth_error (pc_phases p') i = Some ph /\ plane_of ph h sf /\ scattering_vector p e h G0 /\
  0 <= t <= 1 /\ motion_rotate m (P1 G0) (S0 t) = Ok (P1 G) /\ laue_condition (b_wave_vector b) G /\
  ~ laue_condition (b_wave_vector b) (right_handed_rotation a PI G0) /\
  nth_error (me_espherecentroids (pc_mesh_lab p)) e = Some c /\ motion_call m (P1 c) (S0 t) = Ok (P1 s) /\
  strictly_inside (b_halfspaces b) s.
Proof.
  destruct big_beam as (b & Hb & Hk & Hin). destruct (ex_pc two_planes) as (me & p & H1 & H2 & H3 & H4 & H5 & H6 & H7 & H8 & H9 & H10).
  pose proof (ex_outcome two_planes me p b Hk H3 H4 H5 H6 H7 H8) as O.
  destruct (diffract false (ex_xtal two_planes) p b ex_motion 0 1 None) as [r p'] eqn:D. destruct O as (_ & O & Oph).
  destruct O as (d & ->). { cbn [map two_planes list_sum fold_right]. now rewrite refl_pos, refl_neg. }
  assert (A : in_phase p 0 0) by (unfold in_phase; now rewrite H4).
  assert (B : plane_of (setup_planes (ex_xtal two_planes) ex_phase (b_wavelength b) 0 1) (V3 (-1) 1 0) 1).
  { exists two_planes, 0%nat. repeat split. }
  assert (C : scattering_vector p 0 (V3 (-1) 1 0) (V3 (-1) 1 0)).
  { exists mI, mI. rewrite H6, H7. repeat split. now rewrite !mv_I. }
  assert (E : motion_rotate ex_motion (P1 (V3 (-1) 1 0)) (S0 0) = Ok (P1 (V3 (-1) 1 0))).
  { rewrite rotate_P1_S0. do 2 f_equal. apply rot_at_0. }
  assert (F : laue_condition (b_wave_vector b) (V3 (-1) 1 0)).
  { unfold laue_condition. rewrite Hk. unfold norm. f_equal. vunf. lra. }
  assert (G : ~ laue_condition (b_wave_vector b) (right_handed_rotation (V3 0 0 1) PI (V3 (-1) 1 0))).
  { unfold laue_condition. rewrite Hk, <- rod_spec by apply unit_ez. unfold rod_matrix, rod_K2, rod_K. rewrite sin_PI, cos_PI.
    unfold norm. intros E1. apply sqrt_inj in E1; [|apply normsq_nonneg|apply normsq_nonneg]. revert E1. vunf. lra. }
  assert (I : nth_error (me_espherecentroids (pc_mesh_lab p)) 0 = Some (V3 7 1 (9/4))) by (rewrite H8, H9; reflexivity).
  assert (J : motion_call ex_motion (P1 (V3 7 1 (9/4))) (S0 0) = Ok (P1 (V3 7 1 (9/4)))).
  { rewrite call_P1_S0. do 2 f_equal. apply move_at_0. }
  assert (K : strictly_inside (b_halfspaces b) (V3 7 1 (9/4))) by (apply Hin; cbn [vx vy vz]; rewrite Rabs_right; lra).
  assert (T0 : 0 <= 0 <= 1) by lra.
  destruct (pC12_complete _ _ _ _ _ _ _ _ _ _ _ _ _ _ _ _ _ _ _ _ _ _ _ _ H3 ex_motion_ok unit_ez D A Oph B C T0 E F G I J K) as (row & Hr & _).
  exists big_qhull, b, (V3 0 0 1), 1, (V3 0 0 1), vzero, ex_motion, (ex_xtal two_planes), p, d, p', row,
    0%nat, 0%nat, (setup_planes (ex_xtal two_planes) ex_phase (b_wavelength b) 0 1), (V3 (-1) 1 0), 1, 0, (V3 (-1) 1 0), (V3 (-1) 1 0),
    (V3 7 1 (9/4)), (V3 7 1 (9/4)).
  repeat match goal with |- _ /\ _ => split end; auto using ex_motion_ok, unit_ez; lra.
Qed.
(** C13: both outcomes occur for reachable polycrystals. *)
Lemma xC13_both : exists x p b, reachable_pc x p /\ xtal_ok x /\ pc_map p = MapTensor [0] /\ limits_ok p b 0 None /\
  event_count (snd (diffract false x p b ex_motion 0 1 None)) b ex_motion = 2%nat.
Proof.
  destruct big_beam as (b & Hb & Hk & Hin). destruct (ex_pc two_planes) as (me & p & H1 & H2 & H3 & H4 & H5 & H6 & H7 & H8 & H9 & H10).
  exists (ex_xtal two_planes), p, b. split; auto. split; [apply ex_xtal_ok|]. split; auto. split; [exact I|].
  rewrite (ex_after _ _ _ _ _ _ H5). rewrite (ex_events two_planes) by auto. cbn [map two_planes list_sum fold_right].
  now rewrite refl_pos, refl_neg.
Qed.
(** C14: a polycrystal and a transform history it can go through. *)
Lemma xC14_moved : exists x me p, build_mesh ex_coord ex_enod = Ok me /\
  make_polycrystal x me (One mI) (One mzero) [ex_phase] (Some [0]) = Ok p /\
  (forall mt, In mt [(ex_motion, 1); (ex_motion, 1/2)] -> unit (m_axis (fst mt))) /\
  pc_mesh_lab (transforms [(ex_motion, 1); (ex_motion, 1/2)] p) <> me.
Proof.
  destruct (ex_pc two_planes) as (me & p & H1 & H2 & H3 & H4 & H5 & H6 & H7 & H8 & H9 & H10).
  exists (ex_xtal two_planes), me, p. split; auto. split; auto. split.
  - intros mt [<-|[<-|[]]]; apply unit_ez.
  - intros E. apply (f_equal me_coord) in E. rewrite H10 in E. unfold transforms in E. cbn [fold_left fst snd transform pc_mesh_lab mesh_update me_coord] in E.
    rewrite H8, H10 in E. unfold ex_coord in E. cbn [map] in E.
    apply (f_equal (fun l => vz (nth 0 l vzero))) in E. cbn [nth] in E. rewrite !ex_motion_z in E. cbn [vz] in E. lra.
Qed.
(** C15: a moved sample (one full turn, hence really displaced along the axis), a table for it, and a row
    meeting all hypotheses of the completeness statement. *)
Lemma ex_turn v : rot_at ex_motion (2 * PI) v = v.
Proof.
  unfold rot_at, ex_motion, rod_matrix, rod_K2, rod_K. cbn [m_axis m_angle m_origin m_trans].
  rewrite Rmult_1_l, sin_2PI, cos_2PI. destruct v. vext; vunf; ring.
Qed.
Lemma ex_turn_move v : move_at ex_motion (2 * PI) v = vadd v (V3 0 0 (2 * PI)).
Proof.
  unfold move_at. rewrite ex_turn. cbn [ex_motion m_origin m_trans]. destruct v. vext; vunf; ring.
Qed.
Lemma ex_turn_U : mm (rod_matrix (V3 0 0 1) (1 * (2 * PI))) mI = mI.
Proof.
  unfold rod_matrix, rod_K2, rod_K. rewrite Rmult_1_l, sin_2PI, cos_2PI. unfold mI, mm, mT, madd, mscale. vunf.
  f_equal; f_equal; ring.
Qed.
Lemma xC15_moved : exists x p b a w T o m s d p' row e i ph h sf t G0 G c c1 src,
  reachable_pc x p /\ make_motion a w T o = Ok m /\ unit a /\ 0 < s /\
  diffract false x (transform p m s) b m 0 1 None = (Ok d, p') /\ In row (pd_peaks d) /\
  in_phase p e i /\ nth_error (pc_phases p') i = Some ph /\ plane_of ph h sf /\ scattering_vector p e h G0 /\
  0 <= t <= 1 /\ motion_rotate m (P1 G0) (S0 (s + t)) = Ok (P1 G) /\ laue_condition (b_wave_vector b) G /\
  ~ laue_condition (b_wave_vector b) (right_handed_rotation a (w * s + PI) G0) /\
  nth_error (me_espherecentroids (pc_mesh_lab p)) e = Some c /\ motion_call m (P1 c) (S0 s) = Ok (P1 c1) /\
  motion_call m (P1 c1) (S0 t) = Ok (P1 src) /\ strictly_inside (b_halfspaces b) src /\ c1 <> c.
Proof.
  destruct big_beam as (b & Hb & Hk & Hin). destruct (ex_pc two_planes) as (me & p & H1 & H2 & H3 & H4 & H5 & H6 & H7 & H8 & H9 & H10).
  set (p1 := transform p ex_motion (2 * PI)).
  assert (U1 : pc_U p1 = [mI]).
  { unfold p1, transform. cbn [pc_U]. rewrite H6. cbn [map ex_motion m_axis m_angle]. now rewrite ex_turn_U. }
  pose proof (ex_outcome two_planes (pc_mesh_lab p1) p1 b Hk (rpc_transform _ _ ex_motion (2 * PI) H3) H4 H5 U1 H7 eq_refl) as O.
  destruct (diffract false (ex_xtal two_planes) p1 b ex_motion 0 1 None) as [r p'] eqn:D. destruct O as (_ & O & Oph).
  destruct O as (d & ->). { cbn [map two_planes list_sum fold_right]. now rewrite refl_pos, refl_neg. }
  assert (A : in_phase p 0 0) by (unfold in_phase; now rewrite H4).
  assert (B : plane_of (setup_planes (ex_xtal two_planes) ex_phase (b_wavelength b) 0 1) (V3 (-1) 1 0) 1).
  { exists two_planes, 0%nat. repeat split. }
  assert (C : scattering_vector p 0 (V3 (-1) 1 0) (V3 (-1) 1 0)).
  { exists mI, mI. rewrite H6, H7. repeat split. now rewrite !mv_I. }
  assert (E : motion_rotate ex_motion (P1 (V3 (-1) 1 0)) (S0 (2 * PI + 0)) = Ok (P1 (V3 (-1) 1 0))).
  { rewrite Rplus_0_r, rotate_P1_S0. do 2 f_equal. apply ex_turn. }
  assert (F : laue_condition (b_wave_vector b) (V3 (-1) 1 0)).
  { unfold laue_condition. rewrite Hk. unfold norm. f_equal. vunf. lra. }
  assert (G : ~ laue_condition (b_wave_vector b) (right_handed_rotation (V3 0 0 1) (1 * (2 * PI) + PI) (V3 (-1) 1 0))).
  { unfold laue_condition. rewrite Hk, <- rod_spec by apply unit_ez. unfold rod_matrix, rod_K2, rod_K.
    replace (1 * (2 * PI) + PI) with (PI + 2 * INR 1 * PI) by (cbn [INR]; lra). rewrite sin_period, cos_period, sin_PI, cos_PI.
    unfold norm. intros E1. apply sqrt_inj in E1; [|apply normsq_nonneg|apply normsq_nonneg]. revert E1. vunf. lra. }
  assert (I : nth_error (me_espherecentroids (pc_mesh_lab p)) 0 = Some (V3 7 1 (9/4))) by (rewrite H8, H9; reflexivity).
  set (c1 := vadd (V3 7 1 (9/4)) (V3 0 0 (2 * PI))).
  assert (J1 : motion_call ex_motion (P1 (V3 7 1 (9/4))) (S0 (2 * PI)) = Ok (P1 c1)).
  { rewrite call_P1_S0. do 2 f_equal. apply ex_turn_move. }
  assert (J : motion_call ex_motion (P1 c1) (S0 0) = Ok (P1 c1)).
  { rewrite call_P1_S0. do 2 f_equal. apply move_at_0. }
  assert (K : strictly_inside (b_halfspaces b) c1).
  { pose proof PI_4. pose proof PI_RGT_0. apply Hin; unfold c1; vunf; rewrite Rabs_right; lra. }
  assert (T0 : 0 <= 0 <= 1) by lra.
  destruct (pC15_moved_complete false (ex_xtal two_planes) p b (V3 0 0 1) 1 (V3 0 0 1) vzero ex_motion (2 * PI) 0 1 None d p' 0%nat 0%nat
    _ _ _ _ _ _ _ _ _ H3 ex_motion_ok unit_ez D A Oph B C T0 E F G I J1 J K) as (row & Hr & _).
  exists (ex_xtal two_planes), p, b, (V3 0 0 1), 1, (V3 0 0 1), vzero, ex_motion, (2 * PI), d, p', row,
    0%nat, 0%nat, (setup_planes (ex_xtal two_planes) ex_phase (b_wavelength b) 0 1), (V3 (-1) 1 0), 1, 0, (V3 (-1) 1 0), (V3 (-1) 1 0),
    (V3 7 1 (9/4)), c1, c1.
  pose proof PI_RGT_0.
  repeat match goal with |- _ /\ _ => split end; auto using ex_motion_ok, unit_ez; try lra.
  unfold c1. intros Q. apply (f_equal vz) in Q. revert Q. vunf. lra.
Qed.
(** C16 finding: the returned dictionary is not a snapshot of the sample. *)
Lemma pC16_snapshot_refuted : exists x h o b m d o1 h2 o2,
  obj_diffract false x h o b m 0 1 None = Some (Ok d, o1) /\
  obj_transform h o1 m 1 = Some (h2, o2) /\ view_dict h d <> None /\ view_dict h2 d <> view_dict h d.
Proof.
  destruct big_beam as (b & Hb & Hk & Hin). destruct (ex_pc two_planes) as (me & p & H1 & H2 & H3 & H4 & H5 & H6 & H7 & H8 & H9 & H10).
  pose proof (ex_outcome two_planes me p b Hk H3 H4 H5 H6 H7 H8) as O.
  destruct (diffract false (ex_xtal two_planes) p b ex_motion 0 1 None) as [r p'] eqn:D. destruct O as (_ & O & Oph).
  destruct O as (d & ->). { cbn [map two_planes list_sum fold_right]. now rewrite refl_pos, refl_neg. }
  exists (ex_xtal two_planes), [me], (PCObj p 0), b, ex_motion, (DictObj d 0), (PCObj p' 0).
  assert (V : view_pc [me] (PCObj p 0) = Some p) by (unfold view_pc; cbn; rewrite <- H8; destruct p; reflexivity).
  eexists. eexists. split; [unfold obj_diffract; rewrite V, D; reflexivity|]. split; [reflexivity|]. split; [discriminate|].
  unfold view_dict. cbn. intros E. inversion E as [E1]. apply (f_equal me_coord) in E1. cbn in E1. rewrite H10 in E1.
  apply (f_equal (fun l => vz (nth 0 l vzero))) in E1. unfold ex_coord in E1. cbn [map nth] in E1. rewrite ex_motion_z in E1. cbn [vz] in E1. lra.
Qed.
(** C19/C70: a two-element map whose second entry names no phase. *)
Lemma xC70_unmapped : exists x me p, build_mesh ex_coord ex_enod = Ok me /\
  make_polycrystal x me (One mI) (One mzero) [ex_phase] (Some [7/2]) = Ok p /\ (0 < List.length (me_enod me))%nat /\
  forall i, ~ in_phase p 0 i.
Proof.
  destruct ex_mesh as (me & Hb & Hs & Hc & He). exists (ex_xtal []), me.
  assert (W : where_eq [7/2] 0 = []) by (unfold where_eq, mapi; simpl; destruct (Req_EM_T (7/2) 0); [lra|reflexivity]).
  assert (N : forall i, ~ (7/2 = INR i)).
  { intros i. rewrite INR_IZR_INZ. intros C. assert (7 = IZR (2 * Z.of_nat i)) as C' by (rewrite mult_IZR; lra). apply eq_IZR in C'. lia. }
  unfold make_polycrystal. rewrite Hc, He. unfold ex_coord, ex_enod. cbn [traverse gather_tet nth_error bind List.length].
  cbn [instantiate_mats instantiate_phase bind repeat]. unfold instantiate_eB. cbn [map_values eB_loop repeat]. rewrite W.
  cbn [gather traverse bind]. unfold lab_strain_to_B. cbn [List.length Nat.eqb combine map].
  cbn [epsilon_to_b forallb traverse bind]. eexists. split; [exact Hb|]. split; [reflexivity|]. split; [lia|].
  intros i. unfold in_phase. cbn [pc_map map_values nth_error]. intros C. inversion C. eapply N; eauto.
Qed.
(** C17: a lit node and a cone for which the call goes on. *)
Lemma xC17_lit : exists x p b v det r, reachable_pc x p /\ In v (me_coord (pc_mesh_lab p)) /\
  strictly_inside (b_halfspaces b) v /\ det (b_wave_vector b) (bragg_source p b) = Fin r /\ 0 <= 0 < r.
Proof.
  destruct big_beam as (b & Hb & Hk & Hin). destruct (ex_pc two_planes) as (me & p & H1 & H2 & H3 & H4 & H5 & H6 & H7 & H8 & H9 & H10).
  exists (ex_xtal two_planes), p, b, (V3 7 6 1), (fun _ _ => Fin 1), 1. split; auto. split.
  - rewrite H8, H10. now left.
  - split; [apply Hin; cbn [vx vy vz]; rewrite Rabs_right; lra|]. split; [reflexivity|lra].
Qed.
