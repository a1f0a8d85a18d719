(** * A concrete case for C107: a uniformly expanded crystal with reported reflections. *)
From Verif Require Import Vec Spec MMotion PMotion MLaue PLaue MMesh SMesh PMesh MScattering SScattering PScattering.
From Verif Require Import MStrain SStrain PStrain MBeam SBeam PBeam MPolycrystal SPolycrystal PPolycrystal PPolycrystal2 PPolycrystal3 SGauge PGauge PGauge2.
Open Scope list_scope. Open Scope R_scope.
Local Notation len := List.length.

Local Lemma some_eq {A} (a b : A) : Some a = Some b -> a = b. Proof. congruence. Qed.
Definition gauge_xtal : xtal :=
  Xtal (fun _ => mscale 2 mI) (fun _ _ _ _ => two_planes) (fun hkl _ _ _ => map (fun _ => (1, 0)) hkl).
Definition gauge_eps : mat := mscale (3/2) mI.
Lemma gauge_B : eps_to_B1 (mscale 2 mI) (crystal_strain mI gauge_eps) = Ok mI.
Proof.
  assert (E : crystal_strain mI gauge_eps = gauge_eps) by (unfold crystal_strain, gauge_eps; veq).
  rewrite E. unfold eps_to_B1, cholesky.
  replace (lower_sym (metric gauge_eps)) with (M3 (V3 4 0 0) (V3 0 4 0) (V3 0 0 4)) by (unfold metric, lower_sym, gauge_eps; vext; vunf; lra).
  cbv beta iota zeta delta [Vec.r1 Vec.r2 Vec.r3 Vec.vx Vec.vy Vec.vz].
  assert (S : sqrt 4 = 2) by (replace 4 with (2 * 2) by lra; apply sqrt_square; lra).
  rewrite !S. replace (4 - 0 / 2 * (0 / 2)) with 4 by lra. rewrite !S.
  replace ((0 - 0 / 2 * (0 / 2)) / 2) with 0 by lra. replace (4 - 0 * 0) with 4 by lra. rewrite !S. destruct (Rle_dec 4 0); [lra|].
  replace (0 / 2) with 0 by lra. cbn [bind]. unfold inv_checked. set (F := mT _).
  assert (D : det F = 8) by (unfold F; unfold det, mT; vunf; lra). rewrite D. destruct (Req_EM_T 8 0); [lra|]. cbn [bind]. f_equal.
  unfold minv. rewrite D. unfold F. unfold mT. vext; vunf; field.
Qed.
Lemma gauge_lab : lab_strain_to_B (mscale 2 mI) [gauge_eps] [mI] = Ok [mI].
Proof.
  pose proof gauge_B as B. unfold lab_strain_to_B. cbn [List.length Nat.eqb combine map fst snd]. unfold epsilon_to_b. cbn [forallb].
  assert (PD : positive_definite (lower_sym (metric (crystal_strain mI gauge_eps)))).
  { intros v Hv. replace (quad (lower_sym (metric (crystal_strain mI gauge_eps))) v) with (4 * normsq v) by (unfold quad, metric, lower_sym, crystal_strain, gauge_eps; clear; vdes; vunf; lra).
    destruct (normsq_nonneg v) as [|E]; [lra|]. symmetry in E. apply normsq_0 in E. contradiction. }
  rewrite (pd_psd _ PD). cbn [andb traverse]. rewrite B. reflexivity.
Qed.
Lemma gauge_pc : exists me p, build_mesh ex_coord ex_enod = Ok me /\
  make_polycrystal gauge_xtal me (One mI) (One gauge_eps) [ex_phase] (Some [0]) = Ok p /\
  reachable_pc gauge_xtal p /\ pc_map p = MapTensor [0] /\ pc_phases p = [ex_phase] /\
  pc_U p = [mI] /\ pc_eps p = [gauge_eps] /\ pc_eB p = [mI] /\ pc_mesh_lab p = me /\
  me_espherecentroids me = [V3 7 1 (9/4)].
Proof.
  destruct ex_mesh as (me & Hb & Hs & Hc & He). exists me.
  assert (M : exists p, make_polycrystal gauge_xtal me (One mI) (One gauge_eps) [ex_phase] (Some [0]) = Ok p /\
    pc_map p = MapTensor [0] /\ pc_phases p = [ex_phase] /\ pc_U p = [mI] /\ pc_eps p = [gauge_eps] /\ pc_eB p = [mI] /\ pc_mesh_lab p = me).
  { unfold make_polycrystal. rewrite Hc, He. unfold ex_coord, ex_enod. cbn [traverse gather_tet nth_error bind List.length].
    cbn [instantiate_mats instantiate_phase bind repeat].
    assert (X : instantiate_eB gauge_xtal [mI] [gauge_eps] [ex_phase] (MapTensor [0]) 1 = Ok [mI]).
    { unfold instantiate_eB. cbn [map_values eB_loop repeat]. rewrite where_00. unfold gather. cbn [traverse nth_error bind].
      change (x_form_b gauge_xtal (ph_cell ex_phase)) with (mscale 2 mI). rewrite gauge_lab. reflexivity. }
    rewrite X. cbn [bind]. eexists. split; [reflexivity|]. repeat split. }
  destruct M as (p & Hp & H1 & H2 & H3 & H3' & H4 & H5). exists p. repeat split; auto.
  apply (rpc_make _ ex_coord ex_enod me [] me (One mI) (One gauge_eps) [ex_phase] (Some [0]) p); auto. repeat constructor.
Qed.
Lemma xC107_expanded : exists z x p ops q b a w T o m d p' row e i ph c G0,
  proper_sample x p /\ turns_rigidly ops /\ p = pc_run z x ops p /\ reachable_beam q b /\ make_motion a w T o = Ok m /\ unit a /\
  diffract z x p b m 0 1 None = (Ok d, p') /\ In row (pd_peaks d) /\
  has d row "grain_index" (INR e) /\ has d row "phase_number" (INR i) /\ has_vec d row "h" "k" "l" G0 /\ has_vec d row "G0_x" "G0_y" "G0_z" G0 /\
  nth_error (pc_phases p) i = Some ph /\ nth_error (pc_eps p) e = Some (mscale c mI) /\ c = 3/2 /\
  free_length x ph G0 = 2 * norm G0.
Proof.
  destruct big_beam as (b & Hb & Hk & Hin). destruct gauge_pc as (me & p & H1 & H2 & H3 & H4 & H5 & H6 & He & H7 & H8 & H9).
  assert (XO : xtal_ok gauge_xtal) by (intros hkl c g f; apply map_length).
  pose proof (pC13_outcome false gauge_xtal p b ex_motion 0 1 None [0] H3 XO H4 I) as O.
  assert (D' : snd (diffract false gauge_xtal p b ex_motion 0 1 None) =
    PC (pc_volumes p) (pc_U p) (pc_eps p) (pc_map p) [setup_planes (ex_xtal two_planes) ex_phase (b_wavelength b) 0 1] (pc_eB p)
                   (pc_mesh_lab p) (pc_mesh_sample p) (pc_eps_sample p) (pc_U_sample p)).
  { unfold diffract. rewrite H5. reflexivity. }
  destruct (diffract false gauge_xtal p b ex_motion 0 1 None) as [r p'] eqn:D. cbn [snd] in D'.
  rewrite (ex_events two_planes p' b) in O by (subst p'; auto). destruct O as (_ & O).
  destruct O as (d & ->). { cbn [map two_planes list_sum fold_right]. now rewrite refl_pos, refl_neg. }
  assert (Oph : nth_error (pc_phases p') 0 = Some (setup_planes (ex_xtal two_planes) ex_phase (b_wavelength b) 0 1)) by (subst p'; reflexivity).
  assert (A : in_phase p 0 0) by (unfold in_phase; now rewrite H4).
  assert (B : plane_of (setup_planes (ex_xtal two_planes) ex_phase (b_wavelength b) 0 1) (V3 (-1) 1 0) 1).
  { exists two_planes, 0%nat. repeat split. }
  assert (C : scattering_vector p 0 (V3 (-1) 1 0) (V3 (-1) 1 0)).
  { exists mI, mI. rewrite H6, H7. repeat split. now rewrite !mv_I. }
  assert (E : motion_rotate ex_motion (P1 (V3 (-1) 1 0)) (S0 0) = Ok (P1 (V3 (-1) 1 0))).
  { rewrite rotate_P1_S0. do 2 f_equal. apply rot_at_0. }
  assert (F : laue_condition (b_wave_vector b) (V3 (-1) 1 0)).
  { unfold laue_condition. rewrite Hk. unfold norm. f_equal. vunf. lra. }
  assert (G : ~ laue_condition (b_wave_vector b) (right_handed_rotation (V3 0 0 1) PI (V3 (-1) 1 0))).
  { unfold laue_condition. rewrite Hk, <- rod_spec by apply unit_ez. unfold rod_matrix, rod_K2, rod_K. rewrite sin_PI, cos_PI.
    unfold norm. intros E1. apply sqrt_inj in E1; [|apply normsq_nonneg|apply normsq_nonneg]. revert E1. vunf. lra. }
  assert (I0 : nth_error (me_espherecentroids (pc_mesh_lab p)) 0 = Some (V3 7 1 (9/4))) by (rewrite H8, H9; reflexivity).
  assert (J : motion_call ex_motion (P1 (V3 7 1 (9/4))) (S0 0) = Ok (P1 (V3 7 1 (9/4)))).
  { rewrite call_P1_S0. do 2 f_equal. apply move_at_0. }
  assert (K : strictly_inside (b_halfspaces b) (V3 7 1 (9/4))) by (apply Hin; cbn [vx vy vz]; rewrite Rabs_right; lra).
  assert (T0 : 0 <= 0 <= 1) by lra.
  destruct (pC12_complete _ _ _ _ _ _ _ _ _ _ _ _ _ _ _ _ _ _ _ _ _ _ _ _ H3 ex_motion_ok unit_ez D A Oph B C T0 E F G I0 J K) as (row & Hr & R).
  exists false, gauge_xtal, p, [], big_qhull, b, (V3 0 0 1), 1, (V3 0 0 1), vzero, ex_motion, d, p', row, 0%nat, 0%nat, ex_phase, (3/2), (V3 (-1) 1 0).
  split. { split; [exists me, (One mI), (One gauge_eps), [ex_phase], (Some [0]); exact H2|]. rewrite H6, He. split; constructor; auto; [apply rotation_I|]. unfold symmetric, gauge_eps. veq. }
  split; [intros ? ? []|]. split; [reflexivity|]. split; [exact Hb|]. split; [apply ex_motion_ok|]. split; [apply unit_ez|]. split; [exact D|]. split; [exact Hr|].
  destruct R as (R1 & R2 & R3 & R4).
  destruct (pC10_peak_contents _ _ _ _ _ _ _ _ _ _ _ D Hr) as (e' & i' & ph' & h' & sf' & t' & G0' & G' & c' & s' & v' & K1 & K2 & K3 & K4 & _ & _ & _ & _ & _ & K5 & K6 & K7 & _ & _ & K8 & _).
  assert (h' = V3 (-1) 1 0) by (eapply has_vec_inj; eassumption). assert (e' = 0%nat) by (unfold has in R1, K5; apply INR_eq; congruence). subst h' e'.
  destruct K4 as (U & B' & EU & EB & EG). rewrite H6 in EU. rewrite H7 in EB. cbn [nth_error] in EU, EB. apply some_eq in EU. apply some_eq in EB. subst U B'. rewrite !mv_I in EG. subst G0'.
  rewrite H5, He. split; [exact R1|]. split; [exact R2|]. split; [exact R3|]. split; [exact K8|]. split; [reflexivity|]. split; [reflexivity|]. split; [reflexivity|].
  unfold free_length. change (x_form_b gauge_xtal (ph_cell ex_phase)) with (mscale 2 mI).
  rewrite mv_mscale, mv_I, norm_scale, Rabs_right by lra. reflexivity.
Qed.
