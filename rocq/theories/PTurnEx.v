(** * A concrete full turn for C108: three scans of a third of a turn. *)
From Verif Require Import Vec Spec MMotion PMotion MLaue PLaue MMesh SMesh PMesh MScattering SScattering PScattering.
From Verif Require Import MStrain SStrain PStrain MBeam SBeam PBeam MPolycrystal SPolycrystal SEvents SEnd PPolycrystal PPolycrystal2 PPolycrystal3 PEvents STurn PTurn PTurn2.
Open Scope list_scope. Open Scope R_scope.
Local Notation len := List.length.

Definition third : motion := Motion (V3 0 0 1) (2 * PI / 3) vzero vzero.
Definition turn_G : vec := V3 (- (sqrt 3 / 2)) (3 / 2) 0.
Lemma third_ok : make_motion (V3 0 0 1) (2 * PI / 3) vzero vzero = Ok third.
Proof. apply make_motion_unit; [apply unit_ez|]. pose proof PI_RGT_0. lra. Qed.
Lemma s3 : sqrt 3 * sqrt 3 = 3. Proof. apply sqrt_sqrt. lra. Qed.
Lemma s3_bound : 1.7 < sqrt 3 < 1.8.
Proof.
  pose proof s3 as S. pose proof (sqrt_pos 3) as P. split.
  - destruct (Rlt_or_le 1.7 (sqrt 3)); [auto|]. nra.
  - destruct (Rlt_or_le (sqrt 3) 1.8); [auto|]. nra.
Qed.
Lemma turn_rho : rho0 (laue_factors (V3 1 0 0) (V3 0 0 1)) turn_G = - (sqrt 3 / 2) /\
  rho1 (laue_factors (V3 1 0 0) (V3 0 0 1)) turn_G = - (3 / 2) /\ rho2 (laue_factors (V3 1 0 0) (V3 0 0 1)) turn_G = 3 / 2.
Proof.
  pose proof s3 as S. unfold rho0, rho1, rho2, laue_factors, rod_K2, rod_K, turn_G. cbn [rf0 rf1 rf2]. split; [|split]; vunf; lra.
Qed.
Definition turn_f (x : R) : R := - (sqrt 3 / 2) * cos x + - (3 / 2) * sin x + 3 / 2.
Lemma turn_30 : turn_f (PI / 6) = 0.
Proof. unfold turn_f. rewrite cos_PI6, sin_PI6. pose proof s3. lra. Qed.
Lemma turn_90 : turn_f (PI / 2) = 0.
Proof. unfold turn_f. rewrite cos_PI2, sin_PI2. lra. Qed.
Lemma turn_zero x : 0 <= x < 2 * PI -> turn_f x = 0 -> x = PI / 6 \/ x = PI / 2.
Proof.
  intros Hx H. pose proof s3 as S. pose proof PI_RGT_0 as PP. pose proof s3_bound as SB.
  destruct (two_zeros (- (sqrt 3 / 2)) (- (3 / 2)) (3 / 2)) as (x1 & x2 & _ & _ & N & Z); [nra|lra|].
  apply (Z x Hx) in H. pose proof (proj1 (Z (PI / 6) ltac:(lra)) turn_30) as A. pose proof (proj1 (Z (PI / 2) ltac:(lra)) turn_90) as B.
  destruct A as [A|A], B as [B|B]; try (exfalso; lra); destruct H as [H|H]; rewrite H; auto.
Qed.
Lemma turn_late x : 2 * PI / 3 <= x <= 2 * PI -> turn_f x <> 0.
Proof.
  intros Hx H. pose proof PI_RGT_0 as PP. destruct (Rle_lt_or_eq_dec x (2 * PI) (proj2 Hx)) as [L|L].
  - destruct (turn_zero x ltac:(lra) H); lra.
  - subst x. unfold turn_f in H. rewrite cos_2PI, sin_2PI in H. pose proof s3_bound. lra.
Qed.
Lemma turn_laue y : laue_condition (V3 1 0 0) (rot_at third y turn_G) <-> turn_f (2 * PI / 3 * y) = 0.
Proof. rewrite (laue_angle _ _ _ _ _ _ _ _ third_ok unit_ez). destruct turn_rho as (-> & -> & ->). reflexivity. Qed.
Lemma turn_rhr x : laue_condition (V3 1 0 0) (right_handed_rotation (V3 0 0 1) x turn_G) <-> turn_f x = 0.
Proof. rewrite <- rod_spec by apply unit_ez. rewrite laue_condition_iff by apply unit_ez. destruct turn_rho as (-> & -> & ->). reflexivity. Qed.
Lemma turn_clear : clear_of_steps (V3 1 0 0) (V3 0 0 1) (2 * PI / 3) 3 turn_G.
Proof.
  pose proof PI_RGT_0 as PP. intros j Hj. rewrite !turn_rhr.
  assert (E : j = 0%nat \/ j = 1%nat \/ j = 2%nat) by lia. destruct E as [->|[->| ->]]; cbn [INR].
  - rewrite Rmult_0_r. split; [|apply turn_late; lra]. intros H. destruct (turn_zero 0 ltac:(lra) H); lra.
  - split; apply turn_late; lra.
  - split; [apply turn_late; lra|]. intros H. replace (2 * PI / 3 * (1 + 1) + PI) with (PI / 3 + 2 * INR 1 * PI) in H by (cbn [INR]; field).
    assert (H' : turn_f (PI / 3) = 0) by (unfold turn_f in *; rewrite cos_period, sin_period in H; exact H). destruct (turn_zero (PI / 3) ltac:(lra) H'); lra.
Qed.
Lemma third_centre j c : forall p, me_espherecentroids (pc_mesh_lab p) = [c] ->
  me_espherecentroids (pc_mesh_lab (turned third j p)) = [rot_at third (INR j) c].
Proof.
  revert c. induction j as [|j IH]; intros c p H.
  - cbn [INR]. rewrite rot_at_0. exact H.
  - change (turned third (S j) p) with (turned third j (transform p third 1)).
    rewrite (IH (move_at third 1 c)) by (unfold transform, mesh_update; cbn [pc_mesh_lab me_espherecentroids]; now rewrite H).
    f_equal. replace (move_at third 1 c) with (rot_at third 1 c).
    + rewrite rot_at_add by apply unit_ez. rewrite S_INR. f_equal. ring.
    + unfold move_at, third. cbn [m_trans m_origin m_axis m_angle]. replace (vsub c vzero) with c by (clear; veq). generalize (rot_at (Motion (V3 0 0 1) (2 * PI / 3) vzero vzero) 1 c). clear. veq.
Qed.
Lemma third_move t c : move_at third t c = rot_at third t c.
Proof.
  unfold move_at. cbn [third m_trans m_origin]. replace (vsub c vzero) with c by (clear; veq). generalize (rot_at third t c). clear. veq.
Qed.
Lemma coord_norm v : Rabs (vx v) <= norm v /\ Rabs (vy v) <= norm v /\ Rabs (vz v) <= norm v.
Proof.
  assert (K : forall x, x * x <= normsq v -> Rabs x <= norm v).
  { intros x H. unfold norm. rewrite <- sqrt_Rsqr_abs. apply sqrt_le_1_alt. exact H. }
  destruct v as [x y z]. repeat split; apply K; vunf; nra.
Qed.
Lemma xC108_three_scans : exists z x p b n D P e i ph h sf G,
  reachable_pc x p /\ INR n * m_angle third = 2 * PI /\
  (forall j, (j < n)%nat -> diffract z x (turned third j p) b third 0 1 None = (Ok (D j), P j)) /\
  in_phase p e i /\ nth_error (pc_phases p) i = Some ph /\ plane_of (setup_planes x ph (b_wavelength b) 0 1) h sf /\ scattering_vector p e h G /\
  (forall j t, (j < n)%nat -> 0 <= t <= 1 -> exists s, lit_at (turned third j p) b third e t s) /\
  clear_of_steps (b_wave_vector b) (m_axis third) (m_angle third) n G /\ crosses (b_wave_vector b) (m_axis third) G.
Proof.
  destruct big_beam as (b & Hb & Hk & Hin). destruct (ex_pc [turn_G]) as (me & p & H1 & H2 & H3 & H4 & H5 & H6 & H7 & H8 & H9 & H10).
  pose proof PI_RGT_0 as PP. assert (Um : unit (m_axis third)) by apply unit_ez.
  assert (SV : scattering_vector p 0 turn_G turn_G).
  { exists mI, mI. rewrite H6, H7. repeat split. now rewrite !mv_I. }
  assert (RUN : forall j, (j < 3)%nat -> exists d, fst (diffract false (ex_xtal [turn_G]) (turned third j p) b third 0 1 None) = Ok d).
  { intros j Hj. destruct (turned_rel third j p Um) as [M1 M2].
    pose proof (pC13_events false (ex_xtal [turn_G]) (turned third j p) b (V3 0 0 1) (2 * PI / 3) vzero vzero third 0 1 None [0] (turned_reach _ _ j p H3) (ex_xtal_ok _) ltac:(now rewrite M1) I third_ok unit_ez) as HO.
    destruct (diffract false (ex_xtal [turn_G]) (turned third j p) b third 0 1 None) as [r p'] eqn:ED. destruct HO as (O1 & O2 & _). cbn [fst].
    assert (EP : p' = PC (pc_volumes (turned third j p)) (pc_U (turned third j p)) (pc_eps (turned third j p)) (pc_map (turned third j p)) [setup_planes (ex_xtal [turn_G]) ex_phase (b_wavelength b) 0 1] (pc_eB (turned third j p)) (pc_mesh_lab (turned third j p)) (pc_mesh_sample (turned third j p)) (pc_eps_sample (turned third j p)) (pc_U_sample (turned third j p))).
    { pose proof (f_equal snd ED) as E. cbn [snd] in E. rewrite <- E. unfold diffract. rewrite M2, H5. reflexivity. }
    assert (VEC : scattering_vector p' 0 turn_G (rot_at third (INR j) turn_G)).
    { destruct (turned_vector _ _ _ _ _ third_ok unit_ez j p 0 turn_G turn_G SV) as (U & B & EU & EB & EG). exists U, B. subst p'. auto. }
    assert (NPI : ~ laue_condition (b_wave_vector b) (right_handed_rotation (V3 0 0 1) PI (rot_at third (INR j) turn_G))).
    { rewrite Hk. rewrite <- rod_spec by apply unit_ez. unfold rot_at. cbn [third m_axis m_angle]. rewrite <- mv_mm, rod_add by apply unit_ez. rewrite rod_spec by apply unit_ez.
      rewrite (Rplus_comm PI). apply (turn_clear j Hj). }
    assert (E : j = 0%nat \/ (1 <= j)%nat) by lia. destruct E as [->|Hj1].
    - assert (EV : forall t, 0 <= t <= 1 -> turn_f (2 * PI / 3 * t) = 0 -> diffracts_at p' b (V3 0 0 1) third 0 0 t (rot_at third t turn_G)).
      { intros t Ht Hf. exists 0%nat, (setup_planes (ex_xtal [turn_G]) ex_phase (b_wavelength b) 0 1), turn_G, turn_G.
        split; [unfold in_phase; rewrite EP; cbn [pc_map]; now rewrite M1, H4|]. split; [now rewrite EP|]. split; [exists [turn_G]; repeat split|]. split; [cbn [INR] in VEC; rewrite rot_at_0 in VEC; exact VEC|].
        split; [exact Ht|]. split; [apply rotate_P1_S0|]. split; [rewrite Hk; now apply turn_laue|]. cbn [INR] in NPI. rewrite rot_at_0 in NPI. exact NPI. }
      apply (O2 0%nat 0%nat (1/4) (rot_at third (1/4) turn_G) 0%nat 0%nat (3/4) (rot_at third (3/4) turn_G)).
      + apply EV; [lra|]. replace (2 * PI / 3 * (1 / 4)) with (PI / 6) by field. apply turn_30.
      + apply EV; [lra|]. replace (2 * PI / 3 * (3 / 4)) with (PI / 2) by field. apply turn_90.
      + intros C. assert (1/4 = 3/4) by congruence. lra.
    - destruct O1 as (d & -> & _); [|eauto]. intros e jj t G (i & ph & h & G0 & A1 & A2 & A3 & A4 & A5 & A6 & A7 & A8).
      assert (Eh : h = turn_G).
      { rewrite EP in A2. cbn [pc_phases] in A2. destruct i as [|[|i]]; cbn [nth_error] in A2; try discriminate. apply (f_equal (fun o => match o with Some q => q | None => ph end)) in A2. subst ph.
        destruct A3 as (l & Q1 & Q2 & _). cbn [ph_hkl setup_planes ex_xtal x_genhkl] in Q1. apply (f_equal (fun o => match o with Some q => q | None => l end)) in Q1. subst l. destruct jj as [|[|jj]]; cbn [nth_error] in Q2; try discriminate. congruence. }
      subst h. assert (Ee : e = 0%nat).
      { unfold in_phase in A1. rewrite EP in A1. cbn [pc_map] in A1. rewrite M1, H4 in A1. cbn [map_values] in A1. destruct e as [|[|e]]; cbn [nth_error] in A1; try discriminate. reflexivity. }
      subst e. rewrite (scattering_fun _ _ _ _ _ A4 VEC) in A6. rewrite rotate_P1_S0 in A6. apply okP1_inj in A6. subst G. rewrite rot_at_add in A7 by exact Um. rewrite Hk in A7. apply turn_laue in A7.
      revert A7. apply turn_late. assert (J1 : 1 <= INR j) by (change 1 with (INR 1); now apply le_INR). assert (J2 : INR j <= 2) by (change 2 with (INR 2); apply le_INR; lia). nra. }
  assert (CH : exists D P, forall j, (j < 3)%nat -> diffract false (ex_xtal [turn_G]) (turned third j p) b third 0 1 None = (Ok (D j), P j)).
  { set (run := fun j => diffract false (ex_xtal [turn_G]) (turned third j p) b third 0 1 None).
    destruct (RUN 0%nat) as (d0 & E0); [lia|]. exists (fun j => match fst (run j) with Ok d => d | Err _ => d0 end), (fun j => snd (run j)).
    intros j Hj. destruct (RUN j Hj) as (d & E). fold (run j) in E |- *. rewrite E. destruct (run j) as [r q]. cbn [fst snd] in *. now subst r. }
  destruct CH as (D & P & HD).
  exists false, (ex_xtal [turn_G]), p, b, 3%nat, D, P, 0%nat, 0%nat, ex_phase, turn_G, 1, turn_G.
  split; [exact H3|]. split; [cbn [third m_angle INR]; field|]. split; [exact HD|]. split; [unfold in_phase; now rewrite H4|]. split; [now rewrite H5|].
  split; [exists [turn_G], 0%nat; repeat split|]. split; [exact SV|]. split; [|split].
  - intros j t Hj Ht. set (c := rot_at third (INR j) (V3 7 1 (9/4))). exists (move_at third t c). exists c.
    split; [rewrite (third_centre j (V3 7 1 (9/4))) by (now rewrite H8, H9); reflexivity|]. split; [now rewrite call_P1_S0|].
    assert (N : norm (move_at third t c) < 50).
    { rewrite third_move. unfold c, rot_at. rewrite !rotation_norm by (apply rod_rotation, unit_ez). apply Rsqr_incrst_0; [|apply sqrt_pos|lra]. unfold Rsqr. rewrite norm_sq. vunf. lra. }
    destruct (coord_norm (move_at third t c)) as (C1 & C2 & C3). apply Hin; lra.
  - rewrite Hk. exact turn_clear.
  - rewrite Hk. unfold crosses, turn_G, third. cbn [m_axis]. pose proof s3 as S. vunf. nra.
Qed.
