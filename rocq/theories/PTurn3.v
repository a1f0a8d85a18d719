(** * Proofs: a full turn taken in several scans, the lost reflection and the tangent one (C108). *)
From Verif Require Import Vec Spec MMotion PMotion MLaue PLaue MMesh SMesh PMesh MScattering SScattering PScattering.
From Verif Require Import MStrain SStrain PStrain MBeam SBeam PBeam MPolycrystal SPolycrystal SEvents SEnd PPolycrystal PPolycrystal2 PPolycrystal3 PEvents STurn PTurn PTurn2 PTurnEx.
Open Scope list_scope. Open Scope R_scope.
Local Notation len := List.length.

Lemma shown_clear z x p b a w T o m lo hi det d p' e i h t : make_motion a w T o = Ok m -> unit a ->
  diffract z x p b m lo hi det = (Ok d, p') -> shows d e i h t ->
  exists G, scattering_vector p e h G /\ ~ laue_condition (b_wave_vector b) (right_handed_rotation a PI G).
Proof.
  intros Hm U H (row & Hin & I1 & I2 & I3 & I4). apply In_nth_error in Hin as (k & Hk). pose proof (columns_of _ _ _ _ _ _ _ _ _ _ H) as HC.
  destruct (peaks_iff _ _ _ _ _ _ _ _ _ _ _ _ H Hk) as (i' & ph & e' & h' & sf & t' & G0 & c & v & A1 & A2 & A3 & A4 & A5 & A6 & A7 & A8 & ->).
  exists G0. assert (K1 : has d (full_row z b m (row10 e' i' h' sf t' G0) c v ++ [Fin (INR k)]) "grain_index" (INR e')) by (unfold has, field; rewrite HC; reflexivity).
  assert (K3 : has_vec d (full_row z b m (row10 e' i' h' sf t' G0) c v ++ [Fin (INR k)]) "h" "k" "l" h') by (unfold has_vec, has, field; rewrite HC; repeat split; reflexivity).
  assert (Ee : e' = e) by (unfold has in *; apply INR_eq; congruence).
  assert (Eh : h' = h).
  { revert K3 I3. clear. destruct h as [u1 u2 u3], h' as [v1 v2 v3]. intros (X1 & X2 & X3) (Y1 & Y2 & Y3). unfold has in *.
    change (vx (V3 v1 v2 v3)) with v1 in X1. change (vy (V3 v1 v2 v3)) with v2 in X2. change (vz (V3 v1 v2 v3)) with v3 in X3.
    change (vx (V3 u1 u2 u3)) with u1 in Y1. change (vy (V3 u1 u2 u3)) with u2 in Y2. change (vz (V3 u1 u2 u3)) with u3 in Y3. congruence. }
  subst e' h'. split; [exact A4|]. clear - A5 Hm U. intros HP. destruct A5 as (_ & Hc). apply make_motion_ok_iff in Hm as (W & _ & ->). cbn [m_axis m_angle] in *.
  rewrite <- rod_spec in HP by auto. apply laue_condition_iff in HP; auto. rewrite cos_PI, sin_PI in HP.
  rewrite candidates_closed in Hc by lra. destruct (Req_EM_T _ 0) as [|N]; [destruct Hc; discriminate|]. apply N. lra.
Qed.
(** C108 finding. A plane that would reflect half a turn after the start of a scan is not shown by that scan at
    all, not even at a time inside the scan at which it does reflect. *)
Lemma pC108_lost : forall z x p b a w T o m j lo hi det d p' e i h G t,
  make_motion a w T o = Ok m -> unit a -> scattering_vector p e h G ->
  laue_condition (b_wave_vector b) (right_handed_rotation a (w * INR j + PI) G) ->
  diffract z x (turned m j p) b m lo hi det = (Ok d, p') -> ~ shows d e i h t.
Proof.
  intros z x p b a w T o m j lo hi det d p' e i h G t Hm U HG HX HD Hs.
  destruct (shown_clear z x (turned m j p) b a w T o m lo hi det d p' e i h t Hm U HD Hs) as (G1 & S1 & HN).
  rewrite (scattering_fun _ _ _ _ _ S1 (turned_vector a w T o m Hm U j p e h G HG)) in HN. apply HN.
  assert (EM : m = Motion a w T o) by (apply make_motion_ok_iff in Hm as (_ & _ & EM); exact EM).
  rewrite <- rod_spec by exact U. rewrite EM. unfold rot_at. cbn [m_axis m_angle]. rewrite <- mv_mm, rod_add by exact U. rewrite rod_spec by exact U.
  rewrite (Rplus_comm PI). exact HX.
Qed.
(** C108. In one scan a plane of an element is shown at two times at most. *)
Lemma pC108_at_most_two : forall z x p b a w T o m lo hi det d p' e i h t1 t2 t3,
  make_motion a w T o = Ok m -> unit a -> diffract z x p b m lo hi det = (Ok d, p') ->
  (forall G, scattering_vector p e h G -> ~ (dot (b_wave_vector b) a * dot G a + normsq G / 2 = 0 /\ normsq (cross a (b_wave_vector b)) * normsq (cross a G) = 0)) ->
  shows d e i h t1 -> shows d e i h t2 -> shows d e i h t3 -> t1 = t2 \/ t1 = t3 \/ t2 = t3.
Proof.
  intros z x p b a w T o m lo hi det d p' e i h t1 t2 t3 Hm U HD HZ H1 H2 H3.
  destruct (shown z x p b a w T o m lo hi det d p' e i h t1 Hm U HD H1) as (G & S1 & T1 & L1).
  destruct (shown z x p b a w T o m lo hi det d p' e i h t2 Hm U HD H2) as (G2 & S2 & T2 & L2). rewrite (scattering_fun _ _ _ _ _ S2 S1) in L2. clear G2 S2.
  destruct (shown z x p b a w T o m lo hi det d p' e i h t3 Hm U HD H3) as (G2 & S2 & T3 & L3). rewrite (scattering_fun _ _ _ _ _ S2 S1) in L3. clear G2 S2.
  destruct (shown_clear z x p b a w T o m lo hi det d p' e i h t1 Hm U HD H1) as (G2 & S2 & HN). rewrite (scattering_fun _ _ _ _ _ S2 S1) in HN. clear G2 S2.
  apply (laue_angle _ a w T o m) in L1; auto. apply (laue_angle _ a w T o m) in L2; auto. apply (laue_angle _ a w T o m) in L3; auto.
  destruct (rho_geometry (b_wave_vector b) a G U) as [RG1 RG2]. specialize (HZ G S1). rewrite <- RG1, <- RG2 in HZ.
  assert (Q2 : rho2 (laue_factors (b_wave_vector b) a) G - rho0 (laue_factors (b_wave_vector b) a) G <> 0).
  { intros E. apply HN. rewrite <- rod_spec by exact U. apply laue_condition_iff; auto. rewrite cos_PI, sin_PI. lra. }
  set (A := rho0 _ _) in *. set (B := rho1 _ _) in *. set (C := rho2 _ _) in *. clearbody A B C.
  assert (W : 0 < w < PI) by (apply make_motion_ok_iff in Hm as (W & _); exact W).
  assert (R : forall t, 0 <= t <= 1 -> 0 <= w * t < 2 * PI) by (intros t Ht; split; [apply Rmult_le_pos; lra|nra]).
  assert (EQ : forall s t, w * s = w * t -> s = t) by (intros s t E; apply Rmult_eq_reg_l in E; lra).
  destruct (Rtotal_order (C * C) (A * A + B * B)) as [D|[D|D]].
  - destruct (two_zeros A B C D Q2) as (x1 & x2 & _ & _ & _ & Z).
    apply (Z _ (R _ T1)) in L1. apply (Z _ (R _ T2)) in L2. apply (Z _ (R _ T3)) in L3.
    destruct L1 as [L1|L1], L2 as [L2|L2], L3 as [L3|L3];
      first [left; apply EQ; lra|right; left; apply EQ; lra|right; right; apply EQ; lra].
  - (* tangent: one direction only *)
    left. apply EQ. assert (C0 : C <> 0).
    { intros E. apply HZ. split; [exact E|]. rewrite <- D, E. ring. }
    assert (K : forall y, A * cos y + B * sin y + C = 0 -> cos y = - A / C /\ sin y = - B / C).
    { intros y E. pose proof (sin2_cos2 y) as SC. unfold Rsqr in SC. set (c := cos y) in *. set (s := sin y) in *. clearbody c s.
      assert (Y1 : A * s - B * c = 0).
      { apply Rsqr_0_uniq. unfold Rsqr. assert (X1 : C * C = (A * c + B * s) * (A * c + B * s)) by (replace C with (- (A * c + B * s)) by lra; ring).
        assert (X2 : (A * c + B * s) * (A * c + B * s) + (A * s - B * c) * (A * s - B * c) = (A * A + B * B) * (s * s + c * c)) by ring. rewrite SC in X2. lra. }
      split; apply (Rmult_eq_reg_l (C * C)); try (now apply Rmult_integral_contrapositive_currified).
      - replace (C * C * (- A / C)) with (- A * C) by (field; exact C0). rewrite D. replace (A * c + B * s + C) with (C + (A * c + B * s)) in E by ring.
        replace C with (- (A * c + B * s)) by lra. replace B with B by reflexivity. assert (X : B * (A * s - B * c) = 0) by (rewrite Y1; ring). lra.
      - replace (C * C * (- B / C)) with (- B * C) by (field; exact C0). rewrite D.
        replace C with (- (A * c + B * s)) by lra. assert (X : A * (A * s - B * c) = 0) by (rewrite Y1; ring). lra. }
    destruct (K _ L1) as [K1 K2]. destruct (K _ L2) as [K3 K4].
    assert (D1 : 0 <= w * t1 <= PI) by (split; [apply R; lra|nra]). assert (D2 : 0 <= w * t2 <= PI) by (split; [apply R; lra|nra]).
    rewrite <- (acos_cos (w * t1)), <- (acos_cos (w * t2)) by assumption. now rewrite K1, K3.
  - exfalso. exact (no_zeros A B C _ D L1).
Qed.
(** The finding is met: a plane that reflects in the middle of a scan and again half a turn after its start; the
    call returns a table, and the plane is not in it. *)
Definition lost_G : vec := V3 (1 / 2) (sqrt 3 / 2) 0.
Lemma lost_rho : rho0 (laue_factors (V3 1 0 0) (V3 0 0 1)) lost_G = 1 / 2 /\
  rho1 (laue_factors (V3 1 0 0) (V3 0 0 1)) lost_G = - (sqrt 3 / 2) /\ rho2 (laue_factors (V3 1 0 0) (V3 0 0 1)) lost_G = 1 / 2.
Proof. pose proof s3 as S. unfold rho0, rho1, rho2, laue_factors, rod_K2, rod_K, lost_G. cbn [rf0 rf1 rf2]. split; [|split]; vunf; lra. Qed.
Lemma xC108_lost : exists z x p b d p' e h G s,
  reachable_pc x p /\ scattering_vector p e h G /\ 0 <= 1/2 <= 1 /\ laue_condition (b_wave_vector b) (rot_at third (1/2) G) /\
  lit_at p b third e (1/2) s /\ laue_condition (b_wave_vector b) (right_handed_rotation (V3 0 0 1) (m_angle third * INR 0 + PI) G) /\
  diffract z x (turned third 0 p) b third 0 1 None = (Ok d, p').
Proof.
  destruct big_beam as (b & Hb & Hk & Hin). destruct (ex_pc [lost_G]) as (me & p & H1 & H2 & H3 & H4 & H5 & H6 & H7 & H8 & H9 & H10).
  pose proof PI_RGT_0 as PP. destruct lost_rho as (E0 & E1 & E2).
  assert (SV : scattering_vector p 0 lost_G lost_G).
  { exists mI, mI. rewrite H6, H7. repeat split. now rewrite !mv_I. }
  assert (LP : laue_condition (b_wave_vector b) (right_handed_rotation (V3 0 0 1) PI lost_G)).
  { rewrite Hk, <- rod_spec by apply unit_ez. apply laue_condition_iff; [apply unit_ez|]. rewrite E0, E1, E2, cos_PI, sin_PI. lra. }
  pose proof (pC13_events false (ex_xtal [lost_G]) p b (V3 0 0 1) (2 * PI / 3) vzero vzero third 0 1 None [0] H3 (ex_xtal_ok _) H4 I third_ok unit_ez) as HO.
  destruct (diffract false (ex_xtal [lost_G]) p b third 0 1 None) as [r p'] eqn:ED. destruct HO as (O1 & _).
  assert (EP : p' = PC (pc_volumes p) (pc_U p) (pc_eps p) (pc_map p) [setup_planes (ex_xtal [lost_G]) ex_phase (b_wavelength b) 0 1] (pc_eB p) (pc_mesh_lab p) (pc_mesh_sample p) (pc_eps_sample p) (pc_U_sample p)).
  { pose proof (f_equal snd ED) as E. cbn [snd] in E. rewrite <- E. unfold diffract. rewrite H5. reflexivity. }
  destruct O1 as (d & -> & _).
  { intros e jj t G (i & ph & h & G0 & A1 & A2 & A3 & A4 & A5 & A6 & A7 & A8). apply A8.
    assert (Eh : h = lost_G).
    { rewrite EP in A2. cbn [pc_phases] in A2. destruct i as [|[|i]]; cbn [nth_error] in A2; try discriminate. apply (f_equal (fun o => match o with Some q => q | None => ph end)) in A2. subst ph.
      destruct A3 as (l & Q1 & Q2 & _). cbn [ph_hkl setup_planes ex_xtal x_genhkl] in Q1. apply (f_equal (fun o => match o with Some q => q | None => l end)) in Q1. subst l. destruct jj as [|[|jj]]; cbn [nth_error] in Q2; try discriminate. congruence. }
    subst h. assert (Ee : e = 0%nat).
    { unfold in_phase in A1. rewrite EP in A1. cbn [pc_map] in A1. rewrite H4 in A1. cbn [map_values] in A1. destruct e as [|[|e]]; cbn [nth_error] in A1; try discriminate. reflexivity. }
    subst e. replace G0 with lost_G; [exact LP|]. destruct A4 as (U & B & EU & EB & ->). rewrite EP in EU, EB. cbn [pc_U pc_eB] in EU, EB. rewrite H6 in EU. rewrite H7 in EB. cbn [nth_error] in EU, EB.
    assert (U = mI) by congruence. assert (B = mI) by congruence. subst U B. now rewrite !mv_I. }
  exists false, (ex_xtal [lost_G]), p, b, d, p', 0%nat, lost_G, lost_G, (move_at third (1/2) (V3 7 1 (9/4))).
  split; [exact H3|]. split; [exact SV|]. split; [lra|]. split; [|split; [|split; [|exact ED]]].
  - rewrite Hk. apply (laue_angle _ _ _ _ _ _ _ _ third_ok unit_ez). rewrite E0, E1, E2. replace (2 * PI / 3 * (1 / 2)) with (PI / 3) by field. rewrite cos_PI3, sin_PI3. pose proof s3. lra.
  - exists (V3 7 1 (9/4)). split; [now rewrite H8, H9|]. split; [now rewrite call_P1_S0|].
    assert (N : norm (move_at third (1/2) (V3 7 1 (9/4))) < 50).
    { rewrite third_move. unfold rot_at. rewrite rotation_norm by (apply rod_rotation, unit_ez). apply Rsqr_incrst_0; [|apply sqrt_pos|lra]. unfold Rsqr. rewrite norm_sq. vunf. lra. }
    destruct (coord_norm (move_at third (1/2) (V3 7 1 (9/4)))) as (C1 & C2 & C3). apply Hin; lra.
  - cbn [INR third m_angle]. rewrite Rmult_0_r, Rplus_0_l. exact LP.
Qed.
