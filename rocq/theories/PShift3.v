(** * Displacing the sample (C104): an example. *)
From Verif Require Import Vec Spec MMotion MLaue MMesh MScattering MStrain MBeam SBeam MPolycrystal SPolycrystal MDetector MClip MRender SRender SFrame SAperture.
From Verif Require Import PMotion PLaue PMesh PBeam PStrain PPolycrystal PPolycrystal2 PPolycrystal3 PDetector PDetector2 PEvents PEnd PEnd2 PJoin PJoin2 PFrame PFrame2 PFrame3 PFrame4 PAperture PPass2 PShift PShift2.
From Verif Require Import SShift SDetector.
Open Scope list_scope. Open Scope R_scope.
Local Notation len := List.length.

Lemma xC104_displaced : exists z z' x v p p2 b m m2 w lo hi pd pd2 d frames out out2 r t k src q sz sy,
  reachable_pc x p /\ v <> vzero /\ m_trans m2 <> m_trans m /\ m_origin m2 <> m_origin m /\
  moved_sample mI v p p2 /\ same_xrays b b /\ same_turning m m2 /\ displacement m m2 v w /\
  fst (diffract z x p b m lo hi None) = Ok pd /\ fst (diffract z x p2 b m2 lo hi None) = Ok pd2 /\
  built d /\ rectangular (d_c0 d) (d_c1 d) (d_c2 d) /\ project z' d pd frames = Ok out /\ project z' d pd2 frames = Ok out2 /\
  In r (pd_peaks out) /\ has out r "diffraction_times" t /\ has_vec out r "K_out_x" "K_out_y" "K_out_z" k /\ source_of out r src /\
  strictly_inside (b_halfspaces b) (vadd src (w t)) /\ hits (d_c0 d) (d_c1 d) (d_c2 d) (vadd src (w t)) k q /\
  seen_as d k (w t) sz sy /\ sz <> 0 /\ sy <> 0.
Proof.
  destruct big_beam as (b & Hb & Hk & Hin). destruct (ex_pc two_planes) as (me & p & H1 & H2 & H3 & H4 & H5 & H6 & H7 & H8 & H9 & H10).
  pose proof (ex_outcome two_planes me p b Hk H3 H4 H5 H6 H7 H8) as O.
  destruct (diffract false (ex_xtal two_planes) p b ex_motion 0 1 None) as [rr p'] eqn:D. destruct O as (_ & O & Oph).
  destruct O as (pd & ->). { cbn [map two_planes list_sum fold_right]. now rewrite refl_pos, refl_neg. }
  assert (A : in_phase p 0 0) by (unfold in_phase; now rewrite H4).
  assert (B : plane_of (setup_planes (ex_xtal two_planes) ex_phase (b_wavelength b) 0 1) (V3 (-1) 1 0) 1).
  { exists two_planes, 0%nat. repeat split. }
  assert (C : scattering_vector p 0 (V3 (-1) 1 0) (V3 (-1) 1 0)).
  { exists mI, mI. rewrite H6, H7. repeat split. now rewrite !mv_I. }
  assert (E : motion_rotate ex_motion (P1 (V3 (-1) 1 0)) (S0 0) = Ok (P1 (V3 (-1) 1 0))).
  { rewrite rotate_P1_S0. do 2 f_equal. apply rot_at_0. }
  assert (F : laue_condition (b_wave_vector b) (V3 (-1) 1 0)).
  { unfold laue_condition. rewrite Hk. unfold norm. f_equal. vunf. lra. }
  assert (G : ~ laue_condition (b_wave_vector b) (right_handed_rotation (V3 0 0 1) PI (V3 (-1) 1 0))).
  { unfold laue_condition. rewrite Hk, <- rod_spec by apply unit_ez. unfold rod_matrix, rod_K2, rod_K. rewrite sin_PI, cos_PI.
    unfold norm. intros E1. apply sqrt_inj in E1; [|apply normsq_nonneg|apply normsq_nonneg]. revert E1. vunf. lra. }
  assert (I : nth_error (me_espherecentroids (pc_mesh_lab p)) 0 = Some (V3 7 1 (9/4))) by (rewrite H8, H9; reflexivity).
  assert (J : motion_call ex_motion (P1 (V3 7 1 (9/4))) (S0 0) = Ok (P1 (V3 7 1 (9/4)))).
  { rewrite call_P1_S0. do 2 f_equal. apply move_at_0. }
  assert (K : strictly_inside (b_halfspaces b) (V3 7 1 (9/4))) by (apply Hin; cbn [vx vy vz]; rewrite Rabs_right; lra).
  assert (T0 : 0 <= 0 <= 1) by lra.
  destruct (pC12_complete _ _ _ _ _ _ _ _ _ _ _ _ _ _ _ _ _ _ _ _ _ _ _ _ H3 ex_motion_ok unit_ez D A Oph B C T0 E F G I J K) as (row & Hr & R1 & R2 & R3 & R4).
  destruct (pC10_peak_contents _ _ _ _ _ _ _ _ _ _ _ D Hr) as (e & i & ph & h & sf & t & G0 & GG & c & s & vol & Q1 & Q2 & Q3 & Q4 & Q5 & Q6 & Q7 & Q8 & Q9 & Q10 & Q11 & Q12 & Q13 & Q14 & Q15 & Q16 & Q17 & Q18 & _).
  unfold has in R1, R4, Q10, Q14. assert (t = 0) by congruence. subst t.
  assert (INR e = INR 0) as Ee by congruence. apply INR_eq in Ee. subst e.
  assert (h = V3 (-1) 1 0).
  { destruct R3 as (X1 & X2 & X3), Q12 as (Y1 & Y2 & Y3). unfold has in *. apply vec_ext; congruence. } subst h.
  assert (G0 = V3 (-1) 1 0). { destruct Q4 as (U & BB & U1 & U2 & ->). rewrite H6 in U1. rewrite H7 in U2. cbn in U1, U2. assert (U = mI) by congruence. assert (BB = mI) by congruence. subst. now rewrite !mv_I. } subst G0.
  assert (GG = V3 (-1) 1 0) by (rewrite E in Q6; congruence). subst GG.
  assert (c = V3 7 1 (9/4)) by (rewrite I in Q7; congruence). subst c.
  assert (s = V3 7 1 (9/4)) by (rewrite J in Q8; congruence). subst s.
  assert (KK : vadd (b_wave_vector b) (V3 (-1) 1 0) = V3 0 1 0) by (rewrite Hk; vext; vunf; ring). rewrite KK in Q17.
  assert (SF : 0 < sf).
  { destruct Q3 as (hkl & j & _ & _ & S). destruct (ph_sf ph) as [l|]; [destruct S as (? & ? & ?)|]; lra. }
  destruct side_detector as (d & Bd & C0 & C1 & C2 & F1 & F2 & F3).
  assert (Hrect : rectangular (d_c0 d) (d_c1 d) (d_c2 d)) by (unfold rectangular; rewrite C0, C1, C2; vunf; ring).
  assert (PN : forall a bq cq, dot (V3 a bq cq) (plane_normal (d_c0 d) (d_c1 d) (d_c2 d)) = 100 * bq) by (intros; rewrite C0, C1, C2; unfold plane_normal; vunf; ring).
  assert (HIT : forall y1 y2 y3, 0 <= y1 <= 10 -> y2 <= 10 -> 0 <= y3 <= 10 -> hits (d_c0 d) (d_c1 d) (d_c2 d) (V3 y1 y2 y3) (V3 0 1 0) (V3 y1 10 y3)).
  { intros y1 y2 y3 Y1 Y2 Y3. split; [rewrite PN; lra|]. split.
    - exists (y3 / 10), (y1 / 10). split; [lra|]. split; [lra|]. rewrite C0, C1, C2. vext; vunf; field.
    - exists (10 - y2). split; [lra|]. unfold ray_at. vext; vunf; ring. }
  assert (Hf : fresh pd) by (apply (pC32_diffract_tables_fresh false (ex_xtal two_planes) p b ex_motion 0 1 None); now rewrite D).
  destruct (pC32_rows_are_the_visible_ones false d pd 1%Z Bd Hrect Hf) as (out & keep & HP & HM & HKeep & L30).
  assert (KR : keep row = true).
  { apply HKeep; [exact Hr|]. split.
    - exists (V3 7 10 (9/4)), (V3 7 1 (9/4)), (V3 0 1 0). split; [exact Q17|]. split; [exact Q18|]. apply HIT; lra.
    - exists (sf * 1 * 1). split; [|lra]. exists sf, 1, 1. unfold factor. rewrite F1, F2, F3. auto. }
  assert (Hin' : In row (map (firstn 25) (pd_peaks out))) by (rewrite HM; now apply filter_In).
  apply in_map_iff in Hin' as (r & Hr25 & Hrin).
  assert (CO : pd_columns out = column_names ++ new_columns) by (apply project_inv in HP as (_ & CC & _); rewrite CC, (proj1 Hf); reflexivity).
  assert (FF : forall c j, index_of c column_names = Some j -> (j < 25)%nat -> field out r c = field pd row c).
  { intros c j Hj Lj. unfold field. rewrite CO, (proj1 Hf), (index_of_app _ _ _ _ Hj), Hj, <- Hr25.
    rewrite <- (firstn_skipn 25 r) at 1. rewrite Forall_forall in L30. specialize (L30 r Hrin).
    now rewrite nth_error_app1 by (rewrite firstn_length; lia). }
  set (v := V3 (1/2) 1 (1/4)). set (m2 := Motion (V3 0 0 1) 1 (V3 0 0 2) (V3 1 0 0)).
  assert (ST : same_turning ex_motion m2) by (split; reflexivity).
  destruct (pC104_built v (ex_xtal two_planes) ex_coord ex_enod me (One mI) (One mzero) [ex_phase] (Some [0]) p ltac:(discriminate) H1 H2) as (me2 & p2 & _ & _ & P2).
  assert (XX : same_xrays b b) by (repeat split).
  pose proof (pC104_displacement ex_motion m2 v ST) as DI. match type of DI with displacement _ _ _ ?f => set (w := f) in * end.
  assert (W0 : w 0 = v) by (unfold w; rewrite rot_at_0; unfold v, m2, ex_motion; cbn [m_origin m_trans]; vext; vunf; ring).
  destruct (pC104_same_failures false (ex_xtal two_planes) v p p2 b b ex_motion m2 0 1 P2 XX ST) as (NF & _). cbv zeta in NF.
  destruct (fst (diffract false (ex_xtal two_planes) p2 b m2 0 1 None)) as [pd2|e'] eqn:D2; [|exfalso; assert (NF' := proj1 (NF e') eq_refl); rewrite D in NF'; discriminate].
  destruct (pC32_never_fails false d pd2 1%Z) as (out2 & HP2); [eapply pC32_diffract_tables_fresh; exact D2|].
  exists false, false, (ex_xtal two_planes), v, p, p2, b, ex_motion, m2, w, 0, 1, pd, pd2, d, 1%Z, out, out2, r, 0, (V3 0 1 0), (V3 7 1 (9/4)), (V3 (15/2) 10 (5/2)), (1/4), (1/2).
  assert (W1 : vadd (V3 7 1 (9/4)) (w 0) = V3 (15/2) 2 (5/2)) by (rewrite W0; unfold v; vext; vunf; lra).
  split; [exact H3|]. split; [intros N; apply (f_equal vx) in N; cbn in N; lra|].
  split; [intros N; apply (f_equal vz) in N; cbn in N; lra|]. split; [intros N; apply (f_equal vx) in N; cbn in N; lra|].
  split; [exact P2|]. split; [exact XX|]. split; [exact ST|]. split; [exact DI|]. split; [now rewrite D|]. split; [exact D2|].
  split; [exact Bd|]. split; [exact Hrect|]. split; [exact HP|]. split; [exact HP2|]. split; [exact Hrin|].
  split; [unfold has; rewrite (FF _ 6%nat) by (reflexivity || lia); exact R4|].
  split; [destruct Q17 as (X1 & X2 & X3); unfold has_vec, has; rewrite (FF _ 13%nat), (FF _ 14%nat), (FF _ 15%nat) by (reflexivity || lia); auto|].
  split; [destruct Q18 as (X1 & X2 & X3); unfold source_of, has_vec, has; rewrite (FF _ 16%nat), (FF _ 17%nat), (FF _ 18%nat) by (reflexivity || lia); auto|].
  split; [rewrite W1; apply Hin; cbn [vx vy vz]; rewrite Rabs_right; lra|]. split; [rewrite W1; apply HIT; lra|].
  split; [|split; lra].
  assert (L2 : dist (d_c2 d) (d_c0 d) = 10) by (rewrite C0, C2; apply norm_sqrt_eq; vunf; [lra|ring]).
  assert (L1 : dist (d_c1 d) (d_c0 d) = 10) by (rewrite C0, C1; apply norm_sqrt_eq; vunf; [lra|ring]).
  exists (-1). rewrite W0. unfold edge_dir. rewrite L1, L2, C0, C1, C2. unfold v. vext; vunf; field.
Qed.
