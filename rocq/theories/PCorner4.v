(** * C105: building the relisted detectors, and a worked case. *)
From Verif Require Import Vec Spec MMotion MLaue MMesh MScattering MStrain MBeam SBeam MPolycrystal SPolycrystal MDetector MClip MRender SRender SDetector.
From Verif Require Import PMotion PLaue PMesh PBeam PStrain PPolycrystal PPolycrystal2 PPolycrystal3 PDetector PDetector2 PRender PRender2 PEvents PEnd PEnd2 PJoin PJoin2 PFrame PFrame2 PFrame3 PFrame4 PRenderEx.
From Verif Require Import PCorner PCorner2 SCorner SBeam SPolycrystal SDetector.
Open Scope list_scope. Open Scope R_scope.

Lemma sizes_swap a b np ps : pixel_sizes b a (option_map swap np) (option_map swap ps) =
  match pixel_sizes a b np ps with Ok (x, y) => Ok (y, x) | Err e => Err e end.
Proof.
  destruct np as [[n|n m]|], ps as [[p|p q]|]; cbn [option_map swap pixel_sizes first_of second_of]; try reflexivity.
  - destruct (Z.eqb n 0 || Z.eqb n 0)%bool; reflexivity.
  - rewrite orb_comm. destruct (Z.eqb n 0 || Z.eqb m 0)%bool; reflexivity.
Qed.
Lemma arange_err x p e : arange_len x p = Err e -> e = RuntimeError.
Proof. unfold arange_len. destruct (Req_EM_T p 0); [congruence|]. destruct (_ && _)%bool; congruence. Qed.

(** C105. Building with corners 1 and 2 exchanged, and the two pixel counts or sizes exchanged, succeeds exactly when the other
    listing does (same exception otherwise), and gives the transposed detector. *)
Lemma pC105_built_transposed : forall c0 c1 c2 np ps sg th mr ul up us,
  (forall e, make_detector c0 c2 c1 (option_map swap np) (option_map swap ps) sg th mr ul up us = Err e <-> make_detector c0 c1 c2 np ps sg th mr ul up us = Err e) /\
  (forall d, make_detector c0 c1 c2 np ps sg th mr ul up us = Ok d -> c1 <> c0 -> c2 <> c0 ->
     exists d2, make_detector c0 c2 c1 (option_map swap np) (option_map swap ps) sg th mr ul up us = Ok d2 /\ transposed d d2).
Proof.
  intros c0 c1 c2 np ps sg th mr ul up us.
  assert (M : match make_detector c0 c1 c2 np ps sg th mr ul up us, make_detector c0 c2 c1 (option_map swap np) (option_map swap ps) sg th mr ul up us with
    | Ok d, Ok d2 => d_pz d2 = d_py d /\ d_py d2 = d_pz d | Err e, Err e2 => e = e2 | _, _ => False end).
  { unfold make_detector. cbv zeta. rewrite (sizes_swap (norm (vsub c2 c0)) (norm (vsub c1 c0))).
    destruct (pixel_sizes (norm (vsub c2 c0)) (norm (vsub c1 c0)) np ps) as [[pz py]|e]; cbn [bind fst snd]; auto.
    destruct (arange_len (norm (vsub c2 c0)) pz) as [nz|e1] eqn:A1; destruct (arange_len (norm (vsub c1 c0)) py) as [ny|e2] eqn:A2; cbn [bind];
      try (apply arange_err in A1); try (apply arange_err in A2); try congruence.
    destruct (mr <? 0)%Z; [reflexivity|]. cbn. auto. }
  split.
  - intros e. destruct (make_detector c0 c1 c2 np ps sg th mr ul up us), (make_detector c0 c2 c1 _ _ sg th mr ul up us); try contradiction; [split; discriminate|]. subst. tauto.
  - intros d E N1 N2. rewrite E in M. destruct (make_detector c0 c2 c1 (option_map swap np) (option_map swap ps) sg th mr ul up us) as [d2|] eqn:E2; [|contradiction]. exists d2. split; [reflexivity|].
    assert (B : built d) by (do 11 eexists; exact E). assert (B2 : built d2) by (do 11 eexists; exact E2).
    apply make_detector_inv in E as (F0 & F1 & F2 & _ & _ & _ & _ & _ & _ & _ & _ & S1 & S2 & S3 & S4 & S5 & S6). apply make_detector_inv in E2 as (G0 & G1 & G2 & _ & _ & _ & _ & _ & _ & _ & _ & S1' & S2' & S3' & S4' & S5' & S6').
    unfold transposed, same_settings. rewrite F0, F1, F2. repeat match goal with |- _ /\ _ => split end; try assumption; try congruence; tauto.
Qed.
(** C105. Building with the corners listed from corner 2 gives, for a rectangle, the turned over detector. *)
Lemma pC105_built_turned : forall c0 c1 c2 np ps sg th mr ul up us,
  (forall e, make_detector c2 (vadd c2 (vsub c1 c0)) c0 np ps sg th mr ul up us = Err e <-> make_detector c0 c1 c2 np ps sg th mr ul up us = Err e) /\
  (forall d, make_detector c0 c1 c2 np ps sg th mr ul up us = Ok d -> rectangular c0 c1 c2 -> c1 <> c0 -> c2 <> c0 ->
     exists d2, make_detector c2 (vadd c2 (vsub c1 c0)) c0 np ps sg th mr ul up us = Ok d2 /\ turned_over d d2).
Proof.
  intros c0 c1 c2 np ps sg th mr ul up us.
  assert (L1 : norm (vsub c0 c2) = norm (vsub c2 c0)) by (unfold norm; f_equal; vdes; vunf; ring).
  assert (L2 : vsub (vadd c2 (vsub c1 c0)) c2 = vsub c1 c0) by (vdes; vext; vunf; ring).
  assert (M : match make_detector c0 c1 c2 np ps sg th mr ul up us, make_detector c2 (vadd c2 (vsub c1 c0)) c0 np ps sg th mr ul up us with
    | Ok d, Ok d2 => d_pz d2 = d_pz d /\ d_py d2 = d_py d | Err e, Err e2 => e = e2 | _, _ => False end).
  { unfold make_detector. cbv zeta. rewrite L1, L2.
    destruct (pixel_sizes (norm (vsub c2 c0)) (norm (vsub c1 c0)) np ps) as [[pz py]|e]; cbn [bind fst snd]; auto.
    destruct (arange_len (norm (vsub c2 c0)) pz) as [nz|e1]; cbn [bind]; auto. destruct (arange_len (norm (vsub c1 c0)) py) as [ny|e2]; cbn [bind]; auto.
    destruct (mr <? 0)%Z; [reflexivity|]. cbn. auto. }
  split.
  - intros e. destruct (make_detector c0 c1 c2 np ps sg th mr ul up us), (make_detector c2 (vadd c2 (vsub c1 c0)) c0 np ps sg th mr ul up us); try contradiction; [split; discriminate|]. subst. tauto.
  - intros d E HR N1 N2. rewrite E in M. destruct (make_detector c2 (vadd c2 (vsub c1 c0)) c0 np ps sg th mr ul up us) as [d2|] eqn:E2; [|contradiction]. exists d2. split; [reflexivity|].
    assert (B : built d) by (do 11 eexists; exact E). assert (B2 : built d2) by (do 11 eexists; exact E2).
    apply make_detector_inv in E as (F0 & F1 & F2 & _ & _ & _ & _ & _ & _ & _ & _ & S1 & S2 & S3 & S4 & S5 & S6). apply make_detector_inv in E2 as (G0 & G1 & G2 & _ & _ & _ & _ & _ & _ & _ & _ & S1' & S2' & S3' & S4' & S5' & S6').
    unfold turned_over, same_settings, fourth_corner. rewrite F0, F1, F2. repeat match goal with |- _ /\ _ => split end; try assumption; try congruence; tauto.
Qed.
Lemma side_sizes : exists d, built d /\ d_c0 d = V3 0 10 0 /\ d_c1 d = V3 10 10 0 /\ d_c2 d = V3 0 10 10 /\
  d_structure d = true /\ d_polarization d = false /\ d_lorentz d = false /\ d_zmax d = 10 /\ d_pz d = 1.
Proof.
  assert (D1 : norm (vsub (V3 0 10 10) (V3 0 10 0)) = 10) by (apply norm_sqrt_eq; vunf; [lra|ring]).
  assert (D2 : norm (vsub (V3 10 10 0) (V3 0 10 0)) = 10) by (apply norm_sqrt_eq; vunf; [lra|ring]).
  assert (A : arange_len 10 1 = Ok 10%nat).
  { unfold arange_len. destruct (Req_EM_T 1 0); [lra|]. replace (Rltb 1 0) with false by (symmetry; apply Rltb_false; lra).
    cbn [andb]. f_equal. rewrite (ceil_eq (10 / 1) 10); [reflexivity|]. lra. }
  assert (M : exists d, make_detector (V3 0 10 0) (V3 10 10 0) (V3 0 10 10) None (Some (Single 1)) 1 (1/10) 5 false false true = Ok d /\
    d_c0 d = V3 0 10 0 /\ d_c1 d = V3 10 10 0 /\ d_c2 d = V3 0 10 10 /\ d_structure d = true /\ d_polarization d = false /\ d_lorentz d = false /\ d_zmax d = 10 /\ d_pz d = 1).
  { unfold make_detector. cbv zeta. rewrite D1, D2. cbn [pixel_sizes bind first_of second_of fst snd]. rewrite A. cbn [bind].
    eexists. split; [reflexivity|]. cbn. repeat split. }
  destruct M as (d & Hd & H). exists d. split; [|exact H]. do 11 eexists. exact Hd.
Qed.
(** One reflection recorded by a 10 x 10 pixel detector and by its two relistings. *)
Lemma xC105_relisted : exists z x p b m lo hi pd e d dt dv out H im imt imv ot ov,
  transposed d dt /\ turned_over d dv /\ d_zmax d = IZR H * d_pz d /\ Z.even H = true /\ reachable_pc x p /\
  fst (diffract z x p b m lo hi None) = Ok pd /\ pd_peaks out <> [] /\ render e d pd 1 "micro" None 1 = Ok (im, out) /\
  render e dt pd 1 "micro" None 1 = Ok (imt, ot) /\ render e dv pd 1 "micro" None 1 = Ok (imv, ov).
Proof.
  destruct big_beam as (b & Hb & Hk & Hin). destruct (ex_pc two_planes) as (me & p & H1 & H2 & H3 & H4 & H5 & H6 & H7 & H8 & H9 & H10).
  pose proof (ex_outcome two_planes me p b Hk H3 H4 H5 H6 H7 H8) as O.
  destruct (diffract false (ex_xtal two_planes) p b ex_motion 0 1 None) as [rr p'] eqn:D. destruct O as (_ & O & Oph).
  destruct O as (pd & ->). { cbn [map two_planes list_sum fold_right]. now rewrite refl_pos, refl_neg. }
  assert (A : in_phase p 0 0) by (unfold in_phase; now rewrite H4).
  assert (B : plane_of (setup_planes (ex_xtal two_planes) ex_phase (b_wavelength b) 0 1) (V3 (-1) 1 0) 1).
  { exists two_planes, 0%nat. repeat split. }
  assert (C : scattering_vector p 0 (V3 (-1) 1 0) (V3 (-1) 1 0)).
  { exists mI, mI. rewrite H6, H7. repeat split. now rewrite !mv_I. }
  assert (E : motion_rotate ex_motion (P1 (V3 (-1) 1 0)) (S0 0) = Ok (P1 (V3 (-1) 1 0))).
  { rewrite rotate_P1_S0. do 2 f_equal. apply rot_at_0. }
  assert (F : laue_condition (b_wave_vector b) (V3 (-1) 1 0)).
  { unfold laue_condition. rewrite Hk. unfold norm. f_equal. vunf. lra. }
  assert (G : ~ laue_condition (b_wave_vector b) (right_handed_rotation (V3 0 0 1) PI (V3 (-1) 1 0))).
  { unfold laue_condition. rewrite Hk, <- rod_spec by apply unit_ez. unfold rod_matrix, rod_K2, rod_K. rewrite sin_PI, cos_PI.
    unfold norm. intros E1. apply sqrt_inj in E1; [|apply normsq_nonneg|apply normsq_nonneg]. revert E1. vunf. lra. }
  assert (I : nth_error (me_espherecentroids (pc_mesh_lab p)) 0 = Some (V3 7 1 (9/4))) by (rewrite H8, H9; reflexivity).
  assert (J : motion_call ex_motion (P1 (V3 7 1 (9/4))) (S0 0) = Ok (P1 (V3 7 1 (9/4)))).
  { rewrite call_P1_S0. do 2 f_equal. apply move_at_0. }
  assert (K : strictly_inside (b_halfspaces b) (V3 7 1 (9/4))) by (apply Hin; cbn [vx vy vz]; rewrite Rabs_right; lra).
  assert (T0 : 0 <= 0 <= 1) by lra.
  destruct (pC12_complete _ _ _ _ _ _ _ _ _ _ _ _ _ _ _ _ _ _ _ _ _ _ _ _ H3 ex_motion_ok unit_ez D A Oph B C T0 E F G I J K) as (row & Hr & R1 & R2 & R3 & R4).
  destruct (pC10_peak_contents _ _ _ _ _ _ _ _ _ _ _ D Hr) as (e & i & ph & h & sf & t & G0 & GG & c & s & vol & Q1 & Q2 & Q3 & Q4 & Q5 & Q6 & Q7 & Q8 & Q9 & Q10 & Q11 & Q12 & Q13 & Q14 & Q15 & Q16 & Q17 & Q18 & _).
  unfold has in R1, R4, Q10, Q14. assert (t = 0) by congruence. subst t.
  assert (INR e = INR 0) as Ee by congruence. apply INR_eq in Ee. subst e.
  assert (h = V3 (-1) 1 0).
  { destruct R3 as (X1 & X2 & X3), Q12 as (Y1 & Y2 & Y3). unfold has in *. apply vec_ext; congruence. } subst h.
  assert (G0 = V3 (-1) 1 0). { destruct Q4 as (U & BB & U1 & U2 & ->). rewrite H6 in U1. rewrite H7 in U2. cbn in U1, U2. assert (U = mI) by congruence. assert (BB = mI) by congruence. subst. now rewrite !mv_I. } subst G0.
  assert (GG = V3 (-1) 1 0) by (rewrite E in Q6; congruence). subst GG.
  assert (c = V3 7 1 (9/4)) by (rewrite I in Q7; congruence). subst c.
  assert (s = V3 7 1 (9/4)) by (rewrite J in Q8; congruence). subst s.
  assert (KK : vadd (b_wave_vector b) (V3 (-1) 1 0) = V3 0 1 0) by (rewrite Hk; vext; vunf; ring). rewrite KK in Q17.
  assert (SF : 0 < sf).
  { destruct Q3 as (hkl & j & _ & _ & S). destruct (ph_sf ph) as [l|]; [destruct S as (? & ? & ?)|]; lra. }
  destruct side_sizes as (d & Bd & C0 & C1 & C2 & F1 & F2 & F3 & Z1 & Z2).
  assert (Hrect : rectangular (d_c0 d) (d_c1 d) (d_c2 d)) by (unfold rectangular; rewrite C0, C1, C2; vunf; ring).
  assert (PN : forall a bq cq, dot (V3 a bq cq) (plane_normal (d_c0 d) (d_c1 d) (d_c2 d)) = 100 * bq) by (intros; rewrite C0, C1, C2; unfold plane_normal; vunf; ring).
  assert (HIT : forall y1 y2 y3, 0 <= y1 <= 10 -> y2 <= 10 -> 0 <= y3 <= 10 -> hits (d_c0 d) (d_c1 d) (d_c2 d) (V3 y1 y2 y3) (V3 0 1 0) (V3 y1 10 y3)).
  { intros y1 y2 y3 Y1 Y2 Y3. split; [rewrite PN; lra|]. split.
    - exists (y3 / 10), (y1 / 10). split; [lra|]. split; [lra|]. rewrite C0, C1, C2. vext; vunf; field.
    - exists (10 - y2). split; [lra|]. unfold ray_at. vext; vunf; ring. }
  assert (Hf : fresh pd) by (apply (pC32_diffract_tables_fresh false (ex_xtal two_planes) p b ex_motion 0 1 None); now rewrite D).
  destruct (pC32_rows_are_the_visible_ones false d pd 1%Z Bd Hrect Hf) as (out & keep & HP & HM & HKeep & L30).
  assert (KR : keep row = true).
  { apply HKeep; [exact Hr|]. split.
    - exists (V3 7 10 (9/4)), (V3 7 1 (9/4)), (V3 0 1 0). split; [exact Q17|]. split; [exact Q18|]. apply HIT; lra.
    - exists (sf * 1 * 1). split; [|lra]. exists sf, 1, 1. unfold factor. rewrite F1, F2, F3. auto. }
  assert (Hin' : In row (map (firstn 25) (pd_peaks out))) by (rewrite HM; now apply filter_In).
  apply in_map_iff in Hin' as (r & Hr25 & Hrin).
  assert (CO : pd_columns out = column_names ++ new_columns) by (apply project_inv in HP as (_ & CC & _); rewrite CC, (proj1 Hf); reflexivity).
  assert (N1 : d_c1 d <> d_c0 d) by (rewrite C0, C1; intros E0; apply (f_equal vx) in E0; cbn in E0; lra).
  assert (N2 : d_c2 d <> d_c0 d) by (rewrite C0, C2; intros E0; apply (f_equal vz) in E0; cbn in E0; lra).
  pose proof Bd as (c0 & c1 & c2 & np & ps & sg & th & mr & ul & up & us & HB). pose proof HB as HB'. apply make_detector_inv in HB' as (X0 & X1 & X2 & _).
  destruct (proj2 (pC105_built_transposed c0 c1 c2 np ps sg th mr ul up us) d HB) as (dt & _ & T1); [congruence|congruence|].
  destruct (proj2 (pC105_built_turned c0 c1 c2 np ps sg th mr ul up us) d HB) as (dv & _ & T2); [congruence|congruence|congruence|].
  destruct (pC39_micro_never_fails (ex_env 1 (fun x => x) (fun l => seq 0 (List.length l))) d pd 1 None 1 Hf) as (im & out' & R0).
  destruct (pC39_micro_never_fails (ex_env 1 (fun x => x) (fun l => seq 0 (List.length l))) dt pd 1 None 1 Hf) as (imt & ot & RT).
  destruct (pC39_micro_never_fails (ex_env 1 (fun x => x) (fun l => seq 0 (List.length l))) dv pd 1 None 1 Hf) as (imv & ov & RV).
  assert (EO : out' = out). { pose proof (proj1 (micro_inv _ _ _ _ _ _ _ _ R0)) as O1. cbn [re_z ex_env] in O1. change (nframes 1) with 1%Z in O1. congruence. } subst out'.
  exists false, (ex_xtal two_planes), p, b, ex_motion, 0, 1, pd, (ex_env 1 (fun x => x) (fun l => seq 0 (List.length l))), d, dt, dv, out, 10%Z, im, imt, imv, ot, ov.
  split; [exact T1|]. split; [exact T2|]. split; [rewrite Z1, Z2; lra|]. split; [reflexivity|]. split; [exact H3|]. split; [now rewrite D|].
  split; [intros E0; rewrite E0 in Hrin; exact Hrin|]. auto.
Qed.
