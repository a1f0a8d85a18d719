(** * Non-vacuity for C101: a sample of two crystals, drawn with 'nano'. *)
From Verif Require Import Vec Spec MMotion MLaue MMesh MScattering MStrain MBeam MPolycrystal SPolycrystal MDetector SDetector.
From Verif Require Import MRender SRender SNano SNano2 SVolume SJoin SNumber PMotion PLaue PMesh PScattering PBeam PPolycrystal PPolycrystal3 PDetector PDetector2 PDetector3 PDetector4 PRender PRender2 PRenderEx PEvents PEnd2 PJoin2 PJoin3 PJoin4 PNano PNanoEx PNano6 PNano7 PVolume.
From Coq Require Import Permutation String.
From Verif Require Import SBeam SPolycrystal SDetector.
Open Scope list_scope. Open Scope R_scope.
Local Notation len := List.length.

(** A detector through the origin, which corner 0 coincides with: discs of radius 0. *)
Lemma tilted_detector : exists d, built d /\ d_c0 d = vzero /\ d_c1 d = V3 12 16 0 /\ d_c2 d = V3 0 0 10 /\ d_pz d = 1 /\ d_sigma d = 1 /\
  d_structure d = true /\ d_polarization d = false /\ d_lorentz d = false.
Proof.
  assert (D1 : norm (vsub (V3 0 0 10) vzero) = 10) by (apply norm_sqrt_eq; vunf; [lra|ring]).
  assert (D2 : norm (vsub (V3 12 16 0) vzero) = 20) by (apply norm_sqrt_eq; vunf; [lra|ring]).
  assert (A : arange_len 10 1 = Ok 10%nat).
  { unfold arange_len. destruct (Req_EM_T 1 0); [lra|]. replace (Rltb 1 0) with false by (symmetry; apply Rltb_false; lra).
    cbn [andb]. f_equal. rewrite (ceil_eq (10 / 1) 10); [reflexivity|]. lra. }
  assert (A' : arange_len 20 1 = Ok 20%nat).
  { unfold arange_len. destruct (Req_EM_T 1 0); [lra|]. replace (Rltb 1 0) with false by (symmetry; apply Rltb_false; lra).
    cbn [andb]. f_equal. rewrite (ceil_eq (20 / 1) 20); [reflexivity|]. lra. }
  assert (M : exists d, make_detector vzero (V3 12 16 0) (V3 0 0 10) None (Some (Single 1)) 1 (1/10) 5 false false true = Ok d /\
    d_c0 d = vzero /\ d_c1 d = V3 12 16 0 /\ d_c2 d = V3 0 0 10 /\ d_pz d = 1 /\ d_sigma d = 1 /\ d_structure d = true /\ d_polarization d = false /\ d_lorentz d = false).
  { unfold make_detector. cbv zeta. rewrite D1, D2. cbn [pixel_sizes bind first_of second_of fst snd]. rewrite A, A'. cbn [bind].
    eexists. split; [reflexivity|]. cbn. repeat split. }
  destruct M as (d & Hd & H). exists d. split; [|exact H]. do 11 eexists. exact Hd.
Qed.
Lemma ex_volume planes me p : build_mesh ex_coord ex_enod = Ok me -> make_polycrystal (ex_xtal planes) me (One mI) (One mzero) [ex_phase] (Some [0]) = Ok p -> pc_volumes p = [2].
Proof.
  intros B M. destruct (build_mesh_inv _ _ _ B) as (ts & ss & ET & ES & Eme). apply make_pc_inv in M as (tets & U & eps & pm & eB & H0 & _ & _ & _ & _ & ->). cbn [pc_volumes].
  rewrite Eme in H0. cbn [me_coord me_enod] in H0. unfold ex_coord, ex_enod in H0. cbn [traverse gather_tet nth_error bind] in H0. apply ok_inj in H0. subst tets. cbn [map]. f_equal.
  unfold tet_volume. cbn [q0 q1 q2 q3]. rewrite det_mT. match goal with |- Rabs ?x / 6 = 2 => replace x with (-12) by (unfold det; vunf; ring) end. rewrite Rabs_left by lra. lra.
Qed.
Lemma some_eq' {A} (a b : A) : Some a = Some b -> a = b.
Proof. congruence. Qed.
Lemma ex_joint_vol planes : exists me p mej pj, build_mesh ex_coord ex_enod = Ok me /\ reachable_pc (ex_xtal planes) p /\ pc_map p = MapTensor [0] /\ pc_phases p = [ex_phase] /\
  pc_U p = [mI] /\ pc_eB p = [mI] /\ pc_mesh_lab p = me /\ me_espherecentroids me = [V3 7 1 (9/4)] /\ pc_volumes p = [2] /\
  build_mesh (ex_coord ++ ex_coord) [(0, 1, 2, 3); (4, 5, 6, 7)]%nat = Ok mej /\ made_pc (ex_xtal planes) pj /\ joined p p pj.
Proof.
  destruct (ex_pc planes) as (me & p & H1 & H2 & H3 & H4 & H5 & H6 & H7 & H8 & H9 & H10).
  assert (H2' : make_polycrystal (ex_xtal planes) me (Stack [mI]) (Stack [mzero]) [ex_phase] (Some [0]) = Ok p).
  { rewrite <- H2. unfold make_polycrystal. destruct (build_mesh_inv _ _ _ H1) as (ts & ss & ET & ES & Eme). rewrite Eme. cbn [me_enod me_coord ex_enod List.length instantiate_mats Nat.eqb repeat]. reflexivity. }
  destruct (pC90_built_together (ex_xtal planes) ex_coord ex_coord ex_enod ex_enod me me [mI] [mI] [mzero] [mzero] [ex_phase] [0] [0] p p eq_refl eq_refl H1 H1 H2' H2') as (mej & pj & B & M & J).
  exists me, p, mej, pj. pose proof (ex_volume planes me p H1 H2). repeat (split; auto).
  apply (mpc_make _ _ _ mej [] mej (Stack ([mI] ++ [mI])) (Stack ([mzero] ++ [mzero])) [ex_phase] (Some ([0] ++ [0])) pj B (Forall_nil _) eq_refl); auto. repeat constructor.
Qed.
(** Every peak of the example has scattering angle 90 degrees. *)
Lemma ex_angle p b pd p' r : reachable_beam big_qhull b -> b_wave_vector b = V3 1 0 0 -> (forall U, In U (pc_U p) -> U = mI) -> (forall B, In B (pc_eB p) -> B = mI) ->
  pc_phases p' = [setup_planes (ex_xtal two_planes) ex_phase (b_wavelength b) 0 1] ->
  diffract false (ex_xtal two_planes) p b ex_motion 0 1 None = (Ok pd, p') -> In r (pd_peaks pd) -> exists t, has pd r "2theta" t /\ - PI < t < PI.
Proof.
  intros Hb Hk HU HB EP D Hr.
  destruct (pC11_bragg _ _ _ _ _ _ _ _ _ _ _ _ _ _ _ _ Hb ex_motion_ok unit_ez D Hr) as (G0 & K & t & HG & _ & Ht & _ & Tr & _ & NG & _).
  exists t. split; [exact Ht|]. pose proof PI_RGT_0. split; [lra|]. destruct (Rle_lt_or_eq_dec t PI ltac:(lra)) as [L|E]; auto. exfalso. subst t.
  destruct (pC10_peak_contents _ _ _ _ _ _ _ _ _ _ _ D Hr) as (e & i & ph & h & sf & t' & G0' & G & c & s & v' & A). decompose [and] A. clear A.
  assert (EG : G0' = G0).
  { match goal with H : has_vec pd r "G0_x" "G0_y" "G0_z" G0' |- _ => revert H end. revert HG. unfold has_vec, has. intros (X1 & X2 & X3) (Y1 & Y2 & Y3). destruct G0, G0'. cbn in *. congruence. }
  subst G0'. match goal with H : scattering_vector p e h G0 |- _ => destruct H as (U & B & EU & EB & ->) end.
  rewrite (HU U) in NG by (eapply nth_error_In; eauto). rewrite (HB B) in NG by (eapply nth_error_In; eauto). rewrite !mv_I in NG.
  match goal with H : nth_error (pc_phases p') i = Some ph |- _ => rewrite EP in H; destruct i as [|[|i]]; try discriminate; apply (f_equal (fun o => match o with Some a => a | None => ph end)) in H; cbn [nth_error] in H; rename H into Hph end.
  match goal with H : plane_of ph h sf |- _ => destruct H as (hkl & j & Eh & Ej & _) end. rewrite <- Hph in Eh. change (Some two_planes = Some hkl) in Eh. apply (f_equal (fun o => match o with Some a => a | None => hkl end)) in Eh. cbv beta iota in Eh. subst hkl.
  assert (N2 : normsq h = 2).
  { apply nth_error_In in Ej. destruct Ej as [<-|[<-|[]]]; vunf; lra. }
  rewrite Hk, sin_PI2 in NG. assert (norm (V3 1 0 0) = 1) as N1 by (apply norm_sqrt_eq; vunf; lra). rewrite N1 in NG.
  pose proof (norm_sq h) as Q. rewrite NG, N2 in Q. lra.
Qed.
Lemma two_crystals : exists e z x p1 p2 p b m lo hi pd1 pd2 pd s1 s2 s d out,
  reachable_pc x p1 /\ reachable_pc x p2 /\ reachable_pc x p /\ joined p1 p2 p /\
  diffract z x p1 b m lo hi None = (Ok pd1, s1) /\ diffract z x p2 b m lo hi None = (Ok pd2, s2) /\ diffract z x p b m lo hi None = (Ok pd, s) /\
  built d /\ 0 < d_pz d /\ d_sigma d <> 0 /\ permutes (re_argsort e) /\ project (re_z e) d pd 1 = Ok out /\
  (forall r, In r (pd_peaks out) -> proper_disc out r) /\ (forall r, In r (pd_peaks out) -> disc_radius d out r <= 2) /\ pd_peaks out <> [] /\
  made_pc x p /\ reachable_beam big_qhull b /\ m = ex_motion /\ rectangular (d_c0 d) (d_c1 d) (d_c2 d) /\ (forall r, In r (pd_peaks out) -> ~ has out r "2theta" PI).
Proof.
  destruct big_beam as (b & Hb & Hk & Hin). destruct (ex_joint_vol two_planes) as (me & p & mej & pj & H1 & H3 & H4 & H5 & H6 & H7 & H8 & H9 & HV & HB & HMd & J). pose proof (made_reachable _ _ HMd) as HR.
  pose proof (ex_outcome two_planes me p b Hk H3 H4 H5 H6 H7 H8) as O.
  destruct (diffract false (ex_xtal two_planes) p b ex_motion 0 1 None) as [r p'] eqn:D. destruct O as (_ & O & Oph).
  destruct O as (pd & ->). { cbn [map two_planes list_sum fold_right]. now rewrite refl_pos, refl_neg. }
  destruct (pC90_joint_table _ _ _ _ _ _ _ _ _ _ _ _ _ H3 H3 J D D) as (pdj & s & part1 & part2 & DJ & _).
  destruct tilted_detector as (d & Bd & C0 & C1 & C2 & Pz & Sg & F1 & F2 & F3).
  set (e := ex_env 0 (fun _ => 1) sort_desc).
  assert (Hfj : fresh pdj) by (apply (pC32_diffract_tables_fresh false (ex_xtal two_planes) pj b ex_motion 0 1 None); now rewrite DJ).
  assert (RC : rectangular (d_c0 d) (d_c1 d) (d_c2 d)) by (rewrite C0, C1, C2; unfold rectangular; vunf; lra).
  destruct (pC32_rows_are_the_visible_ones (re_z e) d pdj 1 Bd RC Hfj) as (out & keep & Ho & EK & VK & _).
  pose proof J as (J1 & J2 & J3 & J4 & (l1 & l2 & J5 & J6 & J7 & J8 & J9) & J10 & J11).
  rewrite H6 in J1. rewrite H7 in J2. rewrite HV in J3. rewrite H8, H9 in J4. rewrite H4 in J5, J6.
  assert (PJ : pc_phases pj = [ex_phase]) by congruence.
  pose proof (ex_after two_planes pj b ex_motion 0 1 PJ) as EA. rewrite DJ in EA. cbn [snd] in EA.
  assert (PS : pc_phases s = [setup_planes (ex_xtal two_planes) ex_phase (b_wavelength b) 0 1]) by (rewrite EA; reflexivity).
  assert (MP : pc_map pj = MapTensor [0; 0]).
  { assert (l1 = [0]) by congruence. assert (l2 = [0]) by congruence. subst. exact J7. }
  assert (PD : forall r, In r (pd_peaks out) -> proper_disc out r).
  { intros r Hr. destruct (out_row _ _ _ _ _ _ Hfj Ho Hr) as (r0 & zd & yd & a & Hir & Hl & Hkk & E & Er & Hc).
    assert (FE : forall sx j, index_of sx column_names = Some j -> (j < 25)%nat -> field out r sx = field pdj r0 sx).
    { intros sx j Hs Hj. unfold field. rewrite Hc, (PPass2.index_of_app _ _ _ _ Hs), (proj1 Hfj), Hs, Er. apply nth_error_app1. lia. }
    destruct (ex_angle pj b pdj s r0 Hb Hk) as (t & Ht & Tr); auto.
    { rewrite J1. intros U [<-|[<-|[]]]; reflexivity. } { rewrite J2. intros U [<-|[<-|[]]]; reflexivity. }
    destruct (pC10_peak_contents _ _ _ _ _ _ _ _ _ _ _ DJ Hir) as (e' & i & ph & h & sf & t' & G0' & G & c & sx & v' & A). decompose [and] A. clear A.
    eapply (pC101_peaks_have_discs _ (re_z e) _ _ _ _ _ _ _ _ _ d 1 out r v' t DJ Bd RC Ho Hr).
    - unfold has. rewrite (FE _ 21%nat) by (reflexivity || lia). assumption.
    - match goal with H : nth_error (pc_volumes pj) e' = Some v' |- _ => rewrite J3 in H; apply nth_error_In in H; destruct H as [<-|[<-|[]]]; lra end.
    - unfold has. rewrite (FE _ 22%nat) by (reflexivity || lia). exact Ht.
    - exact Tr. }
  exists e, false, (ex_xtal two_planes), p, p, pj, b, ex_motion, 0, 1, pd, pd, pdj, p', p', s, d, out.
  do 4 (split; auto). split; [exact D|]. split; [exact D|]. split; [exact DJ|]. split; [exact Bd|]. split; [lra|]. split; [lra|]. split; [apply sort_permutes|]. split; [exact Ho|]. split; [exact PD|].
  assert (N0 : norm (d_c0 d) = 0) by (rewrite C0; apply norm_sqrt_eq; vunf; lra).
  split. { intros r _. unfold disc_radius. rewrite N0. unfold Rdiv. rewrite Rmult_0_l, Rmult_0_r, !Rmult_0_l. lra. }
  (* one peak reaches the detector *)
  assert (A : in_phase pj 0 0) by (unfold in_phase; now rewrite MP).
  assert (B : plane_of (setup_planes (ex_xtal two_planes) ex_phase (b_wavelength b) 0 1) (V3 (-1) 1 0) 1).
  { exists two_planes, 0%nat. repeat split. }
  assert (C : scattering_vector pj 0 (V3 (-1) 1 0) (V3 (-1) 1 0)).
  { exists mI, mI. rewrite J1, J2. repeat split. now rewrite !mv_I. }
  assert (E : motion_rotate ex_motion (P1 (V3 (-1) 1 0)) (S0 0) = Ok (P1 (V3 (-1) 1 0))).
  { rewrite rotate_P1_S0. do 2 f_equal. apply rot_at_0. }
  assert (F : laue_condition (b_wave_vector b) (V3 (-1) 1 0)).
  { unfold laue_condition. rewrite Hk. unfold norm. f_equal. vunf. lra. }
  assert (G : ~ laue_condition (b_wave_vector b) (right_handed_rotation (V3 0 0 1) PI (V3 (-1) 1 0))).
  { unfold laue_condition. rewrite Hk, <- rod_spec by apply unit_ez. unfold rod_matrix, rod_K2, rod_K. rewrite sin_PI, cos_PI.
    unfold norm. intros E1. apply sqrt_inj in E1; [|apply normsq_nonneg|apply normsq_nonneg]. revert E1. vunf. lra. }
  assert (I : nth_error (me_espherecentroids (pc_mesh_lab pj)) 0 = Some (V3 7 1 (9/4))) by (rewrite J4; reflexivity).
  assert (JJ : motion_call ex_motion (P1 (V3 7 1 (9/4))) (S0 0) = Ok (P1 (V3 7 1 (9/4)))).
  { rewrite call_P1_S0. do 2 f_equal. apply move_at_0. }
  assert (K : strictly_inside (b_halfspaces b) (V3 7 1 (9/4))) by (apply Hin; cbn [vx vy vz]; rewrite Rabs_right; lra).
  assert (T0 : 0 <= 0 <= 1) by lra. assert (Ophs : nth_error (pc_phases s) 0 = Some (setup_planes (ex_xtal two_planes) ex_phase (b_wavelength b) 0 1)) by (rewrite PS; reflexivity).
  destruct (pC12_complete _ _ _ _ _ _ _ _ _ _ _ _ _ _ _ _ _ _ _ _ _ _ _ _ HR ex_motion_ok unit_ez DJ A Ophs B C T0 E F G I JJ K) as (row & Hr & Rg & Rp & Rh & Rt).
  assert (V : visible d pdj row).
  { destruct (pC10_peak_contents _ _ _ _ _ _ _ _ _ _ _ DJ Hr) as (e' & i & ph & h & sf & t' & G0' & G' & c & sx & v' & A'). decompose [and] A'. clear A'.
    assert (e' = 0%nat). { apply INR_eq. match goal with H : has pdj row "grain_index" (INR e') |- _ => unfold has in H, Rg; rewrite Rg in H; injection H as H end. auto. } subst e'.
    assert (t' = 0). { match goal with H : has pdj row "diffraction_times" t' |- _ => unfold has in H, Rt; rewrite Rt in H; injection H as H end. auto. } subst t'.
    assert (h = V3 (-1) 1 0). { match goal with H : has_vec pdj row "h" "k" "l" h |- _ => revert H end. revert Rh. unfold has_vec, has. intros (X1 & X2 & X3) (Y1 & Y2 & Y3). destruct h. cbn in *. congruence. } subst h.
    match goal with H : scattering_vector pj 0 _ G0' |- _ => destruct H as (U & B' & EU & EB & ->) end. rewrite J1 in EU. rewrite J2 in EB. cbn in EU, EB.
    assert (U = mI) by congruence. assert (B' = mI) by congruence. subst U B'. rewrite !mv_I in *.
    assert (G' = V3 (-1) 1 0) by (apply okP1_inj; congruence). subst G'.
    assert (c = V3 7 1 (9/4)) by (apply some_eq'; congruence). subst c.
    assert (sx = V3 7 1 (9/4)) by (apply okP1_inj; congruence). subst sx.
    match goal with H : plane_of ph _ sf |- _ => rename H into Hpl end. match goal with H : nth_error (pc_phases s) i = Some ph |- _ => rewrite PS in H; destruct i as [|[|i]]; try discriminate; apply (f_equal (fun o => match o with Some a => a | None => ph end)) in H; cbn [nth_error] in H; rename H into Hph end.
    assert (sf = 1).
    { destruct Hpl as (hkl & j & _ & _ & S). rewrite <- Hph in S. cbn in S. exact S. } subst sf.
    split.
    - exists (V3 7 (28/3) (9/4)). exists (V3 7 1 (9/4)), (vadd (b_wave_vector b) (V3 (-1) 1 0)). split; [assumption|]. split; [assumption|].
      rewrite C0, C1, C2, Hk. unfold hits. split; [unfold plane_normal; vunf; lra|].
      split.
      + exists (9/40), (7/12). split; [lra|]. split; [lra|]. clear; vext; vunf; lra.
      + exists (25/3). split; [lra|]. unfold ray_at. vext; vunf; lra.
    - exists 1. split; [|lra]. exists 1, 1, 1. rewrite F1, F2, F3. cbn [factor]. repeat split; auto. lra. }
  split. { intros E0. apply (proj2 (VK row Hr)) in V. assert (In row (filter keep (pd_peaks pdj))) by (apply filter_In; auto). rewrite <- EK, E0 in H. exact H. }
  split; [exact HMd|]. split; [exact Hb|]. split; [reflexivity|]. split; [exact RC|].
  intros r Hr' HP. destruct (out_field _ _ _ _ _ _ Hfj Ho Hr') as (r0 & Hir & FE).
  destruct (ex_angle pj b pdj s r0 Hb Hk) as (t & Ht & Tr); auto.
  { rewrite J1. intros U [<-|[<-|[]]]; reflexivity. } { rewrite J2. intros U [<-|[<-|[]]]; reflexivity. }
  unfold has in HP, Ht. rewrite (FE _ 22%nat) in HP by (reflexivity || lia). rewrite Ht in HP. assert (t = PI) by (apply PWindow.fin_inj; congruence). lra.
Qed.

Lemma xC101_two_crystals : exists e z x p1 p2 p b m lo hi pd1 pd2 pd s1 s2 s d out,
  reachable_pc x p1 /\ reachable_pc x p2 /\ reachable_pc x p /\ joined p1 p2 p /\
  diffract z x p1 b m lo hi None = (Ok pd1, s1) /\ diffract z x p2 b m lo hi None = (Ok pd2, s2) /\ diffract z x p b m lo hi None = (Ok pd, s) /\
  built d /\ 0 < d_pz d /\ d_sigma d <> 0 /\ permutes (re_argsort e) /\ project (re_z e) d pd 1 = Ok out /\
  (forall r, In r (pd_peaks out) -> proper_disc out r) /\ uniform_discs d out /\ pd_peaks out <> [].
Proof.
  destruct two_crystals as (e & z & x & p1 & p2 & p & b & m & lo & hi & pd1 & pd2 & pd & s1 & s2 & s & d & out & H). decompose [and] H. clear H.
  exists e, z, x, p1, p2, p, b, m, lo, hi, pd1, pd2, pd, s1, s2, s, d, out. repeat (split; [assumption|]). split; [now left|assumption].
Qed.
Lemma xC102_sample : exists e q z x p b axis angle trans origin m lo hi pd p' d out, made_pc x p /\ reachable_beam q b /\
  make_motion axis angle trans origin = Ok m /\ unit axis /\ diffract z x p b m lo hi None = (Ok pd, p') /\
  built d /\ 0 < d_pz d /\ rectangular (d_c0 d) (d_c1 d) (d_c2 d) /\ permutes (re_argsort e) /\ project (re_z e) d pd 1 = Ok out /\
  (forall r, In r (pd_peaks out) -> ~ has out r "2theta" PI) /\ (forall r, In r (pd_peaks out) -> disc_radius d out r <= 2) /\ pd_peaks out <> [].
Proof.
  destruct two_crystals as (e & z & x & p1 & p2 & p & b & m & lo & hi & pd1 & pd2 & pd & s1 & s2 & s & d & out & H). decompose [and] H. clear H.
  subst m. exists e, big_qhull, z, x, p, b. do 4 eexists. exists ex_motion, lo, hi, pd, s, d, out. split; [assumption|]. split; [assumption|].
  split; [exact ex_motion_ok|]. split; [apply unit_ez|]. repeat (split; [assumption|]). assumption.
Qed.
(** A moved mesh: rotated about an axis that is not quite of length one, then translated. *)
Lemma xC102_moved_mesh : exists me m me', build_mesh ex_coord ex_enod = Ok me /\ made_motion m /\ norm (m_axis m) <> 1 /\
  Forall made_op [OUpdate m 1; OTranslate (V3 1 2 3); OUpdate m (1/2)] /\ mesh_run me [OUpdate m 1; OTranslate (V3 1 2 3); OUpdate m (1/2)] = Ok me' /\ me_enod me' <> [].
Proof.
  destruct (ex_joint_vol two_planes) as (me & p & mej & pj & H1 & _). set (a := V3 0 0 (1 + / 10^6)).
  assert (Hn : norm a = 1 + / 10^6) by (apply norm_sqrt_eq; [lra|unfold a; vunf; ring]).
  assert (M : make_motion a 1 vzero vzero = Ok (Motion a 1 vzero vzero)).
  { apply make_motion_ok_iff. split; [pose proof PI2_1; lra|]. split; [|reflexivity]. rewrite Hn. unfold axis_tol. rewrite Rabs_R1, Rabs_right; lra. }
  exists me, (Motion a 1 vzero vzero). eexists. split; [exact H1|]. split; [do 4 eexists; exact M|]. split; [cbn [m_axis]; rewrite Hn; lra|].
  split; [repeat constructor; do 4 eexists; exact M|]. split; [reflexivity|].
  cbn [mesh_update mesh_translate me_enod]. destruct (build_mesh_inv _ _ _ H1) as (ts & ss & _ & _ & ->). cbn [me_enod]. discriminate.
Qed.
