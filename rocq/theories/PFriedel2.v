(** * Friedel pairs: a concrete pair of scans (C99). *)
From Verif Require Import Vec Spec MMotion MLaue MMesh MScattering MStrain MBeam SBeam MPolycrystal SPolycrystal SEvents SFriedel.
From Verif Require Import PMotion PLaue PMesh PBeam PStrain PPolycrystal PPolycrystal2 PPolycrystal3 PEvents PScan PFriedel.
From Verif Require Import SPolycrystal.
Open Scope list_scope. Open Scope R_scope.

Definition pair_planes : list vec := [V3 (-1) 1 0; V3 (-1) 0 1; V3 1 (-1) 0; V3 1 0 (-1)].
Lemma pair_event p b m V j h : b_wave_vector b = V3 1 0 0 -> pc_map p = MapTensor [0] -> pc_phases p = [ex_phase] -> pc_U p = [V] -> pc_eB p = [mI] ->
  nth_error pair_planes j = Some h -> laue_condition (V3 1 0 0) (mv V h) -> ~ laue_condition (V3 1 0 0) (right_handed_rotation (V3 0 0 1) PI (mv V h)) ->
  diffracts_at (snd (diffract false (ex_xtal pair_planes) p b m 0 1 None)) b (V3 0 0 1) m 0 j 0 (mv V h).
Proof.
  intros Hk H4 H5 H6 H7 Hj HL HN. rewrite (ex_after pair_planes p b m 0 1 H5). exists O. eexists. exists h, (mv V h).
  split; [unfold in_phase; cbn [pc_map]; now rewrite H4|]. split; [reflexivity|]. split; [exists pair_planes; split; [reflexivity|]; split; [exact Hj|exact I]|].
  split; [exists V, mI; cbn [pc_U pc_eB]; rewrite H6, H7, mv_I; auto|]. split; [lra|]. rewrite rotate_P1_S0, rot_at_0, Hk. auto.
Qed.
Lemma laue_x x y z : laue_condition (V3 1 0 0) (V3 x y z) <-> 2 * x + (x * x + y * y + z * z) = 0.
Proof.
  unfold laue_condition. assert (E : norm (V3 1 0 0) = 1) by (apply norm_unit; vunf; ring). rewrite E, norm_unit. vunf. split; intros; lra.
Qed.
(** A two-plane sample turned by two quarter turns: both tables hold peaks, and the second one has all four opposite planes. *)
Lemma xC99_pair : exists q b a w T o m moves x p d p1 d2 p2 r r2, reachable_beam q b /\ reachable_pc x p /\ xtal_ok x /\
  make_motion a w T o = Ok m /\ unit a /\ dot a (b_wave_vector b) = 0 /\ half_turn_about a moves /\ (2 <= List.length moves)%nat /\
  diffract false x p b m 0 1 None = (Ok d, p1) /\ diffract false x (transforms moves p) b m 0 1 None = (Ok d2, p2) /\
  In r (pd_peaks d) /\ In r2 (pd_peaks d2) /\ friedel_mate a d d2 r r2 /\ dot a (V3 0 0 1) = 1 /\
  has_vec d r "K_out_x" "K_out_y" "K_out_z" (V3 0 0 1) /\ has_vec d2 r2 "K_out_x" "K_out_y" "K_out_z" (V3 0 0 (-1)).
Proof.
  destruct big_beam as (b & Hb & Hk & Hin). set (pl := pair_planes).
  destruct (ex_pc pl) as (me & p & H1 & H2 & H3 & H4 & H5 & H6 & H7 & H8 & H9 & H10).
  pose proof PI2_1 as PP. pose proof PI_4 as P4. pose proof PI_RGT_0 as P0.
  set (a := V3 0 0 1). assert (U : unit a) by apply unit_ez.
  set (m := Motion a 1 vzero vzero). assert (Hm : make_motion a 1 vzero vzero = Ok m) by (apply make_motion_unit; [apply unit_ez|lra]).
  set (g := Motion a (PI / 2) vzero vzero). set (moves := [(g, 1); (g, 1)]).
  assert (HT : half_turn_about a moves).
  { split; [intros gs [<-|[<-|[]]]; reflexivity|]. exists 0%Z. unfold moves, g. cbn [map fst snd m_angle]. rewrite !sum_list_cons, sum_list_nil. cbn. lra. }
  destruct (transforms_about a moves p U (proj1 HT)) as (A1 & A2 & A3 & A4 & A5). cbv zeta in *.
  replace (sum_list (map (fun gs : motion * R => m_angle (fst gs) * snd gs) moves)) with (PI * (2 * IZR 0 + 1)) in A1
    by (unfold moves, g; cbn [map fst snd m_angle]; rewrite !sum_list_cons, sum_list_nil; lra).
  set (V := rod_matrix a (PI * (2 * IZR 0 + 1))) in *. rewrite H6 in A1. cbn [map] in A1. rewrite mm_I_r in A1.
  set (q := transforms moves p) in *. assert (Hq : reachable_pc (ex_xtal pl) q) by (unfold q, moves, transforms; cbn [fold_left]; constructor; constructor; auto).
  assert (Phq : pc_phases q = [ex_phase]) by (unfold q, moves, transforms; cbn [fold_left transform pc_phases]; auto).
  assert (MV : forall v, mv V v = mirror a (vneg v)) by (intros v; unfold V; rewrite <- half_turn_mirror with (n := 0%Z) by auto; now rewrite vneg_neg).
  assert (RP : forall v, right_handed_rotation (V3 0 0 1) PI v = V3 (- vx v) (- vy v) (vz v)).
  { intros v. unfold right_handed_rotation, across, along. rewrite cos_PI, sin_PI. clear. vdes; vunf; f_equal; ring. }
  assert (EV : forall j h, In (j, h) [(0%nat, V3 (-1) 1 0); (1%nat, V3 (-1) 0 1)] ->
     (exists G, diffracts_at (snd (diffract false (ex_xtal pl) p b m 0 1 None)) b a m 0 j 0 G) /\
     (exists G, diffracts_at (snd (diffract false (ex_xtal pl) q b m 0 1 None)) b a m 0 (2 + j) 0 G)).
  { intros j h [E|[E|[]]]; injection E as <- <-; split; eexists.
    - apply (pair_event p b m mI 0 (V3 (-1) 1 0)); auto; rewrite mv_I; [apply laue_x; lra|rewrite RP; cbn [vx vy vz]; rewrite laue_x; lra].
    - apply (pair_event q b m V 2 (V3 1 (-1) 0)); auto; rewrite MV; replace (mirror a (vneg (V3 1 (-1) 0))) with (V3 (-1) 1 0) by (unfold a, mirror; vunf; f_equal; ring);
        [apply laue_x; lra|rewrite RP; cbn [vx vy vz]; rewrite laue_x; lra].
    - apply (pair_event p b m mI 1 (V3 (-1) 0 1)); auto; rewrite mv_I; [apply laue_x; lra|rewrite RP; cbn [vx vy vz]; rewrite laue_x; lra].
    - apply (pair_event q b m V 3 (V3 1 0 (-1))); auto; rewrite MV; replace (mirror a (vneg (V3 1 0 (-1)))) with (V3 (-1) 0 (-1)) by (unfold a, mirror; vunf; f_equal; ring);
        [apply laue_x; lra|rewrite RP; cbn [vx vy vz]; rewrite laue_x; lra]. }
  destruct (EV 0%nat (V3 (-1) 1 0)) as ((G1 & X1) & (G2 & X2)); [now left|]. destruct (EV 1%nat (V3 (-1) 0 1)) as ((G3 & X3) & (G4 & X4)); [right; now left|].
  assert (OKd : exists d p1, diffract false (ex_xtal pl) p b m 0 1 None = (Ok d, p1)).
  { pose proof (pC13_events false (ex_xtal pl) p b a 1 vzero vzero m 0 1 None [0] H3 (ex_xtal_ok pl) H4 I Hm U) as E.
    destruct (diffract false (ex_xtal pl) p b m 0 1 None) as [rr pp]. cbn [snd] in X1, X3. destruct E as (_ & E & _). destruct (E _ _ _ _ _ _ _ _ X1 X3) as (d & ->); [discriminate|eauto]. }
  assert (OKq : exists d p1, diffract false (ex_xtal pl) q b m 0 1 None = (Ok d, p1)).
  { pose proof (pC13_events false (ex_xtal pl) q b a 1 vzero vzero m 0 1 None [0] Hq (ex_xtal_ok pl) ltac:(congruence) I Hm U) as E.
    destruct (diffract false (ex_xtal pl) q b m 0 1 None) as [rr pp]. cbn [snd] in X2, X4. destruct E as (_ & E & _). destruct (E _ _ _ _ _ _ _ _ X2 X4) as (d & ->); [discriminate|eauto]. }
  destruct OKd as (d & p1 & D). destruct OKq as (d2 & p2 & D2).
  assert (Ep : p1 = snd (diffract false (ex_xtal pl) p b m 0 1 None)) by now rewrite D. assert (Ep2 : p2 = snd (diffract false (ex_xtal pl) q b m 0 1 None)) by now rewrite D2.
  rewrite (ex_after pl p b m 0 1 H5) in Ep. rewrite (ex_after pl q b m 0 1 Phq) in Ep2.
  assert (SV : scattering_vector p 0 (V3 (-1) 0 1) (V3 (-1) 0 1)) by (exists mI, mI; rewrite H6, H7, !mv_I; auto).
  assert (Plane : forall j h, nth_error pl j = Some h -> plane_of (setup_planes (ex_xtal pl) ex_phase (b_wavelength b) 0 1) h 1).
  { intros j h Hj. exists pl, j. split; [reflexivity|]. split; [exact Hj|reflexivity]. }
  assert (VO : exists v, nth_error (pc_volumes p) 0 = Some v).
  { pose proof (wf_reachable _ _ H3) as (W & _). rewrite H6 in W. destruct (pc_volumes p) as [|v l]; [discriminate|]. exists v. reflexivity. }
  destruct VO as (v & VO).
  assert (LIT : strictly_inside (b_halfspaces b) (V3 7 1 (9/4)) /\ strictly_inside (b_halfspaces b) (V3 (-7) (-1) (9/4))).
  { split; apply Hin; cbn [vx vy vz]; apply Rabs_def1; lra. }
  assert (SO : solves (laue_factors (b_wave_vector b) (m_axis m)) (m_angle m) (V3 (-1) 0 1) 0).
  { rewrite Hk. apply (solves_iff (V3 1 0 0) a 1 vzero vzero m); auto. split; [lra|]. rewrite rot_at_0. split; [apply laue_x; lra|]. unfold a. rewrite RP. cbn [vx vy vz]. rewrite laue_x. lra. }
  destruct (peaks_complete false (ex_xtal pl) p b m 0 1 None d p1 0 (setup_planes (ex_xtal pl) ex_phase (b_wavelength b) 0 1) 0 (V3 (-1) 0 1) 1 0 (V3 (-1) 0 1) (V3 7 1 (9/4)) v D) as (k & Hr); auto.
  { rewrite Ep. reflexivity. } { unfold in_phase. now rewrite H4. } { now apply (Plane 1%nat). } { now rewrite H8, H9. } { rewrite move_at_0. apply contains_iff, LIT. }
  set (r := full_row _ _ _ _ _ _ ++ _) in Hr. assert (Hr' : In r (pd_peaks d)) by (eapply nth_error_In; exact Hr).
  pose proof (columns_of _ _ _ _ _ _ _ _ _ _ D) as HC.
  assert (HK : has_vec d r "K_out_x" "K_out_y" "K_out_z" (V3 0 0 1)).
  { replace (V3 0 0 1) with (vadd (rot_at m 0 (V3 (-1) 0 1)) (b_wave_vector b)) by (rewrite rot_at_0, Hk; vunf; f_equal; ring). unfold has_vec, has, field. rewrite HC. repeat split. }
  assert (PA : dot a (b_wave_vector b) = 0) by (rewrite Hk; unfold a; vunf; ring).
  destruct (pC99_mate false (ex_xtal pl) p b a 1 vzero vzero m moves 0 1 None d p1 0 1 None d2 p2 r Hm U PA HT D D2 Hr') as (e & i & h & t & N1 & N2 & N3 & N4 & F).
  unfold has_vec, has, field in N1, N2, N3, N4. rewrite HC in *.
  assert (Y1 : Some (Fin (INR 0)) = Some (Fin (INR e))) by exact N1. assert (Y2 : Some (Fin (INR 0)) = Some (Fin (INR i))) by exact N2. assert (Y4 : Some (Fin 0) = Some (Fin t)) by exact N4.
  destruct N3 as (M1 & M2 & M3). assert (Z1 : Some (Fin (-1)) = Some (Fin (vx h))) by exact M1. assert (Z2 : Some (Fin 0) = Some (Fin (vy h))) by exact M2. assert (Z3 : Some (Fin 1) = Some (Fin (vz h))) by exact M3.
  clear N1 N2 N4 M1 M2 M3. assert (e = O) by (apply INR_eq; congruence). assert (i = O) by (apply INR_eq; congruence). assert (t = 0) by congruence. subst e i t.
  assert (Eh : h = V3 (-1) 0 1) by (destruct h; cbn in *; congruence). subst h.
  assert (CQ : nth_error (me_espherecentroids (pc_mesh_lab q)) 0 = Some (V3 (-7) (-1) (9/4))).
  { unfold q, moves, transforms. cbn [fold_left fst snd transform pc_mesh_lab mesh_update me_espherecentroids]. rewrite H8, H9. cbn [map nth_error]. f_equal.
    assert (R1 : forall y, move_at g 1 y = mv (rod_matrix a (PI/2)) y).
    { intros y. unfold move_at, rot_at, g. cbn [m_axis m_angle m_trans m_origin]. rewrite Rmult_1_r. replace (vsub y vzero) with y by (clear; veq). generalize (mv (rod_matrix a (PI / 2)) y). clear. veq. }
    rewrite !R1, <- mv_mm, rod_add by auto. replace (PI / 2 + PI / 2) with PI by field. rewrite rod_spec by auto. unfold a. rewrite RP. reflexivity. }
  destruct (F (setup_planes (ex_xtal pl) ex_phase (b_wavelength b) 0 1) 1 (V3 (-7) (-1) (9/4)) (V3 (-7) (-1) (9/4))) as (r2 & Hr2 & FM & _).
  { rewrite Ep2. reflexivity. } { apply (Plane 3%nat). cbn. f_equal. unfold vneg. cbn. f_equal; ring. } { exact CQ. } { now rewrite call_P1_S0, move_at_0. } { apply LIT. }
  assert (HK2 : has_vec d2 r2 "K_out_x" "K_out_y" "K_out_z" (V3 0 0 (-1))).
  { destruct FM as (_ & _ & _ & K & K1 & K2). unfold has_vec, has in HK, K1. destruct HK as (E1 & E2 & E3). destruct K1 as (E1' & E2' & E3'). rewrite E1 in E1'. rewrite E2 in E2'. rewrite E3 in E3'.
    replace (V3 0 0 (-1)) with (mirror a K); [exact K2|]. destruct K as [kx ky kz]. cbn [vx vy vz] in *. assert (kx = 0) by congruence. assert (ky = 0) by congruence. assert (kz = 1) by congruence. subst. unfold mirror, a. vunf. f_equal; ring. }
  exists big_qhull, b, a, 1, vzero, vzero, m, moves, (ex_xtal pl), p, d, p1, d2, p2, r, r2.
  repeat (split; [first [assumption|apply ex_xtal_ok]|]). split; [cbn; lia|]. repeat (split; [assumption|]). split; [unfold a; vunf; ring|]. auto.
Qed.
