(** * A scan run backwards: concrete cases (C92). *)
From Verif Require Import Vec Spec MMotion MLaue MMesh MScattering MStrain MBeam SBeam MPolycrystal SPolycrystal SEvents MDetector SDetector MRender SRender SEnd SScan SBack.
From Verif Require Import PMotion PLaue PMesh PBeam PStrain PPolycrystal PPolycrystal2 PPolycrystal3 PEvents PDetector PRender PRender2 PRender3 PEnd PEnd2 PDetector2 SJoin PJoin PJoin2 PJoin3 PNumber PNumber2 PScan PBack PBack2.
From Verif Require Import SPolycrystal SDetector.
From Coq Require Import Permutation.
Open Scope list_scope. Open Scope R_scope.

(** Two planes that reflect at the angles 0 and pi/2, in the first and in the second of two frames; the sample also moves
    across the rotation axis. *)
Lemma xC92_scan : exists e1 e2 z q b a w T o m mb x p lo hi pd p' pdb qb d n k ml mi ml' mi' im out imb outb mp,
  reachable_beam q b /\ unit a /\ cross a T <> vzero /\ (k < n)%nat /\ (0 < k)%nat /\ reachable_pc x p /\ xtal_ok x /\ pc_map p = MapTensor mp /\
  make_motion a w T o = Ok m /\ make_motion (vneg a) w (vneg T) (vadd o T) = Ok mb /\
  built d /\ rectangular (d_c0 d) (d_c1 d) (d_c2 d) /\
  diffract z x p b m lo hi None = (Ok pd, p') /\ render e1 d pd (Z.of_nat n) "micro" ml mi = Ok (im, out) /\
  diffract z x (transform p m 1) b mb lo hi None = (Ok pdb, qb) /\ render e2 d pdb (Z.of_nat n) "micro" ml' mi' = Ok (imb, outb) /\
  (forall e pl th, 0 <= th <= w -> reflects p' b a e pl th -> ~ reflects p' b a e pl PI /\ ~ reflects p' b a e pl (w + PI)) /\
  (forall e pl, ~ reflects p' b a e pl (w * INR k / INR n)) /\
  (exists e pl th, w * INR k / INR n <= th <= w * INR (S k) / INR n /\ reflects p' b a e pl th) /\ List.length (pd_peaks pd) <> O.
Proof.
  destruct big_beam as (b & Hb & Hk & Hin). set (pl := [V3 (-1) 1 0; V3 (-1) 1 0]).
  destruct (ex_pc pl) as (me & p & H1 & H2 & H3 & H4 & H5 & H6 & H7 & H8 & H9 & H10).
  destruct side_detector as (d & Bd & C0 & C1 & C2 & F1 & F2 & F3).
  set (en := REnv false 1 1 (fun _ => 0) (fun _ => []) big_qhull (fun _ => None) (fun _ => Err ValueError) (fun _ _ => Err ValueError) (fun _ _ _ => [])).
  pose proof PI2_1 as PP. pose proof PI_4 as P4. pose proof trig_1 as (S1 & S2 & S3 & S4).
  set (a := V3 0 0 1). set (T := V3 1 0 2). set (o := V3 0 1 0).
  set (m := Motion a 2 T o). set (mb := Motion (vneg a) 2 (vneg T) (vadd o T)).
  assert (I2 : INR 2 = 2) by (cbn; ring).
  assert (Hm : make_motion a 2 T o = Ok m) by (apply make_motion_unit; [apply unit_ez|lra]).
  assert (Hmb : make_motion (vneg a) 2 (vneg T) (vadd o T) = Ok mb) by (apply make_motion_unit; [apply unit_neg, unit_ez|lra]).
  assert (RF : forall th e j, reflects (snd (diffract false (ex_xtal pl) p b m 0 1 None)) b a e j th <-> e = O /\ (j < 2)%nat /\ sin th + cos th = 1).
  { intros th e j. rewrite (ex_reflects pl me p b 0 1 m Hk H4 H5 H6 H7 H8).
    assert (LC : laue_condition (V3 1 0 0) (right_handed_rotation a th (V3 (-1) 1 0)) <-> sin th + cos th = 1).
    { unfold a. rewrite turn_z, laue_2; [split; lra|]. pose proof (unit_sc th). nra. }
    split.
    - intros (-> & h & A & B). destruct j as [|[|j]]; cbn in A; [| |destruct j; discriminate]; apply some_eq in A; subst h; apply LC in B; auto.
    - intros (-> & J & B). split; auto. exists (V3 (-1) 1 0). split; [|now apply LC]. destruct j as [|[|j]]; [reflexivity..|lia]. }
  destruct (diffract false (ex_xtal pl) p b m 0 1 None) as [r p'] eqn:D. cbn [snd] in RF.
  assert (NB : forall e pl0 th, 0 <= th <= 2 -> reflects p' b a e pl0 th -> ~ reflects p' b a e pl0 PI /\ ~ reflects p' b a e pl0 (2 + PI)).
  { intros e j th _ _. split; intros C; apply RF in C as (_ & _ & C).
    - rewrite sin_PI, cos_PI in C. lra.
    - rewrite neg_sin, neg_cos in C. assert (0 < sin 2) by (apply sin_gt_0; lra). pose proof (COS_bound 2). lra. }
  assert (AT : forall j, (j < 2)%nat -> exists G, diffracts_at p' b a m 0 j 0 G).
  { intros j Hj. assert (X : reflects p' b a 0 j (2 * 0)) by (apply RF; rewrite Rmult_0_r, sin_0, cos_0; repeat split; auto; lra).
    apply (reflects_scan a T o 2 p' b 0 j 0 unit_ez); [lra|exact X|]. apply (NB 0%nat j (2 * 0)); [lra|exact X]. }
  assert (OKs : exists pd, r = Ok pd).
  { pose proof (pC13_events false (ex_xtal pl) p b a 2 T o m 0 1 None [0] H3 (ex_xtal_ok pl) H4 I Hm unit_ez) as EV. rewrite D in EV. destruct EV as (_ & EV & _).
    destruct (AT 0%nat) as (G1 & X1); [lia|]. destruct (AT 1%nat) as (G2 & X2); [lia|]. apply (EV _ _ _ _ _ _ _ _ X1 X2). discriminate. }
  destruct OKs as (pd & ->).
  destruct (pC92_same_reflections false (ex_xtal pl) p b a 2 T o m mb 0 1 pd p' [0] H3 (ex_xtal_ok pl) H4 unit_ez Hm Hmb D NB) as (pdb & qb & rows & Db & _ & _).
  assert (Hf : fresh pd) by (apply (pC32_diffract_tables_fresh false (ex_xtal pl) p b m 0 1 None); now rewrite D).
  assert (Hfb : fresh pdb) by (apply (pC32_diffract_tables_fresh false (ex_xtal pl) (transform p m 1) b mb 0 1 None); now rewrite Db).
  destruct (pC39_micro_never_fails en d pd 2 None 1 Hf) as (im & out & HI). destruct (pC39_micro_never_fails en d pdb 2 None 1 Hfb) as (imb & outb & HIb).
  exists en, en, false, big_qhull, b, a, 2, T, o, m, mb, (ex_xtal pl), p, 0, 1, pd, p', pdb, qb, d, 2%nat, 1%nat, None, 1, None, 1, im, out, imb, outb, [0].
  split; auto. split; [apply unit_ez|]. split. { intros C. apply (f_equal vy) in C. revert C. unfold a, T. vunf. lra. }
  split; [lia|]. split; [lia|]. split; auto. split; [apply ex_xtal_ok|]. split; auto. split; auto. split; auto. split; auto.
  split; [rewrite C0, C1, C2; unfold rectangular; vunf; lra|]. split; auto. split; auto. split; auto. split; auto. split; auto. split; [|split].
  - intros e j C. apply RF in C as (_ & _ & C). replace (2 * INR 1 / INR 2) with 1 in C by (rewrite I2; cbn; field). contradiction.
  - exists 0%nat, 0%nat, (PI / 2). split; [rewrite I2; cbn [INR]; lra|]. apply RF. rewrite sin_PI2, cos_PI2. repeat split; auto; lra.
  - destruct (AT 0%nat) as (G1 & X1); [lia|]. pose proof X1 as (i & ph & h & G0 & D1 & D2 & D3 & D4 & D5 & D6 & D7 & D8).
    assert (PO : exists sf, plane_of ph h sf).
    { destruct D3 as (hkl & X & Y & Z0). destruct (ph_sf ph) as [s|] eqn:ESF; [|exists 1, hkl, 0%nat; rewrite ESF; auto].
      destruct Z0 as (re & im0 & Z1 & Z2). exists (re ^ 2 + im0 ^ 2), hkl, 0%nat. rewrite ESF. repeat (split; auto). exists re, im0. repeat split; auto; lra. }
    destruct PO as (sf & PO). assert (in_phase p 0 i /\ scattering_vector p 0 h G0) as (D1' & D4').
    { pose proof (ex_after pl p b m 0 1 H5) as EA. rewrite D in EA. cbn [snd] in EA. rewrite EA in D1, D4. split; [exact D1|exact D4]. }
    destruct (pC12_complete false (ex_xtal pl) p b a 2 T o m 0 1 None pd p' 0 i ph h sf 0 G0 G1 (V3 7 1 (9/4)) (move_at m 0 (V3 7 1 (9/4))) H3 Hm unit_ez D D1' D2 PO D4') as (row & Hrow & _); auto.
    + rewrite H8, H9. reflexivity.
    + rewrite move_at_0. apply Hin; cbn [vx vy vz]; rewrite Rabs_right; lra.
    + destruct (pd_peaks pd); [destruct Hrow|discriminate].
Qed.
(** A reflection exactly between the second and the third of three frames. *)
Lemma xC92_edge : exists z a w T o m mb n k p b d s q x,
  reachable_beam q b /\ (exists p0 lo hi, reachable_pc x p0 /\ p = snd (diffract false x p0 b m lo hi None)) /\ built d /\
  unit a /\ (S k < n)%nat /\ make_motion a w T o = Ok m /\ make_motion (vneg a) w (vneg T) (vadd o T) = Ok mb /\
  recorded z p b a m d (Z.of_nat n) s /\ sn_time s = INR (S k) / INR n /\
  ~ reflects p b a (sn_element s) (sn_plane s) (w + PI).
Proof.
  destruct big_beam as (b & Hb & Hk & Hin). set (pl := [V3 (-1) (-1) 0]).
  destruct (ex_pc pl) as (me & p & H1 & H2 & H3 & H4 & H5 & H6 & H7 & H8 & H9 & H10).
  destruct side_detector as (d & Bd & C0 & C1 & C2 & F1 & F2 & F3).
  pose proof PI2_1 as PP. assert (I3 : INR 3 = 3) by (cbn; ring). assert (I2 : INR 2 = 2) by (cbn; ring).
  set (a := V3 0 0 (-1)). set (w := 3 * PI / 4). set (m := Motion a w vzero vzero).
  assert (RF : forall th, reflects (snd (diffract false (ex_xtal pl) p b m 0 1 None)) b a 0 0 th <-> sin th + cos th = 1).
  { intros th. rewrite (ex_reflects pl me p b 0 1 m Hk H4 H5 H6 H7 H8).
    assert (LC : laue_condition (V3 1 0 0) (right_handed_rotation a th (V3 (-1) (-1) 0)) <-> sin th + cos th = 1).
    { unfold a. rewrite turn_mz, laue_2; [split; lra|]. pose proof (unit_sc th). nra. }
    split; [intros (_ & h & A & B); cbn in A; apply some_eq in A; subst h; now apply LC|]. intros B. split; auto. exists (V3 (-1) (-1) 0). split; [reflexivity|now apply LC]. }
  pose proof (ex_after pl p b m 0 1 H5) as EA. set (p' := snd (diffract false (ex_xtal pl) p b m 0 1 None)) in *.
  assert (V : exists v, nth_error (pc_volumes p) 0 = Some v).
  { destruct (wf_reachable _ _ H3) as (L1 & _). rewrite H6 in L1. destruct (pc_volumes p) as [|v l]; [discriminate|]. exists v. reflexivity. }
  destruct V as (v & Hv).
  assert (WT : w * (INR 2 / INR 3) = PI / 2) by (unfold w; rewrite I2, I3; field).
  exists false, a, w, vzero, vzero, m, (Motion (vneg a) w (vneg vzero) (vadd vzero vzero)), 3%nat, 1%nat, p', b, d, (Seen 0 0 (INR 2 / INR 3) 1 (9/4) 1 1 v), big_qhull, (ex_xtal pl).
  split; auto. split; [exists p, 0, 1; auto|]. split; auto. split; [apply unit_mz|]. split; [lia|].
  split; [apply make_motion_unit; [apply unit_mz|unfold w; lra]|]. split; [apply make_motion_unit; [apply unit_neg, unit_mz|unfold w; lra]|].
  cbn [sn_element sn_plane sn_time].
  split; [|split; [reflexivity|]; rewrite RF].
  - exists (V3 (-1) 1 0), (V3 1 (-7) (9/4)), 1, 1, 1, 1. cbn [sn_element sn_plane sn_time sn_frame sn_zd sn_yd sn_intensity sn_volume].
    set (ph := setup_planes (ex_xtal pl) ex_phase (b_wavelength b) 0 1) in *.
    assert (A0 : in_phase p' 0 0) by (rewrite EA; unfold in_phase; cbn [pc_map]; now rewrite H4).
    split.
    { apply scan_diffracts; [apply unit_mz|]. exists 0%nat, ph, (V3 (-1) (-1) 0), (V3 (-1) (-1) 0). split; auto. split; [rewrite EA; reflexivity|]. split; [exists pl; repeat split|].
      split; [rewrite EA; exists mI, mI; cbn [pc_U pc_eB]; rewrite H6, H7; repeat split; now rewrite !mv_I|]. split; [rewrite I2, I3; lra|].
      split; [unfold a; rewrite turn_mz, WT, sin_PI2, cos_PI2; vext; vunf; ring|].
      split; [unfold laue_condition; rewrite Hk; unfold norm; f_equal; vunf; lra|].
      unfold a. rewrite Hk, turn_mz, sin_PI, cos_PI, laue_2; lra. }
    split.
    { exists (V3 7 1 (9/4)). rewrite EA. cbn [pc_mesh_lab]. rewrite H8, H9. split; [reflexivity|].
      split; [rewrite call_P1_S0; do 2 f_equal|apply Hin; cbn [vx vy vz]; try (rewrite Rabs_right; lra); rewrite Rabs_left; lra].
      unfold move_at, rot_at, m, a. cbn [m_axis m_angle m_origin m_trans]. rewrite WT. unfold rod_matrix, rod_K2, rod_K. rewrite sin_PI2, cos_PI2. vext; vunf; lra. }
    split; [rewrite EA; exact Hv|].
    split; [exists 0%nat, ph; split; [exact A0|]; split; [rewrite EA; reflexivity|]; reflexivity|].
    split.
    { rewrite C0, C1, C2, Hk. unfold hits. split; [unfold plane_normal; vunf; lra|].
      assert (D1 : norm (vsub (V3 0 10 10) (V3 0 10 0)) = 10) by (apply norm_sqrt_eq; vunf; [lra|ring]).
      assert (D2 : norm (vsub (V3 10 10 0) (V3 0 10 0)) = 10) by (apply norm_sqrt_eq; vunf; [lra|ring]).
      split.
      - exists (9/40), (1/10). split; [lra|]. split; [lra|]. unfold surface_point, dist. rewrite D1, D2. vext; vunf; lra.
      - exists 17. split; [lra|]. unfold surface_point, dist, ray_at. rewrite D1, D2. vext; vunf; lra. }
    split; [split; [cbn; lia|]; rewrite I2, I3; change (Z.of_nat 3) with 3%Z; change (Z.of_nat 1) with 1%Z; split; [right|]; lra|].
    rewrite F1, F2, F3. cbn [corrected]. split; auto. split; auto. split; auto. split; lra.
  - rewrite neg_sin, neg_cos. replace w with (PI - PI / 4) by (unfold w; field). rewrite sin_PI_x, Rtrigo_facts.cos_pi_minus, sin_cos_PI4. lra.
Qed.
(** A quarter turn from an angle at which a plane reflects to one half a turn away from another such angle. *)
Lemma xC92_blind : exists a w T o m mb p b e j t q x,
  reachable_beam q b /\ (exists p0 lo hi, reachable_pc x p0 /\ p = snd (diffract false x p0 b m lo hi None)) /\
  unit a /\ make_motion a w T o = Ok m /\ make_motion (vneg a) w (vneg T) (vadd o T) = Ok mb /\
  0 <= t <= 1 /\ reflects p b a e j (w * t) /\ ~ reflects p b a e j PI /\ reflects p b a e j (w + PI).
Proof.
  destruct big_beam as (b & Hb & Hk & Hin). set (pl := [V3 (-1) (-1) 0]).
  destruct (ex_pc pl) as (me & p & H1 & H2 & H3 & H4 & H5 & H6 & H7 & H8 & H9 & H10).
  pose proof PI2_1 as PP. set (a := V3 0 0 1). set (T := V3 1 0 2). set (o := V3 0 1 0). set (m := Motion a (PI / 2) T o).
  assert (RF : forall th, reflects (snd (diffract false (ex_xtal pl) p b m 0 1 None)) b a 0 0 th <-> cos th - sin th = 1).
  { intros th. rewrite (ex_reflects pl me p b 0 1 m Hk H4 H5 H6 H7 H8).
    assert (LC : laue_condition (V3 1 0 0) (right_handed_rotation a th (V3 (-1) (-1) 0)) <-> cos th - sin th = 1).
    { unfold a. rewrite turn_z, laue_2; [split; lra|]. pose proof (unit_sc th). nra. }
    split; [intros (_ & h & A & B); cbn in A; apply some_eq in A; subst h; now apply LC|]. intros B. split; auto. exists (V3 (-1) (-1) 0). split; [reflexivity|now apply LC]. }
  exists a, (PI / 2), T, o, m, (Motion (vneg a) (PI / 2) (vneg T) (vadd o T)), (snd (diffract false (ex_xtal pl) p b m 0 1 None)), b, 0%nat, 0%nat, 0, big_qhull, (ex_xtal pl).
  split; auto. split; [exists p, 0, 1; auto|]. split; [apply unit_ez|]. split; [apply make_motion_unit; [apply unit_ez|lra]|]. split; [apply make_motion_unit; [apply unit_neg, unit_ez|lra]|].
  split; [lra|]. split; [apply RF; rewrite Rmult_0_r, sin_0, cos_0; lra|]. split; rewrite RF.
  - rewrite sin_PI, cos_PI. lra.
  - rewrite neg_sin, neg_cos, sin_PI2, cos_PI2. lra.
Qed.
