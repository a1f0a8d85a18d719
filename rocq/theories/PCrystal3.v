(** * Proofs: symmetry-equivalent orientations under strain, and an example (C93, part 3). *)
From Verif Require Import Vec Spec MMotion PMotion MLaue PLaue MMesh SMesh PMesh MScattering SScattering PScattering.
From Verif Require Import MStrain SStrain PStrain MBeam SBeam PBeam MPolycrystal SPolycrystal SEvents PPolycrystal PPolycrystal2 PPolycrystal3 PEvents.
From Verif Require Import MDetector SDetector PDetector PDetector2 PDetector3 PDetector4 MClip MRender SRender PRender PRender2 PRender3 SEnd PEnd PEnd2 SJoin PJoin PJoin2 PJoin3 PJoin4 SNumber PNumber PNumber2 PNumber3 SCrystal PCrystal PCrystal2.
From Verif Require Import PScan.
From Coq Require Import Permutation.
Open Scope list_scope. Open Scope R_scope.
Local Notation len := List.length.

Definition shear (e : R) : mat := M3 (V3 0 e 0) (V3 e 0 0) (V3 0 0 0).
Definition quarter : mat := M3 (V3 0 (-1) 0) (V3 1 0 0) (V3 0 0 1).
Lemma shear_id e : crystal_strain mI (shear e) = shear e.
Proof. unfold crystal_strain, shear. vext; vunf; ring. Qed.
Lemma shear_quarter e : crystal_strain quarter (shear e) = shear (- e).
Proof. unfold crystal_strain, shear, quarter. vext; vunf; ring. Qed.
Lemma shear_lattice e : 4 * e * e < 1 -> let s := sqrt (1 - 4 * e * e) in 0 < s /\ s * s = 1 - 4 * e * e /\
  exists B, lattice_ok mI (shear e) B /\ B = M3 (V3 1 (- (2 * e) / s) 0) (V3 0 (/ s) 0) (V3 0 0 1).
Proof.
  intros He s. assert (P : 0 < s) by (apply sqrt_lt_R0; lra). assert (Q : s * s = 1 - 4 * e * e) by (apply sqrt_sqrt; lra).
  split; auto. split; auto. eexists. split; [|reflexivity]. split.
  - unfold no_negative_eig. cbv zeta. replace (lower_sym (metric (shear e))) with (M3 (V3 1 (2 * e) 0) (V3 (2 * e) 1 0) (V3 0 0 1)) by (unfold metric, shear, lower_sym; vext; vunf; ring).
    replace (det (M3 (V3 1 (2 * e) 0) (V3 (2 * e) 1 0) (V3 0 0 1))) with (1 - 4 * e * e) by (unfold det; vunf; ring). cbn [r1 r2 r3 vx vy vz].
    assert (RL : forall u : R, 0 <= u -> Rleb 0 u = true) by (intros u Hu; apply Rleb_true; exact Hu).
    rewrite !RL by nra. reflexivity.
  - unfold eps_to_B1, cholesky. replace (lower_sym (metric (shear e))) with (M3 (V3 1 (2 * e) 0) (V3 (2 * e) 1 0) (V3 0 0 1)) by (unfold metric, shear, lower_sym; vext; vunf; ring).
    cbn [r1 r2 r3 vx vy vz]. destruct (Rle_dec 1 0); [lra|]. rewrite sqrt_1.
    replace (1 - 2 * e / 1 * (2 * e / 1)) with (1 - 4 * e * e) by field. destruct (Rle_dec (1 - 4 * e * e) 0); [lra|]. fold s.
    replace ((0 - 0 / 1 * (2 * e / 1)) / s) with 0 by (field; lra). replace (1 - 0 / 1 * (0 / 1) - 0 * 0) with 1 by field.
    destruct (Rle_dec 1 0); [lra|]. rewrite sqrt_1. cbn [bind].
    replace (mT (M3 (V3 1 0 0) (V3 (2 * e / 1) s 0) (V3 (0 / 1) 0 1))) with (M3 (V3 1 (2 * e) 0) (V3 0 s 0) (V3 0 0 1)) by (unfold mT; vext; vunf; field).
    unfold inv_checked. assert (D : det (M3 (V3 1 (2 * e) 0) (V3 0 s 0) (V3 0 0 1)) = s) by (unfold det; vunf; ring). rewrite D.
    destruct (Req_EM_T s 0); [lra|]. cbn [bind]. f_equal. unfold minv. rewrite D. clear D. unfold mT. vext; vunf; field; lra.
Qed.
Definition four_planes : list vec := [V3 1 0 0; V3 0 1 0; V3 (-1) 0 0; V3 0 (-1) 0].
Lemma strained_sample U e me B : build_mesh ex_coord ex_enod = Ok me -> me_coord me = ex_coord -> me_enod me = ex_enod -> lattice_ok mI (crystal_strain U e) B ->
  exists p, make_polycrystal (ex_xtal four_planes) me (One U) (One e) [ex_phase] (Some [0]) = Ok p /\ pc_map p = MapTensor [0] /\ pc_phases p = [ex_phase] /\ pc_U p = [U] /\ pc_eB p = [B].
Proof.
  intros Hb Hc He HB. unfold make_polycrystal. rewrite Hc, He. unfold ex_coord, ex_enod. cbn [traverse gather_tet nth_error bind List.length instantiate_mats instantiate_phase repeat].
  unfold instantiate_eB. cbn [map_values eB_loop repeat]. rewrite where_00. unfold gather. cbn [traverse nth_error bind].
  change (x_form_b (ex_xtal four_planes) (ph_cell ex_phase)) with mI. destruct HB as [N E]. unfold lab_strain_to_B. cbn [List.length Nat.eqb combine map fst snd]. unfold epsilon_to_b. cbn [forallb]. rewrite N. cbn [andb traverse]. rewrite E. cbn [bind scatter combine fold_left fst snd set_nth].
  eexists. split; [reflexivity|]. repeat split.
Qed.
(** ... a strained crystal, though, is not the same crystal when it is turned by a symmetry operation of its lattice: with a shear
    strain [e] in the laboratory frame, however small, a cubic crystal and the same crystal turned by a quarter turn about a cube
    axis (an operation that maps its planes one to one) have different scattering vectors, because the deformation is taken from a
    Cholesky factor that depends on the choice of crystal axes. *)
Lemma pC93_strained_refuted : forall e, e <> 0 -> Rabs e < / 2 ->
  exists x me ph S sg p q, build_mesh ex_coord ex_enod = Ok me /\
    make_polycrystal x me (One mI) (One (M3 (V3 0 e 0) (V3 e 0 0) (V3 0 0 0))) [ph] (Some [0]) = Ok p /\
    make_polycrystal x me (One (mm mI S)) (One (M3 (V3 0 e 0) (V3 e 0 0) (V3 0 0 0))) [ph] (Some [0]) = Ok q /\
    mm (mT S) S = mI /\ det S = 1 /\
    forall z b m lo hi, let p' := snd (diffract z x p b m lo hi None) in let q' := snd (diffract z x q b m lo hi None) in
      (forall e' i ph', in_phase p' e' i -> nth_error (pc_phases p') i = Some ph' -> lattice_symmetry sg (x_form_b x (ph_cell ph')) ph' S) /\
      reflection q' 0 0 (V3 0 1 0) 1 /\ (forall j sf, ~ reflection p' 0 j (V3 0 1 0) sf) /\ ~ exists s, same_crystals s p' q'.
Proof.
  intros e N L. assert (L4 : 4 * e * e < 1) by (apply Rabs_def2 in L; nra). assert (L4' : 4 * (- e) * (- e) < 1) by lra.
  destruct ex_mesh as (me & Hb & Hs & Hc & He). destruct (shear_lattice e L4) as (SP & SQ & B & LB & EB). destruct (shear_lattice (- e) L4') as (SP' & SQ' & B' & LB' & EB').
  rewrite <- (shear_id e) in LB. rewrite <- (shear_quarter e) in LB'.
  destruct (strained_sample mI (shear e) me B Hb Hc He LB) as (p & Hp & P1 & P2 & P3 & P4). destruct (strained_sample quarter (shear e) me B' Hb Hc He LB') as (q & Hq & Q1 & Q2 & Q3 & Q4).
  exists (ex_xtal four_planes), me, ex_phase, quarter, (fun j => Nat.modulo (j + 3) 4), p, q. split; [exact Hb|]. split; [exact Hp|].
  split; [replace (mm mI quarter) with quarter by (unfold quarter; veq); exact Hq|]. split; [unfold quarter; veq|]. split; [unfold quarter, det; vunf; ring|].
  intros z b m lo hi p' q'.
  assert (Dp : snd (diffract z (ex_xtal four_planes) p b m lo hi None) = setup_all (ex_xtal four_planes) p b lo hi) by (rewrite diffract_none; reflexivity).
  assert (Dq : snd (diffract z (ex_xtal four_planes) q b m lo hi None) = setup_all (ex_xtal four_planes) q b lo hi) by (rewrite diffract_none; reflexivity).
  subst p' q'. rewrite Dp, Dq. clear Dp Dq. set (p' := setup_all _ p _ _ _). set (q' := setup_all _ q _ _ _).
  set (ph1 := setup_planes (ex_xtal four_planes) ex_phase (b_wavelength b) lo hi).
  assert (PP : pc_phases p' = [ph1]) by (unfold p', setup_all; cbn [pc_phases]; now rewrite P2). assert (QQ : pc_phases q' = [ph1]) by (unfold q', setup_all; cbn [pc_phases]; now rewrite Q2).
  assert (A : reflection q' 0 0 (V3 0 1 0) 1).
  { exists 0%nat, ph1, (V3 1 0 0). split; [unfold in_phase, q', setup_all; cbn [pc_map]; now rewrite Q1|]. split; [now rewrite QQ|]. split; [exists four_planes; repeat split|]. split.
    - exists quarter, B'. unfold q', setup_all. cbn [pc_U pc_eB]. rewrite Q3, Q4. repeat split. rewrite EB'. unfold quarter. clear. set (t := - (2 * - e) / sqrt (1 - 4 * - e * - e)). set (u := / sqrt (1 - 4 * - e * - e)). clearbody t u. vext; vunf; ring.
    - exists 0%nat, ph1. split; [unfold in_phase, q', setup_all; cbn [pc_map]; now rewrite Q1|]. split; [now rewrite QQ|reflexivity]. }
  assert (C : forall j sf, ~ reflection p' 0 j (V3 0 1 0) sf).
  { intros j sf (i & ph & h & R1 & R2 & (hkl & R3 & R4 & _) & (U & BB & R5 & R6 & R7) & _). rewrite PP in R2. destruct i as [|[|i] ]; cbn [nth_error] in R2; try discriminate. assert (ph = ph1) by congruence. subst ph.
    assert (hkl = four_planes) by (apply some_eq; exact (eq_sym R3)). subst hkl. unfold p', setup_all in R5, R6. cbn [pc_U pc_eB] in R5, R6. rewrite P3 in R5. rewrite P4 in R6. cbn [nth_error] in R5, R6.
    assert (U = mI) by congruence. assert (BB = B) by congruence. subst U BB. rewrite mv_I, EB in R7. set (s := sqrt (1 - 4 * e * e)) in *. clear - R4 R7 SP SQ N.
    assert (K : h = V3 1 0 0 \/ h = V3 0 1 0 \/ h = V3 (-1) 0 0 \/ h = V3 0 (-1) 0) by (destruct j as [|[|[|[|j] ] ] ]; cbn in R4; try (assert (E : Some (V3 1 0 0) = Some h -> h = V3 1 0 0) by congruence); try discriminate; [left|right; left|right; right; left|right; right; right|destruct j; discriminate]; congruence).
    assert (X : vx (V3 0 1 0) = vx (mv (M3 (V3 1 (- (2 * e) / s) 0) (V3 0 (/ s) 0) (V3 0 0 1)) h)) by now rewrite R7.
    assert (Y : vy (V3 0 1 0) = vy (mv (M3 (V3 1 (- (2 * e) / s) 0) (V3 0 (/ s) 0) (V3 0 0 1)) h)) by now rewrite R7.
    assert (Z : - (2 * e) / s <> 0) by (unfold Rdiv; apply Rmult_integral_contrapositive_currified; [lra|apply Rinv_neq_0_compat; lra]).
    destruct K as [->|[->|[->| ->] ] ]; revert X Y; unfold mv, dot; cbn; intros X Y; try lra; apply Z; lra. }
  split; [|split; [exact A|split; [exact C|]]].
  - intros e' i ph' _ Hi. rewrite PP in Hi. destruct i as [|[|i] ]; cbn [nth_error] in Hi; try discriminate. assert (ph' = ph1) by congruence. subst ph'. change (x_form_b (ex_xtal four_planes) (ph_cell ph1)) with mI.
    exists four_planes. split; [reflexivity|]. split; [|split; [|exact I]].
    + change (Permutation [3%nat; 0%nat; 1%nat; 2%nat] [0%nat; 1%nat; 2%nat; 3%nat]). apply NoDup_Permutation; [repeat (constructor; [cbn; intuition lia|]); constructor|repeat (constructor; [cbn; intuition lia|]); constructor|intros k; cbn; tauto].
    + intros j h h' H1 H2. rewrite !mv_I. assert (EX : forall a c : vec, Some a = Some c -> a = c) by (intros; congruence).
      destruct j as [|[|[|[|j] ] ] ]; cbn in H1, H2; try (destruct j; discriminate); apply EX in H1, H2; subst h h'; unfold quarter; veq.
  - intros (s & _ & _ & _ & _ & S). destruct (S 0%nat 0%nat _ _ A) as (j' & _ & R). exact (C _ _ R).
Qed.
Definition half_x : mat := M3 (V3 1 0 0) (V3 0 (-1) 0) (V3 0 0 (-1)).
(** A crystal with two diffracting planes, turned by half a turn about the x axis: the planes change places. *)
Lemma xC93_turned : exists z q x coord enod me Us Us' Ss sg phs mp p b a w T o m lo hi pd p' row,
  build_mesh coord enod = Ok me /\ Forall (reachable_phase x) phs /\ make_polycrystal x me (Stack Us) (One mzero) phs (Some mp) = Ok p /\
  reachable_beam q b /\ make_motion a w T o = Ok m /\ unit a /\ List.length Us' = List.length Us /\
  (forall e U, nth_error Us e = Some U -> nth_error Us' e = Some (mm U (Ss e))) /\ Us' <> Us /\
  diffract z x p b m lo hi None = (Ok pd, p') /\ In row (pd_peaks pd) /\
  (forall e i ph, in_phase p' e i -> nth_error (pc_phases p') i = Some ph -> lattice_symmetry (sg e) (x_form_b x (ph_cell ph)) ph (Ss e)).
Proof.
  destruct big_beam as (b & Hb & Hk & Hin). destruct (ex_pc two_planes) as (me & p & H1 & H2 & H3 & H4 & H5 & H6 & H7 & H8 & H9 & H10).
  pose proof (ex_outcome two_planes me p b Hk H3 H4 H5 H6 H7 H8) as O.
  destruct (diffract false (ex_xtal two_planes) p b ex_motion 0 1 None) as [r p'] eqn:D. destruct O as (_ & O & Oph).
  destruct O as (d & ->). { cbn [map two_planes list_sum fold_right]. now rewrite refl_pos, refl_neg. }
  assert (A : in_phase p 0 0) by (unfold in_phase; now rewrite H4).
  assert (B : plane_of (setup_planes (ex_xtal two_planes) ex_phase (b_wavelength b) 0 1) (V3 (-1) 1 0) 1).
  { exists two_planes, 0%nat. repeat split. }
  assert (C : scattering_vector p 0 (V3 (-1) 1 0) (V3 (-1) 1 0)).
  { exists mI, mI. rewrite H6, H7. repeat split. now rewrite !mv_I. }
  assert (E : motion_rotate ex_motion (P1 (V3 (-1) 1 0)) (S0 0) = Ok (P1 (V3 (-1) 1 0))).
  { rewrite rotate_P1_S0. do 2 f_equal. apply rot_at_0. }
  assert (F : laue_condition (b_wave_vector b) (V3 (-1) 1 0)).
  { unfold laue_condition. rewrite Hk. unfold norm. f_equal. vunf. lra. }
  assert (G : ~ laue_condition (b_wave_vector b) (right_handed_rotation (V3 0 0 1) PI (V3 (-1) 1 0))).
  { unfold laue_condition. rewrite Hk, <- rod_spec by apply unit_ez. unfold rod_matrix, rod_K2, rod_K. rewrite sin_PI, cos_PI.
    unfold norm. intros E1. apply sqrt_inj in E1; [|apply normsq_nonneg|apply normsq_nonneg]. revert E1. vunf. lra. }
  assert (I : nth_error (me_espherecentroids (pc_mesh_lab p)) 0 = Some (V3 7 1 (9/4))) by (rewrite H8, H9; reflexivity).
  assert (J : motion_call ex_motion (P1 (V3 7 1 (9/4))) (S0 0) = Ok (P1 (V3 7 1 (9/4)))).
  { rewrite call_P1_S0. do 2 f_equal. apply move_at_0. }
  assert (K : strictly_inside (b_halfspaces b) (V3 7 1 (9/4))) by (apply Hin; cbn [vx vy vz]; rewrite Rabs_right; lra).
  assert (T0 : 0 <= 0 <= 1) by lra.
  destruct (pC12_complete _ _ _ _ _ _ _ _ _ _ _ _ _ _ _ _ _ _ _ _ _ _ _ _ H3 ex_motion_ok unit_ez D A Oph B C T0 E F G I J K) as (row & Hr & _).
  assert (En : len (me_enod me) = 1%nat).
  { apply make_pc_inv in H2 as (tets & U & ep & pm & eB & _ & X & _ & _ & _ & Y). rewrite Y in H6. cbn [pc_U] in H6. cbn [instantiate_mats] in X. apply ok_inj in X. rewrite H6 in X. apply (f_equal (@List.length mat)) in X. now rewrite repeat_length in X. }
  exists false, big_qhull, (ex_xtal two_planes), ex_coord, ex_enod, me, [mI], [half_x], (fun _ => half_x), (fun _ j => Nat.modulo (j + 1) 2), [ex_phase], [0], p, b,
    (V3 0 0 1), 1, (V3 0 0 1), vzero, ex_motion, 0, 1, d, p', row.
  split; [exact H1|]. split; [repeat constructor|]. split.
  { rewrite <- H2. unfold make_polycrystal. cbn [instantiate_mats]. rewrite En. reflexivity. }
  split; [exact Hb|]. split; [apply ex_motion_ok|]. split; [apply unit_ez|]. split; [reflexivity|]. split.
  { intros [|e] U HU; cbn [nth_error] in *; [|destruct e; discriminate]. assert (U = mI) by congruence. subst U. f_equal. unfold half_x. veq. }
  split. { intros X. assert (Y : half_x = mI) by congruence. apply (f_equal (fun M => vy (r2 M))) in Y. cbn in Y. lra. }
  split; [exact D|]. split; [exact Hr|]. intros e i ph _ Hi. pose proof (ex_after two_planes p b ex_motion 0 1 H5) as EA. rewrite D in EA. cbn [snd] in EA. rewrite EA in Hi. cbn [pc_phases] in Hi.
  destruct i as [|[|i] ]; cbn [nth_error] in Hi; try discriminate. assert (EP : ph = setup_planes (ex_xtal two_planes) ex_phase (b_wavelength b) 0 1) by congruence. subst ph.
  exists two_planes. split; [reflexivity|]. split; [|split; [|exact Logic.I]].
  - change (Permutation [1%nat; 0%nat] [0%nat; 1%nat]). constructor.
  - change (x_form_b (ex_xtal two_planes) (ph_cell (setup_planes (ex_xtal two_planes) ex_phase (b_wavelength b) 0 1))) with mI.
    intros j h h' J1 J2. rewrite !mv_I. assert (EX : forall a c : vec, Some a = Some c -> a = c) by (intros; congruence).
    destruct j as [|[|j] ]; cbn in J1, J2; try (destruct j; discriminate); apply EX in J1, J2; subst h h'; unfold half_x; veq.
Qed.
