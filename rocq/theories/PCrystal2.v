(** * Proofs: symmetry-equivalent orientations of unstrained and strained crystals (C93, part 2). *)
From Verif Require Import Vec Spec MMotion PMotion MLaue PLaue MMesh SMesh PMesh MScattering SScattering PScattering.
From Verif Require Import MStrain SStrain PStrain MBeam SBeam PBeam MPolycrystal SPolycrystal SEvents PPolycrystal PPolycrystal2 PPolycrystal3 PEvents.
From Verif Require Import MDetector SDetector PDetector PDetector2 PDetector3 PDetector4 MClip MRender SRender PRender PRender2 PRender3 SEnd PEnd PEnd2 SJoin PJoin PJoin2 PJoin3 PJoin4 SNumber PNumber PNumber2 PNumber3 SCrystal PCrystal.
From Coq Require Import Permutation.
Open Scope list_scope. Open Scope R_scope.
Local Notation len := List.length.

(** ** The same number of rows, so the same outcome *)
Lemma rows_labels p b m rows : let rho := laue_factors (b_wave_vector b) (m_axis m) in
  rows10 p (pc_phases p) rho (m_angle m) = Ok rows -> exists L1 L2, len rows = (len L1 + len L2)%nat /\ NoDup L1 /\ NoDup L2 /\
  (forall l, In l L1 <-> lab_event p b m l /\ in_unit_interval (fst (laue_candidates rho (m_angle m) (l_G l))) = Some (l_t l)) /\
  (forall l, In l L2 <-> lab_event p b m l /\ in_unit_interval (snd (laue_candidates rho (m_angle m) (l_G l))) = Some (l_t l)).
Proof.
  intros rho H. unfold rows10 in H. destruct (traverse _ _) as [parts|] eqn:ET; cbn [bind] in H; [|discriminate]. apply ok_inj in H.
  assert (NX : NoDup (map fst (combine (seq 0 (len (pc_phases p))) (pc_phases p)))).
  { assert (G : forall (l : list phase) s, map fst (combine (seq s (len l)) l) = seq s (len l)) by (induction l; intros; cbn; congruence).
    rewrite G. apply seq_NoDup. }
  destruct (phases_labels _ _ _ _ NX _ ET) as (L1 & L2 & P & N1 & N2 & I1 & I2). exists L1, L2.
  split; [rewrite <- H, (Permutation_length P), map_length, app_length; reflexivity|]. split; auto. split; auto. fold rho in I1, I2.
  split; intros l; [rewrite I1|rewrite I2]; unfold lab_sel, lab_event; fold rho; split.
  - intros (ph & A1 & A2 & A3). apply combine_seq_in in A1. split; auto. exists ph. split; auto. split; auto. apply in_unit_spec in A3. unfold solves. tauto.
  - intros ((ph & A1 & A2 & _) & A3). exists ph. split; auto. now apply combine_seq_in.
  - intros (ph & A1 & A2 & A3). apply combine_seq_in in A1. split; auto. exists ph. split; auto. split; auto. apply in_unit_spec in A3. unfold solves. tauto.
  - intros ((ph & A1 & A2 & _) & A3). exists ph. split; auto. now apply combine_seq_in.
Qed.
Lemma same_row_count s p q b m r r' : let rho := laue_factors (b_wave_vector b) (m_axis m) in same_crystals s p q ->
  rows10 p (pc_phases p) rho (m_angle m) = Ok r -> rows10 q (pc_phases q) rho (m_angle m) = Ok r' -> len r' = len r.
Proof.
  intros rho S H H'. destruct (rows_labels p b m r H) as (A1 & A2 & LA & N1 & N2 & I1 & I2). destruct (rows_labels q b m r' H') as (B1 & B2 & LB & M1 & M2 & J1 & J2).
  fold rho in I1, I2, J1, J2.
  set (P1 := fun G t => in_unit_interval (fst (laue_candidates rho (m_angle m) G)) = Some t). set (P2 := fun G t => in_unit_interval (snd (laue_candidates rho (m_angle m) G)) = Some t).
  destruct (aligned_labels s p q b m P1 P1 A1 B1 S N1 M1) as (C1 & Q1 & F1); [tauto|exact I1|exact J1|].
  destruct (aligned_labels s p q b m P2 P2 A2 B2 S N2 M2) as (C2 & Q2 & F2); [tauto|exact I2|exact J2|].
  rewrite LA, LB, (Permutation_length Q1), (Permutation_length Q2), (Forall2_len _ _ _ F1), (Forall2_len _ _ _ F2). reflexivity.
Qed.
Lemma same_returns z x s p q b m l out : wf x q -> pc_map q = MapTensor l -> pc_phases q = pc_phases p -> same_crystals s p q ->
  compute_peaks z p (pc_phases p) b m = Ok out -> exists out', compute_peaks z q (pc_phases q) b m = Ok out'.
Proof.
  intros W EM EP S H. apply compute_peaks_inv in H as (rows & cents & vols & E1 & E2 & E3 & N & _).
  destruct (rows10_total x q (pc_phases q) (laue_factors (b_wave_vector b) (m_axis m)) (m_angle m) l W EM eq_refl) as (rows' & R').
  { intros ph Hin. rewrite EP in Hin. eapply rows10_used; eauto. }
  pose proof (same_row_count s p q b m rows rows' S E1 R') as L.
  assert (G : forall r, In r rows' -> (grain_of r < len (pc_volumes q))%nat).
  { intros r Hr. apply (rows10_in _ _ _ _ _ r R') in Hr as (i & ph & Hi & e0 & h & sf & t & G0 & He & _ & _ & _ & ->).
    rewrite grain_of_row10. destruct W as (_ & _ & _ & _ & W5' & _). apply (W5' e0 i); auto. apply nth_error_lt' in Hi. exact Hi. }
  destruct (gather_total (me_espherecentroids (pc_mesh_lab q)) (map grain_of rows')) as (c & K2).
  { intros g Hg. apply in_map_iff in Hg as (r & <- & Hr). destruct W as (_ & _ & _ & W4 & _). rewrite W4. auto. }
  destruct (gather_total (pc_volumes q) (map grain_of rows')) as (v & K3).
  { intros g Hg. apply in_map_iff in Hg as (r & <- & Hr). auto. }
  rewrite (compute_peaks_rows z q (pc_phases q) b m rows' c v R' K2 K3), L. destruct (Nat.eqb_spec (len rows) 1); [contradiction|eauto].
Qed.

(** ** Unstrained samples *)
Lemma zero_lattice B0 U : lattice_ok B0 (crystal_strain U mzero) B0.
Proof.
  pose proof (pC20_zero_strain B0 U) as H. pose proof (lab_admits _ _ _ _ H) as A. cbn [combine] in A. apply Forall_inv in A. cbn [fst snd] in A. split; [exact A|].
  apply lab_inv in H as (_ & F). cbn [combine map] in F. inversion F as [|? ? ? ? F1 F2]. exact F1.
Qed.
Lemma unstrained_sample x me Us phs mp : len Us = len (me_enod me) -> (forall e i ph, nth_error phs i = Some ph -> nth_error mp e = Some (INR i) -> (e < len (me_enod me))%nat) ->
  (exists tets, traverse (gather_tet (me_coord me)) (me_enod me) = Ok tets) ->
  exists q, make_polycrystal x me (Stack Us) (One mzero) phs (Some mp) = Ok q.
Proof.
  intros L K (tets & T). unfold make_polycrystal. rewrite T. cbn [bind instantiate_mats instantiate_phase]. rewrite L, Nat.eqb_refl. cbn [bind]. unfold instantiate_eB. cbn [map_values].
  destruct (eB_total x Us (repeat mzero (len (me_enod me))) mp) with (phs := phs) (i := 0%nat) (eB := repeat mzero (len (me_enod me))) as (out & E).
  - now rewrite repeat_length.
  - intros e j ph Hj He. cbn [Nat.add] in He. specialize (K e j ph Hj He). rewrite <- L in K. destruct (nth_error Us e) as [u|] eqn:Eu; [|apply nth_error_None in Eu; lia].
    exists u, mzero, (x_form_b x (ph_cell ph)). split; auto. split; [rewrite L in K; now apply nth_error_repeat|apply zero_lattice].
  - rewrite E. cbn [bind]. eauto.
Qed.
Lemma unstrained_inv x me Us phs mp p : make_polycrystal x me (Stack Us) (One mzero) phs (Some mp) = Ok p ->
  pc_U p = Us /\ len Us = len (me_enod me) /\ pc_map p = MapTensor mp /\ pc_phases p = phs /\ pc_mesh_lab p = me /\
  (exists tets, traverse (gather_tet (me_coord me)) (me_enod me) = Ok tets /\ pc_volumes p = map tet_volume tets) /\
  (forall e i ph, nth_error phs i = Some ph -> nth_error mp e = Some (INR i) -> (e < len (me_enod me))%nat /\ nth_error (pc_eB p) e = Some (x_form_b x (ph_cell ph))).
Proof.
  intros H. apply make_pc_inv in H as (tets & U & eps & pm & eB & E0 & E1 & E2 & E3 & E4 & ->). cbn [pc_U pc_map pc_phases pc_mesh_lab pc_volumes pc_eB].
  cbn [instantiate_mats] in E1, E2. destruct (Nat.eqb_spec (len Us) (len (me_enod me))) as [L|]; [|discriminate]. apply ok_inj in E1, E2. subst U eps.
  cbn [instantiate_phase] in E3. apply ok_inj in E3. subst pm. unfold instantiate_eB in E4. cbn [map_values] in E4.
  repeat (split; [solve [auto]|]). split; [eauto|]. intros e i ph Hi He.
  destruct (eB_admits _ _ _ _ _ _ _ _ e i ph E4 Hi He) as (u & ep & Hu & Hep & _). assert (Lt : (e < len (me_enod me))%nat) by (rewrite <- L; eapply nth_error_lt'; eauto). split; auto.
  destruct (eB_loop_in x Us (repeat mzero (len (me_enod me))) mp phs 0 (repeat mzero (len (me_enod me))) eB e i ph u ep E4 Hi He) as (B & HB & EB); auto; try (rewrite repeat_length; auto).
  rewrite HB. f_equal. assert (ep = mzero) by (rewrite nth_error_repeat in Hep by auto; congruence). subst ep. destruct (zero_lattice (x_form_b x (ph_cell ph)) u) as [_ Z]. rewrite Z in EB. apply ok_inj in EB. congruence.
Qed.
Lemma perm_planes sg n : Permutation (map sg (seq 0 n)) (seq 0 n) ->
  (forall j, (j < n)%nat -> (sg j < n)%nat) /\ (forall j j', (j < n)%nat -> (j' < n)%nat -> sg j = sg j' -> j = j') /\
  (forall j, (j < n)%nat -> exists j', (j' < n)%nat /\ j = sg j').
Proof.
  intros P. split; [|split].
  - intros j Hj. assert (In (sg j) (seq 0 n)) by (apply (Permutation_in _ P), in_map, in_seq; lia). rewrite in_seq in H. lia.
  - intros j j' Hj Hj' E. assert (N : NoDup (map sg (seq 0 n))) by (apply (Permutation_NoDup (Permutation_sym P)), seq_NoDup).
    rewrite NoDup_nth_error in N. assert (X : j = j'); [|exact X]. apply N; [rewrite map_length, seq_length; lia|].
    rewrite !nth_error_map. assert (S : forall k, (k < n)%nat -> nth_error (seq 0 n) k = Some k).
    { intros k Hk. rewrite (nth_error_nth' _ 0%nat) by (rewrite seq_length; lia). now rewrite seq_nth. } rewrite !S by auto. cbn [option_map]. now rewrite E.
  - intros j Hj. assert (H : In j (map sg (seq 0 n))) by (apply (Permutation_in _ (Permutation_sym P)), in_seq; lia). apply in_map_iff in H as (j' & <- & H). apply in_seq in H. exists j'. split; auto. lia.
Qed.
Lemma symmetric_crystals x me Us Us' (Ss : nat -> mat) sg phs mp p q b lo hi :
  make_polycrystal x me (Stack Us) (One mzero) phs (Some mp) = Ok p -> make_polycrystal x me (Stack Us') (One mzero) phs (Some mp) = Ok q ->
  (forall e U, nth_error Us e = Some U -> nth_error Us' e = Some (mm U (Ss e))) ->
  (forall e i ph, nth_error mp e = Some (INR i) -> nth_error (pc_phases (setup_all x p b lo hi)) i = Some ph ->
     (forall s, ph_sf ph = Some s -> exists hkl, ph_hkl ph = Some hkl /\ len s = len hkl) ->
     lattice_symmetry (sg e) (x_form_b x (ph_cell ph)) ph (Ss e)) ->
  (forall ph, In ph (pc_phases (setup_all x p b lo hi)) -> exists planes, used_planes ph = Ok planes) ->
  same_crystals sg (setup_all x p b lo hi) (setup_all x q b lo hi).
Proof.
  intros Hp Hq HU HS HP. apply unstrained_inv in Hp as (P1 & P2 & P3 & P4 & P5 & (tets & P6 & P7) & P8). apply unstrained_inv in Hq as (Q1 & Q2 & Q3 & Q4 & Q5 & (tets' & Q6 & Q7) & Q8).
  set (p1 := setup_all x p b lo hi) in *. set (q1 := setup_all x q b lo hi) in *.
  assert (EQ : pc_phases q1 = pc_phases p1) by (unfold p1, q1, setup_all; cbn [pc_phases]; congruence).
  assert (EM : forall e i, in_phase q1 e i <-> in_phase p1 e i) by (intros e i; unfold in_phase, p1, q1, setup_all; cbn [pc_map]; rewrite P3, Q3; tauto).
  assert (EP : forall e i, in_phase p1 e i <-> nth_error mp e = Some (INR i)) by (intros e i; unfold in_phase, p1, setup_all; cbn [pc_map]; rewrite P3; tauto).
  assert (BP : forall e i ph, nth_error (pc_phases p1) i = Some ph -> nth_error mp e = Some (INR i) -> nth_error (pc_eB p1) e = Some (x_form_b x (ph_cell ph)) /\ nth_error (pc_eB q1) e = Some (x_form_b x (ph_cell ph))).
  { intros e i ph Hi He. unfold p1, q1, setup_all in *. cbn [pc_phases pc_eB] in *. rewrite P4, nth_error_map in Hi. destruct (nth_error phs i) as [ph0|] eqn:E0; [|discriminate]. cbn [option_map] in Hi.
    assert (E : ph = setup_planes x ph0 (b_wavelength b) lo hi) by congruence. subst ph. cbn [setup_planes ph_cell]. split; [apply (P8 e i)|apply (Q8 e i)]; auto. }
  assert (UP : pc_U p1 = Us) by exact P1. assert (UQ : pc_U q1 = Us') by exact Q1.
  assert (SQ : forall e j sf, squared_factor q1 e j sf <-> squared_factor p1 e j sf).
  { intros e j sf. unfold squared_factor. rewrite EQ. split; intros (i & ph & A1 & A2 & A3); exists i, ph; (split; [now apply EM|auto]). }
  assert (LS : forall e i ph, in_phase p1 e i -> nth_error (pc_phases p1) i = Some ph -> exists hkl, ph_hkl ph = Some hkl /\
     (forall s, ph_sf ph = Some s -> len s = len hkl) /\ Permutation (map (sg e) (seq 0 (len hkl))) (seq 0 (len hkl)) /\
     (forall j h h', nth_error hkl j = Some h -> nth_error hkl (sg e j) = Some h' -> mv (Ss e) (mv (x_form_b x (ph_cell ph)) h') = mv (x_form_b x (ph_cell ph)) h) /\
     match ph_sf ph with None => True | Some f => forall j re im re' im', nth_error f j = Some (re, im) -> nth_error f (sg e j) = Some (re', im') -> re'^2 + im'^2 = re^2 + im^2 end).
  { intros e i ph He Hi. assert (LL : forall s, ph_sf ph = Some s -> exists hkl, ph_hkl ph = Some hkl /\ len s = len hkl).
    { intros s Hs. destruct (HP ph (nth_error_In _ _ Hi)) as (pl & Hpl). unfold used_planes in Hpl. destruct (ph_hkl ph) as [hkl|]; [|discriminate]. rewrite Hs in Hpl. destruct (Nat.eqb_spec (len s) (len hkl)); [eauto|discriminate]. }
    destruct (HS e i ph (proj1 (EP e i) He) Hi LL) as (hkl & H1 & H2 & H3 & H4). exists hkl. split; auto. split; [|auto]. intros s Hs. destruct (LL s Hs) as (hkl' & E & L). congruence. }
  (* one plane to the other, in both directions *)
  assert (GO : forall e i ph h h' hkl j, nth_error mp e = Some (INR i) -> nth_error (pc_phases p1) i = Some ph -> ph_hkl ph = Some hkl -> nth_error hkl j = Some h -> nth_error hkl (sg e j) = Some h' ->
     forall G, scattering_vector p1 e h G <-> scattering_vector q1 e h' G).
  { intros e i ph h h' hkl j He Hi Hk Hj Hj' G. destruct (BP e i ph Hi He) as [B1 B2]. destruct (LS e i ph (proj2 (EP e i) He) Hi) as (hkl0 & E0 & _ & _ & L3 & _).
    assert (hkl0 = hkl) by congruence. subst hkl0. specialize (L3 j h h' Hj Hj'). unfold scattering_vector. rewrite UP, UQ, B1, B2. split.
    - intros (U & B & X1 & X2 & ->). exists (mm U (Ss e)), B. split; [now apply HU|]. split; auto. assert (B = x_form_b x (ph_cell ph)) by congruence. subst B. rewrite mv_mm, L3. reflexivity.
    - intros (U' & B & X1 & X2 & ->). assert (Lt : (e < len Us)%nat) by (rewrite P2, <- Q2; eapply nth_error_lt'; eauto). destruct (nth_error Us e) as [U|] eqn:EU; [|apply nth_error_None in EU; lia].
      exists U, B. split; auto. split; auto. assert (U' = mm U (Ss e)) by (specialize (HU e U EU); congruence). subst U'. assert (B = x_form_b x (ph_cell ph)) by congruence. subst B. rewrite mv_mm, L3. reflexivity. }
  assert (GS : forall e i ph hkl j, in_phase p1 e i -> nth_error (pc_phases p1) i = Some ph -> ph_hkl ph = Some hkl -> (j < len hkl)%nat -> (sg e j < len hkl)%nat ->
     (forall s re im, ph_sf ph = Some s -> nth_error s j = Some (re, im) -> exists re' im', nth_error s (sg e j) = Some (re', im') /\ re'^2 + im'^2 = re^2 + im^2) /\
     (forall s re im, ph_sf ph = Some s -> nth_error s (sg e j) = Some (re, im) -> exists re' im', nth_error s j = Some (re', im') /\ re'^2 + im'^2 = re^2 + im^2)).
  { intros e i ph hkl j He Hi Hk Hj Hj'. destruct (LS e i ph He Hi) as (hkl0 & E0 & L1 & _ & _ & L4). assert (hkl0 = hkl) by congruence. subst hkl0.
    split; intros s re im Hs Hn; rewrite Hs in L4; specialize (L1 s Hs).
    - destruct (nth_error s (sg e j)) as [[re' im']|] eqn:E; [|apply nth_error_None in E; lia]. exists re', im'. split; auto. eapply L4; eauto.
    - destruct (nth_error s j) as [[re' im']|] eqn:E; [|apply nth_error_None in E; lia]. exists re', im'. split; auto. symmetry. eapply L4; eauto. }
  split; [unfold p1, q1, setup_all; cbn [pc_volumes]; congruence|]. split; [unfold p1, q1, setup_all; cbn [pc_mesh_lab]; congruence|]. split; [|split].
  - intros e j G sf (i & ph & h & A1 & A2 & (hkl & K1 & K2 & K3) & A4 & (i' & ph' & F1 & F2 & F3)). pose proof (in_phase_fun _ _ _ _ A1 F1). subst i'. assert (ph' = ph) by congruence. subst ph'.
    destruct (LS e i ph A1 A2) as (hkl0 & E0 & L1 & L2 & L3 & L4). assert (hkl0 = hkl) by congruence. subst hkl0. apply perm_planes in L2 as (R1 & _ & _).
    pose proof (nth_error_lt' _ _ _ K2) as Lj. pose proof (R1 _ Lj) as Lj'. destruct (nth_error hkl (sg e j)) as [h'|] eqn:Eh; [|apply nth_error_None in Eh; lia].
    destruct (GS e i ph hkl j A1 A2 K1 Lj Lj') as [G1 _]. exists i, ph, h'. split; [now apply EM|]. rewrite EQ. split; auto. split.
    { exists hkl. split; auto. split; auto. destruct (ph_sf ph) as [s|] eqn:Es; auto. destruct K3 as (re & im & N1 & N2). destruct (G1 s re im eq_refl N1) as (re' & im' & N3 & N4). exists re', im'. split; auto. lra. }
    split; [apply (GO e i ph h h' hkl j); auto; now apply EP|]. apply SQ. exists i, ph. split; auto. split; auto. destruct (ph_sf ph) as [s|] eqn:Es; auto.
    destruct F3 as (re & im & N1 & N2). destruct (G1 s re im eq_refl N1) as (re' & im' & N3 & N4). exists re', im'. split; auto. lra.
  - intros e j j' G G' sf sf' (i & ph & h & A1 & A2 & (hkl & K1 & K2 & _) & _) (i' & ph' & h' & A1' & A2' & (hkl' & K1' & K2' & _) & _) E.
    pose proof (in_phase_fun _ _ _ _ A1 A1'). subst i'. assert (ph' = ph) by congruence. subst ph'. assert (hkl' = hkl) by congruence. subst hkl'.
    destruct (LS e i ph A1 A2) as (hkl0 & E0 & L1 & L2 & L3 & L4). assert (hkl0 = hkl) by congruence. subst hkl0. apply perm_planes in L2 as (_ & R2 & _). apply R2; auto; eapply nth_error_lt'; eauto.
  - intros e j G sf (i & ph & h' & A1 & A2 & (hkl & K1 & K2 & K3) & A4 & A5). rewrite EQ in A2. apply EM in A1. apply SQ in A5 as (i' & ph' & F1 & F2 & F3). pose proof (in_phase_fun _ _ _ _ A1 F1). subst i'. assert (ph' = ph) by congruence. subst ph'.
    destruct (LS e i ph A1 A2) as (hkl0 & E0 & L1 & L2 & L3 & L4). assert (hkl0 = hkl) by congruence. subst hkl0. apply perm_planes in L2 as (R1 & _ & R3).
    pose proof (nth_error_lt' _ _ _ K2) as Lj'. destruct (R3 _ Lj') as (j0 & Lj & ->). exists j0. split; auto. destruct (nth_error hkl j0) as [h|] eqn:Eh; [|apply nth_error_None in Eh; lia].
    destruct (GS e i ph hkl j0 A1 A2 K1 Lj Lj') as [_ G1]. exists i, ph, h. split; auto. split; auto. split.
    { exists hkl. split; auto. split; auto. destruct (ph_sf ph) as [s|] eqn:Es; auto. destruct K3 as (re & im & N1 & N2). destruct (G1 s re im eq_refl N1) as (re' & im' & N3 & N4). exists re', im'. split; auto. lra. }
    split; [apply (GO e i ph h h' hkl j0); auto; now apply EP|]. exists i, ph. split; auto. split; auto. destruct (ph_sf ph) as [s|] eqn:Es; auto.
    destruct F3 as (re & im & N1 & N2). destruct (G1 s re im eq_refl N1) as (re' & im' & N3 & N4). exists re', im'. split; auto. lra.
Qed.
(** ... in particular, turning the crystal of any element by a symmetry operation of its (unstrained) lattice gives a sample that can
    be built and diffracts in the same way. *)
Lemma pC93_symmetry_equivalent : forall z x coord enod me Us Us' Ss sg phs mp p b m lo hi det pd p',
  build_mesh coord enod = Ok me -> Forall (reachable_phase x) phs ->
  make_polycrystal x me (Stack Us) (One mzero) phs (Some mp) = Ok p ->
  List.length Us' = List.length Us -> (forall e U, nth_error Us e = Some U -> nth_error Us' e = Some (mm U (Ss e))) ->
  diffract z x p b m lo hi det = (Ok pd, p') ->
  (forall e i ph, in_phase p' e i -> nth_error (pc_phases p') i = Some ph -> lattice_symmetry (sg e) (x_form_b x (ph_cell ph)) ph (Ss e)) ->
  exists q pd' q', make_polycrystal x me (Stack Us') (One mzero) phs (Some mp) = Ok q /\ reachable_pc x q /\
    diffract z x q b m lo hi det = (Ok pd', q') /\ same_crystals sg p' q'.
Proof.
  intros z x coord enod me Us Us' Ss sg phs mp p b m lo hi det pd p' Hb Hph Hp HL HU D HS.
  pose proof (unstrained_inv _ _ _ _ _ _ Hp) as (P1 & P2 & P3 & P4 & P5 & (tets & P6 & P7) & P8).
  destruct (unstrained_sample x me Us' phs mp) as (q & Hq); [lia|intros e i ph Hi He; apply (P8 e i ph Hi He)|eauto|].
  pose proof (unstrained_inv _ _ _ _ _ _ Hq) as (Q1 & Q2 & Q3 & Q4 & Q5 & (tets' & Q6 & Q7) & Q8).
  assert (R : reachable_pc x q) by (apply (rpc_make _ coord enod me [] me (Stack Us') (One mzero) phs (Some mp) q); auto).
  exists q. rewrite diffract_bounds in D |- *.
  assert (EB : match det with None => Ok (lo, hi) | Some d => bragg_bounds q d b lo end = match det with None => Ok (lo, hi) | Some d => bragg_bounds p d b lo end).
  { destruct det; [|reflexivity]. unfold bragg_bounds, bragg_source. now rewrite P5, Q5. }
  rewrite EB. destruct (match det with None => _ | Some d => bragg_bounds p d b lo end) as [[l h]|]; [|discriminate]. clear EB.
  rewrite diffract_none in D |- *. cbv zeta in D |- *. pose proof (f_equal fst D) as F. pose proof (f_equal snd D) as E'. clear D. cbn [fst snd] in F, E'. subst p'.
  destruct (compute_peaks z _ _ b m) as [out|] eqn:C in F; cbn [bind] in F; [|discriminate].
  assert (S : same_crystals sg (setup_all x p b l h) (setup_all x q b l h)).
  { apply (symmetric_crystals x me Us Us' Ss sg phs mp); auto.
    - intros e i ph He Hi _. apply (HS e i ph); auto. unfold in_phase, setup_all. cbn [pc_map]. now rewrite P3.
    - intros ph Hin. apply compute_peaks_inv in C as (rows & _ & _ & E1 & _). eapply rows10_used; eauto. }
  destruct (same_returns z x sg (setup_all x p b l h) (setup_all x q b l h) b m mp out) as (out' & C'); auto.
  { now apply wf_setup, wf_reachable. } { unfold setup_all. cbn [pc_phases]. congruence. }
  rewrite C'. cbn [bind]. eexists. eexists. split; [exact Hq|]. split; [exact R|]. split; [reflexivity|exact S].
Qed.
