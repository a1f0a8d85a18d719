(** * Proofs: tables and pictures of two descriptions of the same crystals (C93, part 1). *)
From Verif Require Import Vec Spec MMotion PMotion MLaue PLaue MMesh SMesh PMesh MScattering SScattering PScattering.
From Verif Require Import MStrain SStrain PStrain MBeam SBeam PBeam MPolycrystal SPolycrystal SEvents PPolycrystal PPolycrystal2 PPolycrystal3 PEvents.
From Verif Require Import MDetector SDetector PDetector PDetector2 PDetector3 PDetector4 MClip MRender SRender PRender PRender2 PRender3 SEnd PEnd PEnd2 SJoin PJoin PJoin2 PJoin3 SNumber PNumber PNumber2 SCrystal.
From Coq Require Import Permutation.
Open Scope list_scope. Open Scope R_scope.
Local Notation len := List.length.

Lemma reflection_lab p b m l : lab_event p b m l -> reflection p (l_e l) (l_j l) (l_G l) (l_sf l).
Proof.
  intros (ph & A1 & (A2 & A3 & A4 & A5) & _). exists (l_i l), ph, (l_h l). repeat (split; [assumption|]). rewrite A4. eapply sfval_spec; eauto.
Qed.
Lemma lab_reflection p b m e j G sf t : reflection p e j G sf -> solves (laue_factors (b_wave_vector b) (m_axis m)) (m_angle m) G t ->
  exists l, lab_event p b m l /\ l_e l = e /\ l_j l = j /\ l_G l = G /\ l_sf l = sf /\ l_t l = t.
Proof.
  intros (i & ph & h & A1 & A2 & A3 & A4 & A5) S. exists (Lab i e j h sf t G). cbn [l_e l_j l_G l_sf l_t]. split; [|auto 6].
  exists ph. cbn [l_i l_G l_t]. split; auto. split; auto. unfold lab_ok. cbn [l_i l_e l_j l_h l_sf l_G].
  repeat (split; [assumption|]). split; auto. now apply (proj2 (sfval_spec p e j i ph h A1 A2 A3)).
Qed.
Definition twin (s : nat -> nat -> nat) (l l' : lab) : Prop :=
  l_e l' = l_e l /\ l_j l' = s (l_e l) (l_j l) /\ l_sf l' = l_sf l /\ l_t l' = l_t l /\ l_G l' = l_G l.
Lemma twin_to s p q b m l : same_crystals s p q -> lab_event p b m l -> exists l', lab_event q b m l' /\ twin s l l'.
Proof.
  intros (_ & _ & H & _) E. pose proof E as (ph & _ & _ & S). destruct (lab_reflection q b m _ _ _ _ _ (H _ _ _ _ (reflection_lab _ _ _ _ E)) S) as (l' & E' & H1 & H2 & H3 & H4 & H5).
  exists l'. split; auto. unfold twin. auto.
Qed.
Lemma twin_from s p q b m l' : same_crystals s p q -> lab_event q b m l' -> exists l, lab_event p b m l /\ twin s l l'.
Proof.
  intros (_ & _ & _ & _ & H) E. pose proof E as (ph & _ & _ & S). destruct (H _ _ _ _ (reflection_lab _ _ _ _ E)) as (j & Hj & R).
  destruct (lab_reflection p b m _ _ _ _ _ R S) as (l & E' & H1 & H2 & H3 & H4 & H5). exists l. split; auto. unfold twin. rewrite H1, H2. auto 6.
Qed.
Lemma twin_fun s q b m l l1 l2 : lab_event q b m l1 -> lab_event q b m l2 -> twin s l l1 -> twin s l l2 -> l1 = l2.
Proof. intros E1 E2 (A1 & A2 & A3 & A4 & _) (B1 & B2 & B3 & B4 & _). apply (lab_unique q b m); auto; congruence. Qed.
Lemma twin_inj s p q b m l l1 l' : same_crystals s p q -> lab_event p b m l -> lab_event p b m l1 -> twin s l l' -> twin s l1 l' -> l = l1.
Proof.
  intros (_ & _ & _ & H & _) E1 E2 (A1 & A2 & A3 & A4 & _) (B1 & B2 & B3 & B4 & _). apply (lab_unique p b m); try congruence.
  assert (EE : l_e l1 = l_e l) by congruence. apply (H (l_e l) (l_j l) (l_j l1) (l_G l) (l_G l1) (l_sf l) (l_sf l1)).
  - eapply reflection_lab; eauto. - rewrite <- EE. eapply reflection_lab; eauto. - congruence.
Qed.
(** Two lists without repetition whose members correspond one to one. *)
Lemma align {A B} (T : A -> B -> Prop) : forall (L : list A) (M : list B), NoDup L -> NoDup M ->
  (forall a, In a L -> exists b, In b M /\ T a b) -> (forall b, In b M -> exists a, In a L /\ T a b) ->
  (forall a b b', In b M -> In b' M -> T a b -> T a b' -> b = b') -> (forall a a' b, In a L -> In a' L -> T a b -> T a' b -> a = a') ->
  exists M', Permutation M M' /\ Forall2 T L M'.
Proof.
  induction L as [|a L IH]; intros M NL NM HT HF FU IN.
  - exists []. split; [|constructor]. destruct M as [|b M]; [constructor|]. destruct (HF b (or_introl eq_refl)) as (x & [] & _).
  - inversion NL as [|? ? Na NL']; subst. destruct (HT a (or_introl eq_refl)) as (b & Hb & Tab). apply in_split in Hb as (M1 & M2 & ->).
    assert (IM : forall y, In y (M1 ++ M2) -> In y (M1 ++ b :: M2)) by (intros y; rewrite !in_app_iff; cbn [In]; tauto).
    apply NoDup_remove in NM as [NM Nb].
    destruct (IH (M1 ++ M2) NL' NM) as (M' & P & F).
    + intros a' Ha'. destruct (HT a' (or_intror Ha')) as (b' & Hb' & T'). exists b'. split; auto.
      apply in_app_or in Hb'. apply in_or_app. destruct Hb' as [?|[E|?]]; auto. subst b'. exfalso. apply Na.
      rewrite (IN a a' b); auto; [now left|now right].
    + intros b' Hb'. destruct (HF b' (IM _ Hb')) as (a' & [E|Ha'] & T'); [|eauto]. subst a'. exfalso. apply Nb.
      rewrite (FU a b b'); auto. apply in_or_app. right. now left.
    + intros x y y' Hy Hy'. apply FU; auto.
    + intros x x' y Hx Hx'. apply IN; now right.
    + exists (b :: M'). split; [|now constructor]. rewrite <- P. symmetry. apply Permutation_middle.
Qed.
Lemma aligned_labels s p q b m (P Q : vec -> R -> Prop) L M : same_crystals s p q -> NoDup L -> NoDup M ->
  (forall G t, P G t <-> Q G t) ->
  (forall l, In l L <-> lab_event p b m l /\ P (l_G l) (l_t l)) -> (forall l, In l M <-> lab_event q b m l /\ Q (l_G l) (l_t l)) ->
  exists M', Permutation M M' /\ Forall2 (twin s) L M'.
Proof.
  intros S NL NM PQ IL IM. apply align; auto.
  - intros a Ha. apply IL in Ha as [Ea Pa]. destruct (twin_to _ _ _ _ _ _ S Ea) as (c & Ec & T). exists c. split; auto. apply IM. split; auto.
    destruct T as (_ & _ & _ & T4 & T5). rewrite T4, T5. now apply PQ.
  - intros c Hc. apply IM in Hc as [Ec Pc]. destruct (twin_from _ _ _ _ _ _ S Ec) as (a & Ea & T). exists a. split; auto. apply IL. split; auto.
    destruct T as (_ & _ & _ & T4 & T5). rewrite <- T4, <- T5. now apply PQ.
  - intros a c c' Hc Hc'. apply IM in Hc as [Ec _]. apply IM in Hc' as [Ec' _]. now apply (twin_fun s q b m).
  - intros a a' c Ha Ha'. apply IL in Ha as [Ea _]. apply IL in Ha' as [Ea' _]. now apply (twin_inj s p q b m).
Qed.
(** The tables of two descriptions of the same crystals, label by label. *)
Lemma crystal_labels z x s p q b a w T o m lo hi det lo' hi' det' pd pd' p' q' : make_motion a w T o = Ok m -> unit a ->
  diffract z x p b m lo hi det = (Ok pd, p') -> diffract z x q b m lo' hi' det' = (Ok pd', q') -> same_crystals s p' q' ->
  exists A B out out', pd_peaks pd = mapi (fun i r => r ++ [Fin (INR i)]) (filter (illuminated b) out) /\
    pd_peaks pd' = mapi (fun i r => r ++ [Fin (INR i)]) (filter (illuminated b) out') /\
    Permutation out (map (full24 z p' b m) A) /\ Permutation out' (map (full24 z q' b m) B) /\ Forall2 (twin s) A B.
Proof.
  intros Hm U D D' S. destruct (diffract_labels _ _ _ _ _ _ _ _ _ _ _ _ _ _ Hm U D) as (al & gr & out & T1 & P1 & N1 & N2 & I1 & I2).
  destruct (diffract_labels _ _ _ _ _ _ _ _ _ _ _ _ _ _ Hm U D') as (al' & gr' & out' & T1' & P1' & N1' & N2' & I1' & I2').
  destruct (aligned_labels s p' q' b m (fun _ _ => True) (fun _ _ => True) al al' S N1 N1') as (B1 & Q1 & F1); [tauto|intros; rewrite I1; tauto|intros; rewrite I1'; tauto|].
  set (g := fun G t => grazing (b_wave_vector b) a (rot_at m t G)).
  destruct (aligned_labels s p' q' b m g g gr gr' S N2 N2') as (B2 & Q2 & F2); [tauto|apply I2|apply I2'|].
  exists (al ++ gr), (B1 ++ B2), out, out'. repeat (split; [assumption|]). split; [|now apply Forall2_app].
  rewrite P1'. apply Permutation_map. now apply Permutation_app.
Qed.
Lemma full24_twin z s p q b m l l' : same_crystals s p q -> twin s l l' ->
  exists rest, len rest = 19%nat /\
    full24 z p b m l = Fin (INR (l_e l)) :: Fin (INR (l_i l)) :: Fin (vx (l_h l)) :: Fin (vy (l_h l)) :: Fin (vz (l_h l)) :: rest /\
    full24 z q b m l' = Fin (INR (l_e l)) :: Fin (INR (l_i l')) :: Fin (vx (l_h l')) :: Fin (vy (l_h l')) :: Fin (vz (l_h l')) :: rest.
Proof.
  intros (H1 & H2 & _) (T1 & _ & T3 & T4 & T5). unfold full24. rewrite H1, H2, T1.
  unfold full_row, lrow. cbv zeta. rewrite !rvec_row10. unfold row10, row24. cbn [map app]. rewrite T1, T3, T4, T5.
  eexists. split; [|split; [reflexivity|]]; [reflexivity|]. reflexivity.
Qed.
Lemma redescribed_rows pd pd' a b1 b2 b3 b4 c1 c2 c3 c4 rest u v : pd_columns pd = column_names -> pd_columns pd' = column_names -> len rest = 19%nat ->
  redescribed pd pd' ((a :: b1 :: b2 :: b3 :: b4 :: rest) ++ [u]) ((a :: c1 :: c2 :: c3 :: c4 :: rest) ++ [v]).
Proof.
  intros E E' L k Nk. unfold field. rewrite E, E'. destruct (index_of k column_names) as [j|] eqn:Ej; [|reflexivity].
  apply index_of_nth in Ej. pose proof (nth_error_lt' _ _ _ Ej) as Lt. change (len column_names) with 25%nat in Lt.
  assert (j <> 24%nat) by (intros ->; apply Nk; cbn in Ej; assert (k = "peak_index"%string) by congruence; subst k; cbn; tauto).
  destruct j as [|[|[|[|[|j] ] ] ] ]; [reflexivity| | | | |].
  1-4: exfalso; apply Nk; cbn in Ej; match type of Ej with Some ?s = Some _ => assert (k = s) by congruence; subst k; cbn; tauto end.
  cbn [app nth_error]. rewrite !nth_error_app1 by lia. reflexivity.
Qed.
Lemma columns_diffract z x p b m lo hi det pd p' : diffract z x p b m lo hi det = (Ok pd, p') -> pd_columns pd = column_names.
Proof. intros D. rewrite diffract_bounds in D. destruct (match det with None => _ | Some d => bragg_bounds p d b lo end) as [[l h]|]; [|discriminate].
  rewrite diffract_none in D. cbv zeta in D. pose proof (f_equal fst D) as F. cbn [fst] in F. destruct (compute_peaks z _ _ b m) as [rows|]; cbn [bind] in F; [|discriminate]. apply ok_inj in F. now subst pd.
Qed.
Lemma lit_rest5 b a b1 b2 b3 b4 c0 c1 c2 c3 c4 rest : illuminated b (a :: b1 :: b2 :: b3 :: b4 :: rest) = illuminated b (c0 :: c1 :: c2 :: c3 :: c4 :: rest).
Proof. reflexivity. Qed.
(** C93. The diffraction table depends on the crystals only through their volumes, centres and scattering vectors: two samples whose
    elements hold the same reflections (whatever the cells, Miller indices, orientations and strains that describe them) get the
    same rows, apart from the Miller indices, phase numbers and peak numbers; the order may differ. *)
Lemma pC93_same_table : forall z x s p q b a w T o m lo hi det lo' hi' det' pd pd' p' q', make_motion a w T o = Ok m -> unit a ->
  diffract z x p b m lo hi det = (Ok pd, p') -> diffract z x q b m lo' hi' det' = (Ok pd', q') -> same_crystals s p' q' ->
  exists rows', Permutation (pd_peaks pd') rows' /\ Forall2 (redescribed pd pd') (pd_peaks pd) rows'.
Proof.
  intros z x s p q b a w T o m lo hi det lo' hi' det' pd pd' p' q' Hm U D D' S.
  pose proof (columns_diffract _ _ _ _ _ _ _ _ _ _ D) as C. pose proof (columns_diffract _ _ _ _ _ _ _ _ _ _ D') as C'.
  destruct (crystal_labels _ _ _ _ _ _ _ _ _ _ _ _ _ _ _ _ _ _ _ _ _ Hm U D D' S) as (A & B & out & out' & T1 & T1' & P & P' & F).
  apply (perm_filter (illuminated b)) in P, P'.
  assert (FM : forall z pc L, filter (illuminated b) (map (full24 z pc b m) L) = map (full24 z pc b m) (filter (fun l => illuminated b (full24 z pc b m l)) L)).
  { clear. intros z pc L. induction L as [|l L IH]; [reflexivity|]. cbn [map filter]. destruct (illuminated b (full24 z pc b m l)); cbn [map]; now rewrite IH. }
  rewrite FM in P, P'. set (A0 := filter _ A) in P. set (B0 := filter _ B) in P'.
  assert (F0 : Forall2 (twin s) A0 B0).
  { unfold A0, B0. clear - F S. induction F as [|l l' A B T F IH]; [constructor|]. cbn [filter]. destruct (full24_twin z s p' q' b m l l' S T) as (rest & _ & E1 & E2).
    replace (illuminated b (full24 z q' b m l')) with (illuminated b (full24 z p' b m l)); [|rewrite E1, E2; apply lit_rest5].
    destruct (illuminated b (full24 z p' b m l)); [now constructor|exact IH]. }
  apply Permutation_map_inv in P as (A1 & EA & PA). rewrite EA in T1. clear EA.
  assert (F1 : exists B1, Permutation B0 B1 /\ Forall2 (twin s) A1 B1) by (destruct (Permutation_Forall2 PA F0) as (B1 & ? & ?); eauto).
  destruct F1 as (B1 & PB & F1).
  assert (P2 : Permutation (filter (illuminated b) out') (map (full24 z q' b m) B1)) by (rewrite P'; now apply Permutation_map).
  set (FF := fun i (r : list num) => r ++ [Fin (INR i)]) in *.
  destruct (Permutation_Forall2 P2 (forall2_mapi FF (filter (illuminated b) out'))) as (rows & PR & FR). rewrite <- T1' in PR.
  exists rows. split; [exact PR|]. rewrite T1. clear - F1 FR C C' S. unfold mapi. generalize 0%nat. revert rows FR.
  induction F1 as [|l l' A1 B1 T F1 IH]; intros rows FR n; cbn [map] in FR.
  - inversion FR. constructor.
  - inversion FR as [|y r ys rows' (k & ->) FR']. subst. cbn [map mapi_from]. constructor; [|now apply IH].
    destruct (full24_twin z s p' q' b m l l' S T) as (rest & L & E1 & E2). unfold FF. rewrite E1, E2. now apply redescribed_rows.
Qed.
(** ... and the pictures are the same. *)
Lemma pC93_same_picture : forall e z x s p q b a w T o m lo hi det lo' hi' det' pd pd' p' q' d frames ml mi im im' out out',
  make_motion a w T o = Ok m -> unit a -> reachable_pc x p -> reachable_pc x q ->
  diffract z x p b m lo hi det = (Ok pd, p') -> diffract z x q b m lo' hi' det' = (Ok pd', q') -> same_crystals s p' q' ->
  render e d pd frames "micro" ml mi = Ok (im, out) -> render e d pd' frames "micro" ml mi = Ok (im', out') ->
  same_image im' im.
Proof.
  intros e z x s p q b a w T o m lo hi det lo' hi' det' pd pd' p' q' d frames ml mi im im' out out' Hm U R R' D D' S I I'.
  destruct (crystal_labels _ _ _ _ _ _ _ _ _ _ _ _ _ _ _ _ _ _ _ _ _ Hm U D D' S) as (A & B & o1 & o2 & T1 & T1' & P & P' & F).
  pose proof (picture_labels _ _ _ _ _ _ _ _ _ _ _ _ _ _ _ _ _ _ _ R D I T1 P) as F1.
  pose proof (picture_labels _ _ _ _ _ _ _ _ _ _ _ _ _ _ _ _ _ _ _ R' D' I' T1' P') as F2.
  destruct (pC36_shape _ _ _ _ _ _ _ _ _ I) as (S11 & S12 & S13). destruct (pC36_shape _ _ _ _ _ _ _ _ _ I') as (S21 & S22 & S23).
  split; [repeat split; congruence|]. intros f i j Hij. assert (H2 : in_image im' f i j) by (unfold in_image in *; rewrite S21, S22, S23; rewrite S11, S12, S13 in Hij; exact Hij).
  rewrite (F1 f i j Hij), (F2 f i j H2). apply (f_equal Fin), (f_equal sum_list). clear - F S.
  induction F as [|l l' A B TW F IH]; [reflexivity|]. cbn [map]. f_equal; [|exact IH]. pose proof S as (V & C & _). pose proof TW as (H1 & H2 & H3 & H4 & H5). symmetry. apply l_spot_ext.
  - unfold l_K. now rewrite H4, H5.
  - unfold l_src. now rewrite C, H1, H4.
  - unfold l_vol. now rewrite V, H1.
  - unfold l_int. destruct (full24_twin z s p' q' b m l l' S TW) as (rest & L & E1 & E2). rewrite E1, E2. reflexivity.
  - now rewrite H4.
Qed.
(** ... this stays so when both samples are moved in the same way. *)
Lemma pC93_stays_same : forall s p q m t, same_crystals s p q -> same_crystals s (transform p m t) (transform q m t).
Proof.
  intros s p q m t (H1 & H2 & H3 & H4 & H5).
  assert (RT : forall p e j G sf, reflection (transform p m t) e j G sf <-> exists G0, reflection p e j G0 sf /\ G = mv (rod_matrix (m_axis m) (m_angle m * t)) G0).
  { clear. intros p e j G sf. unfold reflection, scattering_vector, squared_factor, in_phase, transform. cbn [pc_map pc_phases pc_U pc_eB]. split.
    - intros (i & ph & h & A1 & A2 & A3 & (U & B & E1 & E2 & ->) & A5). rewrite nth_error_map in E1. destruct (nth_error (pc_U p) e) as [U0|] eqn:EU; [|discriminate]. cbn [option_map] in E1.
      assert (EQ : U = mm (rod_matrix (m_axis m) (m_angle m * t)) U0) by congruence. subst U.
      exists (mv U0 (mv B h)). split; [|now rewrite mv_mm]. exists i, ph, h. repeat (split; [assumption|]). split; auto. exists U0, B. auto.
    - intros (G0 & (i & ph & h & A1 & A2 & A3 & (U & B & E1 & E2 & ->) & A5) & ->). exists i, ph, h. repeat (split; [assumption|]). split; auto.
      exists (mm (rod_matrix (m_axis m) (m_angle m * t)) U), B. rewrite nth_error_map, E1. split; auto. split; auto. now rewrite mv_mm. }
  split; [exact H1|]. split; [unfold transform, mesh_update; cbn [pc_mesh_lab me_espherecentroids]; now rewrite H2|]. split; [|split].
  - intros e j G sf HR. apply RT in HR as (G0 & HR & ->). apply RT. eauto.
  - intros e j j' G G' sf sf' HR HR'. apply RT in HR as (G0 & HR & ->). apply RT in HR' as (G0' & HR' & ->). eapply H4; eauto.
  - intros e j G sf HR. apply RT in HR as (G0 & HR & ->). destruct (H5 _ _ _ _ HR) as (j' & -> & HR'). exists j'. split; auto. apply RT. eauto.
Qed.
