(** * Proofs: tables and pictures of a renumbered sample (C91). *)
From Verif Require Import Vec Spec MMotion PMotion MLaue PLaue MMesh SMesh PMesh MScattering SScattering PScattering.
From Verif Require Import MStrain SStrain PStrain MBeam SBeam PBeam MPolycrystal SPolycrystal SEvents PPolycrystal PPolycrystal2 PPolycrystal3 PEvents.
From Verif Require Import MDetector SDetector PDetector PDetector2 PDetector3 PDetector4 MClip MRender SRender PRender PRender2 PRender3 SEnd PEnd PEnd2 SJoin PJoin PJoin2 PJoin3 SNumber PNumber.
From Coq Require Import Permutation.
Open Scope list_scope. Open Scope R_scope.
Local Notation len := List.length.

Lemma diffract_bounds z x p b m lo hi det : diffract z x p b m lo hi det =
  match (match det with None => Ok (lo, hi) | Some d => bragg_bounds p d b lo end) with
  | Err e => (Err e, p) | Ok (l, h) => diffract z x p b m l h None end.
Proof. unfold diffract. destruct det as [d|]; [|reflexivity]. destruct (bragg_bounds p d b lo) as [[l h]|]; reflexivity. Qed.
Lemma vsum_perm l l' : Permutation l l' -> fold_right vadd vzero l = fold_right vadd vzero l'.
Proof.
  intros P. induction P; cbn [fold_right]; [reflexivity|now rewrite IHP| |congruence].
  generalize (fold_right vadd vzero l). intros v. clear. destruct x, y, v. vunf. f_equal; ring.
Qed.
Lemma mean_perm l l' : Permutation l l' -> mean_list l = mean_list l'.
Proof. intros P. unfold mean_list. now rewrite (vsum_perm _ _ P), (Permutation_length P). Qed.
Lemma bounds_number s u p q d b lo : renumbered s u p q -> bragg_bounds q d b lo = bragg_bounds p d b lo.
Proof.
  intros (_ & _ & _ & _ & _ & _ & _ & H6 & H7 & _). unfold bragg_bounds. replace (bragg_source q b) with (bragg_source p b); [reflexivity|].
  unfold bragg_source. rewrite H7. pose proof (perm_filter (beam_contains (b_halfspaces b)) _ _ H6) as P.
  destruct (filter _ (me_coord (pc_mesh_lab p))) as [|v l] eqn:E1, (filter _ (me_coord (pc_mesh_lab q))) as [|v' l'] eqn:E2; auto.
  - apply Permutation_nil in P. discriminate. - apply Permutation_sym, Permutation_nil in P. discriminate.
  - now apply mean_perm.
Qed.

Lemma number_calls z x s u p q b m lo hi pd p' : reachable_pc x p -> renumbered s u p q -> diffract z x p b m lo hi None = (Ok pd, p') ->
  exists A pd' out out', diffract z x q b m lo hi None = (Ok pd', setup_all x q b lo hi) /\ p' = setup_all x p b lo hi /\
    pd_peaks pd = mapi (fun i r => r ++ [Fin (INR i)]) (filter (illuminated b) out) /\
    pd_peaks pd' = mapi (fun i r => r ++ [Fin (INR i)]) (filter (illuminated b) out') /\
    pd_columns pd = column_names /\ pd_columns pd' = column_names /\
    Permutation out (map (full24 z (setup_all x p b lo hi) b m) A) /\ Permutation out' (map (full24 z (setup_all x q b lo hi) b m) (map (rl s u) A)) /\
    (forall l, In l A -> small (setup_all x p b lo hi) l).
Proof.
  intros R HR D. rewrite diffract_none in D. cbv zeta in D. pose proof (f_equal snd D) as E. pose proof (f_equal fst D) as F. clear D. cbn [fst snd] in *.
  destruct (compute_peaks z _ _ b m) as [out|] eqn:C in F; cbn [bind] in F; [|discriminate]. apply ok_inj in F.
  destruct (compute_number z s u _ _ b m x out (wf_setup x p b lo hi (wf_reachable _ _ R)) (renumbered_setup s u p q x b lo hi HR) C) as (A & out' & C' & P & P' & HA).
  exists A. eexists. exists out, out'. split; [rewrite diffract_none; cbv zeta; rewrite C'; cbn [bind]; reflexivity|]. subst pd. cbn [pd_peaks pd_columns]. auto 10.
Qed.
Lemma full24_rl z s u p q b m l : rearranged s (pc_volumes p) (pc_volumes q) -> rearranged s (me_espherecentroids (pc_mesh_lab p)) (me_espherecentroids (pc_mesh_lab q)) ->
  (l_e l < len (pc_volumes p))%nat -> (l_e l < len (me_espherecentroids (pc_mesh_lab p)))%nat ->
  exists rest, len rest = 22%nat /\ full24 z p b m l = Fin (INR (l_e l)) :: Fin (INR (l_i l)) :: rest /\
    full24 z q b m (rl s u l) = Fin (INR (s (l_e l))) :: Fin (INR (u (l_i l))) :: rest.
Proof.
  intros H1 H2 L1 L2. unfold full24. cbn [rl l_e]. rewrite (rearranged_nth 0 s _ _ _ H1 L1), (rearranged_nth vzero s _ _ _ H2 L2).
  unfold full_row, lrow, rl. cbv zeta. cbn [l_i l_e l_j l_h l_sf l_t l_G]. rewrite !rvec_row10. unfold row10, row24. cbn [map app].
  eexists. split; [|split; [reflexivity|]]; [reflexivity|]. reflexivity.
Qed.
Lemma renamed_rows s u pd pd' e i rest a c : pd_columns pd = column_names -> pd_columns pd' = column_names -> len rest = 22%nat ->
  renamed s u pd pd' ((Fin (INR e) :: Fin (INR i) :: rest) ++ [a]) ((Fin (INR (s e)) :: Fin (INR (u i)) :: rest) ++ [c]).
Proof.
  intros E E' L. split; [|split; [exists e|exists i]; unfold has, field; rewrite E, E'; split; reflexivity].
  intros k N1 N2 N3. unfold field. rewrite E, E'. destruct (index_of k column_names) as [j|] eqn:Ej; [|reflexivity].
  pose proof (index_inv k j Ej N1 N3) as Hj. assert (j <> 1%nat) by (intros ->; apply index_of_nth in Ej; cbn in Ej; congruence).
  destruct j as [|[|j]]; try lia. cbn [app nth_error]. rewrite !nth_error_app1 by lia. reflexivity.
Qed.
Lemma lit_rest b e i rest e' i' : illuminated b (Fin e :: Fin i :: rest) = illuminated b (Fin e' :: Fin i' :: rest).
Proof. reflexivity. Qed.
(** C91. Renumbering the elements and the phases of a sample changes nothing but the numbers: the same reflections are reported,
    with the same values in every column except the element, phase and peak numbers (the rows may come in another order); this
    holds for given Bragg-angle limits and for limits taken from a detector. *)
Lemma pC91_same_table : forall z x s u p q b m lo hi det pd p', reachable_pc x p -> renumbered s u p q ->
  diffract z x p b m lo hi det = (Ok pd, p') ->
  exists pd' q' rows', diffract z x q b m lo hi det = (Ok pd', q') /\ Permutation (pd_peaks pd') rows' /\
    Forall2 (renamed s u pd pd') (pd_peaks pd) rows'.
Proof.
  intros z x s u p q b m lo hi det pd p' R HR D. rewrite diffract_bounds in D.
  assert (EB : match det with None => Ok (lo, hi) | Some d => bragg_bounds q d b lo end = match det with None => Ok (lo, hi) | Some d => bragg_bounds p d b lo end) by (destruct det; [eapply bounds_number; eauto|reflexivity]).
  destruct (match det with None => _ | Some d => bragg_bounds p d b lo end) as [[l h]|] eqn:EE; [|discriminate].
  destruct (number_calls z x s u p q b m l h pd p' R HR D) as (A & pd' & out & out' & D' & -> & T & T' & C & C' & P & P' & HA). exists pd', (setup_all x q b l h).
  rewrite (diffract_bounds z x q), EB.
  pose proof (wf_setup x p b l h (wf_reachable _ _ R)) as (_ & _ & _ & W4 & _). pose proof (renumbered_setup s u p q x b l h HR) as (N1 & N2 & H1 & _ & _ & H4 & _).
  set (p1 := setup_all x p b l h) in *. set (q1 := setup_all x q b l h) in *.
  apply (perm_filter (illuminated b)) in P, P'.
  assert (FM : forall z pc L, filter (illuminated b) (map (full24 z pc b m) L) = map (full24 z pc b m) (filter (fun l => illuminated b (full24 z pc b m l)) L)).
  { clear. intros z pc L. induction L as [|a L IH]; [reflexivity|]. cbn [map filter]. destruct (illuminated b (full24 z pc b m a)); cbn [map]; now rewrite IH. }
  rewrite FM in P. set (A0 := filter _ A) in P. assert (HA0 : forall a, In a A0 -> small p1 a) by (intros a Ha; apply filter_In in Ha as [Ha _]; auto).
  assert (E' : filter (illuminated b) (map (full24 z q1 b m) (map (rl s u) A)) = map (fun a => full24 z q1 b m (rl s u a)) A0).
  { unfold A0. clear - HA H1 H4 W4. rewrite map_map. induction A as [|a A IH]; [reflexivity|]. cbn [map filter].
    destruct (HA a (or_introl eq_refl)) as [S1 S2]. destruct (full24_rl z s u p1 q1 b m a H1 H4 S1) as (rest & _ & E1 & E2); [now rewrite W4|].
    rewrite E1 at 1. rewrite E2 at 1. rewrite (lit_rest b (INR (s (l_e a))) _ rest (INR (l_e a)) (INR (l_i a))). rewrite IH by (intros; apply HA; now right).
    destruct (illuminated b (Fin (INR (l_e a)) :: Fin (INR (l_i a)) :: rest)); reflexivity. }
  rewrite E' in P'. apply Permutation_map_inv in P as (A1 & EA & PA). rewrite EA in T. clear EA out.
  assert (HA1 : forall a, In a A1 -> small p1 a) by (intros a Ha; apply HA0; now apply (Permutation_in a (Permutation_sym PA))).
  assert (P2 : Permutation (filter (illuminated b) out') (map (fun a => full24 z q1 b m (rl s u a)) A1)) by (rewrite P'; now apply Permutation_map).
  set (F := fun i (r : list num) => r ++ [Fin (INR i)]) in *.
  destruct (Permutation_Forall2 P2 (forall2_mapi F (filter (illuminated b) out'))) as (rows & PR & FR). rewrite <- T' in PR.
  exists rows. split; [exact D'|]. split; [exact PR|]. rewrite T.
  assert (Q : Forall2 (fun a r => small p1 a /\ exists k, r = F k (full24 z q1 b m (rl s u a))) A1 rows).
  { clear - FR HA1. revert rows FR. induction A1 as [|a A1 IH]; intros rows FR; cbn [map] in FR.
    - inversion FR. constructor.
    - inversion FR as [|y r ys rows' (k & Hk) FR']. constructor; [split; [apply HA1; now left|eauto]|apply IH; auto; intros; apply HA1; now right]. }
  clear - Q C C' H1 H4 W4. unfold mapi. generalize 0%nat. induction Q as [|a r A1 rows (S & k & ->) Q IH]; intros n; cbn [map mapi_from]; constructor; auto.
  destruct S as [S1 S2]. destruct (full24_rl z s u p1 q1 b m a H1 H4 S1) as (rest & L & E1 & E2); [now rewrite W4|]. rewrite E1, E2. now apply renamed_rows.
Qed.

Lemma traverse_err {A B} (f : A -> result B) l e : traverse f l = Err e -> exists a, In a l /\ f a = Err e.
Proof.
  induction l as [|a l IH]; cbn [traverse]; intros H; [discriminate|]. destruct (f a) as [y|e'] eqn:E; cbn [bind] in H.
  - destruct (traverse f l); [discriminate|]. destruct (IH H) as (c & Hc & Ec). exists c. split; auto. now right.
  - exists a. split; [now left|]. congruence.
Qed.
Lemma compute_error z p b m x l e lo hi : wf x p -> pc_map p = MapTensor l -> let p1 := setup_all x p b lo hi in
  compute_peaks z p1 (pc_phases p1) b m = Err e -> e = IndexError.
Proof.
  intros W EM p1 H. assert (W1 : wf x p1) by now apply wf_setup. assert (EM1 : pc_map p1 = MapTensor l) by exact EM.
  assert (UP : forall ph, In ph (pc_phases p1) -> forall e0, used_planes ph = Err e0 -> e0 = IndexError).
  { intros ph Hin e0. unfold p1, setup_all in Hin. cbn [pc_phases] in Hin. apply in_map_iff in Hin as (ph0 & <- & _). unfold used_planes, setup_planes. cbn [ph_hkl].
    match goal with |- context [ph_sf ?p] => destruct (ph_sf p) as [sf|]; [destruct (Nat.eqb _ _)|] end; intros X; congruence. }
  destruct (rows10 p1 (pc_phases p1) (laue_factors (b_wave_vector b) (m_axis m)) (m_angle m)) as [rows|e1] eqn:E1.
  - assert (G : forall r, In r rows -> (grain_of r < len (pc_volumes p1))%nat).
    { intros r Hr. apply (rows10_in _ _ _ _ _ r E1) in Hr as (i & ph & Hi & e0 & h & sf & t & G0 & He & _ & _ & _ & ->).
      rewrite grain_of_row10. destruct W1 as (_ & _ & _ & _ & W5' & _). apply (W5' e0 i); auto. apply nth_error_lt' in Hi. exact Hi. }
    destruct (gather_total (me_espherecentroids (pc_mesh_lab p1)) (map grain_of rows)) as (cents & K2).
    { intros g Hg. apply in_map_iff in Hg as (r & <- & Hr). destruct W1 as (_ & _ & _ & W4 & _). rewrite W4. auto. }
    destruct (gather_total (pc_volumes p1) (map grain_of rows)) as (vols & K3).
    { intros g Hg. apply in_map_iff in Hg as (r & <- & Hr). auto. }
    rewrite (compute_peaks_rows z p1 (pc_phases p1) b m rows cents vols E1 K2 K3) in H. destruct (Nat.eqb _ _); congruence.
  - assert (e = e1) by (unfold compute_peaks in H; cbv zeta in H; rewrite E1 in H; cbn [bind] in H; congruence). subst e1.
    unfold rows10 in E1. destruct (traverse _ _) as [parts|e2] eqn:ET; cbn [bind] in E1; [discriminate|]. assert (e2 = e) by congruence. subst e2.
    apply traverse_err in ET as ((i & ph) & Hin & Hf). cbn [fst snd] in Hf. apply combine_seq_in in Hin. destruct (used_planes ph) as [pl|e3] eqn:EU.
    + destruct (phase_rows_total x p1 (laue_factors (b_wave_vector b) (m_axis m)) (m_angle m) i ph l W1 EM1) as (rs & X); [now apply nth_error_lt' in Hin|eauto|]. congruence.
    + unfold phase_rows in Hf. rewrite EM1, EU in Hf. cbn [bind] in Hf. assert (e3 = e) by congruence. subst e3. apply (UP ph); auto. eapply nth_error_In; eauto.
Qed.
(** ... and raises the same exception. *)
Lemma pC91_same_refusal : forall z x s u p q b m lo hi det e p', reachable_pc x p -> reachable_pc x q -> renumbered s u p q ->
  diffract z x p b m lo hi det = (Err e, p') -> fst (diffract z x q b m lo hi det) = Err e.
Proof.
  intros z x s u p q b m lo hi det e p' R R' HR D. destruct (renumbered_inv s u p q x (wf_reachable _ _ R) HR) as (s' & u' & HR').
  destruct (diffract z x q b m lo hi det) as [[pd'|e'] q'] eqn:D'.
  { destruct (pC91_same_table z x s' u' q p b m lo hi det pd' q' R' HR' D') as (pd & p2 & _ & D2 & _). rewrite D in D2. discriminate. }
  cbn [fst]. f_equal. rewrite diffract_bounds in D, D'.
  assert (EB : match det with None => Ok (lo, hi) | Some d => bragg_bounds q d b lo end = match det with None => Ok (lo, hi) | Some d => bragg_bounds p d b lo end) by (destruct det; [eapply bounds_number; eauto|reflexivity]).
  rewrite EB in D'. destruct (match det with None => _ | Some d => bragg_bounds p d b lo end) as [[l h]|e0]; [|congruence].
  pose proof HR as (_ & _ & _ & _ & _ & _ & _ & _ & _ & mp & mp' & M1 & M2 & _).
  rewrite diffract_none in D, D'. cbv zeta in D, D'. pose proof (f_equal fst D) as F. pose proof (f_equal fst D') as F'. cbn [fst] in F, F'.
  destruct (compute_peaks z (setup_all x p b l h) _ b m) as [o|e1] eqn:C1 in F; cbn [bind] in F; [discriminate|].
  destruct (compute_peaks z (setup_all x q b l h) _ b m) as [o|e2] eqn:C2 in F'; cbn [bind] in F'; [discriminate|].
  apply (compute_error z p b m x mp e1 l h (wf_reachable _ _ R) M1) in C1. apply (compute_error z q b m x mp' e2 l h (wf_reachable _ _ R') M2) in C2. congruence.
Qed.
(** ... the two samples stay the same up to numbering through transform and diffract. *)
Lemma pC91_stays_renumbered : forall z x s u p q b m lo hi det t, renumbered s u p q ->
  renumbered s u (transform p m t) (transform q m t) /\ renumbered s u (snd (diffract z x p b m lo hi det)) (snd (diffract z x q b m lo hi det)).
Proof.
  intros z x s u p q b m lo hi det t HR. split.
  - destruct HR as (N1 & N2 & H1 & H2 & H3 & H4 & H5 & H6 & H7 & l & l' & M). unfold renumbered, transform, mesh_update.
    cbn [pc_volumes pc_U pc_eB pc_mesh_lab pc_phases pc_map me_espherecentroids me_coord me_centroid]. repeat (split; [assumption|]).
    split; [now apply rearranged_map|]. split; [assumption|]. split; [now apply rearranged_map|]. split; [assumption|]. split; [now apply Permutation_map|]. split; [congruence|]. exists l, l'. exact M.
  - rewrite !(diffract_bounds z x). 
    assert (EB : match det with None => Ok (lo, hi) | Some d => bragg_bounds q d b lo end = match det with None => Ok (lo, hi) | Some d => bragg_bounds p d b lo end) by (destruct det; [eapply bounds_number; eauto|reflexivity]).
    rewrite EB. destruct (match det with None => _ | Some d => bragg_bounds p d b lo end) as [[l h]|e0]; [|exact HR]. rewrite !diffract_none. cbv zeta. cbn [snd]. now apply renumbered_setup.
Qed.
(** ... and the pictures are the same. *)
Lemma pC91_same_picture : forall e z x s u p q b m lo hi det pd pd' p' q' d frames ml mi im im' out out',
  reachable_pc x p -> reachable_pc x q -> renumbered s u p q ->
  diffract z x p b m lo hi det = (Ok pd, p') -> diffract z x q b m lo hi det = (Ok pd', q') ->
  render e d pd frames "micro" ml mi = Ok (im, out) -> render e d pd' frames "micro" ml mi = Ok (im', out') ->
  same_image im' im.
Proof.
  intros e z x s u p q b m lo hi det pd pd' p' q' d frames ml mi im im' out out' R R' HR D D' I I'. rewrite diffract_bounds in D, D'.
  assert (EB : match det with None => Ok (lo, hi) | Some d => bragg_bounds q d b lo end = match det with None => Ok (lo, hi) | Some d => bragg_bounds p d b lo end) by (destruct det; [eapply bounds_number; eauto|reflexivity]).
  rewrite EB in D'. destruct (match det with None => _ | Some d => bragg_bounds p d b lo end) as [[l h]|e0]; [|discriminate].
  destruct (number_calls z x s u p q b m l h pd p' R HR D) as (A & pd2 & o & o' & D2 & -> & T & T' & C & C' & P & P' & HA).
  rewrite D' in D2. assert (E1 : pd' = pd2) by (apply ok_inj; exact (f_equal fst D2)). assert (E2 : q' = setup_all x q b l h) by exact (f_equal snd D2). subst pd2 q'. clear D2.
  pose proof (picture_labels _ _ _ _ _ _ _ _ _ _ _ _ _ _ _ _ _ _ _ R D I T P) as F1.
  pose proof (picture_labels _ _ _ _ _ _ _ _ _ _ _ _ _ _ _ _ _ _ _ R' D' I' T' P') as F2.
  destruct (pC36_shape _ _ _ _ _ _ _ _ _ I) as (S11 & S12 & S13). destruct (pC36_shape _ _ _ _ _ _ _ _ _ I') as (S21 & S22 & S23).
  split; [repeat split; congruence|]. intros f i j Hij. assert (H2 : in_image im' f i j) by (unfold in_image in *; rewrite S21, S22, S23; rewrite S11, S12, S13 in Hij; exact Hij).
  rewrite (F1 f i j Hij), (F2 f i j H2), map_map. apply (f_equal Fin), (f_equal sum_list). apply map_ext_in. intros a Ha. destruct (HA a Ha) as [Sa _].
  pose proof (wf_setup x p b l h (wf_reachable _ _ R)) as (_ & _ & _ & W4 & _). pose proof (renumbered_setup s u p q x b l h HR) as (N1 & N2 & H1 & _ & _ & H4 & _).
  apply l_spot_ext; auto.
  - unfold l_src. cbn [rl l_e l_t]. f_equal. apply rearranged_nth; auto. now rewrite W4.
  - unfold l_vol. cbn [rl l_e]. now apply rearranged_nth.
Qed.
