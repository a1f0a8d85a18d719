(** * Proofs: the same sample with a finer mesh (C106). *)
From Verif Require Import Vec Spec MMotion PMotion MLaue PLaue MMesh SMesh PMesh MScattering SScattering PScattering.
From Verif Require Import MStrain SStrain PStrain MBeam SBeam PBeam MPolycrystal SPolycrystal SEvents PPolycrystal PPolycrystal2 PPolycrystal3 PEvents.
From Verif Require Import MDetector SDetector MRender SRender SEnd PEnd PEnd2 SJoin PJoin PJoin2 SNumber PNumber PNumber2 PNano6 SRefine.
From Coq Require Import Permutation.
Open Scope list_scope. Open Scope R_scope.
Local Notation len := List.length.

Lemma in_parts f n e e' : In e' (parts f n e) <-> (e' < n)%nat /\ f e' = e.
Proof. unfold parts. rewrite filter_In, in_seq, Nat.eqb_eq. lia. Qed.
Definition child (l : lab) (e' : nat) : lab := Lab (l_i l) e' (l_j l) (l_h l) (l_sf l) (l_t l) (l_G l).
Definition children (f : nat -> nat) (n : nat) (l : lab) : list lab := map (child l) (parts f n (l_e l)).
Definition parent (f : nat -> nat) (l : lab) : lab := Lab (l_i l) (f (l_e l)) (l_j l) (l_h l) (l_sf l) (l_t l) (l_G l).
Lemma in_children f n l l' : In l' (children f n l) <-> (l_e l' < n)%nat /\ l = parent f l'.
Proof.
  unfold children. rewrite in_map_iff. split.
  - intros (e' & <- & H). apply in_parts in H as [H1 H2]. cbn [child l_e]. split; [exact H1|]. unfold parent, child. cbn [l_i l_e l_j l_h l_sf l_t l_G]. rewrite H2. now destruct l.
  - intros [H ->]. exists (l_e l'). split; [unfold child, parent; cbn [l_i l_e l_j l_h l_sf l_t l_G]; now destruct l'|]. apply in_parts. now cbn [parent l_e].
Qed.
Lemma nodup_children f n L : NoDup L -> NoDup (flat_map (children f n) L).
Proof.
  induction L as [|l L IH]; intros N; cbn [flat_map]; [constructor|]. inversion N as [|? ? N1 N2]; subst. apply NoDup_app; auto.
  - unfold children. apply (nodup_key (child l) (fun e => e)).
    + rewrite map_id. unfold parts. apply NoDup_filter, seq_NoDup.
    + intros x y _ _ E. exact (f_equal l_e E).
  - intros x H1 H2. apply in_children in H1 as [_ E1]. apply in_flat_map in H2 as (l2 & H2 & H3). apply in_children in H3 as [_ E2]. subst l l2. contradiction.
Qed.
Lemma refines_setup f p q x b lo hi : refines f p q -> refines f (setup_all x p b lo hi) (setup_all x q b lo hi).
Proof. intros (H1 & H2 & H3 & H4 & H5 & H6). unfold refines, setup_all. cbn [pc_volumes pc_U pc_eB pc_phases pc_map]. repeat (split; [assumption|]). split; [now rewrite H5|exact H6]. Qed.
Lemma cand_parent f p q b m sel x l : wf x p -> wf x q -> refines f p q ->
  lab_cand q b m sel l <-> (l_e l < len (pc_volumes q))%nat /\ lab_cand p b m sel (parent f l).
Proof.
  intros W W' (H1 & H2 & H3 & H4 & H5 & mm & mm' & M1 & M2 & M3 & L1 & L2). pose proof W' as (W1 & _ & W3 & _ & W5 & _). unfold lab_cand, lab_ok, in_phase, scattering_vector.
  cbn [parent l_i l_e l_j l_h l_sf l_t l_G]. rewrite H5, M1, M2. cbn [map_values].
  assert (K : (l_e l < len (pc_volumes q))%nat -> nth_error mm' (l_e l) = nth_error mm (f (l_e l)) /\ nth_error (pc_U q) (l_e l) = nth_error (pc_U p) (f (l_e l)) /\ nth_error (pc_eB q) (l_e l) = nth_error (pc_eB p) (f (l_e l))).
  { intros B. split; [apply M3; lia|]. split; [apply H3; lia|apply H4; lia]. }
  split.
  - intros (ph & A1 & (A2 & A3 & A4 & U & B & A5 & A6 & A7) & A8). pose proof (nth_error_lt' _ _ _ A2) as Hlt. rewrite L2 in Hlt. destruct (K Hlt) as (K1 & K2 & K3).
    split; [exact Hlt|]. exists ph. split; [exact A1|]. split; [|exact A8]. split; [congruence|]. split; [exact A3|]. split; [exact A4|]. exists U, B. split; [congruence|]. split; [congruence|exact A7].
  - intros (Hlt & ph & A1 & (A2 & A3 & A4 & U & B & A5 & A6 & A7) & A8). destruct (K Hlt) as (K1 & K2 & K3).
    exists ph. split; [exact A1|]. split; [|exact A8]. split; [congruence|]. split; [exact A3|]. split; [exact A4|]. exists U, B. split; [congruence|]. split; [congruence|exact A7].
Qed.
Lemma refined_lists f p q b m sel x A C : wf x p -> wf x q -> refines f p q -> NoDup A -> NoDup C ->
  (forall l, In l A <-> lab_cand p b m sel l) -> (forall l, In l C <-> lab_cand q b m sel l) -> Permutation C (flat_map (children f (len (pc_volumes q))) A).
Proof.
  intros W W' HR NA NC IA IC. apply NoDup_Permutation; auto; [now apply nodup_children|]. intros l. rewrite IC, in_flat_map, (cand_parent f p q b m sel x l W W' HR). split.
  - intros [H1 H2]. exists (parent f l). split; [now apply IA|]. apply in_children. auto.
  - intros (l0 & H1 & H2). apply in_children in H2 as [H2 ->]. split; [exact H2|now apply IA].
Qed.
Lemma rows_refined f p q b m rows rows' x : wf x p -> wf x q -> refines f p q ->
  rows10 p (pc_phases p) (laue_factors (b_wave_vector b) (m_axis m)) (m_angle m) = Ok rows ->
  rows10 q (pc_phases q) (laue_factors (b_wave_vector b) (m_axis m)) (m_angle m) = Ok rows' ->
  exists A, Permutation rows (map lrow A) /\ Permutation rows' (map lrow (flat_map (children f (len (pc_volumes q))) A)) /\
    (forall l, In l A -> small p l /\ 0 <= l_t l <= 1).
Proof.
  intros W W' HR H1 H2. destruct (rows_lists _ _ _ _ H1) as (A1 & A2 & PA & NA1 & NA2 & IA1 & IA2).
  destruct (rows_lists _ _ _ _ H2) as (C1 & C2 & PC & NC1 & NC2 & IC1 & IC2). exists (A1 ++ A2). split; auto. split.
  - rewrite PC. apply Permutation_map. rewrite flat_map_app. apply Permutation_app; [apply (refined_lists f p q b m fst x)|apply (refined_lists f p q b m snd x)]; assumption.
  - intros l Hl. assert (exists sel, lab_cand p b m sel l) as (sel & HC) by (apply in_app_or in Hl as [Hl|Hl]; [apply IA1 in Hl|apply IA2 in Hl]; eauto).
    split; [eapply cand_small; eauto|]. destruct HC as (ph & _ & _ & T & _). exact T.
Qed.
Lemma compute_refined z f p q b m x out : wf x p -> wf x q -> refines f p q -> compute_peaks z p (pc_phases p) b m = Ok out ->
  exists A out', compute_peaks z q (pc_phases q) b m = Ok out' /\ Permutation out (map (full24 z p b m) A) /\
    Permutation out' (map (full24 z q b m) (flat_map (children f (len (pc_volumes q))) A)) /\ (forall l, In l A -> small p l /\ 0 <= l_t l <= 1).
Proof.
  intros W WQ HR C. apply compute_peaks_inv in C as (rows & cents & vols & A1 & A2 & A3 & A4 & A5).
  pose proof HR as (H1 & H2 & H3 & H4 & H5 & l & l' & M1 & M2 & M3 & L1 & L2).
  destruct (rows10_total x q (pc_phases q) (laue_factors (b_wave_vector b) (m_axis m)) (m_angle m) l' WQ M2 eq_refl) as (rows' & K1).
  { intros ph Hin. rewrite H5 in Hin. exact (rows10_used _ _ _ _ _ _ A1 Hin). }
  destruct (rows_refined f p q b m rows rows' x W WQ HR A1 K1) as (A & P1 & P2 & HA).
  assert (G : forall r, In r rows' -> (grain_of r < len (pc_volumes q))%nat).
  { intros r Hr. apply (rows10_in _ _ _ _ _ r K1) in Hr as (i & ph & Hi & e & h & sf & t & G0 & He & _ & _ & _ & ->).
    rewrite grain_of_row10. destruct WQ as (_ & _ & _ & _ & W5' & _). apply (W5' e i); auto. apply nth_error_lt' in Hi. exact Hi. }
  destruct (gather_total (me_espherecentroids (pc_mesh_lab q)) (map grain_of rows')) as (cents' & K2).
  { intros g Hg. apply in_map_iff in Hg as (r & <- & Hr). destruct WQ as (_ & _ & _ & W4 & _). rewrite W4. auto. }
  destruct (gather_total (pc_volumes q) (map grain_of rows')) as (vols' & K3).
  { intros g Hg. apply in_map_iff in Hg as (r & <- & Hr). auto. }
  pose proof (compute_peaks_rows z q (pc_phases q) b m rows' cents' vols' K1 K2 K3) as K4.
  assert (LR : len rows' <> 1%nat).
  { apply Permutation_length in P1, P2. rewrite map_length in P1, P2. rewrite P2. rewrite P1 in A4. clear - A4 HA H2.
    assert (Q : (len A <= len (flat_map (children f (len (pc_volumes q))) A))%nat /\ (A = [] -> flat_map (children f (len (pc_volumes q))) A = [])).
    { split; [|now intros ->]. clear A4. induction A as [|a A IH]; [cbn; lia|]. cbn [flat_map List.length]. rewrite app_length. specialize (IH (fun l H => HA l (or_intror H))).
      destruct (HA a (or_introl eq_refl)) as [[S _] _]. destruct (H2 _ S) as [N _]. unfold children at 1. rewrite map_length. destruct (parts f _ (l_e a)); [congruence|cbn [List.length]; lia]. }
    destruct Q as [Q1 Q2]. destruct A as [|a A]; [now rewrite Q2|]. cbn [List.length] in *. lia. }
  replace (Nat.eqb (len rows') 1) with false in K4 by (symmetry; now apply Nat.eqb_neq).
  exists A. eexists. split; [exact K4|]. split; [rewrite A5; now apply map_full|]. split; [now apply map_full|exact HA].
Qed.
Lemma refined_calls z x f p q b m lo hi pd p' : reachable_pc x p -> reachable_pc x q -> refines f p q -> diffract z x p b m lo hi None = (Ok pd, p') ->
  exists A pd' out out', diffract z x q b m lo hi None = (Ok pd', setup_all x q b lo hi) /\ p' = setup_all x p b lo hi /\
    pd_peaks pd = mapi (fun i r => r ++ [Fin (INR i)]) (filter (illuminated b) out) /\
    pd_peaks pd' = mapi (fun i r => r ++ [Fin (INR i)]) (filter (illuminated b) out') /\
    pd_columns pd = column_names /\ pd_columns pd' = column_names /\
    Permutation out (map (full24 z p b m) A) /\ Permutation out' (map (full24 z q b m) (flat_map (children f (len (pc_volumes q))) A)) /\
    (forall l, In l A -> (l_e l < len (pc_volumes p))%nat /\ 0 <= l_t l <= 1).
Proof.
  intros R R' HR D. rewrite diffract_none in D. cbv zeta in D. pose proof (f_equal snd D) as E. pose proof (f_equal fst D) as F. clear D. cbn [fst snd] in *.
  destruct (compute_peaks z _ _ b m) as [out|] eqn:C in F; cbn [bind] in F; [|discriminate]. apply ok_inj in F.
  destruct (compute_refined z f _ _ b m x out (wf_setup x p b lo hi (wf_reachable _ _ R)) (wf_setup x q b lo hi (wf_reachable _ _ R')) (refines_setup f p q x b lo hi HR) C) as (A & out' & C' & P & P' & HA).
  exists A. eexists. exists out, out'. split; [rewrite diffract_none; cbv zeta; rewrite C'; cbn [bind]; reflexivity|]. subst pd. cbn [pd_peaks pd_columns].
  split; [auto|]. split; [reflexivity|]. split; [reflexivity|]. split; [reflexivity|]. split; [reflexivity|]. split; [exact P|]. split; [exact P'|]. intros l Hl. destruct (HA l Hl) as [[S _] T]. split; [exact S|exact T].
Qed.

(** ** Rows of parent and part *)
Lemma ncol_child z p q b m l e' j : j <> 0%nat -> j <> 16%nat -> j <> 17%nat -> j <> 18%nat -> j <> 21%nat -> j <> 23%nat ->
  nth_error (full24 z q b m (child l e')) j = nth_error (full24 z p b m l) j.
Proof.
  intros N0 N1 N2 N3 N4 N5. unfold full24. cbn [child l_e]. unfold full_row, lrow, child. cbv zeta. cbn [l_i l_e l_j l_h l_sf l_t l_G]. rewrite !rvec_row10.
  change (rcol (row10 e' (l_i l) (l_h l) (l_sf l) (l_t l) (l_G l)) 6) with (l_t l). change (rcol (row10 (l_e l) (l_i l) (l_h l) (l_sf l) (l_t l) (l_G l)) 6) with (l_t l).
  unfold row10, row24. cbn [map app vlist].
  do 24 (destruct j as [|j]; [first [reflexivity|congruence]|]). reflexivity.
Qed.

Lemma blind_index c j : index_of c column_names = Some j -> ~ In c element_columns ->
  (j < 24)%nat /\ j <> 0%nat /\ j <> 16%nat /\ j <> 17%nat /\ j <> 18%nat /\ j <> 21%nat /\ j <> 23%nat.
Proof.
  intros H N. apply index_of_nth in H. pose proof (nth_error_lt' _ _ _ H) as L. change (len column_names) with 25%nat in L.
  assert (D : forall k s, nth_error column_names k = Some s -> In s element_columns -> j <> k).
  { intros k s0 H1 H2 ->. rewrite H in H1. apply N. now injection H1 as ->. }
  assert (j <> 24%nat) by (apply (D 24%nat "peak_index"%string); [reflexivity|cbn; tauto]).
  split; [lia|]. split; [apply (D 0%nat "grain_index"%string); [reflexivity|cbn; tauto]|]. split; [apply (D 16%nat "Source_x"%string); [reflexivity|cbn; tauto]|].
  split; [apply (D 17%nat "Source_y"%string); [reflexivity|cbn; tauto]|]. split; [apply (D 18%nat "Source_z"%string); [reflexivity|cbn; tauto]|].
  split; [apply (D 21%nat "volumes"%string); [reflexivity|cbn; tauto]|apply (D 23%nat "scherrer_fwhm"%string); [reflexivity|cbn; tauto]].
Qed.
Lemma full24_len z p b m l : len (full24 z p b m l) = 24%nat.
Proof. destruct (full24_cols z p b m l (Fin 0)) as [H _]. rewrite app_length in H. cbn [List.length] in H. lia. Qed.
Lemma child_same z p q b m l e' x y pd pd' : pd_columns pd = column_names -> pd_columns pd' = column_names ->
  same_reflection pd pd' (full24 z p b m l ++ [x]) (full24 z q b m (child l e') ++ [y]).
Proof.
  intros E E' c N. unfold field. rewrite E, E'. destruct (index_of c column_names) as [j|] eqn:Ej; [|reflexivity].
  destruct (blind_index c j Ej N) as (J & J0 & J1 & J2 & J3 & J4 & J5). rewrite !nth_error_app1 by (rewrite full24_len; exact J). now apply ncol_child.
Qed.
Lemma number_same z p b m l x y pd pd' : pd_columns pd = column_names -> pd_columns pd' = column_names ->
  same_reflection pd pd' (full24 z p b m l ++ [x]) (full24 z p b m l ++ [y]).
Proof.
  intros E E' c N. unfold field. rewrite E, E'. destruct (index_of c column_names) as [j|] eqn:Ej; [|reflexivity].
  destruct (blind_index c j Ej N) as (J & _). now rewrite !nth_error_app1 by (rewrite full24_len; exact J).
Qed.
Lemma row_volume_full z p b m l x pd : pd_columns pd = column_names -> row_volume pd (full24 z p b m l ++ [x]) = nth (l_e l) (pc_volumes p) 0.
Proof.
  intros E. unfold row_volume, field. rewrite E. change (index_of "volumes" column_names) with (Some 21%nat). cbv iota.
  rewrite nth_error_app1 by (rewrite full24_len; lia). reflexivity.
Qed.
Lemma has_grain z p b m l x pd : pd_columns pd = column_names -> has pd (full24 z p b m l ++ [x]) "grain_index" (INR (l_e l)).
Proof. intros E. unfold has, field. rewrite E. change (index_of "grain_index" column_names) with (Some 0%nat). cbv iota. rewrite nth_error_app1 by (rewrite full24_len; lia). reflexivity. Qed.
Lemma has_time z p b m l x pd : pd_columns pd = column_names -> has pd (full24 z p b m l ++ [x]) "diffraction_times" (l_t l).
Proof. intros E. unfold has, field. rewrite E. change (index_of "diffraction_times" column_names) with (Some 6%nat). cbv iota. rewrite nth_error_app1 by (rewrite full24_len; lia). reflexivity. Qed.
Lemma lit_full z p b m l s : lit_at p b m (l_e l) (l_t l) s -> illuminated b (full24 z p b m l) = true.
Proof.
  intros (c & H1 & H2 & H3). rewrite full24_lit. unfold l_src. rewrite (nth_error_nth _ _ vzero H1). rewrite call_P1_S0 in H2.
  apply contains_iff. replace (move_at m (l_t l) c) with s by congruence. exact H3.
Qed.
Lemma mapi_sum {A} (g : list num -> R) (h : A -> R) (full : A -> list num) (L : list A) out :
  (forall a x, g (full a ++ [x]) = h a) -> Permutation out (map full L) ->
  sum_list (map g (mapi (fun i r => r ++ [Fin (INR i)]) out)) = sum_list (map h L).
Proof.
  intros H P. transitivity (sum_list (map (fun r => g (r ++ [Fin 0])) out)).
  - assert (Q : forall r, In r out -> forall x, g (r ++ [x]) = g (r ++ [Fin 0])).
    { intros r Hr x. apply (Permutation_in r P) in Hr. apply in_map_iff in Hr as (a & <- & _). now rewrite !H. }
    clear P H. unfold mapi. generalize 0%nat. induction out as [|r out IH]; intros n; cbn [mapi_from map]; [reflexivity|]. rewrite !sum_list_cons, IH by (intros; apply Q; now right).
    f_equal. apply Q. now left.
  - rewrite (sum_perm _ _ _ P), map_map. apply (f_equal sum_list). apply map_ext. intros a. apply H.
Qed.
Lemma filter_all {A} (g : A -> bool) l : (forall a, In a l -> g a = true) -> filter g l = l.
Proof. induction l as [|a l IH]; intros H; [reflexivity|]. cbn [filter]. rewrite (H a (or_introl eq_refl)), IH; auto. intros; apply H; now right. Qed.
Lemma lit_setup x p b lo hi m e t s : lit_at p b m e t s -> lit_at (setup_all x p b lo hi) b m e t s.
Proof. auto. Qed.
Lemma full24_setup z x p b lo hi m l : full24 z (setup_all x p b lo hi) b m l = full24 z p b m l.
Proof. reflexivity. Qed.
(** C106. Cutting the elements of a sample into smaller ones changes none of the totals: with the sample in the beam throughout,
    the sum over the reflections of volume times any quantity that does not depend on the element (structure factor, Lorentz and
    polarization factors, the frame, the plane, the direction ...) is the same for the coarse and for the fine mesh. *)
Lemma pC106_conserved : forall z x f p q b m lo hi pd p', reachable_pc x p -> reachable_pc x q -> refines f p q ->
  always_lit p b m -> always_lit q b m -> diffract z x p b m lo hi None = (Ok pd, p') ->
  exists pd' q', diffract z x q b m lo hi None = (Ok pd', q') /\
    forall w, element_blind w -> volume_sum pd' w = volume_sum pd w.
Proof.
  intros z x f p q b m lo hi pd p' R R' HR LP LQ D.
  destruct (refined_calls z x f p q b m lo hi pd p' R R' HR D) as (A & pd' & out & out' & D' & -> & T & T' & C & C' & P & P' & HA).
  exists pd', (setup_all x q b lo hi). split; [exact D'|]. intros w W.
  pose proof HR as (F1 & F2 & _).
  assert (O : forall r, In r out -> illuminated b r = true).
  { intros r Hr. apply (Permutation_in r P) in Hr. apply in_map_iff in Hr as (l & <- & Hl). destruct (HA l Hl) as [S Tt]. destruct (LP _ _ S Tt) as (s & Hs). eapply lit_full; eauto. }
  assert (O' : forall r, In r out' -> illuminated b r = true).
  { intros r Hr. apply (Permutation_in r P') in Hr. apply in_map_iff in Hr as (l & <- & Hl). apply in_flat_map in Hl as (l0 & H0 & Hc). destruct (HA l0 H0) as [S Tt].
    apply in_children in Hc as [Hc ->]. cbn [parent l_t] in Tt. destruct (LQ _ _ Hc Tt) as (s & Hs). eapply lit_full; eauto. }
  unfold volume_sum. rewrite T, T', (filter_all _ _ O), (filter_all _ _ O').
  set (g := fun l => w (field pd (full24 z p b m l ++ [Fin 0]))).
  rewrite (mapi_sum _ (fun l => nth (l_e l) (pc_volumes p) 0 * g l) _ _ _) with (2 := P).
  2:{ intros l y. rewrite row_volume_full by exact C. f_equal. unfold g. apply W. intros c Hc. symmetry. now apply (number_same z p b m l y (Fin 0) pd pd). }
  rewrite (mapi_sum _ (fun l => nth (l_e l) (pc_volumes q) 0 * g (parent f l)) _ _ _) with (2 := P').
  2:{ intros l y. rewrite row_volume_full by exact C'. f_equal. unfold g. apply W. intros c Hc.
      replace l with (child (parent f l) (l_e l)) at 1 by (destruct l; reflexivity). now apply child_same. }
  clear - HA F2. induction A as [|l A IH]; [reflexivity|]. cbn [flat_map map]. rewrite map_app, sum_list_app, sum_list_cons, IH by (intros; apply HA; now right). f_equal.
  destruct (HA l (or_introl eq_refl)) as [S _]. destruct (F2 _ S) as [_ E]. rewrite E. unfold children. rewrite map_map. cbn [child l_e].
  transitivity (sum_list (map (fun e' => g l * nth e' (pc_volumes q) 0) (parts f (len (pc_volumes q)) (l_e l)))); [|rewrite scaled_sum; ring].
  apply (f_equal sum_list). apply map_ext_in. intros e' He. apply in_parts in He as [_ He]. unfold parent. cbn [child l_i l_e l_j l_h l_sf l_t l_G]. rewrite He.
  replace (Lab (l_i l) (l_e l) (l_j l) (l_h l) (l_sf l) (l_t l) (l_G l)) with l by (destruct l; reflexivity). ring.
Qed.

(** ** Row by row *)
Lemma mapi_rows out r : In r (mapi (fun i (r : list num) => r ++ [Fin (INR i)]) out) -> exists r0 i, In r0 out /\ r = r0 ++ [Fin (INR i)].
Proof.
  unfold mapi. generalize 0%nat. induction out as [|r0 out IH]; intros n; cbn [mapi_from]; [intros []|]. intros [<-|H]; [exists r0, n; split; [now left|reflexivity]|].
  destruct (IH _ H) as (r1 & i & H1 & H2). exists r1, i. split; [now right|exact H2].
Qed.
Lemma rows_mapi out r0 : In r0 out -> exists i, In (r0 ++ [Fin (INR i)]) (mapi (fun i (r : list num) => r ++ [Fin (INR i)]) out).
Proof.
  unfold mapi. generalize 0%nat. induction out as [|r1 out IH]; intros n; [intros []|]. cbn [mapi_from]. intros [<-|H]; [exists n; now left|].
  destruct (IH (S n) H) as (i & Hi). exists i. now right.
Qed.
(** ... every reflection of an element is reported for each of its parts whose centre is in the beam at that time, with the
    volume of the part; *)
Lemma pC106_each_part : forall z x f p q b m lo hi pd p' pd' q' r e t e' s, reachable_pc x p -> reachable_pc x q -> refines f p q ->
  diffract z x p b m lo hi None = (Ok pd, p') -> diffract z x q b m lo hi None = (Ok pd', q') ->
  In r (pd_peaks pd) -> has pd r "grain_index" (INR e) -> has pd r "diffraction_times" t ->
  (e' < List.length (pc_volumes q))%nat -> f e' = e -> lit_at q b m e' t s ->
  exists r', In r' (pd_peaks pd') /\ same_reflection pd pd' r r' /\ has pd' r' "grain_index" (INR e') /\
    has_vec pd' r' "Source_x" "Source_y" "Source_z" s /\ row_volume pd' r' = nth e' (pc_volumes q) 0.
Proof.
  intros z x f p q b m lo hi pd p' pd' q' r e t e' s R R' HR D D' Hr He Ht Hlt Hf HL.
  destruct (refined_calls z x f p q b m lo hi pd p' R R' HR D) as (A & pd2 & out & out' & D2 & -> & T & T' & C & C' & P & P' & HA).
  rewrite D' in D2. assert (pd' = pd2) by (apply ok_inj; exact (f_equal fst D2)). subst pd2. clear D2.
  rewrite T in Hr. apply mapi_rows in Hr as (r0 & i & Hr0 & ->). apply filter_In in Hr0 as [Hr0 _]. apply (Permutation_in r0 P) in Hr0. apply in_map_iff in Hr0 as (l & <- & Hl).
  pose proof (has_grain z p b m l (Fin (INR i)) pd C) as He2. unfold has in He, He2. rewrite He2 in He. assert (Le : l_e l = e) by (apply INR_eq; congruence).
  pose proof (has_time z p b m l (Fin (INR i)) pd C) as Ht2. unfold has in Ht, Ht2. rewrite Ht2 in Ht. assert (Lt : l_t l = t) by congruence. clear He He2 Ht Ht2. subst e t.
  assert (Hin : In (full24 z q b m (child l e')) (filter (illuminated b) out')).
  { apply filter_In. split.
    - apply (Permutation_in _ (Permutation_sym P')). apply in_map. apply in_flat_map. exists l. split; [exact Hl|]. unfold children. apply in_map. apply in_parts. auto.
    - apply (lit_full z q b m (child l e') s). exact HL. }
  destruct (rows_mapi _ _ Hin) as (k & Hk). rewrite <- T' in Hk. exists (full24 z q b m (child l e') ++ [Fin (INR k)]). split; [exact Hk|].
  split; [now apply child_same|]. split; [exact (has_grain z q b m (child l e') _ pd' C')|]. split; [|exact (row_volume_full z q b m (child l e') _ pd' C')].
  destruct HL as (c & H1 & H2 & _). rewrite call_P1_S0 in H2.
  destruct (full24_cols z q b m (child l e') (Fin (INR k))) as (_ & _ & _ & _ & E & _).
  unfold l_src in E. cbn [child l_e l_t] in E. rewrite (nth_error_nth _ _ vzero H1) in E. replace (move_at m (l_t l) c) with s in E by congruence.
  unfold has_vec, has, field. rewrite C'. change (index_of "Source_x" column_names) with (Some 16%nat). change (index_of "Source_y" column_names) with (Some 17%nat). change (index_of "Source_z" column_names) with (Some 18%nat). cbv iota.
  rewrite !(nth_error_nth' _ NaN) by (rewrite app_length, full24_len; cbn [List.length]; lia).
  set (rr := full24 z q b m (child l e') ++ [Fin (INR k)]) in *. clearbody rr.
  assert (E1 : ncol rr 16 = Fin (vx s)) by exact (f_equal nx E). assert (E2 : ncol rr 17 = Fin (vy s)) by exact (f_equal ny E). assert (E3 : ncol rr 18 = Fin (vz s)) by exact (f_equal nz E).
  unfold ncol in E1, E2, E3. rewrite E1, E2, E3. auto.
Qed.
(** ... and every reflection of the fine mesh belongs to one of the coarse mesh, of the parent element, unless the centre of
    the parent is outside the beam at that time. *)
Lemma pC106_each_parent : forall z x f p q b m lo hi pd p' pd' q' r' e' t s, reachable_pc x p -> reachable_pc x q -> refines f p q ->
  diffract z x p b m lo hi None = (Ok pd, p') -> diffract z x q b m lo hi None = (Ok pd', q') ->
  In r' (pd_peaks pd') -> has pd' r' "grain_index" (INR e') -> has pd' r' "diffraction_times" t -> lit_at p b m (f e') t s ->
  exists r, In r (pd_peaks pd) /\ same_reflection pd pd' r r' /\ has pd r "grain_index" (INR (f e')) /\
    row_volume pd r = nth (f e') (pc_volumes p) 0.
Proof.
  intros z x f p q b m lo hi pd p' pd' q' r' e' t s R R' HR D D' Hr He Ht HL.
  destruct (refined_calls z x f p q b m lo hi pd p' R R' HR D) as (A & pd2 & out & out' & D2 & -> & T & T' & C & C' & P & P' & HA).
  rewrite D' in D2. assert (pd' = pd2) by (apply ok_inj; exact (f_equal fst D2)). subst pd2. clear D2.
  rewrite T' in Hr. apply mapi_rows in Hr as (r0 & i & Hr0 & ->). apply filter_In in Hr0 as [Hr0 _]. apply (Permutation_in r0 P') in Hr0. apply in_map_iff in Hr0 as (l & <- & Hl).
  pose proof (has_grain z q b m l (Fin (INR i)) pd' C') as He2. unfold has in He, He2. rewrite He2 in He. assert (Le : l_e l = e') by (apply INR_eq; congruence).
  pose proof (has_time z q b m l (Fin (INR i)) pd' C') as Ht2. unfold has in Ht, Ht2. rewrite Ht2 in Ht. assert (Lt : l_t l = t) by congruence. clear He He2 Ht Ht2. subst e' t.
  apply in_flat_map in Hl as (l0 & H0 & Hc). apply in_children in Hc as [Hc ->].
  assert (Hin : In (full24 z p b m (parent f l)) (filter (illuminated b) out)).
  { apply filter_In. split; [apply (Permutation_in _ (Permutation_sym P)); now apply in_map|]. apply (lit_full z p b m (parent f l) s). exact HL. }
  destruct (rows_mapi _ _ Hin) as (k & Hk). rewrite <- T in Hk. exists (full24 z p b m (parent f l) ++ [Fin (INR k)]). split; [exact Hk|].
  split; [|split; [exact (has_grain z p b m (parent f l) _ pd C)|exact (row_volume_full z p b m (parent f l) _ pd C)]].
  replace l with (child (parent f l) (l_e l)) at 2 by (destruct l; reflexivity). now apply child_same.
Qed.
(** ... but the peak widths are those of the mesh, not of the grains: a part, being smaller than its parent, gets a broader peak. *)
Lemma pC106_broader : forall z x p q b m lo hi pd p' pd' q' r r' v v' tth w w',
  diffract z x p b m lo hi None = (Ok pd, p') -> diffract z x q b m lo hi None = (Ok pd', q') ->
  In r (pd_peaks pd) -> In r' (pd_peaks pd') -> same_reflection pd pd' r r' ->
  has pd r "volumes" v -> has pd' r' "volumes" v' -> 0 < v' < v -> has pd r "2theta" tth -> 0 <= tth < PI -> 0 < b_wavelength b ->
  has pd r "scherrer_fwhm" w -> has pd' r' "scherrer_fwhm" w' -> w < w'.
Proof.
  intros z x p q b m lo hi pd p' pd' q' r r' v v' tth w w' D D' Hr Hr' S V V' Vv Ht Tt L W W'.
  destruct (pC10_peak_contents _ _ _ _ _ _ _ _ _ _ _ D Hr) as (? & ? & ? & ? & ? & ? & ? & ? & ? & ? & v1 & _ & _ & _ & _ & _ & _ & _ & _ & _ & _ & _ & _ & _ & _ & _ & _ & _ & _ & _ & _ & B1 & B2).
  destruct (pC10_peak_contents _ _ _ _ _ _ _ _ _ _ _ D' Hr') as (? & ? & ? & ? & ? & ? & ? & ? & ? & ? & v2 & _ & _ & _ & _ & _ & _ & _ & _ & _ & _ & _ & _ & _ & _ & _ & _ & _ & _ & _ & _ & C1 & C2).
  unfold has in *. rewrite V in B1. rewrite V' in C1. assert (v1 = v) by congruence. assert (v2 = v') by congruence. subst v1 v2.
  assert (Ht' : field pd' r' "2theta" = Some (Fin tth)) by (rewrite <- Ht; apply S; cbn; intuition discriminate).
  specialize (B2 tth Ht). specialize (C2 tth Ht').
  apply (pC60_scherrer_decreases_with_volume z v' v tth (b_wavelength b) w' w); auto; congruence.
Qed.
(** ... eight parts of one eighth each double the width. *)
Lemma pC106_twice : forall z x p q b m lo hi pd p' pd' q' r r' v tth w,
  diffract z x p b m lo hi None = (Ok pd, p') -> diffract z x q b m lo hi None = (Ok pd', q') ->
  In r (pd_peaks pd) -> In r' (pd_peaks pd') -> same_reflection pd pd' r r' ->
  has pd r "volumes" (8 * v) -> has pd' r' "volumes" v -> 0 < v -> has pd r "2theta" tth -> 0 <= tth < PI ->
  has pd r "scherrer_fwhm" w -> has pd' r' "scherrer_fwhm" (2 * w).
Proof.
  intros z x p q b m lo hi pd p' pd' q' r r' v tth w D D' Hr Hr' S V V' Vv Ht Tt W.
  destruct (pC10_peak_contents _ _ _ _ _ _ _ _ _ _ _ D Hr) as (? & ? & ? & ? & ? & ? & ? & ? & ? & ? & v1 & _ & _ & _ & _ & _ & _ & _ & _ & _ & _ & _ & _ & _ & _ & _ & _ & _ & _ & _ & _ & B1 & B2).
  destruct (pC10_peak_contents _ _ _ _ _ _ _ _ _ _ _ D' Hr') as (? & ? & ? & ? & ? & ? & ? & ? & ? & ? & v2 & _ & _ & _ & _ & _ & _ & _ & _ & _ & _ & _ & _ & _ & _ & _ & _ & _ & _ & _ & _ & C1 & C2).
  unfold has in *. rewrite V in B1. rewrite V' in C1. assert (v1 = 8 * v) by congruence. assert (v2 = v) by congruence. subst v1 v2.
  assert (Ht' : field pd' r' "2theta" = Some (Fin tth)) by (rewrite <- Ht; apply S; cbn; intuition discriminate).
  specialize (B2 tth Ht). specialize (C2 tth Ht'). rewrite C2. f_equal.
  apply (pC60_scherrer_scaling z v tth (b_wavelength b) w); auto; congruence.
Qed.
(** The volumes add up: a tetrahedron cut at any point of it (a point inside, on a face or on an edge) into the tetrahedra that
    have the point in place of one of the vertices; parts without volume may be left out. *)
Lemma pC106_cut : forall A B C D a b c d, 0 <= a -> 0 <= b -> 0 <= c -> 0 <= d -> a + b + c + d = 1 ->
  let P := vadd (vadd (vadd (vscale a A) (vscale b B)) (vscale c C)) (vscale d D) in
  let V := tet_volume (Tet A B C D) in
  tet_volume (Tet P B C D) = a * V /\ tet_volume (Tet A P C D) = b * V /\ tet_volume (Tet A B P D) = c * V /\ tet_volume (Tet A B C P) = d * V.
Proof.
  intros A B C D a b c d Ha Hb Hc Hd S P V. unfold V. rewrite !tet_volume_vol. cbn [q0 q1 q2 q3].
  assert (E : a = 1 - b - c - d) by lra.
  assert (E1 : signed_vol6 P B C D = a * signed_vol6 A B C D) by (unfold P, signed_vol6; rewrite E; clear; vdes; vunf; ring).
  assert (E2 : signed_vol6 A P C D = b * signed_vol6 A B C D) by (unfold P, signed_vol6; rewrite E; clear; vdes; vunf; ring).
  assert (E3 : signed_vol6 A B P D = c * signed_vol6 A B C D) by (unfold P, signed_vol6; rewrite E; clear; vdes; vunf; ring).
  assert (E4 : signed_vol6 A B C P = d * signed_vol6 A B C D) by (unfold P, signed_vol6; rewrite E; clear; vdes; vunf; ring).
  rewrite E1, E2, E3, E4, !Rabs_mult, !(Rabs_right a), !(Rabs_right b), !(Rabs_right c), !(Rabs_right d) by lra. repeat split; field.
Qed.
