(** * C97 example, and C98: what the description of the beam does. *)
From Verif Require Import Vec Spec MMotion MLaue MMesh MScattering MStrain MBeam SBeam MPolycrystal SPolycrystal MDetector MRender SRender SPassenger.
From Verif Require Import PMotion PMesh PBeam PBeam2 PPolycrystal PPolycrystal2 PPolycrystal3 PDetector PDetector2 PDetector3 PRender PEvents PJoin2 PPass PPass2.
From Verif Require Import SBeam2 SDetector.
From Coq Require Import String Sorted.
Open Scope list_scope. Open Scope R_scope.
Local Notation len := List.length.

(** ** Example of C97: other Miller indices, same picture *)
Definition set_h (x : R) (r : list num) : list num := firstn 2 r ++ [Fin x] ++ skipn 3 r.
Lemma set_h_len x r : len r = 25%nat -> len (set_h x r) = 25%nat.
Proof. intros L. unfold set_h. rewrite !app_length, firstn_length, skipn_length, L. reflexivity. Qed.
Lemma set_h_nth x r j : len r = 25%nat -> j <> 2%nat -> nth_error (set_h x r) j = nth_error r j.
Proof.
  intros L H. do 3 (destruct r as [|? r]; [discriminate|]). unfold set_h. cbn [firstn skipn app].
  destruct j as [|[|[|j]]]; try reflexivity. contradiction.
Qed.
Definition table_h (x : R) (pd : peaks_dict) : peaks_dict :=
  PD (map (set_h x) (pd_peaks pd)) (pd_columns pd) (pd_incident pd) (pd_wavelength pd) (pd_axis pd) (pd_mesh pd) (pd_motion pd) (pd_beam pd).
Lemma table_h_fresh x pd : fresh pd -> fresh (table_h x pd).
Proof.
  intros [C F]. split; [exact C|]. unfold table_h; cbn [pd_peaks]. apply Forall_forall. intros r Hx. apply in_map_iff in Hx as (y & <- & Hy).
  apply set_h_len. rewrite Forall_forall in F. auto.
Qed.
Lemma table_h_agree x d pd : fresh pd -> agree_on (picture_column d) pd (table_h x pd).
Proof.
  intros [C F]. unfold agree_on, table_h; cbn [pd_peaks].
  assert (Q : forall l, Forall (fun r => len r = 25%nat) l -> Forall2 (fun r r' => forall s, picture_column d s -> field pd r s = field (table_h x pd) r' s) l (map (set_h x) l)).
  { clear F. intros l F. induction F as [|r xs Hx F IH]; constructor; auto.
    intros s Hs. unfold field, table_h. cbn [pd_columns]. rewrite C. destruct (column_kept d s Hs) as (j & -> & Kj & _).
    symmetry. apply set_h_nth; auto. intros ->. discriminate. }
  exact (Q _ F).
Qed.
Lemma xC97_indices : exists d pd pd' out r r',
  built d /\ fresh pd /\ fresh pd' /\ same_scene pd pd' /\ agree_on (picture_column d) pd pd' /\
  In r (pd_peaks pd) /\ In r' (pd_peaks pd') /\ field pd r "h" <> field pd' r' "h" /\
  project false d pd 3 = Ok out /\ pd_peaks out <> [].
Proof.
  destruct xC32_visible as (d & pd & r & Hb & Hr & Hf & Hin & Hv).
  destruct (pC32_rows_are_the_visible_ones false d pd 3 Hb Hr Hf) as (out & keep & Ho & Hm & Hk & _).
  assert (L : len r = 25%nat) by (destruct Hf as [_ F]; rewrite Forall_forall in F; auto).
  assert (In r (map (firstn 25) (pd_peaks out))) by (rewrite Hm; apply filter_In; split; auto; apply Hk; auto).
  assert (NE : pd_peaks out <> []) by (intros C; rewrite C in H; contradiction).
  assert (C1 : pd_columns pd = column_names) by apply Hf.
  set (x := read pd r "h" + 1).
  exists d, pd, (table_h x pd), out, r, (set_h x r). split; auto. split; auto. split; [now apply table_h_fresh|]. split; [repeat split|].
  split; [now apply table_h_agree|]. split; auto. split; [apply in_map_iff; eauto|]. split; auto.
  intros C. assert (E : x = read pd r "h" + 1) by reflexivity. unfold read in E. rewrite C in E. unfold field, table_h in E. cbn [pd_columns] in E. rewrite C1 in E.
  change (index_of "h" column_names) with (Some 2%nat) in E. cbv iota in E.
  assert (N : nth_error (set_h x r) 2 = Some (Fin x)) by (do 3 (destruct r as [|? r]; [discriminate|]); reflexivity). rewrite N in E. lra.
Qed.

(** ** C98 *)
Lemma vdiv_scaled a c : 0 < c -> vdiv (vscale c a) (norm (vscale c a)) = vdiv a (norm a).
Proof.
  intros C. destruct (Req_dec (norm a) 0) as [Z|Z].
  - assert (a = vzero). { destruct (classic_vec a vzero) as [E|E]; auto. apply norm_pos in E. lra. } subst a.
    unfold vdiv. vext; cbn; unfold Rdiv; ring.
  - rewrite norm_scale, Rabs_pos_eq by lra. unfold vdiv. vext; unfold vscale; cbn; field; lra.
Qed.
(** Lengths of the propagation and polarization vectors do not matter. *)
Lemma pC98_lengths : forall q vs dir w pol c c', 0 < c -> 0 < c' ->
  make_beam q vs (vscale c dir) w (vscale c' pol) = make_beam q vs dir w pol.
Proof.
  intros q vs dir w pol c c' C C'. unfold make_beam. destruct (Req_EM_T w 0) as [W|W]; auto. cbv zeta.
  assert (E : vdiv (vscale (2 * PI / w) (vscale c dir)) (norm (vscale c dir)) = vdiv (vscale (2 * PI / w) dir) (norm dir)).
  { pose proof (vdiv_scaled dir c C) as H. unfold vdiv, vscale in *. cbn [vx vy vz] in *. 
    assert (Hx := f_equal vx H). assert (Hy := f_equal vy H). assert (Hz := f_equal vz H). cbn [vx vy vz] in Hx, Hy, Hz.
    unfold Rdiv in *. vext; cbn [vx vy vz]; rewrite !Rmult_assoc.
    - rewrite <- (Rmult_assoc c). now rewrite Hx.
    - rewrite <- (Rmult_assoc c). now rewrite Hy.
    - rewrite <- (Rmult_assoc c). now rewrite Hz. }
  rewrite E, vdiv_scaled by assumption.
  assert (N : forall a k, 0 < k -> (norm (vscale k a) = 0 <-> norm a = 0)).
  { intros a k Hk. rewrite norm_scale, Rabs_pos_eq by lra. split; intros H; [|rewrite H; ring].
    apply Rmult_integral in H. lra. }
  destruct (beam_vertex_state q vs) as [[[v cc] h]|]; cbn [bind]; auto.
  destruct (Req_EM_T (norm (vscale c dir)) 0) as [A|A], (Req_EM_T (norm dir) 0) as [B|B]; try reflexivity;
    try (apply N in A; auto; contradiction); try (exfalso; apply A, N; assumption).
  destruct (Req_EM_T (norm (vscale c' pol)) 0) as [A'|A'], (Req_EM_T (norm pol) 0) as [B'|B']; try reflexivity;
    try (apply N in A'; auto; contradiction); try (exfalso; apply A', N; assumption).
Qed.
(** Reversing the polarization vector reverses the stored one and nothing else. *)
Lemma pC98_reversed : forall q vs dir w pol,
  make_beam q vs dir w (vneg pol) =
  match make_beam q vs dir w pol with Ok b => Ok (repolarized b (vneg (b_polarization b))) | Err x => Err x end.
Proof.
  intros q vs dir w pol. unfold make_beam. destruct (Req_EM_T w 0) as [W|W]; auto. cbv zeta.
  assert (N : norm (vneg pol) = norm pol) by (unfold norm; f_equal; destruct pol; vunf; ring).
  rewrite N. destruct (beam_vertex_state q vs) as [[[v cc] h]|]; cbn [bind]; auto.
  destruct (Req_EM_T (norm dir) 0); auto. destruct (Req_EM_T (norm pol) 0); auto.
  assert (V : vdiv (vneg pol) (norm pol) = vneg (vdiv pol (norm pol))) by (unfold vdiv, vneg; vext; cbn; unfold Rdiv; ring).
  rewrite V. replace (Rabs (dot (vneg (vdiv pol (norm pol))) (vdiv (vscale (2 * PI / w) dir) (norm dir))))
    with (Rabs (dot (vdiv pol (norm pol)) (vdiv (vscale (2 * PI / w) dir) (norm dir)))).
  - destruct (assert_ _); cbn [bind]; auto.
  - rewrite <- Rabs_Ropp. f_equal. generalize (vdiv pol (norm pol)) (vdiv (vscale (2 * PI / w) dir) (norm dir)). intros a b. destruct a, b. vunf. ring.
Qed.

(** The order and multiplicity in which the hull routine lists its planes do not matter. *)
Lemma row_before_irrefl h : ~ row_before h h.
Proof. unfold row_before. lra. Qed.
Lemma sorted_unique l : forall l', StronglySorted row_before l -> StronglySorted row_before l' -> (forall h, In h l <-> In h l') -> l = l'.
Proof.
  induction l as [|a l IH]; intros [|b l'] S S' H; auto.
  - destruct (proj2 (H b)); now left.
  - destruct (proj1 (H a)); now left.
  - inversion S as [|? ? S1 F1]; subst. inversion S' as [|? ? S2 F2]; subst. rewrite Forall_forall in F1, F2.
    assert (a = b).
    { destruct (proj1 (H a) (or_introl eq_refl)) as [E|E]; auto. destruct (proj2 (H b) (or_introl eq_refl)) as [E'|E']; auto.
      exfalso. apply (row_before_irrefl a). eapply row_before_trans; eauto. }
    subst b. f_equal. apply IH; auto. intros h. split; intros Hh.
    + destruct (proj1 (H h) (or_intror Hh)) as [E|E]; auto. subst h. exfalso. apply (row_before_irrefl a). auto.
    + destruct (proj2 (H h) (or_intror Hh)) as [E|E]; auto. subst h. exfalso. apply (row_before_irrefl a). auto.
Qed.
Lemma clean_same l l' : (forall h, In h (map hs_round l) <-> In h (map hs_round l')) -> clean_halfspaces l = clean_halfspaces l'.
Proof.
  intros H. apply sorted_unique; try apply clean_sorted. intros h. rewrite !clean_In. specialize (H h). rewrite !in_map_iff in H.
  split; intros (e & He & ->).
  - destruct (proj1 H) as (e' & E & He'); [eauto|]. eauto.
  - destruct (proj2 H) as (e' & E & He'); [eauto|]. eauto.
Qed.
Lemma pC98_hull_order : forall q q' vs dir w pol, same_planes q q' vs ->
  make_beam q vs dir w pol = make_beam q' vs dir w pol.
Proof.
  intros q q' vs dir w pol (N & H).
  assert (E : beam_vertex_state q vs = beam_vertex_state q' vs).
  { unfold beam_vertex_state. rewrite N. destruct (qh_nvert q' vs) as [n|]; cbn [bind]; auto. destruct (assert_ _); cbn [bind]; auto.
    destruct (qh_eqs_QJ q vs) as [l|x], (qh_eqs_QJ q' vs) as [l'|x']; try contradiction; cbn [bind].
    - now rewrite (clean_same _ _ H).
    - now rewrite H. }
  unfold make_beam. now rewrite E.
Qed.

(** ** Polarization enters one column only *)
Definition nopol (j : nat) : bool := negb (Nat.eqb j 20).
Lemma full_row_pol z b p m r c v : len r = 10%nat -> bl nopol (full_row z (repolarized b p) m r c v) = bl nopol (full_row z b m r c v).
Proof.
  intros L. unfold full_row, repolarized. cbn [b_wave_vector b_wavelength b_polarization].
  do 11 (destruct r as [|? r]; [try discriminate|]); [|discriminate]. unfold row24. 
  set (G := rot_at m _ _). set (K := vadd G _). set (s := move_at m _ c). clearbody G. clearbody K s. reflexivity.
Qed.
Lemma compute_pol z p phs b pol m :
  match compute_peaks z p phs b m, compute_peaks z p phs (repolarized b pol) m with
  | Ok o, Ok o' => map (bl nopol) o = map (bl nopol) o' /\ (polarization (b_polarization b) = polarization pol -> o = o')
  | Err x, Err x' => x = x'
  | _, _ => False
  end.
Proof.
  destruct (rows10 p phs (laue_factors (b_wave_vector b) (m_axis m)) (m_angle m)) as [rows|x] eqn:E1.
  2:{ unfold compute_peaks. cbv zeta. unfold repolarized. cbn [b_wave_vector]. rewrite E1. reflexivity. }
  destruct (gather (me_espherecentroids (pc_mesh_lab p)) (map grain_of rows)) as [cents|x] eqn:E2.
  2:{ unfold compute_peaks. cbv zeta. unfold repolarized. cbn [b_wave_vector]. rewrite E1. cbn [bind].
      rewrite rotate_P2_S1 by (rewrite !map_length; auto). cbn [bind rows_of]. rewrite E2. reflexivity. }
  destruct (gather (pc_volumes p) (map grain_of rows)) as [vols|x] eqn:E3.
  2:{ unfold compute_peaks. cbv zeta. unfold repolarized. cbn [b_wave_vector]. rewrite E1. cbn [bind].
      rewrite rotate_P2_S1 by (rewrite !map_length; auto). cbn [bind rows_of]. rewrite E2. cbn [bind].
      rewrite call_P2_S1 by (rewrite map_length, <- (Forall2_len _ _ _ (gather_spec _ _ _ E2)), map_length; auto).
      cbn [bind]. rewrite E3. reflexivity. }
  rewrite (compute_peaks_rows z p phs b m rows cents vols E1 E2 E3).
  rewrite (compute_peaks_rows z p phs (repolarized b pol) m rows cents vols E1 E2 E3).
  destruct (Nat.eqb (len rows) 1); [reflexivity|].
  split.
  - rewrite !map_map. apply map_ext_in. intros [[r c] v] Hin. symmetry. apply full_row_pol.
    apply zip3_in in Hin as (k & Hk & _). apply nth_error_In in Hk.
    apply (rows10_in _ _ _ _ _ r E1) in Hk as (i & ph & Hi & e & h & sf & t & G0 & _ & _ & _ & _ & ->). reflexivity.
  - intros EP. apply map_ext. intros [[r c] v]. cbn [fst snd]. unfold full_row, repolarized. cbn [b_wave_vector b_wavelength b_polarization].
    now rewrite EP.
Qed.
Lemma illuminated_bl b r : illuminated b (bl nopol r) = illuminated b r.
Proof. unfold illuminated. rewrite !ncol_bl by reflexivity. reflexivity. Qed.
Lemma bl_fields (pd pd' : peaks_dict) r r' s : pd_columns pd = column_names -> pd_columns pd' = column_names ->
  bl nopol r = bl nopol r' -> s <> "polarization_factors"%string -> field pd r s = field pd' r' s.
Proof.
  intros C C' E N. unfold field. rewrite C, C'. destruct (index_of s column_names) as [j|] eqn:Ej; auto.
  assert (J : j <> 20%nat).
  { intros ->. apply index_of_nth in Ej. cbn in Ej. congruence. }
  assert (KJ : nopol j = true) by (unfold nopol; apply Nat.eqb_neq in J; now rewrite J).
  assert (L : len r = len r') by (pose proof (f_equal (@List.length num) E) as H; unfold bl in H; now rewrite !erase_len in H).
  assert (Q : ncol r j = ncol r' j) by (rewrite <- (ncol_bl nopol r j KJ), <- (ncol_bl nopol r' j KJ); now rewrite E).
  unfold ncol in Q. destruct (lt_dec j (len r)) as [H|H].
  - rewrite (nth_error_nth' r NaN) by lia. rewrite (nth_error_nth' r' NaN) by lia. now rewrite Q.
  - rewrite !(proj2 (nth_error_None _ _)) by lia. reflexivity.
Qed.
Lemma numbered_bl_from (l : list (list num)) : forall l' n, map (bl nopol) l = map (bl nopol) l' -> Forall (fun r => len r = 24%nat) l -> Forall (fun r => len r = 24%nat) l' ->
  Forall2 (fun r r' => bl nopol r = bl nopol r') (mapi_from n (fun i r => r ++ [Fin (INR i)]) l) (mapi_from n (fun i r => r ++ [Fin (INR i)]) l').
Proof.
  induction l as [|r rs IH]; intros [|r' rs'] n E F F'; try discriminate; [constructor|].
  cbn [mapi_from map] in *. inversion F as [|? ? F1 F2]; subst. inversion F' as [|? ? F1' F2']; subst. constructor.
  - assert (E1 : bl nopol r = bl nopol r') by congruence. unfold bl in *. rewrite !erase_app, E1, F1, F1'. reflexivity.
  - apply IH; auto. congruence.
Qed.
Lemma numbered_bl (l l' : list (list num)) : map (bl nopol) l = map (bl nopol) l' -> Forall (fun r => len r = 24%nat) l -> Forall (fun r => len r = 24%nat) l' ->
  Forall2 (fun r r' => bl nopol r = bl nopol r') (mapi (fun i r => r ++ [Fin (INR i)]) l) (mapi (fun i r => r ++ [Fin (INR i)]) l').
Proof. intros; now apply numbered_bl_from. Qed.

Lemma compute_len z p phs b m o : compute_peaks z p phs b m = Ok o -> Forall (fun r => len r = 24%nat) o.
Proof.
  intros H. apply compute_peaks_inv in H as (rows & cents & vols & E1 & _ & _ & _ & ->).
  apply Forall_forall. intros x Hx. apply in_map_iff in Hx as ([[r c] v] & <- & Hin).
  apply zip3_in in Hin as (k & Hk & _). apply nth_error_In in Hk.
  apply (rows10_in _ _ _ _ _ r E1) in Hk as (i & ph & Hi & e & h & sf & t & G0 & _ & _ & _ & _ & ->). reflexivity.
Qed.
Lemma filter_bl b (l l' : list (list num)) : map (bl nopol) l = map (bl nopol) l' -> map (bl nopol) (filter (illuminated b) l) = map (bl nopol) (filter (illuminated b) l').
Proof.
  intros E. assert (Q : forall l, map (bl nopol) (filter (illuminated b) l) = filter (illuminated b) (map (bl nopol) l)).
  { intros k. rewrite PPass.filter_map. f_equal. apply filter_same. intros x. symmetry. apply illuminated_bl. }
  now rewrite !Q, E.
Qed.
Lemma diffract_pol z x p b pol m lo hi det :
  snd (diffract z x p b m lo hi det) = snd (diffract z x p (repolarized b pol) m lo hi det) /\
  match fst (diffract z x p b m lo hi det), fst (diffract z x p (repolarized b pol) m lo hi det) with
  | Ok pd, Ok pd' => same_header pd pd' /\ pd_beam pd = b /\ pd_beam pd' = repolarized b pol /\
      agree_on (fun s => s <> "polarization_factors"%string) pd pd' /\
      (polarization (b_polarization b) = polarization pol -> pd_peaks pd = pd_peaks pd')
  | Err e, Err e' => e = e'
  | _, _ => False
  end.
Proof.
  unfold diffract.
  assert (EB : match det with None => Ok (lo, hi) | Some d => bragg_bounds p d (repolarized b pol) lo end =
               match det with None => Ok (lo, hi) | Some d => bragg_bounds p d b lo end) by reflexivity.
  rewrite EB. clear EB.
  destruct (match det with None => Ok (lo, hi) | Some d => bragg_bounds p d b lo end) as [[l h]|e]; [|split; reflexivity].
  cbv zeta. cbn [fst snd]. split; [reflexivity|].
  change (b_wavelength (repolarized b pol)) with (b_wavelength b).
  set (phs := map _ (pc_phases p)). set (p' := PC _ _ _ _ _ _ _ _ _ _).
  pose proof (compute_pol z p' phs b pol m) as H.
  pose proof (compute_len z p' phs b m) as L. pose proof (compute_len z p' phs (repolarized b pol) m) as L'.
  destruct (compute_peaks z p' phs b m) as [o|e], (compute_peaks z p' phs (repolarized b pol) m) as [o'|e']; cbn [bind]; auto.
  specialize (L o eq_refl). specialize (L' o' eq_refl). destruct H as [H1 H2].
  split; [repeat split|]. split; [reflexivity|]. split; [reflexivity|]. split.
  - unfold agree_on. cbn [pd_peaks].
    assert (FL : forall k, Forall (fun r : list num => len r = 24%nat) k -> Forall (fun r => len r = 24%nat) (filter (illuminated b) k)).
    { intros k Hk. rewrite Forall_forall in *. intros r Hr. apply filter_In in Hr as [Hr _]. auto. }
    pose proof (numbered_bl _ _ (filter_bl b o o' H1) (FL o L) (FL o' L')) as N.
    change (illuminated (repolarized b pol)) with (illuminated b).
    eapply Forall2_impl'; [|exact N]. intros r r' E s Hs. now apply bl_fields.
  - intros E. rewrite (H2 E). reflexivity.
Qed.
Lemma polarization_neg a : polarization (vneg a) = polarization a.
Proof.
  apply FunctionalExtensionality.functional_extensionality. intros k. unfold polarization. destruct (Req_EM_T (norm k) 0); auto.
  cbv zeta. f_equal. set (u := V3 _ _ _). destruct u, a. vunf. ring.
Qed.

(** Beams that differ in their polarization vector: same failures, same change of the polycrystal, and tables that
    differ at most in the column of polarization factors. *)
Lemma pC98_polarization_column : forall z x p b pol m lo hi det,
  snd (diffract z x p b m lo hi det) = snd (diffract z x p (repolarized b pol) m lo hi det) /\
  match fst (diffract z x p b m lo hi det), fst (diffract z x p (repolarized b pol) m lo hi det) with
  | Ok pd, Ok pd' => same_header pd pd' /\ pd_beam pd = b /\ pd_beam pd' = repolarized b pol /\
      agree_on (fun s => s <> "polarization_factors"%string) pd pd'
  | Err e, Err e' => e = e'
  | _, _ => False
  end.
Proof.
  intros z x p b pol m lo hi det. pose proof (diffract_pol z x p b pol m lo hi det) as [H1 H2]. split; auto.
  destruct (fst (diffract z x p b m lo hi det)), (fst (diffract z x p (repolarized b pol) m lo hi det)); auto. tauto.
Qed.
(** Opposite polarization vectors: the same rows. *)
Lemma pC98_opposite_rows : forall z x p b m lo hi det pd pd',
  fst (diffract z x p b m lo hi det) = Ok pd ->
  fst (diffract z x p (repolarized b (vneg (b_polarization b))) m lo hi det) = Ok pd' ->
  pd_peaks pd = pd_peaks pd'.
Proof.
  intros z x p b m lo hi det pd pd' H H'. pose proof (diffract_pol z x p b (vneg (b_polarization b)) m lo hi det) as [_ H2].
  rewrite H, H' in H2. destruct H2 as (_ & _ & _ & _ & H2). apply H2. now rewrite polarization_neg.
Qed.
(** Pictures: a detector that ignores polarization shows the same for every polarization, every detector shows the
    same for opposite ones, whatever the method. *)
Lemma pC98_pictures : forall z x p b pol m lo hi det pd pd' e d frames method ml mi,
  fst (diffract z x p b m lo hi det) = Ok pd -> fst (diffract z x p (repolarized b pol) m lo hi det) = Ok pd' ->
  d_polarization d = false \/ pol = vneg (b_polarization b) ->
  match render e d pd frames method ml mi, render e d pd' frames method ml mi with
  | Ok (im, _), Ok (im', _) => im = im'
  | Err x, Err x' => x = x'
  | _, _ => False
  end.
Proof.
  intros z x p b pol m lo hi det pd pd' e d frames method ml mi H H' C.
  pose proof (diffract_pol z x p b pol m lo hi det) as [_ H2]. rewrite H, H' in H2. destruct H2 as ((C1 & _ & _ & _ & C2 & C3) & B1 & B2 & A & O).
  assert (F : fresh pd) by (eapply pC32_diffract_tables_fresh; eauto). assert (F' : fresh pd') by (eapply pC32_diffract_tables_fresh; eauto).
  assert (S : same_scene pd pd') by (unfold same_scene; rewrite B1, B2; auto).
  assert (G : agree_on (picture_column d) pd pd').
  { destruct C as [C|C].
    - unfold agree_on in *. eapply Forall2_impl'; [|exact A]. intros r r' Hr s Hs. apply Hr. intros ->.
      destruct Hs as [Hs|[[Hs _]|[[_ Hs]|[Hs _]]]]; try discriminate; [|congruence].
      cbn in Hs. repeat (destruct Hs as [Hs|Hs]; [discriminate|]). contradiction.
    - subst pol. rewrite polarization_neg in O. specialize (O eq_refl). unfold agree_on. rewrite <- O.
      assert (Q : forall l, Forall2 (fun r r' => forall s, picture_column d s -> field pd r s = field pd' r' s) l l).
      { intros l. induction l; constructor; auto. intros s _. unfold field. now rewrite C1. }
      apply Q. }
  pose proof (pC97_picture_columns e d pd pd' frames method ml mi F F' S G) as R.
  destruct (render e d pd frames method ml mi) as [[im o]|], (render e d pd' frames method ml mi) as [[im' o']|]; auto. tauto.
Qed.
Lemma xC98_table : exists x p b m pd pd' row,
  fst (diffract false x p b m 0 1 None) = Ok pd /\ In row (pd_peaks pd) /\
  fst (diffract false x p (repolarized b (V3 0 0 1)) m 0 1 None) = Ok pd' /\ repolarized b (V3 0 0 1) <> repolarized b (V3 0 1 0).
Proof.
  destruct xC10_table as (q & b & a & w & T & o & m & x & p & d & p' & row & e & i & ph & h & sf & t & G0 & G & c & s & H1 & H2 & H3 & H4 & H5 & H6 & _).
  assert (E : fst (diffract false x p b m 0 1 None) = Ok d) by now rewrite H5.
  pose proof (pC98_polarization_column false x p b (V3 0 0 1) m 0 1 None) as [_ H]. rewrite E in H.
  destruct (fst (diffract false x p (repolarized b (V3 0 0 1)) m 0 1 None)) as [pd'|] eqn:E'; [|contradiction].
  exists x, p, b, m, d, pd', row. split; auto. split; auto. split; auto.
  intros C. apply (f_equal b_polarization) in C. apply (f_equal vz) in C. cbn in C. lra.
Qed.
Lemma xC98_planes : exists q q' vs l l', q <> q' /\ same_planes q q' vs /\ qh_eqs_QJ q vs = Ok l /\ qh_eqs_QJ q' vs = Ok l' /\ l <> l' /\ l <> [].
Proof.
  set (q := Qhull (fun l => Ok (len l)) (fun _ => Ok (rev cube_hs ++ rev cube_hs)) (fun _ => Ok cube_hs)).
  assert (N : rev cube_hs ++ rev cube_hs <> cube_hs).
  { intros C. apply (f_equal (@List.length _)) in C. rewrite app_length, rev_length in C. cbn in C. lia. }
  exists cube_qhull, q, cube_pts, cube_hs, (rev cube_hs ++ rev cube_hs).
  split; [|split; [|split; [reflexivity|split; [reflexivity|split; [congruence|discriminate]]]]].
  - intros C. assert (D := f_equal (fun k => qh_eqs_QJ k cube_pts) C). cbn [qh_eqs_QJ cube_qhull q] in D. apply ok_inj in D. congruence.
  - split; [reflexivity|]. cbn [qh_eqs_QJ cube_qhull q]. intros h. rewrite map_app, in_app_iff, map_rev, <- in_rev. tauto.
Qed.
