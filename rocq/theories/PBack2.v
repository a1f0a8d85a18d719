(** * A scan run backwards: pictures and refusals (C92). *)
From Verif Require Import Vec Spec MMotion MLaue MMesh MScattering MStrain MBeam SBeam MPolycrystal SPolycrystal SEvents MDetector SDetector MRender SRender SEnd SScan SBack.
From Verif Require Import PMotion PLaue PMesh PBeam PStrain PPolycrystal PPolycrystal2 PPolycrystal3 PEvents PDetector PRender PRender2 PRender3 PEnd PEnd2 PDetector2 SJoin PJoin PJoin2 PJoin3 PNumber PNumber2 PScan PBack.
From Verif Require Import SPolycrystal SDetector.
From Coq Require Import Permutation.
Open Scope list_scope. Open Scope R_scope.
Local Notation len := List.length.

(** ... a call that raises on the way there raises the same on the way back. *)
Lemma pC92_same_refusal : forall z x p b a w T o m mb lo hi e p' mp,
  reachable_pc x p -> xtal_ok x -> pc_map p = MapTensor mp -> unit a ->
  make_motion a w T o = Ok m -> make_motion (vneg a) w (vneg T) (vadd o T) = Ok mb ->
  diffract z x p b m lo hi None = (Err e, p') ->
  (forall e pl th, 0 <= th <= w -> reflects p' b a e pl th -> ~ reflects p' b a e pl PI /\ ~ reflects p' b a e pl (w + PI)) ->
  fst (diffract z x (transform p m 1) b mb lo hi None) = Err e.
Proof.
  intros z x p b a w T o m mb lo hi e p' mp R X M U Hm Hmb D NB.
  assert (Em : m = Motion a w T o) by (apply make_motion_ok_iff in Hm as (_ & _ & ->); auto).
  assert (Emb : mb = Motion (vneg a) w (vneg T) (vadd o T)) by (apply make_motion_ok_iff in Hmb as (_ & _ & ->); auto).
  assert (W : 0 < w < PI) by (apply make_motion_ok_iff in Hm as (W & _); exact W).
  pose proof (unit_neg a U) as U'. pose proof (back_state z x p b m mb lo hi _ _ D) as ES.
  assert (R' : reachable_pc x (transform p m 1)) by now constructor.
  assert (EE : e = IndexError) by exact (diffract_error z x p b m lo hi mp e p' R M D). rewrite EE in *. clear EE.
  destruct (diffract z x (transform p m 1) b mb lo hi None) as [[pd'|e'] q'] eqn:D'; cbn [fst snd] in *.
  2: { f_equal. eapply (diffract_error z x (transform p m 1)); eauto. }
  exfalso. subst q'.
  destruct (diffract_labels _ _ _ _ _ _ _ _ _ _ _ _ _ _ Hmb U' D') as (all' & graz' & out' & Ep' & Pm' & NA' & NG' & IA' & IG').
  assert (EX : exists all, all' = map (bl a T o w) all /\ Forall (lab_event p' b m) all).
  { assert (F : forall l, In l all' -> lab_event (transform p' m 1) b mb l) by (intros l; apply IA'). clear - F NB U W Em Emb.
    induction all' as [|l' all' IH]; [exists []; auto|]. destruct IH as (all & -> & FA); [intros; apply F; now right|].
    pose proof (F l' (or_introl eq_refl)) as E. rewrite Em, Emb in E. apply (back_event_inv a T o w p' b U W) in E as (l & E & ->); auto.
    exists (l :: all). split; [reflexivity|]. constructor; auto. now rewrite Em. }
  destruct EX as (all & -> & FA). rewrite Forall_forall in FA.
  assert (IA : forall l, In l all <-> lab_event p' b m l).
  { intros l. split; [apply FA|]. intros E. assert (B : lab_event (transform p' m 1) b mb (bl a T o w l)).
    { rewrite Em, Emb in *. apply (back_event a T o w p' b U W); auto. intros RF. apply (NB _ _ (w * l_t l)); auto. destruct E as (ph & _ & _ & (S & _)).
      split; [apply Rmult_le_pos; lra|rewrite <- (Rmult_1_r w) at 2; apply Rmult_le_compat_l; lra]. }
    apply IA' in B. apply in_map_iff in B as (l1 & B1 & B2). apply bl_inj in B1 as (E1 & E2 & E3). replace l with l1; auto. apply (lab_unique p' b m); auto. }
  assert (NA : NoDup all) by (exact (NoDup_map_inv _ _ NA')).
  pose proof (outcome_events z x p b a w T o m lo hi mp _ p' all R X M Hm U D NA IA) as (_ & Q).
  pose proof (outcome_events z x _ b (vneg a) w (vneg T) (vadd o T) mb lo hi mp _ _ _ R' X M Hmb U' D' NA' IA') as (Q' & _).
  specialize (Q' (ex_intro _ pd' eq_refl)).
  assert (C : exists pd : peaks_dict, Err IndexError = Ok pd); [|destruct C; discriminate]. apply Q.
  destruct all as [|l [|l' all]]; cbn [map] in Q'; auto. rewrite Em, Emb in *. now apply (proj1 (back_grazing a T o w b U W l)).
Qed.

Section Spots.
Variables (a T o : vec) (w : R) (p : polycrystal) (b : beam).
Let m := Motion a w T o.
Let mb := Motion (vneg a) w (vneg T) (vadd o T).
Let q := transform p m 1.
Hypothesis U : unit a.
Lemma back_diffracts e j t G : diffracts_at q b (vneg a) mb e j t G <->
  exists i ph h G0, in_phase p e i /\ nth_error (pc_phases p) i = Some ph /\ plane_at ph j h /\ scattering_vector p e h G0 /\ 0 <= t <= 1 /\
    G = right_handed_rotation a (w * (1 - t)) G0 /\ laue_condition (b_wave_vector b) G /\ ~ laue_condition (b_wave_vector b) (right_handed_rotation a (w + PI) G0).
Proof.
  pose proof (unit_neg a U) as U'. unfold diffracts_at. split.
  - intros (i & ph & h & G1 & B1 & B2 & B3 & B4 & B5 & B6 & B7 & B8). apply back_scattering in B4 as (G0 & B4 & ->). exists i, ph, h, G0.
    rewrite rotate_P1_S0 in B6. apply okP1_inj in B6. unfold mb in B6. rewrite back_rot in B6 by auto. unfold rot_at in B6, B8. cbn [m_axis m_angle] in B6, B8.
    rewrite rod_spec in B6 by auto. rewrite rod_spec, Rmult_1_r, back_PI in B8 by auto. auto 12.
  - intros (i & ph & h & G0 & B1 & B2 & B3 & B4 & B5 & B6 & B7 & B8). exists i, ph, h, (rot_at m 1 G0). split; auto. split; auto. split; auto.
    split; [apply back_scattering; eauto|]. split; auto. split; [|split; auto].
    + rewrite rotate_P1_S0. unfold mb. rewrite back_rot by auto. unfold rot_at. cbn [m_axis m_angle]. rewrite rod_spec by auto. now rewrite B6.
    + unfold rot_at, m. cbn [m_axis m_angle]. now rewrite rod_spec, Rmult_1_r, back_PI by auto.
Qed.
Lemma back_lit e t s : lit_at q b mb e t s <-> lit_at p b m e (1 - t) s.
Proof.
  unfold lit_at. change (me_espherecentroids (pc_mesh_lab q)) with (map (move_at m 1) (me_espherecentroids (pc_mesh_lab p))). split.
  - intros (c & B1 & B2 & B3). rewrite nth_error_map in B1. destruct (nth_error _ e) as [c0|]; cbn [option_map] in B1; [|discriminate]. apply some_eq in B1. subst c.
    exists c0. rewrite call_P1_S0 in *. unfold mb, m in B2. rewrite back_move in B2 by auto. auto.
  - intros (c & B1 & B2 & B3). exists (move_at m 1 c). rewrite nth_error_map, B1. rewrite call_P1_S0 in *. unfold mb, m. rewrite back_move by auto. auto.
Qed.
Lemma mirror_bin n k t : (k < n)%nat -> ((0 < k)%nat -> t <> INR k / INR n) -> ((S k < n)%nat -> t <> INR (S k) / INR n) -> 0 <= t <= 1 ->
  in_bin (Z.of_nat n) t (Z.of_nat k) <-> in_bin (Z.of_nat n) (1 - t) (Z.of_nat (n - 1 - k)).
Proof.
  intros K E1 E2 Ht. assert (Nn : 0 < INR n) by (apply lt_0_INR; lia).
  assert (LE : INR (S k) <= INR n) by (apply le_INR; lia). rewrite S_INR in LE.
  unfold in_bin. rewrite <- !INR_IZR_INZ. rewrite !minus_INR by lia. cbn [INR].
  assert (X1 : forall u v, u / INR n < v <-> u < INR n * v).
  { intros u v. split; intros H; [apply (Rmult_lt_compat_l (INR n)) in H; [|lra]; replace (INR n * (u / INR n)) with u in H by (field; lra); lra|].
    apply (Rmult_lt_reg_l (INR n)); [lra|]. replace (INR n * (u / INR n)) with u by (field; lra). lra. }
  assert (X2 : forall u v, v <= u / INR n <-> INR n * v <= u).
  { intros u v. split; intros H; [apply (Rmult_le_compat_l (INR n)) in H; [|lra]; replace (INR n * (u / INR n)) with u in H by (field; lra); lra|].
    apply (Rmult_le_reg_l (INR n)); [lra|]. replace (INR n * (u / INR n)) with u by (field; lra). lra. }
  rewrite !X1, !X2.
  assert (Y1 : (0 < k)%nat -> INR n * t <> INR k). { intros H C. apply (E1 H). rewrite <- C. field. lra. }
  assert (Y2 : (S k < n)%nat -> INR n * t <> INR k + 1). { intros H C. apply (E2 H). rewrite S_INR, <- C. field. lra. }
  replace (INR n * (1 - t)) with (INR n - INR n * t) by ring. set (u := INR n * t) in *.
  assert (U1 : 0 <= u <= INR n) by (unfold u; split; [apply Rmult_le_pos; lra|rewrite <- (Rmult_1_r (INR n)) at 2; apply Rmult_le_compat_l; lra]).
  assert (U0 : t = 0 <-> u = 0). { unfold u. split; [intros ->; ring|]. intros H. apply Rmult_integral in H as [H|H]; lra. }
  assert (U2 : 1 - t = 0 <-> u = INR n). { unfold u. split; [intros H; replace t with 1 by lra; ring|]. intros H. assert (INR n * (1 - t) = 0) by lra. apply Rmult_integral in H0 as [H0|H0]; lra. }
  rewrite U0, U2. clearbody u.
  split; intros (A & B & C); (split; [lia|]).
  - split.
    + destruct (Nat.eq_dec (S k) n) as [Q|Q].
      * assert (QR : INR k + 1 = INR n) by (rewrite <- Q, S_INR; reflexivity). destruct (Req_EM_T u (INR n)); [left; split; auto; lia|right; lra].
      * right. specialize (Y2 ltac:(lia)). lra.
    + destruct B as [(B & B')|B]; [assert (k = 0%nat) by lia; subst k; cbn [INR]; lra|lra].
  - split.
    + destruct (Nat.eq_dec k 0) as [->|Q].
      * cbn [INR] in *. destruct (Req_EM_T u 0); [left; auto|right; lra].
      * right. specialize (Y1 ltac:(lia)). lra.
    + destruct B as [(B & B')|B]; [assert (Q : S k = n) by lia; rewrite B, <- Q, S_INR; lra|lra].
Qed.
Lemma back_recorded z d n s : (sn_frame s < n)%nat ->
  (0 <= sn_time s <= 1 -> reflects p b a (sn_element s) (sn_plane s) (w * sn_time s) -> in_bin (Z.of_nat n) (sn_time s) (Z.of_nat (sn_frame s)) \/ in_bin (Z.of_nat n) (1 - sn_time s) (Z.of_nat (n - 1 - sn_frame s)) ->
    ~ reflects p b a (sn_element s) (sn_plane s) PI /\ ~ reflects p b a (sn_element s) (sn_plane s) (w + PI)) ->
  ((0 < sn_frame s)%nat -> ~ reflects p b a (sn_element s) (sn_plane s) (w * INR (sn_frame s) / INR n)) ->
  ((S (sn_frame s) < n)%nat -> ~ reflects p b a (sn_element s) (sn_plane s) (w * INR (S (sn_frame s)) / INR n)) ->
  recorded z p b a m d (Z.of_nat n) s <-> recorded z q b (vneg a) mb d (Z.of_nat n) (mirrored_spot n s).
Proof.
  intros F HB HE1 HE2. assert (Nn : 0 < INR n) by (apply lt_0_INR; lia).
  assert (SF : forall e j sf, squared_factor q e j sf <-> squared_factor p e j sf) by (intros; unfold squared_factor, in_phase; reflexivity).
  assert (RT : forall i ph h G0 t, in_phase p (sn_element s) i -> nth_error (pc_phases p) i = Some ph -> plane_at ph (sn_plane s) h -> scattering_vector p (sn_element s) h G0 ->
    0 <= t <= 1 -> laue_condition (b_wave_vector b) (right_handed_rotation a (w * t) G0) -> t = sn_time s ->
    (reflects p b a (sn_element s) (sn_plane s) (w * sn_time s)) /\ (in_bin (Z.of_nat n) (sn_time s) (Z.of_nat (sn_frame s)) <-> in_bin (Z.of_nat n) (1 - sn_time s) (Z.of_nat (n - 1 - sn_frame s)))).
  { intros i ph h G0 t D1 D2 D3 D4 D5 D6 ->. assert (RF : reflects p b a (sn_element s) (sn_plane s) (w * sn_time s)) by (exists i, ph, h, G0; auto 6). split; auto.
    apply mirror_bin; auto.
    - intros H C. apply (HE1 H). rewrite C in RF. replace (w * INR (sn_frame s) / INR n) with (w * (INR (sn_frame s) / INR n)) by (unfold Rdiv; ring). exact RF.
    - intros H C. apply (HE2 H). rewrite C in RF. replace (w * INR (S (sn_frame s)) / INR n) with (w * (INR (S (sn_frame s)) / INR n)) by (unfold Rdiv; ring). exact RF. }
  unfold recorded. cbn [mirrored_spot sn_element sn_plane sn_time sn_frame sn_zd sn_yd sn_intensity sn_volume]. change (pc_volumes q) with (pc_volumes p).
  split; intros (G & src & sf & A & P & L & B1 & B2 & B3 & B4 & B5 & B6 & B7 & B8 & B9 & B10); exists G, src, sf, A, P, L.
  - apply (scan_diffracts a T o w p b U) in B1 as (i & ph & h & G0 & D1 & D2 & D3 & D4 & D5 & D6 & D7 & D8).
    assert (D7' : laue_condition (b_wave_vector b) (right_handed_rotation a (w * sn_time s) G0)) by (rewrite <- D6; auto).
    destruct (RT i ph h G0 (sn_time s)) as (RF & RB); auto. destruct (HB D5 RF (or_introl B6)) as (N1 & N2).
    split. { apply back_diffracts. exists i, ph, h, G0. repeat (split; [now auto|]). split; [lra|]. replace (1 - (1 - sn_time s)) with (sn_time s) by ring. split; auto. split; auto.
      intros C. apply N2. exists i, ph, h, G0. auto 6. }
    split; [apply back_lit; now replace (1 - (1 - sn_time s)) with (sn_time s) by ring|]. split; auto. split; auto. split; auto. split; [now apply RB|]. rewrite lorentz_neg. auto.
  - apply back_diffracts in B1 as (i & ph & h & G0 & D1 & D2 & D3 & D4 & D5 & D6 & D7 & D8). replace (1 - (1 - sn_time s)) with (sn_time s) in D6 by ring.
    assert (D5' : 0 <= sn_time s <= 1) by lra.
    assert (D7' : laue_condition (b_wave_vector b) (right_handed_rotation a (w * sn_time s) G0)) by (rewrite <- D6; auto).
    destruct (RT i ph h G0 (sn_time s)) as (RF & RB); auto. destruct (HB D5' RF (or_intror B6)) as (N1 & N2).
    split. { apply (scan_diffracts a T o w p b U). exists i, ph, h, G0. repeat (split; [now auto|]). intros C. apply N1. exists i, ph, h, G0. auto 6. }
    split; [apply back_lit in B2; now replace (1 - (1 - sn_time s)) with (sn_time s) in B2 by ring|]. split; auto. split; auto. split; auto. split; [now apply RB|]. rewrite lorentz_neg in B9. auto.
Qed.
Lemma back_grazes z d n s : recorded z p b a m d (Z.of_nat n) s -> recorded z q b (vneg a) mb d (Z.of_nat n) (mirrored_spot n s) ->
  grazes q b (vneg a) mb (mirrored_spot n s) <-> grazes p b a m s.
Proof.
  intros (G1 & ? & ? & ? & ? & ? & R1 & _) (G2 & ? & ? & ? & ? & ? & R2 & _). cbn [mirrored_spot sn_element sn_plane sn_time] in R2.
  assert (UN : forall G G', diffracts_at q b (vneg a) mb (sn_element s) (sn_plane s) (1 - sn_time s) G -> diffracts_at p b a m (sn_element s) (sn_plane s) (sn_time s) G' -> G = G').
  { intros G G' H1 H2. apply back_diffracts in H1 as (i & ph & h & G0 & D1 & D2 & D3 & D4 & D5 & -> & _).
    apply (scan_diffracts a T o w p b U) in H2 as (i' & ph' & h' & G0' & D1' & D2' & D3' & D4' & D5' & -> & _).
    assert (i = i') by (eapply in_phase_fun; eauto). subst i'. assert (ph = ph') by congruence. subst ph'.
    destruct D3 as (hk & X1 & X2 & _). destruct D3' as (hk' & X1' & X2' & _). assert (hk = hk') by congruence. subst hk'. assert (h = h') by congruence. subst h'.
    destruct D4 as (V & B & Y1 & Y2 & ->). destruct D4' as (V' & B' & Y1' & Y2' & ->). assert (V = V') by congruence. assert (B = B') by congruence. subst.
    now replace (1 - (1 - sn_time s)) with (sn_time s) by ring. }
  unfold grazes. cbn [mirrored_spot sn_element sn_plane sn_time]. split.
  - intros (G & H & HG). exists G1. split; auto. rewrite grazing_neg in HG. now rewrite <- (UN G G1 H R1).
  - intros (G & H & HG). exists G2. split; auto. rewrite grazing_neg. now rewrite (UN G2 G R2 H).
Qed.
End Spots.

(** Lists of spots that correspond give the same light in frame k and in frame n - 1 - k. *)
Lemma mirrored_twice n s : (sn_frame s < n)%nat -> mirrored_spot n (mirrored_spot n s) = s.
Proof.
  intros F. destruct s as [e j t f zd yd i v]. unfold mirrored_spot. cbn [sn_element sn_plane sn_time sn_frame sn_zd sn_yd sn_intensity sn_volume] in *. f_equal; [ring|lia].
Qed.
Lemma mirrored_light d n k i j (L Lb : list seen) : (k < n)%nat -> NoDup L -> NoDup Lb ->
  (forall s, In s Lb -> (sn_frame s < n)%nat) -> (forall s, sn_frame s = k -> (In s L <-> In (mirrored_spot n s) Lb)) ->
  sum_list (map (spot_at d k i j) L) = sum_list (map (spot_at d (n - 1 - k) i j) Lb).
Proof.
  intros KN N Nb F I.
  assert (FS : forall k (L : list seen), sum_list (map (spot_at d k i j) L) = sum_list (map (spot_at d k i j) (filter (fun s => Nat.eqb (sn_frame s) k) L))).
  { intros k0 L0. rewrite sum_filter. f_equal. apply map_ext. intros s. unfold spot_at. destruct (Nat.eqb (sn_frame s) k0); reflexivity. }
  rewrite (FS k L), (FS (n - 1 - k)%nat Lb).
  rewrite (sum_perm (spot_at d (n - 1 - k) i j) (filter _ Lb) (map (mirrored_spot n) (filter (fun s => Nat.eqb (sn_frame s) k) L))).
  - rewrite map_map. f_equal. apply map_ext_in. intros s Hs. apply filter_In in Hs as [_ Hs]. apply Nat.eqb_eq in Hs. unfold spot_at. cbn [mirrored_spot sn_frame sn_zd sn_yd sn_intensity sn_volume].
    rewrite Hs, !Nat.eqb_refl. reflexivity.
  - apply NoDup_Permutation.
    + now apply NoDup_filter.
    + apply nodup_map_in; [|now apply NoDup_filter]. intros x y Hx Hy E. apply filter_In in Hx as [_ Hx]. apply filter_In in Hy as [_ Hy]. apply Nat.eqb_eq in Hx, Hy.
      rewrite <- (mirrored_twice n x), <- (mirrored_twice n y) by lia. now rewrite E.
    + intros s. rewrite filter_In, in_map_iff. split.
      * intros (H1 & H2). apply Nat.eqb_eq in H2. pose proof (F s H1) as H3. exists (mirrored_spot n s). split; [now apply mirrored_twice|]. apply filter_In.
        assert (K : sn_frame (mirrored_spot n s) = k) by (cbn [mirrored_spot sn_frame]; lia). split; [|now apply Nat.eqb_eq]. apply I; auto. now rewrite mirrored_twice.
      * intros (s' & <- & Hs). apply filter_In in Hs as [Hs K]. apply Nat.eqb_eq in K. split; [now apply I|]. cbn [mirrored_spot sn_frame]. apply Nat.eqb_eq. lia.
Qed.
Lemma frame_in_range z p b a m d n s : recorded z p b a m d (Z.of_nat n) s -> (sn_frame s < n)%nat.
Proof. intros (G & src & sf & A & P & L & _ & _ & _ & _ & _ & (H & _) & _). lia. Qed.
Lemma bin_angle w n k t : 0 < w -> (k < n)%nat -> 0 <= t <= 1 -> in_bin (Z.of_nat n) t (Z.of_nat k) \/ in_bin (Z.of_nat n) (1 - t) (Z.of_nat (n - 1 - k)) ->
  w * INR k / INR n <= w * t <= w * INR (S k) / INR n.
Proof.
  intros W K Ht H. assert (Nn : 0 < INR n) by (apply lt_0_INR; lia).
  assert (B : INR k / INR n <= t <= INR (S k) / INR n).
  { rewrite S_INR. destruct H as [(_ & B1 & B2)|(_ & B1 & B2)]; rewrite <- !INR_IZR_INZ in *.
    - split; [|lra]. destruct B1 as [(-> & K0)|B1]; [assert (k = 0%nat) by lia; subst k; cbn [INR]; unfold Rdiv; rewrite Rmult_0_l; lra|lra].
    - rewrite !minus_INR in * by lia. cbn [INR] in *. replace ((INR n - 1 - INR k + 1) / INR n) with (1 - INR k / INR n) in B2 by (field; lra).
      replace ((INR n - 1 - INR k) / INR n) with (1 - (INR k + 1) / INR n) in B1 by (field; lra). split; [lra|].
      destruct B1 as [(B1 & K0)|B1]; [|lra]. assert (Q : S k = n) by lia. rewrite <- S_INR, Q. replace (INR n / INR n) with 1 by (field; lra). lra. }
  unfold Rdiv in *. rewrite !Rmult_assoc. split; apply Rmult_le_compat_l; lra.
Qed.
(** ... the pictures come in reverse order: frame k of the scan is frame n - 1 - k of the scan run backwards, unless a reflection
    falls exactly on the edge between two frames or into the blind spot of one of the two calls. *)
Lemma pC92_frames_reversed : forall e1 e2 z q b a w T o m mb x p lo hi pd pdb p' qb d n k ml mi ml' mi' im out imb outb i j,
  reachable_beam q b -> unit a -> (k < n)%nat ->
  make_motion a w T o = Ok m -> make_motion (vneg a) w (vneg T) (vadd o T) = Ok mb ->
  reachable_pc x p -> built d -> rectangular (d_c0 d) (d_c1 d) (d_c2 d) ->
  diffract z x p b m lo hi None = (Ok pd, p') -> render e1 d pd (Z.of_nat n) "micro" ml mi = Ok (im, out) ->
  diffract z x (transform p m 1) b mb lo hi None = (Ok pdb, qb) -> render e2 d pdb (Z.of_nat n) "micro" ml' mi' = Ok (imb, outb) ->
  (forall e pl th, w * INR k / INR n <= th <= w * INR (S k) / INR n -> reflects p' b a e pl th ->
     ~ reflects p' b a e pl PI /\ ~ reflects p' b a e pl (w + PI)) ->
  ((0 < k)%nat -> forall e pl, ~ reflects p' b a e pl (w * INR k / INR n)) ->
  ((S k < n)%nat -> forall e pl, ~ reflects p' b a e pl (w * INR (S k) / INR n)) ->
  (i < d_nz d)%nat -> (j < d_ny d)%nat ->
  f_at im k i j = f_at imb (n - 1 - k) i j.
Proof.
  intros e1 e2 z q b a w T o m mb x p lo hi pd pdb p' qb d n k ml mi ml' mi' im out imb outb i j HB U KN Hm Hmb HR Hb Hr HD HI HDb HIb Bl E1 E2 Hi Hj.
  assert (Nn : 0 < INR n) by (apply lt_0_INR; lia). pose proof (unit_neg a U) as U'.
  assert (HRb : reachable_pc x (transform p m 1)) by now constructor.
  destruct (pC84_image_is_sum_of_reflections _ _ _ _ _ _ _ _ _ _ _ _ _ _ _ _ _ _ _ _ _ _ HB Hm U HR Hb Hr HD HI) as (all & tw & N1 & I1 & N2 & I2 & S1).
  destruct (pC84_image_is_sum_of_reflections _ _ _ _ _ _ _ _ _ _ _ _ _ _ _ _ _ _ _ _ _ _ HB Hmb U' HRb Hb Hr HDb HIb) as (allb & twb & N3 & I3 & N4 & I4 & S2).
  pose proof (back_state z x p b m mb lo hi _ _ HD) as Eb. rewrite HDb in Eb. cbn [snd] in Eb. subst qb.
  assert (W : 0 < w) by (apply make_motion_ok_iff in Hm as (W & _); lra).
  assert (Em : m = Motion a w T o) by (apply make_motion_ok_iff in Hm as (_ & _ & ->); auto).
  assert (Emb : mb = Motion (vneg a) w (vneg T) (vadd o T)) by (apply make_motion_ok_iff in Hmb as (_ & _ & ->); auto).
  replace (Z.max 1 (Z.of_nat n)) with (Z.of_nat n) in * by lia.
  assert (COR : forall s, sn_frame s = k -> recorded z p' b a m d (Z.of_nat n) s <-> recorded z (transform p' m 1) b (vneg a) mb d (Z.of_nat n) (mirrored_spot n s)).
  { intros s F. subst m mb. apply back_recorded; auto; rewrite F; auto. intros Ht RF BN. eapply Bl; eauto. apply bin_angle; auto. }
  assert (SH : has_shape im (Z.to_nat (Z.max 1 (Z.of_nat n))) (d_nz d) (d_ny d)) by (eapply pC36_shape; eauto).
  assert (SHb : has_shape imb (Z.to_nat (Z.max 1 (Z.of_nat n))) (d_nz d) (d_ny d)) by (eapply pC36_shape; eauto).
  destruct SH as (X1 & X2 & X3). destruct SHb as (Y1 & Y2 & Y3).
  rewrite S1 by (unfold in_image; rewrite X1, X2, X3; repeat split; auto; lia).
  rewrite S2 by (unfold in_image; rewrite Y1, Y2, Y3; repeat split; auto; lia).
  f_equal. rewrite !map_app, !sum_list_app. f_equal.
  - apply (mirrored_light d n k); auto.
    + intros s Hs. apply I3 in Hs. eapply frame_in_range; eauto.
    + intros s F. rewrite I1, I3. now apply COR.
  - apply (mirrored_light d n k); auto.
    + intros s Hs. apply I4 in Hs as (Hs & _). eapply frame_in_range; eauto.
    + intros s F. rewrite I2, I4. subst m mb. split; intros (R1 & R2); pose proof R1 as R1'; apply (COR s F) in R1'; split; auto;
      [rewrite (back_grazes a T o w p' b U z d n s)|rewrite <- (back_grazes a T o w p' b U z d n s)]; auto.
Qed.
(** A reflection exactly on the edge between frames k and k + 1 is shown in the former by the scan, and on the way back in the
    frame that mirrors the latter. *)
Lemma pC92_edge_changes_frame : forall z a w T o m mb n k p b d s,
  unit a -> (S k < n)%nat ->
  make_motion a w T o = Ok m -> make_motion (vneg a) w (vneg T) (vadd o T) = Ok mb ->
  recorded z p b a m d (Z.of_nat n) s -> sn_time s = INR (S k) / INR n ->
  ~ reflects p b a (sn_element s) (sn_plane s) (w + PI) ->
  sn_frame s = k /\
  recorded z (transform p m 1) b (vneg a) mb d (Z.of_nat n)
    (Seen (sn_element s) (sn_plane s) (1 - INR (S k) / INR n) (n - 1 - S k) (sn_zd s) (sn_yd s) (sn_intensity s) (sn_volume s)).
Proof.
  intros z a w T o m mb n k p b d s U KN Hm Hmb R Et NB. assert (Nn : 0 < INR n) by (apply lt_0_INR; lia).
  assert (Em : m = Motion a w T o) by (apply make_motion_ok_iff in Hm as (_ & _ & ->); auto).
  assert (Emb : mb = Motion (vneg a) w (vneg T) (vadd o T)) by (apply make_motion_ok_iff in Hmb as (_ & _ & ->); auto). subst m mb.
  assert (K1 : INR (S (S k)) <= INR n) by (apply le_INR; lia). assert (K0 : 0 < INR (S k)) by (apply lt_0_INR; lia). rewrite (S_INR (S k)) in K1.
  destruct R as (G & src & sf & A & P & L & B1 & B2 & B3 & B4 & B5 & BN & B7 & B8 & B9 & B10). split.
  - rewrite Et in BN. assert (BN' : in_bin (Z.of_nat n) (INR (S k) / INR n) (Z.of_nat k)).
    { unfold in_bin. split; [lia|]. rewrite <- !INR_IZR_INZ, <- S_INR. split; [right|lra]. apply Rmult_lt_compat_r; [apply Rinv_0_lt_compat; lra|apply lt_INR; lia]. }
    pose proof (PDetector3.pC31_bin_unique _ _ _ _ BN BN'). lia.
  - exists G, src, sf, A, P, L. cbn [sn_element sn_plane sn_time sn_frame sn_zd sn_yd sn_intensity sn_volume].
    apply (scan_diffracts a T o w p b U) in B1 as (i & ph & h & G0 & D1 & D2 & D3 & D4 & D5 & D6 & D7 & D8). rewrite Et in *.
    split. { apply back_diffracts; auto. exists i, ph, h, G0. repeat (split; [now auto|]). split; [lra|].
      replace (1 - (1 - INR (S k) / INR n)) with (INR (S k) / INR n) by ring. split; auto. split; auto. intros C. apply NB. exists i, ph, h, G0. auto 6. }
    split; [apply back_lit; auto; now replace (1 - (1 - INR (S k) / INR n)) with (INR (S k) / INR n) by ring|].
    split; auto. split; auto. split; auto. split; [|rewrite lorentz_neg; auto].
    unfold in_bin. split; [lia|]. rewrite <- !INR_IZR_INZ. rewrite !minus_INR by lia. cbn [INR]. change (match k with O => 1 | S _ => INR k + 1 end) with (INR (S k)).
    split; [right|]; [apply (Rmult_lt_reg_l (INR n))|apply (Rmult_le_reg_l (INR n))]; try lra.
    + replace (INR n * ((INR n - 1 - INR (S k)) / INR n)) with (INR n - 1 - INR (S k)) by (field; lra). replace (INR n * (1 - INR (S k) / INR n)) with (INR n - INR (S k)) by (field; lra). lra.
    + replace (INR n * ((INR n - 1 - INR (S k) + 1) / INR n)) with (INR n - INR (S k)) by (field; lra). replace (INR n * (1 - INR (S k) / INR n)) with (INR n - INR (S k)) by (field; lra). lra.
Qed.
(** A reflection that would also occur half a turn after the end of the motion is lost on the way back, though the way there finds it. *)
Lemma pC92_blind_spot : forall a w T o m mb p b e j t,
  unit a -> make_motion a w T o = Ok m -> make_motion (vneg a) w (vneg T) (vadd o T) = Ok mb ->
  0 <= t <= 1 -> reflects p b a e j (w * t) -> ~ reflects p b a e j PI -> reflects p b a e j (w + PI) ->
  (exists G, diffracts_at p b a m e j t G) /\ (forall t' G, ~ diffracts_at (transform p m 1) b (vneg a) mb e j t' G).
Proof.
  intros a w T o m mb p b e j t U Hm Hmb Ht RF N HP.
  assert (Em : m = Motion a w T o) by (apply make_motion_ok_iff in Hm as (_ & _ & ->); auto).
  assert (Emb : mb = Motion (vneg a) w (vneg T) (vadd o T)) by (apply make_motion_ok_iff in Hmb as (_ & _ & ->); auto). subst m mb. split.
  - now apply reflects_scan.
  - intros t' G D. apply back_diffracts in D as (i' & ph' & h' & G0' & D1' & D2' & D3' & D4' & _ & _ & _ & D8'); auto.
    destruct HP as (i & ph & h & G0 & D1 & D2 & D3 & D4 & D8).
    assert (i = i') by (eapply in_phase_fun; eauto). subst i'. assert (ph = ph') by congruence. subst ph'.
    destruct D3 as (hk & X1 & X2 & _). destruct D3' as (hk' & X1' & X2' & _). assert (hk = hk') by congruence. subst hk'. assert (h = h') by congruence. subst h'.
    destruct D4 as (V & B & Y1 & Y2 & ->). destruct D4' as (V' & B' & Y1' & Y2' & ->). assert (V = V') by congruence. assert (B = B') by congruence. subst. contradiction.
Qed.
