(** * Proofs: a full turn taken in several scans (C108). *)
From Verif Require Import Vec Spec MMotion PMotion MLaue PLaue MMesh SMesh PMesh MScattering SScattering PScattering.
From Verif Require Import MStrain SStrain PStrain MBeam SBeam PBeam MPolycrystal SPolycrystal SEvents SEnd PPolycrystal PPolycrystal2 PPolycrystal3 STurn PTurn.
Open Scope list_scope. Open Scope R_scope.
Local Notation len := List.length.

Local Lemma some_eq {A} (a b : A) : Some a = Some b -> a = b. Proof. congruence. Qed.
Lemma shown z x p b a w T o m lo hi det d p' e i h t : make_motion a w T o = Ok m -> unit a ->
  diffract z x p b m lo hi det = (Ok d, p') -> shows d e i h t ->
  exists G, scattering_vector p e h G /\ 0 <= t <= 1 /\ laue_condition (b_wave_vector b) (rot_at m t G).
Proof.
  intros Hm U H (row & Hin & I1 & I2 & I3 & I4). apply In_nth_error in Hin as (k & Hk). pose proof (columns_of _ _ _ _ _ _ _ _ _ _ H) as HC.
  destruct (peaks_iff _ _ _ _ _ _ _ _ _ _ _ _ H Hk) as (i' & ph & e' & h' & sf & t' & G0 & c & v & A1 & A2 & A3 & A4 & A5 & A6 & A7 & A8 & ->).
  exists G0. assert (K1 : has d (full_row z b m (row10 e' i' h' sf t' G0) c v ++ [Fin (INR k)]) "grain_index" (INR e')) by (unfold has, field; rewrite HC; reflexivity).
  assert (K4 : has d (full_row z b m (row10 e' i' h' sf t' G0) c v ++ [Fin (INR k)]) "diffraction_times" t') by (unfold has, field; rewrite HC; reflexivity).
  assert (K3 : has_vec d (full_row z b m (row10 e' i' h' sf t' G0) c v ++ [Fin (INR k)]) "h" "k" "l" h') by (unfold has_vec, has, field; rewrite HC; repeat split; reflexivity).
  assert (Ee : e' = e) by (unfold has in *; apply INR_eq; congruence). assert (Et : t' = t) by (unfold has in *; congruence).
  assert (Eh : h' = h).
  { revert K3 I3. clear. destruct h as [u1 u2 u3], h' as [v1 v2 v3]. intros (X1 & X2 & X3) (Y1 & Y2 & Y3). unfold has in *.
    change (vx (V3 v1 v2 v3)) with v1 in X1. change (vy (V3 v1 v2 v3)) with v2 in X2. change (vz (V3 v1 v2 v3)) with v3 in X3.
    change (vx (V3 u1 u2 u3)) with u1 in Y1. change (vy (V3 u1 u2 u3)) with u2 in Y2. change (vz (V3 u1 u2 u3)) with u3 in Y3. congruence. }
  subst e' t' h'. split; [exact A4|]. split; [apply A5|]. apply (solves_laue _ a w T o); auto.
Qed.
Lemma scattering_fun p e h G G' : scattering_vector p e h G -> scattering_vector p e h G' -> G = G'.
Proof. intros (U & B & H1 & H2 & ->) (U' & B' & H3 & H4 & ->). congruence. Qed.
Lemma turned_vector a w T o m : make_motion a w T o = Ok m -> unit a -> forall j p e h G, scattering_vector p e h G ->
  scattering_vector (turned m j p) e h (rot_at m (INR j) G).
Proof.
  intros Hm U. assert (Um : unit (m_axis m)) by (apply make_motion_ok_iff in Hm as (_ & _ & ->); exact U).
  induction j as [|j IH]; intros p e h G H.
  - cbn [INR]. rewrite rot_at_0. exact H.
  - change (turned m (S j) p) with (turned m j (transform p m 1)). rewrite S_INR, Rplus_comm, <- rot_at_add by exact Um.
    apply IH. apply (transform_vector a w T o m 1 p e h _ Hm). eauto.
Qed.
Lemma turned_rel m j p : unit (m_axis m) -> pc_map (turned m j p) = pc_map p /\ pc_phases (turned m j p) = pc_phases p.
Proof.
  intros U. destruct (transforms_rel (repeat (m, 1) j) p) as (Q & b & _ & H).
  - intros mt Hi. apply repeat_spec in Hi. subst mt. exact U.
  - cbv zeta in H. unfold turned. tauto.
Qed.
Lemma turned_reach x m j : forall p, reachable_pc x p -> reachable_pc x (turned m j p).
Proof. induction j; intros p H; [exact H|]. change (turned m (S j) p) with (turned m j (transform p m 1)). apply IHj. now constructor. Qed.
Lemma laue_angle k a w T o m G x : make_motion a w T o = Ok m -> unit a ->
  (laue_condition k (rot_at m x G) <->
   rho0 (laue_factors k a) G * cos (w * x) + rho1 (laue_factors k a) G * sin (w * x) + rho2 (laue_factors k a) G = 0).
Proof. intros Hm U. apply make_motion_ok_iff in Hm as (_ & _ & ->). unfold rot_at. cbn [m_axis m_angle]. now apply laue_condition_iff. Qed.
Lemma nat_floor y : 0 <= y -> exists j : nat, INR j <= y < INR j + 1.
Proof.
  intros H. destruct (base_Int_part y) as [B1 B2]. assert (0 <= Int_part y)%Z.
  { apply le_IZR. apply Rnot_lt_le. intros C. assert (IZR (Int_part y) <= -1) by (apply lt_IZR in C; apply IZR_le; lia). lra. }
  exists (Z.to_nat (Int_part y)). rewrite INR_IZR_INZ, Z2Nat.id by assumption. lra.
Qed.
Lemma same_step j t j' t' : INR j + t = INR j' + t' -> 0 <= t < 1 -> 0 <= t' < 1 -> j = j' /\ t = t'.
Proof.
  intros E H H'. assert (j = j'). { destruct (Nat.lt_trichotomy j j') as [L|[L|L]]; auto; apply le_INR in L; rewrite S_INR in L; lra. }
  subst j'. split; [reflexivity|lra].
Qed.

(** C108. A full turn in n scans (the sample moved on by the motion between scans; elements always in the
    beam): a reflection whose circle crosses the Ewald sphere is in the n tables together at exactly two places
    (scan, time), as long as it does not fall exactly on the start of a scan or half a turn away from one. *)
Lemma pC108_twice : forall z x p b a w T o m n lo hi D P e i ph h sf G,
  reachable_pc x p -> make_motion a w T o = Ok m -> unit a -> w * INR n = 2 * PI ->
  (forall j, (j < n)%nat -> diffract z x (turned m j p) b m lo hi None = (Ok (D j), P j)) ->
  in_phase p e i -> nth_error (pc_phases p) i = Some ph ->
  plane_of (setup_planes x ph (b_wavelength b) lo hi) h sf -> scattering_vector p e h G ->
  (forall j t, (j < n)%nat -> 0 <= t <= 1 -> exists s, lit_at (turned m j p) b m e t s) ->
  clear_of_steps (b_wave_vector b) a w n G -> crosses (b_wave_vector b) a G ->
  exists j1 t1 j2 t2, (j1 < n)%nat /\ (j2 < n)%nat /\ (j1, t1) <> (j2, t2) /\
    forall j t, (j < n)%nat -> (shows (D j) e i h t <-> (j = j1 /\ t = t1) \/ (j = j2 /\ t = t2)).
Proof.
  intros z x p b a w T o m n lo hi D P e i ph h sf G HR Hm U HT HD Hi Hph Hpl HG HL HC HX.
  assert (Um : unit (m_axis m)) by (apply make_motion_ok_iff in Hm as (_ & _ & ->); exact U).
  assert (W : 0 < w < PI) by (apply make_motion_ok_iff in Hm as (W & _); exact W). pose proof PI_RGT_0 as PP.
  set (k := b_wave_vector b) in *.
  assert (LA : forall y, laue_condition k (rot_at m y G) <-> rho0 (laue_factors k a) G * cos (w * y) + rho1 (laue_factors k a) G * sin (w * y) + rho2 (laue_factors k a) G = 0)
    by (intros y; now apply (laue_angle k a w T o m G y)).
  assert (LR : forall th, laue_condition k (right_handed_rotation a th G) <-> rho0 (laue_factors k a) G * cos th + rho1 (laue_factors k a) G * sin th + rho2 (laue_factors k a) G = 0)
    by (intros th; rewrite <- rod_spec by exact U; now apply laue_condition_iff).
  destruct (rho_geometry k a G U) as [RG1 RG2]. set (A := rho0 _ _) in *. set (B := rho1 _ _) in *. set (C := rho2 _ _) in *. clearbody A B C.
  assert (n0 : (0 < n)%nat). { destruct n; [cbn in HT; lra|lia]. }
  assert (Q1 : C * C < A * A + B * B). { rewrite RG1, RG2. unfold crosses in HX. lra. }
  assert (Q2 : C - A <> 0).
  { intros E. destruct (HC 0%nat n0) as [_ H]. apply H, LR. cbn [INR]. rewrite Rmult_0_r, Rplus_0_l, cos_PI, sin_PI. lra. }
  destruct (two_zeros A B C Q1 Q2) as (x1 & x2 & X1 & X2 & XN & XZ).
  assert (PL : forall y, 0 <= y < 2 * PI -> exists j t, (j < n)%nat /\ 0 <= t < 1 /\ y = w * (INR j + t)).
  { intros y Hy. destruct (nat_floor (y / w)) as (j & J1 & J2). { unfold Rdiv. apply Rmult_le_pos; [lra|left; apply Rinv_0_lt_compat; lra]. }
    assert (Ey : w * (y / w) = y) by (field; lra).
    exists j, (y / w - INR j). split; [|split; [lra|]].
    - apply INR_lt. apply Rle_lt_trans with (y / w); [exact J1|]. apply (Rmult_lt_reg_l w); [lra|]. lra.
    - replace (INR j + (y / w - INR j)) with (y / w) by ring. now rewrite Ey. }
  destruct (PL x1 X1) as (j1 & t1 & J1 & T1 & E1). destruct (PL x2 X2) as (j2 & t2 & J2 & T2 & E2).
  exists j1, t1, j2, t2. split; [exact J1|]. split; [exact J2|]. split.
  { intros E. apply XN. injection E as Ej Et. subst. reflexivity. }
  assert (FOR : forall j t, (j < n)%nat -> shows (D j) e i h t -> 0 <= t < 1 /\ A * cos (w * (INR j + t)) + B * sin (w * (INR j + t)) + C = 0).
  { intros j t Hj Hs. destruct (shown z x (turned m j p) b a w T o m lo hi None (D j) (P j) e i h t Hm U (HD j Hj) Hs) as (G1 & S1 & Ht & HLa).
    rewrite (scattering_fun _ _ _ _ _ S1 (turned_vector a w T o m Hm U j p e h G HG)) in HLa. rewrite rot_at_add in HLa by exact Um. fold k in HLa. apply LA in HLa.
    split; [|exact HLa]. destruct (Rle_lt_or_eq_dec t 1 (proj2 Ht)) as [L|L]; [lra|]. exfalso. subst t.
    destruct (Nat.eq_dec (S j) n) as [En|En].
    - destruct (HC 0%nat n0) as [H0 _]. apply H0, LR. cbn [INR]. rewrite Rmult_0_r, cos_0, sin_0.
      assert (Ea : w * (INR j + 1) = 0 + 2 * INR 1 * PI) by (rewrite <- S_INR, En, HT; cbn [INR]; ring). rewrite Ea, cos_period, sin_period, cos_0, sin_0 in HLa. exact HLa.
    - destruct (HC (S j) ltac:(lia)) as [H0 _]. apply H0, LR. rewrite S_INR. exact HLa. }
  assert (RNG : forall j t, (j < n)%nat -> 0 <= t < 1 -> 0 <= w * (INR j + t) < 2 * PI).
  { intros j t Hj Ht. pose proof (pos_INR j) as Pj. apply le_INR in Hj. rewrite S_INR in Hj. split; [apply Rmult_le_pos; lra|]. rewrite <- HT. apply Rmult_lt_compat_l; lra. }
  assert (BACK : forall j t, (j < n)%nat -> 0 <= t < 1 -> A * cos (w * (INR j + t)) + B * sin (w * (INR j + t)) + C = 0 -> shows (D j) e i h t).
  { intros j t Hj Ht E. destruct (turned_rel m j p Um) as [M1 M2].
    destruct (HL j t Hj ltac:(lra)) as (s & c & Hc & Hs & Hin).
    assert (Oph : nth_error (pc_phases (P j)) i = Some (setup_planes x ph (b_wavelength b) lo hi)).
    { pose proof (f_equal snd (HD j Hj)) as ES. unfold diffract in ES. cbn [snd] in ES. rewrite <- ES. cbn [pc_phases]. rewrite M2, nth_error_map, Hph. reflexivity. }
    assert (Hi' : in_phase (turned m j p) e i) by (unfold in_phase; now rewrite M1).
    assert (NP : ~ laue_condition k (right_handed_rotation a PI (rot_at m (INR j) G))).
    { destruct (HC j Hj) as [_ H]. intros H'. apply H, LR. revert H'.
      assert (EM : m = Motion a w T o) by (apply make_motion_ok_iff in Hm as (_ & _ & EM); exact EM).
      rewrite <- rod_spec by exact U. rewrite EM. unfold rot_at. cbn [m_axis m_angle]. rewrite <- mv_mm, rod_add by exact U. rewrite rod_spec by exact U. intros H'. apply LR in H'.
      rewrite (Rplus_comm (w * INR j) PI). exact H'. }
    apply (pC12_complete z x (turned m j p) b a w T o m lo hi None (D j) (P j) e i _ h sf t _ (rot_at m t (rot_at m (INR j) G)) c s (turned_reach x m j p HR) Hm U (HD j Hj) Hi' Oph Hpl
      (turned_vector a w T o m Hm U j p e h G HG) ltac:(lra) (rotate_P1_S0 m _ t)); [|exact NP|exact Hc|exact Hs|exact Hin].
    rewrite rot_at_add by exact Um. now apply LA. }
  intros j t Hj. split.
  - intros Hs. destruct (FOR j t Hj Hs) as [Ht E]. apply (XZ _ (RNG j t Hj Ht)) in E as [E|E]; [left; rewrite E1 in E|right; rewrite E2 in E];
      apply Rmult_eq_reg_l in E; try lra; now apply same_step.
  - intros [[-> ->]|[-> ->]]; apply BACK; auto; [rewrite <- E1|rewrite <- E2]; apply XZ; auto.
Qed.
(** C108. A reflection in the blind region of the axis is in no table, whatever the motion about that axis and
    however often the sample was turned about it before. *)
Lemma pC108_never : forall z x p b a w T o m j lo hi det d p' e i h G t,
  make_motion a w T o = Ok m -> unit a -> scattering_vector p e h G ->
  misses (b_wave_vector b) a G -> diffract z x (turned m j p) b m lo hi det = (Ok d, p') -> ~ shows d e i h t.
Proof.
  intros z x p b a w T o m j lo hi det d p' e i h G t Hm U HG HX HD Hs.
  assert (Um : unit (m_axis m)) by (apply make_motion_ok_iff in Hm as (_ & _ & ->); exact U).
  destruct (shown z x (turned m j p) b a w T o m lo hi det d p' e i h t Hm U HD Hs) as (G1 & S1 & Ht & HLa).
  rewrite (scattering_fun _ _ _ _ _ S1 (turned_vector a w T o m Hm U j p e h G HG)) in HLa. rewrite rot_at_add in HLa by exact Um.
  apply (laue_angle _ a w T o m) in HLa; auto. revert HLa. destruct (rho_geometry (b_wave_vector b) a G U) as [RG1 RG2]. apply no_zeros. unfold misses in HX. rewrite RG1, RG2. lra.
Qed.
