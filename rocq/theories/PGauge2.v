(** * Proofs: reading strain from peak positions, part 2 (C107). *)
From Verif Require Import Vec Spec MMotion PMotion MLaue PLaue MMesh SMesh PMesh MScattering SScattering PScattering.
From Verif Require Import MStrain SStrain PStrain MBeam SBeam PBeam MPolycrystal SPolycrystal PPolycrystal PPolycrystal2 PPolycrystal3 SGauge PGauge.
Open Scope list_scope. Open Scope R_scope.
Local Notation len := List.length.

Lemma known_row z x p0 ops p b a w T o m lo hi det d p' row e i ph h eps G0 :
  proper_sample x p0 -> turns_rigidly ops -> p = pc_run z x ops p0 -> make_motion a w T o = Ok m ->
  diffract z x p b m lo hi det = (Ok d, p') -> In row (pd_peaks d) ->
  has d row "grain_index" (INR e) -> has d row "phase_number" (INR i) -> has_vec d row "h" "k" "l" h ->
  has_vec d row "G0_x" "G0_y" "G0_z" G0 ->
  nth_error (pc_phases p) i = Some ph -> nth_error (pc_eps p) e = Some eps ->
  symmetric eps /\ G0 <> vzero /\ (free_length x ph h / norm G0) ^ 2 = 1 + 2 * strain_along eps (direction G0).
Proof.
  intros HP HT Hp Hm H Hin I1 I2 I3 I4 I6 I7.
  destruct (row_facts z x p0 ops p b a w T o m lo hi det d p' row HP HT Hp Hm H Hin) as (e' & i' & ph' & h' & ep' & G0' & F1 & F2 & F3 & F4 & F5 & F6 & F7 & F8 & F9 & F10).
  unfold has in I1, I2, F1, F2. assert (Ee : e' = e) by (apply INR_eq; congruence). assert (Ei : i' = i) by (apply INR_eq; congruence). subst e' i'.
  assert (ph' = ph) by congruence. assert (ep' = eps) by congruence. subst ph' ep'.
  assert (h' = h) by (eapply has_vec_inj; eassumption). assert (G0' = G0) by (eapply has_vec_inj; eassumption). subst h' G0'. auto.
Qed.
(** C107. A uniform expansion eps = c I lengthens every spacing by sqrt(1+2c): not by 1+c (the tensor is the
    Green-Lagrange strain, not the small strain); c above -1/2 is what the constructor accepted. *)
Lemma pC107_uniform : forall z x p0 ops p b a w T o m lo hi det d p' row e i ph h c G0,
  proper_sample x p0 -> turns_rigidly ops -> p = pc_run z x ops p0 -> make_motion a w T o = Ok m ->
  diffract z x p b m lo hi det = (Ok d, p') -> In row (pd_peaks d) ->
  has d row "grain_index" (INR e) -> has d row "phase_number" (INR i) -> has_vec d row "h" "k" "l" h ->
  has_vec d row "G0_x" "G0_y" "G0_z" G0 ->
  nth_error (pc_phases p) i = Some ph -> nth_error (pc_eps p) e = Some (mscale c mI) ->
  0 <= 1 + 2 * c /\ free_length x ph h = norm G0 * sqrt (1 + 2 * c) /\
  (c <> 0 -> free_length x ph h <> norm G0 * (1 + c)).
Proof.
  intros z x p0 ops p b a w T o m lo hi det d p' row e i ph h c G0 HP HT Hp Hm H Hin I1 I2 I3 I4 I6 I7.
  destruct (known_row z x p0 ops p b a w T o m lo hi det d p' row e i ph h _ G0 HP HT Hp Hm H Hin I1 I2 I3 I4 I6 I7) as (_ & NZ & E).
  pose proof (norm_pos G0 NZ) as NP. pose proof (direction_unit G0 NZ) as U.
  assert (S : strain_along (mscale c mI) (direction G0) = c).
  { apply norm_unit in U. revert U. unfold strain_along. generalize (direction G0). clear. intros N U.
    replace (dot N (mv (mscale c mI) N)) with (c * normsq N) by (vdes; vunf; ring). rewrite U. ring. }
  rewrite S in E. set (L := free_length x ph h) in *. assert (L0 : 0 <= L) by apply sqrt_pos. clearbody L.
  assert (Q : 0 <= 1 + 2 * c) by (rewrite <- E; apply pow2_ge_0). split; [exact Q|].
  assert (LE : L = norm G0 * sqrt (1 + 2 * c)).
  { rewrite <- E. rewrite sqrt_pow2; [field; lra|]. unfold Rdiv; apply Rmult_le_pos; [lra|left; apply Rinv_0_lt_compat; lra]. }
  split; [exact LE|]. intros Hc EL. assert (X : sqrt (1 + 2 * c) = 1 + c) by (apply (Rmult_eq_reg_l (norm G0)); lra).
  pose proof (sqrt_sqrt _ Q) as Y. rewrite X in Y. assert (c * c = 0) by lra. apply Rmult_integral in H0 as [?|?]; contradiction.
Qed.
(** C107. The peaks determine the strain: when the normals of some rows of an element resolve all strain
    components (only the zero tensor has no component along any of them), the element's strain is the only
    symmetric tensor that reproduces the spacings of those rows. *)
Lemma pC107_determined : forall z x p0 ops p b a w T o m lo hi det d p' rows e i ph eps A,
  proper_sample x p0 -> turns_rigidly ops -> p = pc_run z x ops p0 -> make_motion a w T o = Ok m ->
  diffract z x p b m lo hi det = (Ok d, p') ->
  (forall row, In row rows -> In row (pd_peaks d) /\ has d row "grain_index" (INR e) /\ has d row "phase_number" (INR i)) ->
  nth_error (pc_phases p) i = Some ph -> nth_error (pc_eps p) e = Some eps -> rows <> [] ->
  (forall D, symmetric D ->
     (forall row G0, In row rows -> has_vec d row "G0_x" "G0_y" "G0_z" G0 -> strain_along D (direction G0) = 0) -> D = mzero) ->
  symmetric A ->
  (forall row h G0, In row rows -> has_vec d row "h" "k" "l" h -> has_vec d row "G0_x" "G0_y" "G0_z" G0 ->
     (free_length x ph h / norm G0) ^ 2 = 1 + 2 * strain_along A (direction G0)) ->
  A = eps.
Proof.
  intros z x p0 ops p b a w T o m lo hi det d p' rows e i ph eps A HP HT Hp Hm H HR I6 I7 NE Res SA HA.
  assert (Hh : forall row, In row rows -> exists h, has_vec d row "h" "k" "l" h).
  { intros row Hr. destruct (HR row Hr) as (H1 & _).
    destruct (row_facts z x p0 ops p b a w T o m lo hi det d p' row HP HT Hp Hm H H1) as (_ & _ & _ & h & _ & _ & _ & _ & _ & _ & F5 & _). eauto. }
  assert (SE : symmetric eps).
  { destruct rows as [|r rows]; [contradiction|]. destruct (HR r (or_introl eq_refl)) as (H1 & H2 & H3). destruct (Hh r (or_introl eq_refl)) as (h & Hh').
    destruct (row_facts z x p0 ops p b a w T o m lo hi det d p' r HP HT Hp Hm H H1) as (_ & _ & _ & _ & _ & G & _ & _ & _ & _ & _ & F6 & _).
    apply (known_row z x p0 ops p b a w T o m lo hi det d p' r e i ph h eps G HP HT Hp Hm H H1 H2 H3 Hh' F6 I6 I7). }
  assert (Z : madd A (mscale (-1) eps) = mzero).
  { apply Res.
    - unfold symmetric in *. rewrite <- SA at 2. rewrite <- SE at 2. clear. veq.
    - intros row G0 Hr HG. destruct (HR row Hr) as (H1 & H2 & H3). destruct (Hh row Hr) as (h & Hh').
      destruct (known_row z x p0 ops p b a w T o m lo hi det d p' row e i ph h eps G0 HP HT Hp Hm H H1 H2 H3 Hh' HG I6 I7) as (_ & _ & E).
      specialize (HA row h G0 Hr Hh' HG). rewrite E in HA. revert HA. unfold strain_along. generalize (direction G0). clear. intros N HA.
      replace (dot N (mv (madd A (mscale (-1) eps)) N)) with (dot N (mv A N) - dot N (mv eps N)) by (vdes; vunf; ring). lra. }
  revert Z. clear. intros Z.
  assert (E : forall v, mv A v = mv eps v).
  { intros v. assert (X : mv (madd A (mscale (-1) eps)) v = vzero) by (rewrite Z; veq).
    rewrite <- (vadd_0_r (mv eps v)), <- X. clear. veq. }
  pose proof (E (V3 1 0 0)) as E1. pose proof (E (V3 0 1 0)) as E2. pose proof (E (V3 0 0 1)) as E3.
  destruct A as [[a1 a2 a3] [a4 a5 a6] [a7 a8 a9]], eps as [[b1 b2 b3] [b4 b5 b6] [b7 b8 b9]].
  pose proof (f_equal vx E1) as P1. pose proof (f_equal vy E1) as P2. pose proof (f_equal vz E1) as P3.
  pose proof (f_equal vx E2) as P4. pose proof (f_equal vy E2) as P5. pose proof (f_equal vz E2) as P6.
  pose proof (f_equal vx E3) as P7. pose proof (f_equal vy E3) as P8. pose proof (f_equal vz E3) as P9.
  clear E E1 E2 E3 Z. revert P1 P2 P3 P4 P5 P6 P7 P8 P9. vunf. intros. f_equal; f_equal; lra.
Qed.
(** Six lattice directions resolve all strain components (so the hypothesis on the rows is met by ordinary
    reflection lists). *)
Lemma xC107_six : forall D, symmetric D ->
  (forall N, In N [V3 1 0 0; V3 0 1 0; V3 0 0 1; V3 1 1 0; V3 1 0 1; V3 0 1 1] -> strain_along D (direction N) = 0) -> D = mzero.
Proof.
  intros D S H.
  assert (K : forall N, In N [V3 1 0 0; V3 0 1 0; V3 0 0 1; V3 1 1 0; V3 1 0 1; V3 0 1 1] -> N <> vzero -> dot N (mv D N) = 0).
  { intros N HN NZ. specialize (H N HN). rewrite along_formula in H by exact NZ. pose proof (norm_pos N NZ) as NP.
    assert (Q : 0 < normsq N) by (rewrite <- norm_sq; nra). apply (Rmult_eq_compat_r (normsq N)) in H. rewrite Rmult_0_l in H. rewrite <- H. field. lra. }
  assert (W : forall N, In N [V3 1 0 0; V3 0 1 0; V3 0 0 1; V3 1 1 0; V3 1 0 1; V3 0 1 1] -> N <> vzero).
  { intros N HN E. subst N. cbn [In] in HN. assert (X : forall x y z : R, V3 x y z = vzero -> x = 0 /\ y = 0 /\ z = 0).
    { intros x y z E. repeat split; [exact (f_equal vx E)|exact (f_equal vy E)|exact (f_equal vz E)]. }
    repeat (destruct HN as [HN|HN]; [apply X in HN; lra|]). exact HN. }
  destruct D as [[a b c] [d e f] [g h i]].
  pose proof (K (V3 1 0 0)) as K1. pose proof (K (V3 0 1 0)) as K2. pose proof (K (V3 0 0 1)) as K3.
  pose proof (K (V3 1 1 0)) as K4. pose proof (K (V3 1 0 1)) as K5. pose proof (K (V3 0 1 1)) as K6.
  specialize (K1 ltac:(cbn; auto 10) ltac:(apply W; cbn; auto 10)). specialize (K2 ltac:(cbn; auto 10) ltac:(apply W; cbn; auto 10)).
  specialize (K3 ltac:(cbn; auto 10) ltac:(apply W; cbn; auto 10)). specialize (K4 ltac:(cbn; auto 10) ltac:(apply W; cbn; auto 10)).
  specialize (K5 ltac:(cbn; auto 10) ltac:(apply W; cbn; auto 10)). specialize (K6 ltac:(cbn; auto 10) ltac:(apply W; cbn; auto 10)).
  clear K H W. unfold symmetric in S.
  pose proof (f_equal (fun M => vy (r1 M)) S) as S1. pose proof (f_equal (fun M => vz (r1 M)) S) as S2. pose proof (f_equal (fun M => vz (r2 M)) S) as S3. clear S.
  revert K1 K2 K3 K4 K5 K6 S1 S2 S3. unfold mzero. vunf. intros. f_equal; f_equal; lra.
Qed.
