(** * Proofs: reading strain from peak positions (C107). *)
From Verif Require Import Vec Spec MMotion PMotion MLaue PLaue MMesh SMesh PMesh MScattering SScattering PScattering.
From Verif Require Import MStrain SStrain PStrain MBeam SBeam PBeam MPolycrystal SPolycrystal PPolycrystal PPolycrystal2 PPolycrystal3 SGauge.
Open Scope list_scope. Open Scope R_scope.
Local Notation len := List.length.

Local Lemma some_eq {A} (a b : A) : Some a = Some b -> a = b. Proof. congruence. Qed.
Definition fits (x : xtal) (p : polycrystal) : Prop :=
  len (pc_eps p) = len (pc_U p) /\ Forall is_rotation (pc_U p) /\ Forall symmetric (pc_eps p) /\
  forall e i ph U ep, in_phase p e i -> nth_error (pc_phases p) i = Some ph ->
    nth_error (pc_U p) e = Some U -> nth_error (pc_eps p) e = Some ep ->
    exists B, nth_error (pc_eB p) e = Some B /\ eps_to_B1 (x_form_b x (ph_cell ph)) (crystal_strain U ep) = Ok B.
Lemma instantiate_len N a l : instantiate_mats N a = Ok l -> len l = N.
Proof.
  destruct a as [A|l0|]; cbn [instantiate_mats]; [|destruct (Nat.eqb_spec (len l0) N)|]; try discriminate; intros [= <-]; auto. apply repeat_length.
Qed.
Lemma fits_made x p : proper_sample x p -> fits x p.
Proof.
  intros ((me & o & s & phs & mp & M) & HU & He). apply make_pc_inv in M as (tets & U & eps & pm & eB & E0 & E1 & E2 & E3 & E4 & ->).
  cbn [pc_U pc_eps] in HU, He. apply instantiate_len in E1. apply instantiate_len in E2.
  unfold fits. cbn [pc_U pc_eps pc_phases pc_eB]. split; [congruence|]. split; [exact HU|]. split; [exact He|].
  intros e i ph u ep Hi Hp Hu Hep. unfold in_phase in Hi. cbn [pc_map] in Hi. unfold instantiate_eB in E4.
  assert (e < len U)%nat by (apply nth_error_Some; congruence).
  eapply (eB_loop_in _ _ _ _ _ _ _ _ e i ph u ep E4); auto; rewrite ?repeat_length; lia.
Qed.
Lemma sym_rot Q e : symmetric e -> symmetric (mm (mm Q e) (mT Q)).
Proof. unfold symmetric. intros H. rewrite !mT_mm, mT_mT, H. symmetry. first [apply mm_assoc | symmetry; apply mm_assoc]. Qed.
Lemma fits_transform x p m t : unit (m_axis m) -> fits x p -> fits x (transform p m t).
Proof.
  intros Hu (L & HU & HS & H). set (Q := rod_matrix (m_axis m) (m_angle m * t)).
  assert (HQ : is_rotation Q) by (apply rod_rotation; auto).
  unfold fits, transform. fold Q. cbn [pc_U pc_eps pc_phases pc_eB pc_map]. rewrite !map_length. split; [exact L|]. split; [|split].
  - apply Forall_map. eapply Forall_impl; [|exact HU]. intros a Ha. now apply rotation_mm.
  - apply Forall_map. eapply Forall_impl; [|exact HS]. intros a Ha. now apply sym_rot.
  - intros e i ph U ep Hi Hp Eu Ee. unfold in_phase in Hi. cbn [pc_map] in Hi.
    rewrite nth_error_map in Eu, Ee. destruct (nth_error (pc_U p) e) as [U0|] eqn:EU; [|discriminate]. destruct (nth_error (pc_eps p) e) as [e0|] eqn:EE; [|discriminate].
    cbn [option_map] in Eu, Ee. apply some_eq in Eu. apply some_eq in Ee. subst U ep.
    rewrite crystal_strain_rot by apply HQ. eapply H; eauto.
Qed.
Lemma fits_diffract x z p b m lo hi det : fits x p -> fits x (snd (diffract z x p b m lo hi det)).
Proof.
  intros (L & HU & HS & H). unfold diffract. destruct (match det with None => _ | Some _ => _ end) as [[lo' hi']|e]; cbn [snd]; [|repeat split; auto].
  unfold fits. cbn [pc_U pc_eps pc_phases pc_eB]. split; [exact L|]. split; [exact HU|]. split; [exact HS|].
  intros e i ph U ep Hi Hp. rewrite nth_error_map in Hp. destruct (nth_error (pc_phases p) i) as [ph0|] eqn:E; [|discriminate].
  cbn [option_map] in Hp. apply some_eq in Hp. subst ph. cbn [ph_cell setup_planes]. now apply (H e i ph0).
Qed.

Lemma has_vec_inj d row a b c u v : has_vec d row a b c u -> has_vec d row a b c v -> u = v.
Proof.
  destruct u as [u1 u2 u3], v as [v1 v2 v3]. intros (A1 & A2 & A3) (B1 & B2 & B3). change (has d row a u1) in A1. change (has d row b u2) in A2. change (has d row c u3) in A3.
  change (has d row a v1) in B1. change (has d row b v2) in B2. change (has d row c v3) in B3. unfold has in *. congruence.
Qed.
Lemma fits_run x z : forall ops p, turns_rigidly ops -> fits x p -> fits x (pc_run z x ops p).
Proof.
  induction ops as [|o ops IH]; intros p HT H; [exact H|]. change (pc_run z x (o :: ops) p) with (pc_run z x ops (pc_step z x p o)).
  apply IH; [intros m t Hi; apply (HT m t); now right|]. destruct o as [m t|b m lo hi det]; cbn [pc_step].
  - apply fits_transform; auto. apply (HT m t). now left.
  - now apply fits_diffract.
Qed.
Lemma direction_unit G : G <> vzero -> unit (direction G).
Proof.
  intros Hz. pose proof (norm_pos G Hz) as Hn. unfold unit, direction. rewrite norm_scale, Rabs_right; [field; lra|]. apply Rle_ge. left. apply Rinv_0_lt_compat; auto.
Qed.
Lemma along_formula e G : G <> vzero -> strain_along e (direction G) = dot G (mv e G) / normsq G.
Proof.
  intros Hz. pose proof (norm_pos G Hz) as Hn. unfold strain_along, direction. rewrite mv_scale. generalize (mv e G). intros w.
  rewrite <- norm_sq. replace (dot (vscale (/ norm G) G) (vscale (/ norm G) w)) with (/ norm G * / norm G * dot G w)
    by (generalize (/ norm G); clear; intros; vdes; vunf; ring). field. lra.
Qed.
Lemma spacing B0 ep U B h G : eps_to_B1 B0 (crystal_strain U ep) = Ok B -> symmetric ep -> is_rotation U ->
  G = mv U (mv B h) -> G <> vzero -> (norm (mv B0 h) / norm G) ^ 2 = 1 + 2 * strain_along ep (direction G).
Proof.
  intros E Hs HR EG Hnz. destruct (eps_to_B1_sound _ _ _ E) as (F & E1 & FB & E3 & E4 & E5 & E6).
  assert (FF : mm (mT F) F = cauchy_green (to_crystal U ep)).
  { rewrite E1, lower_sym_id by (apply metric_sym, crystal_strain_sym; auto). rewrite metric_cg, crystal_strain_spec. reflexivity. }
  pose proof (norm_pos G Hnz) as Hn.
  assert (E7 : normsq (mv B0 h) = dot (mv B h) (mv (cauchy_green (to_crystal U ep)) (mv B h))).
  { rewrite <- FB, mv_mm. unfold normsq. rewrite dot_mv_T, <- mv_mm, FF. reflexivity. }
  set (g := mv B h) in *.
  assert (E2 : dot g (mv (cauchy_green (to_crystal U ep)) g) = normsq g + 2 * dot G (mv ep G)).
  { unfold cauchy_green. rewrite mv_madd, mv_mscale, mv_I. unfold to_crystal. rewrite !mv_mm.
    rewrite <- EG. generalize (mv ep G). intros w.
    replace (dot G w) with (dot g (mv (mT U) w)) by (rewrite EG, dot_mv_T; reflexivity).
    generalize (mv (mT U) w). clear. intros. vdes; vunf; ring. }
  assert (E8 : normsq g = normsq G) by (rewrite EG; symmetry; apply rotation_normsq; auto).
  rewrite along_formula by exact Hnz. assert (Hq : 0 < normsq G) by (rewrite <- norm_sq; nra).
  replace ((norm (mv B0 h) / norm G) ^ 2) with (normsq (mv B0 h) / normsq G) by (rewrite <- !norm_sq; field; lra).
  rewrite E7, E2, E8. field. lra.
Qed.
Lemma solves_nonzero k a w T o m G t : make_motion a w T o = Ok m ->
  solves (laue_factors k (m_axis m)) (m_angle m) G t -> G <> vzero.
Proof.
  intros Hm (_ & H) ->. apply make_motion_ok_iff in Hm as (W & _ & ->). cbn [m_axis m_angle] in H. rewrite candidates_closed in H by lra.
  assert (E : rho2 (laue_factors k a) vzero - rho0 (laue_factors k a) vzero = 0).
  { unfold rho2, rho0. generalize (laue_factors k a). intros [p q r]. cbn [rf0 rf2]. clear. vdes. vunf. lra. }
  destruct (Req_EM_T _ 0) as [|N]; [destruct H; discriminate|contradiction].
Qed.
(** what is known about one reported row *)
Lemma row_facts z x p0 ops p b a w T o m lo hi det d p' row :
  proper_sample x p0 -> turns_rigidly ops -> p = pc_run z x ops p0 -> make_motion a w T o = Ok m ->
  diffract z x p b m lo hi det = (Ok d, p') -> In row (pd_peaks d) ->
  exists e i ph h eps G0,
    has d row "grain_index" (INR e) /\ has d row "phase_number" (INR i) /\ nth_error (pc_phases p) i = Some ph /\ in_phase p e i /\
    has_vec d row "h" "k" "l" h /\ has_vec d row "G0_x" "G0_y" "G0_z" G0 /\ nth_error (pc_eps p) e = Some eps /\ symmetric eps /\
    G0 <> vzero /\ (free_length x ph h / norm G0) ^ 2 = 1 + 2 * strain_along eps (direction G0).
Proof.
  intros HP HT -> Hm H Hin. pose proof (fits_run x z ops p0 HT (fits_made _ _ HP)) as HF. set (p := pc_run z x ops p0) in *. clearbody p.
  apply In_nth_error in Hin as (k & Hk). pose proof (columns_of _ _ _ _ _ _ _ _ _ _ H) as HC.
  destruct (peaks_iff _ _ _ _ _ _ _ _ _ _ _ _ H Hk) as (i & ph' & e & h & sf & t & G0 & c & v & A1 & A2 & A3 & A4 & A5 & A6 & A7 & A8 & ->).
  assert (Hph : exists ph, nth_error (pc_phases p) i = Some ph /\ ph_cell ph' = ph_cell ph).
  { clear - H A1. unfold diffract in H. destruct (match det with None => _ | Some _ => _ end) as [[lo' hi']|ee]; [|discriminate].
    apply (f_equal snd) in H. cbn [snd] in H. subst p'. cbn [pc_phases] in A1. rewrite nth_error_map in A1.
    destruct (nth_error (pc_phases p) i) as [ph|] eqn:E; [|discriminate]. cbn [option_map] in A1. apply some_eq in A1. subst ph'. exists ph. split; auto. }
  destruct Hph as (ph & Hph & _). destruct A4 as (U & B & EU & EB & EG). destruct HF as (L & HU & HS & HF).
  destruct (nth_error (pc_eps p) e) as [ep|] eqn:Ee.
  2:{ apply nth_error_None in Ee. assert (e < len (pc_U p))%nat by (apply nth_error_Some; congruence). lia. }
  destruct (HF e i ph U ep A2 Hph EU Ee) as (B' & EB' & EQ). assert (B' = B) by congruence. subst B'.
  assert (SY : symmetric ep) by (apply (proj1 (Forall_forall _ _) HS ep), (nth_error_In _ _ Ee)).
  assert (RU : is_rotation U) by (apply (proj1 (Forall_forall _ _) HU U), (nth_error_In _ _ EU)).
  pose proof (solves_nonzero _ _ _ _ _ _ _ _ Hm A5) as NZ.
  exists e, i, ph, h, ep, G0. unfold has_vec, has, field. rewrite HC. unfold full_row. cbv zeta.
  repeat match goal with |- _ /\ _ => split end; auto.
  unfold free_length. apply (spacing _ _ U B); auto.
Qed.
(** C107. In every reported row (any sample with rotations as orientations and symmetric strains, any earlier
    transforms and diffract calls) the length of the scattering vector, and hence the reported 2theta, measures
    the current lab-frame strain of the row's element along the reported plane normal: with d0 and sin(theta0)
    those of the unstrained lattice, (d/d0)^2 = (sin theta0 / sin theta)^2 = 1 + 2 N.eps N. *)
Lemma pC107_gauge : forall z x p0 ops p q b a w T o m lo hi det d p' row,
  proper_sample x p0 -> turns_rigidly ops -> p = pc_run z x ops p0 ->
  reachable_beam q b -> make_motion a w T o = Ok m -> unit a ->
  diffract z x p b m lo hi det = (Ok d, p') -> In row (pd_peaks d) ->
  exists e i ph h eps G0 tth,
    has d row "grain_index" (INR e) /\ has d row "phase_number" (INR i) /\ has_vec d row "h" "k" "l" h /\
    has_vec d row "G0_x" "G0_y" "G0_z" G0 /\ has d row "2theta" tth /\
    nth_error (pc_phases p) i = Some ph /\ nth_error (pc_eps p) e = Some eps /\
    0 < norm G0 /\ unit (direction G0) /\ (free_length x ph h / norm G0) ^ 2 = 1 + 2 * strain_along eps (direction G0) /\
    0 < sin (tth / 2) /\
    ((b_wavelength b * free_length x ph h / (4 * PI)) / sin (tth / 2)) ^ 2 = 1 + 2 * strain_along eps (direction G0).
Proof.
  intros z x p0 ops p q b a w T o m lo hi det d p' row HP HT Hp Hb Hm Hu H Hin.
  destruct (row_facts z x p0 ops p b a w T o m lo hi det d p' row HP HT Hp Hm H Hin) as (e & i & ph & h & ep & G0 & F1 & F2 & F3 & F4 & F5 & F6 & F7 & F8 & F9 & F10).
  destruct (pC11_bragg q z x p b a w T o m lo hi det d p' row Hb Hm Hu H Hin) as (G0' & K & tth & B1 & B2 & B3 & B4 & B5 & B6 & B7 & B8).
  assert (G0' = G0).
  { eapply has_vec_inj; eassumption. }
  subst G0'. exists e, i, ph, h, ep, G0, tth. pose proof (norm_pos G0 F9) as NP. destruct (beam_inv _ _ Hb) as (Hl & _).
  pose proof PI_RGT_0 as PP.
  assert (SP : 0 < sin (tth / 2)).
  { assert (0 < b_wavelength b * norm G0) by nra. rewrite B8 in H0. destruct (Rle_or_lt (sin (tth/2)) 0); [nra|auto]. }
  assert (EN : norm G0 = 4 * PI * sin (tth / 2) / b_wavelength b) by (rewrite <- B8; field; lra).
  repeat match goal with |- _ /\ _ => split end; auto using direction_unit.
  rewrite <- F10, EN. f_equal. field. repeat split; lra.
Qed.
(** C107. Tension along the plane normal moves the peak to a smaller angle, compression to a larger one, and a
    peak is at the angle of the unstrained lattice exactly when there is no strain along its normal. *)
Lemma pC107_shift : forall z x p0 ops p q b a w T o m lo hi det d p' row e i ph h eps G0 tth theta0,
  proper_sample x p0 -> turns_rigidly ops -> p = pc_run z x ops p0 ->
  reachable_beam q b -> make_motion a w T o = Ok m -> unit a ->
  diffract z x p b m lo hi det = (Ok d, p') -> In row (pd_peaks d) ->
  has d row "grain_index" (INR e) -> has d row "phase_number" (INR i) -> has_vec d row "h" "k" "l" h ->
  has_vec d row "G0_x" "G0_y" "G0_z" G0 -> has d row "2theta" tth ->
  nth_error (pc_phases p) i = Some ph -> nth_error (pc_eps p) e = Some eps ->
  0 <= theta0 <= PI / 2 -> b_wavelength b * free_length x ph h = 4 * PI * sin theta0 ->
  (tth < 2 * theta0 <-> 0 < strain_along eps (direction G0)) /\
  (tth = 2 * theta0 <-> strain_along eps (direction G0) = 0) /\
  (2 * theta0 < tth <-> strain_along eps (direction G0) < 0).
Proof.
  intros z x p0 ops p q b a w T o m lo hi det d p' row e i ph h eps G0 tth th HP HT Hp Hb Hm Hu H Hin I1 I2 I3 I4 I5 I6 I7 Ht0 Hth.
  destruct (pC107_gauge z x p0 ops p q b a w T o m lo hi det d p' row HP HT Hp Hb Hm Hu H Hin) as (e' & i' & ph' & h' & ep' & G0' & tth' & F1 & F2 & F3 & F4 & F5 & F6 & F7 & F8 & _ & F9 & F10 & F11).
  destruct (pC11_bragg q z x p b a w T o m lo hi det d p' row Hb Hm Hu H Hin) as (_ & _ & tt & _ & _ & B3 & _ & B5 & _).
  unfold has in I1, I2, I5, F1, F2, F5, B3.
  assert (Ee : e' = e) by (apply INR_eq; congruence). assert (Ei : i' = i) by (apply INR_eq; congruence). subst e' i'.
  assert (tth' = tth) by congruence. assert (tt = tth) by congruence. subst tth' tt.
  assert (ph' = ph) by congruence. assert (ep' = eps) by congruence. subst ph' ep'.
  assert (h' = h) by (eapply has_vec_inj; eassumption).
  assert (G0' = G0) by (eapply has_vec_inj; eassumption).
  subst h' G0'. set (s := strain_along _ _) in *. clearbody s. pose proof PI_RGT_0 as PP.
  rewrite Hth in F11. replace (4 * PI * sin th / (4 * PI)) with (sin th) in F11 by (field; lra).
  assert (S0' : 0 <= sin th) by (apply sin_ge_0; lra).
  set (u := sin (tth / 2)) in *. assert (E : sin th * sin th = (1 + 2 * s) * (u * u)).
  { rewrite <- F11. field. lra. }
  assert (L1 : tth < 2 * th -> u < sin th) by (intros; apply sin_increasing_1; lra).
  assert (L2 : 2 * th < tth -> sin th < u) by (intros; apply sin_increasing_1; lra).
  assert (L3 : tth = 2 * th -> u = sin th) by (intros ->; unfold u; f_equal; lra).
  set (v := sin th) in *. assert (E' : (v - u) * (v + u) = 2 * s * (u * u)) by lra. assert (UU : 0 < u * u) by nra.
  assert (K1 : 0 < s -> u < v).
  { intros D. assert (0 < s * (u * u)) by (apply Rmult_lt_0_compat; lra). destruct (Rlt_or_le u v); [lra|]. exfalso. assert (0 <= (u - v) * (v + u)) by (apply Rmult_le_pos; lra). lra. }
  assert (K2 : s < 0 -> v < u).
  { intros D. assert (0 < (- s) * (u * u)) by (apply Rmult_lt_0_compat; lra). destruct (Rlt_or_le v u); [lra|]. exfalso. assert (0 <= (v - u) * (v + u)) by (apply Rmult_le_pos; lra). lra. }
  assert (K3 : s = 0 -> v = u).
  { intros ->. assert (Z : (v - u) * (v + u) = 0) by lra. apply Rmult_integral in Z as [Z|Z]; lra. }
  destruct (Rtotal_order tth (2 * th)) as [C|[C|C]]; destruct (Rtotal_order s 0) as [D|[D|D]];
    try specialize (L1 C); try specialize (L2 C); try specialize (L3 C); try specialize (K1 D); try specialize (K2 D); try specialize (K3 D); first [exfalso; lra | idtac].
  all: repeat split; intros; lra.
Qed.
