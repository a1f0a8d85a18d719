(** * All lengths multiplied by s: the properties (C94). *)
From Verif Require Import Vec Spec MMotion MLaue MMesh MScattering MStrain MBeam SBeam MPolycrystal SPolycrystal MDetector MClip MRender SRender SNano SFrame SScale.
From Verif Require Import PMotion PLaue PMesh PBeam PStrain PPolycrystal PPolycrystal2 PPolycrystal3 PDetector PDetector2 PDetector3 PRender PRender2 PRender3 PEvents PEnd2 PFrame PFrame2 PFrame3 PFrame4 PScale PScale2 PScale3 PNumber4.
From Verif Require Import SDetector.
Open Scope list_scope. Open Scope R_scope.

Lemma choice_cones s z d d2 : 0 < s -> scaled_choice s d d2 -> cones s (cone_arg z d) (cone_arg z d2).
Proof. intros Hs H. destruct d as [d|], d2 as [d2|]; cbn in *; auto. intros. now apply cone_scale. Qed.
Lemma factor_pos s c : 0 < s -> 0 < column_factor s c.
Proof.
  intros Hs. unfold column_factor. destruct (existsb _ _); [exact Hs|]. destruct (String.eqb _ _); [now apply pow_lt|].
  destruct (String.eqb _ _); [now apply Rinv_0_lt_compat|lra].
Qed.
Lemma read_scaled s pd pd2 r r2 c : 0 < s -> scaled_row s pd pd2 r r2 -> read pd2 r2 c = column_factor s c * read pd r c.
Proof.
  intros Hs H. pose proof (factor_pos s c Hs) as F. unfold read. rewrite (H c). destruct (field pd r c) as [[x| | |]|]; cbn [option_map nmul]; try ring.
  - destruct (Req_EM_T _ 0); [lra|]. unfold nsign_inf. destruct (Rltb _ _); ring.
  - destruct (Req_EM_T _ 0); [lra|]. unfold nsign_inf. destruct (Rltb _ _); ring.
Qed.

(** The same experiment with every length multiplied by s: the same exception, or the same table row by
    row with lengths times s, volumes times s^3 and Scherrer widths divided by s. *)
Lemma pC94_same_table : forall s z x p p2 b b2 m m2 lo hi d d2, 0 < s -> reachable_pc x p ->
  scaled_sample s p p2 -> scaled_beam s b b2 -> scaled_motion s m m2 -> scaled_choice s d d2 ->
  let out := diffract z x p b m lo hi (cone_arg z d) in let out2 := diffract z x p2 b2 m2 lo hi (cone_arg z d2) in
  (forall e, fst out2 = Err e <-> fst out = Err e) /\
  (forall pd, fst out = Ok pd -> exists pd2, fst out2 = Ok pd2 /\ Forall2 (scaled_row s pd pd2) (pd_peaks pd) (pd_peaks pd2)) /\
  scaled_sample s (snd out) (snd out2).
Proof.
  intros s z x p p2 b b2 m m2 lo hi d d2 Hs HR P B M C. cbv zeta.
  destruct (diffract_scale s Hs z x p p2 b b2 m m2 lo hi _ _ P B M (choice_cones s z d d2 Hs C) (pc_volumes_nonneg _ _ HR)) as (S & E & O). cbv zeta in *.
  split; [|split; [|exact S]].
  - intros e. split; [|apply E]. intros H. destruct (fst (diffract z x p b m lo hi (cone_arg z d))) as [pd|e'] eqn:F.
    + destruct (O pd eq_refl) as (pd2 & F2 & _). rewrite H in F2. discriminate.
    + rewrite (E e' eq_refl) in H. exact H.
  - intros pd F. destruct (O pd F) as (pd2 & F2 & R & G). exists pd2. split; [exact F2|]. rewrite R. apply Forall2_map_r. intros r Hr.
    apply grow_scaled; [left; eapply diffract_columns; eauto|].
    rewrite (diffract_columns _ _ _ _ _ _ _ _ _ F). eapply diffract_columns; eauto.
Qed.
Lemma project_scaled s z z' x p p2 b b2 m m2 lo hi d d2 q q2 pd pd2 frames out : 0 < s -> reachable_pc x p ->
  scaled_sample s p p2 -> scaled_beam s b b2 -> scaled_motion s m m2 -> scaled_choice s d d2 -> scaled_detector s q q2 ->
  fst (diffract z x p b m lo hi (cone_arg z d)) = Ok pd -> fst (diffract z x p2 b2 m2 lo hi (cone_arg z d2)) = Ok pd2 ->
  project z' q pd frames = Ok out ->
  exists out2, project z' q2 pd2 frames = Ok out2 /\ pd_peaks out2 = map (grow s) (pd_peaks out) /\
    Forall2 (scaled_row s out out2) (pd_peaks out) (pd_peaks out2) /\ (forall r, scaled_row s out out2 r (grow s r)) /\ pd_peaks pd2 = map (grow s) (pd_peaks pd) /\
    (forall r, scaled_row s pd pd2 r (grow s r)).
Proof.
  intros Hs HR P B M C S D1 D2 H.
  destruct (diffract_scale s Hs z x p p2 b b2 m m2 lo hi _ _ P B M (choice_cones s z d d2 Hs C) (pc_volumes_nonneg _ _ HR)) as (_ & _ & O). cbv zeta in O.
  destruct (O pd D1) as (pd2' & F2 & R & G). rewrite D2 in F2. apply ok_inj in F2. subst pd2'.
  pose proof (diffract_columns _ _ _ _ _ _ _ _ _ D1) as C1. pose proof (diffract_columns _ _ _ _ _ _ _ _ _ D2) as C2.
  assert (GR : Forall good_row (pd_peaks pd)).
  { rewrite Forall_forall in *. intros r Hr. destruct (G r Hr) as (r' & c & v & k & L & ->). now apply full_fin. }
  destruct (project_scale s Hs z' q q2 pd pd2 frames out S GR R ltac:(now rewrite C1, C2) H) as (out2 & H2 & R2 & C3).
  exists out2. split; [exact H2|]. split; [exact R2|].
  assert (CO : pd_columns out = column_names ++ new_columns).
  { apply project_inv in H as (_ & Hc & _). now rewrite Hc, C1. }
  assert (X : forall r, scaled_row s out out2 r (grow s r)) by (intros r; apply grow_scaled; [right; exact CO|exact C3]).
  split; [|split; [exact X|split; [exact R|]]].
  - rewrite R2. apply Forall2_map_r. intros r Hr. apply X.
  - intros r. apply grow_scaled; [left; exact C1|now rewrite C1].
Qed.
(** ... the enlarged detector sees the same reflections. *)
Lemma pC94_same_hits : forall s z z' x p p2 b b2 m m2 lo hi d d2 q q2 pd pd2 frames out, 0 < s -> reachable_pc x p ->
  scaled_sample s p p2 -> scaled_beam s b b2 -> scaled_motion s m m2 -> scaled_choice s d d2 -> scaled_detector s q q2 ->
  fst (diffract z x p b m lo hi (cone_arg z d)) = Ok pd -> fst (diffract z x p2 b2 m2 lo hi (cone_arg z d2)) = Ok pd2 ->
  project z' q pd frames = Ok out ->
  exists out2, project z' q2 pd2 frames = Ok out2 /\ Forall2 (scaled_row s out out2) (pd_peaks out) (pd_peaks out2).
Proof.
  intros s z z' x p p2 b b2 m m2 lo hi d d2 q q2 pd pd2 frames out Hs HR P B M C S D1 D2 H.
  destruct (project_scaled s z z' x p p2 b b2 m m2 lo hi d d2 q q2 pd pd2 frames out Hs HR P B M C S D1 D2 H) as (out2 & H2 & _ & F & _). eauto.
Qed.

(** ** The picture *)
Lemma spot_scaled sg Rr zc yc T i j k : 0 < k -> 0 <= T ->
  let v := gauss_spot sg Rr zc yc T i j in let w := gauss_spot sg Rr zc yc (k * T) i j in
  Rabs (w - k * v) <= Rmax 1 k / 10 ^ 6 /\ (1 <= k -> k * v <= w) /\ (k <= 1 -> w <= k * v).
Proof.
  intros Hk HT. unfold gauss_spot. cbv zeta.
  pose proof (window_sum_pos sg Rr zc yc) as Wp. pose proof eps12 as Ep.
  set (g := gauss_at sg zc yc i j / (gauss_window_sum sg Rr zc yc + / 10 ^ 12)).
  assert (G : 0 <= g). { unfold g. apply Rmult_le_pos; [unfold gauss_at; left; apply exp_pos|]. left. apply Rinv_0_lt_compat. lra. }
  replace (g * (k * T)) with (k * (g * T)) by ring. assert (X : 0 <= g * T) by (now apply Rmult_le_pos). set (v := g * T) in *. clearbody v.
  assert (M1 := Rmax_l 1 k). assert (M2 := Rmax_r 1 k). set (mx := Rmax 1 k) in *. clearbody mx.
  assert (C : / 10 ^ 6 > 0) by (apply Rinv_0_lt_compat; lra). unfold Rdiv. set (u := / 10 ^ 6) in *. clearbody u.
  assert (Q : 0 <= mx * u) by nra.
  set (bx := ((Z.abs (i - rint zc) <=? Rr) && (Z.abs (j - rint yc) <=? Rr))%Z). destruct bx; cbn [andb].
  2:{ replace (0 - k * 0) with 0 by ring. rewrite Rabs_R0. repeat split; intros; lra. }
  destruct (Rltb u v) eqn:E1, (Rltb u (k * v)) eqn:E2; try apply Rltb_true in E1; try apply Rltb_false in E1; try apply Rltb_true in E2; try apply Rltb_false in E2.
  - replace (k * v - k * v) with 0 by ring. rewrite Rabs_R0. repeat split; intros; lra.
  - replace (0 - k * v) with (- (k * v)) by ring. rewrite Rabs_Ropp, Rabs_right by nra. repeat split; intros; nra.
  - replace (k * v - k * 0) with (k * v) by ring. rewrite Rabs_right by nra. repeat split; intros; nra.
  - replace (0 - k * 0) with 0 by ring. rewrite Rabs_R0. repeat split; intros; lra.
Qed.
Lemma sum_scaled {A} (f g : A -> R) k c l : (forall x, In x l -> Rabs (g x - k * f x) <= c /\ (1 <= k -> k * f x <= g x) /\ (k <= 1 -> g x <= k * f x)) ->
  Rabs (sum_list (map g l) - k * sum_list (map f l)) <= c * INR (List.length l) /\
  (1 <= k -> k * sum_list (map f l) <= sum_list (map g l)) /\ (k <= 1 -> sum_list (map g l) <= k * sum_list (map f l)).
Proof.
  induction l as [|x l IH]; intros H.
  - cbn [map List.length INR]. rewrite !sum_list_nil. replace (0 - k * 0) with 0 by ring. rewrite Rabs_R0. repeat split; intros; lra.
  - destruct IH as (I1 & I2 & I3); [intros; apply H; now right|]. destruct (H x (or_introl eq_refl)) as (H1 & H2 & H3).
    cbn [map]. rewrite !sum_list_cons. change (List.length (x :: l)) with (S (List.length l)). rewrite S_INR. repeat split.
    + replace (g x + sum_list (map g l) - k * (f x + sum_list (map f l))) with ((g x - k * f x) + (sum_list (map g l) - k * sum_list (map f l))) by ring.
      eapply Rle_trans; [apply Rabs_triang|]. lra.
    + intros L. specialize (H2 L). specialize (I2 L). lra.
    + intros L. specialize (H3 L). specialize (I3 L). lra.
Qed.
Lemma filter_length_map {X Y} (f : X -> Y) (l : list X) : List.length (map f l) = List.length l. Proof. apply map_length. Qed.
(** ... and the 'micro' picture is s^3 times as bright, up to what the 1e-6 cut-off of single deposits removes:
    per pixel at most max(1, s^3) 1e-6 for each peak of the frame, never in the other direction. *)
Lemma pC94_picture : forall s z x p p2 b b2 m m2 lo hi d d2 q q2 pd pd2 e frames ml mi im out ml2 mi2 im2 out2, 0 < s -> reachable_pc x p ->
  scaled_sample s p p2 -> scaled_beam s b b2 -> scaled_motion s m m2 -> scaled_choice s d d2 -> scaled_detector s q q2 ->
  fst (diffract z x p b m lo hi (cone_arg z d)) = Ok pd -> fst (diffract z x p2 b2 m2 lo hi (cone_arg z d2)) = Ok pd2 ->
  render e q pd frames "micro" ml mi = Ok (im, out) -> render e q2 pd2 frames "micro" ml2 mi2 = Ok (im2, out2) ->
  has_shape im2 (f_n im) (f_h im) (f_w im) /\
  forall f i j, in_image im f i j -> exists v w, f_at im f i j = Fin v /\ f_at im2 f i j = Fin w /\
    Rabs (w - s ^ 3 * v) <= Rmax 1 (s ^ 3) / 10 ^ 6 * INR (List.length (rows_in_frame out f)) /\
    (1 <= s -> s ^ 3 * v <= w) /\ (s <= 1 -> w <= s ^ 3 * v).
Proof.
  intros s z x p p2 b b2 m m2 lo hi d d2 q q2 pd pd2 e frames ml mi im out ml2 mi2 im2 out2 Hs HR P B M C S D1 D2 H1 H2.
  assert (H3 : 0 < s ^ 3) by (now apply pow_lt).
  pose proof (panel_scale s Hs q q2 S) as ((_ & _ & Pz & Py & NZ & NY & SG & _) & _ & _ & _ & _ & _ & Z0 & Y0).
  pose proof (pC36_shape _ _ _ _ _ _ _ _ _ H1) as (A1 & A2 & A3). pose proof (pC36_shape _ _ _ _ _ _ _ _ _ H2) as (B1 & B2 & B3).
  split. { unfold has_shape. rewrite B1, B2, B3, A1, A2, A3, NZ, NY. auto. }
  assert (F1 : fresh pd) by (eapply pC32_diffract_tables_fresh; exact D1). assert (F2 : fresh pd2) by (eapply pC32_diffract_tables_fresh; exact D2).
  assert (V1 : volumes_ok pd).
  { destruct (diffract z x p b m lo hi (cone_arg z d)) as [r p'] eqn:D. cbn [fst] in D1. subst r. exact (volumes_ok_diffract _ _ _ _ _ _ _ _ _ _ HR D). }
  assert (SN : forall r, In r (pd_peaks out) -> 0 <= strength out r) by (intros r Hr; eapply (pC39_strength_nonneg e q pd); eauto).
  assert (HP := proj1 (micro_inv _ _ _ _ _ _ _ _ H1)). assert (HP2 := proj1 (micro_inv _ _ _ _ _ _ _ _ H2)).
  destruct (project_scaled s z (re_z e) x p p2 b b2 m m2 lo hi d d2 q q2 pd pd2 _ out Hs HR P B M C S D1 D2 HP) as (o2 & O2 & R2 & _ & X & R0 & X0).
  rewrite HP2 in O2. apply ok_inj in O2. subst o2.
  assert (V2 : volumes_ok pd2).
  { intros r2 Hr2. rewrite R0 in Hr2. apply in_map_iff in Hr2 as (r & <- & Hr). destruct (V1 r Hr) as (v & Hv & Hv0). exists (s ^ 3 * v). split; [|nra].
    unfold has in *. rewrite (X0 r "volumes"%string), Hv. reflexivity. }
  intros f i j Hin.
  assert (Hin2 : in_image im2 f i j) by (destruct Hin as (I1 & I2 & I3); unfold in_image; rewrite B1, B2, B3, NZ, NY, <- A1, <- A2, <- A3; auto).
  eexists. eexists. split; [exact (pC39_pixel_is_sum_of_spots _ _ _ _ _ _ _ _ _ _ _ F1 V1 H1 Hin)|]. split; [exact (pC39_pixel_is_sum_of_spots _ _ _ _ _ _ _ _ _ _ _ F2 V2 H2 Hin2)|].
  assert (RF : rows_in_frame out2 f = map (grow s) (rows_in_frame out f)).
  { unfold rows_in_frame. rewrite R2, filter_map. f_equal. apply filter_ext. intros r. rewrite (read_scaled s out out2 r _ _ Hs (X r)). unfold column_factor. cbn. now rewrite Rmult_1_l. }
  rewrite RF, map_map.
  assert (PT : Rabs (sum_list (map (fun r => micro_spot q2 out2 (grow s r) (Z.of_nat i) (Z.of_nat j)) (rows_in_frame out f)) - s ^ 3 * sum_list (map (fun r => micro_spot q out r (Z.of_nat i) (Z.of_nat j)) (rows_in_frame out f)))
      <= Rmax 1 (s ^ 3) / 10 ^ 6 * INR (List.length (rows_in_frame out f)) /\
    (1 <= s ^ 3 -> s ^ 3 * sum_list (map (fun r => micro_spot q out r (Z.of_nat i) (Z.of_nat j)) (rows_in_frame out f)) <= sum_list (map (fun r => micro_spot q2 out2 (grow s r) (Z.of_nat i) (Z.of_nat j)) (rows_in_frame out f))) /\
    (s ^ 3 <= 1 -> sum_list (map (fun r => micro_spot q2 out2 (grow s r) (Z.of_nat i) (Z.of_nat j)) (rows_in_frame out f)) <= s ^ 3 * sum_list (map (fun r => micro_spot q out r (Z.of_nat i) (Z.of_nat j)) (rows_in_frame out f)))).
  { apply sum_scaled. intros r Hr. apply filter_In in Hr as (Hr & _).
    assert (EM : micro_spot q2 out2 (grow s r) (Z.of_nat i) (Z.of_nat j) =
      gauss_spot (micro_sigma q) (micro_radius q) (read out r "zd" / d_pz q) (read out r "yd" / d_py q) (s ^ 3 * strength out r) (Z.of_nat i) (Z.of_nat j)).
    { unfold micro_spot, strength. rewrite !(read_scaled s out out2 r _ _ Hs (X r)). unfold micro_radius, micro_sigma. rewrite SG, Pz, Py.
      change (column_factor s "zd") with s. change (column_factor s "yd") with s. change (column_factor s "volumes") with (s ^ 3). change (column_factor s "intensity_factors") with 1.
      f_equal; [field; lra|field; lra|ring]. }
    rewrite EM. exact (spot_scaled _ _ _ _ _ _ _ _ H3 (SN r Hr)). }
  destruct PT as (PT1 & PT2 & PT3). split; [exact PT1|]. split.
  - intros L. apply PT2. rewrite <- (pow1 3). apply pow_incr. lra.
  - intros L. apply PT3. rewrite <- (pow1 3). apply pow_incr. lra.
Qed.
(** The Airy discs of the 'nano' method do not keep their size in pixels: they shrink by s. *)
Lemma pC94_nano_refuted : forall s z x p p2 b b2 m m2 lo hi d d2 q q2 pd pd2 z' frames out out2, 0 < s -> reachable_pc x p ->
  scaled_sample s p p2 -> scaled_beam s b b2 -> scaled_motion s m m2 -> scaled_choice s d d2 -> scaled_detector s q q2 ->
  fst (diffract z x p b m lo hi (cone_arg z d)) = Ok pd -> fst (diffract z x p2 b2 m2 lo hi (cone_arg z d2)) = Ok pd2 ->
  project z' q pd frames = Ok out -> project z' q2 pd2 frames = Ok out2 ->
  Forall2 (fun r r2 => disc_radius q2 out2 r2 = disc_radius q out r / s) (pd_peaks out) (pd_peaks out2).
Proof.
  intros s z x p p2 b b2 m m2 lo hi d d2 q q2 pd pd2 z' frames out out2 Hs HR P B M C S D1 D2 H H2.
  destruct (project_scaled s z z' x p p2 b b2 m m2 lo hi d d2 q q2 pd pd2 _ out Hs HR P B M C S D1 D2 H) as (o2 & O2 & R2 & F & _).
  rewrite H2 in O2. apply ok_inj in O2. subst o2.
  pose proof (panel_scale s Hs q q2 S) as ((_ & _ & Pz & _) & _ & _ & C0 & _ & _ & Z0 & _).
  eapply F2_impl; [|exact F]. intros r r2 E. unfold disc_radius. cbv beta. rewrite !(read_scaled s out out2 r r2 _ Hs E), C0, Pz, norm_pos_scale by auto.
  change (column_factor s "scherrer_fwhm") with (/ s). change (column_factor s "incident_angle") with 1. rewrite Rmult_1_l.
  generalize (cos (read out r "incident_angle" * (PI / 180))). intros c. unfold Rdiv. rewrite Rinv_mult. set (ic := / c). set (ip := / d_pz q). field. lra.
Qed.

(** ** Non-vacuity *)
Lemma xC94_doubled : exists z x p p2 b b2 m m2 lo hi d d2 pd pd2 e im out im2 out2,
  reachable_pc x p /\ scaled_sample 2 p p2 /\ scaled_beam 2 b b2 /\ scaled_motion 2 m m2 /\ scaled_detector 2 d d2 /\
  fst (diffract z x p b m lo hi (cone_arg z None)) = Ok pd /\ fst (diffract z x p2 b2 m2 lo hi (cone_arg z None)) = Ok pd2 /\ pd_peaks pd <> [] /\
  render e d pd 1 "micro" None 1 = Ok (im, out) /\ render e d2 pd2 1 "micro" None 1 = Ok (im2, out2).
Proof.
  destruct big_beam as (b & Hb & Hk & Hin). destruct (ex_pc two_planes) as (me & p & H1 & H2 & H3 & H4 & H5 & H6 & H7 & H8 & H9 & H10).
  pose proof (ex_outcome two_planes me p b Hk H3 H4 H5 H6 H7 H8) as O.
  destruct (diffract false (ex_xtal two_planes) p b ex_motion 0 1 None) as [r p'] eqn:D. destruct O as (_ & O & Oph).
  destruct O as (pd & ->). { cbn [map two_planes list_sum fold_right]. now rewrite refl_pos, refl_neg. }
  destruct side_detector as (d & Bd & C0 & C1 & C2 & F1 & F2 & F3).
  set (e := REnv false 1 1 (fun _ => 0) (fun _ => []) big_qhull (fun _ => None) (fun _ => Err ValueError) (fun _ _ => Err ValueError) (fun _ _ _ => [])).
  assert (Hf : fresh pd) by (apply (pC32_diffract_tables_fresh false (ex_xtal two_planes) p b ex_motion 0 1 None); now rewrite D).
  destruct (pC39_micro_never_fails e d pd 1%Z None 1 Hf) as (im & out & HI).
  assert (P2 : 0 < 2) by lra.
  set (b2 := Beam (b_wave_vector b) (b_wavelength b) (map (vscale 2) (b_vertices b)) (vscale 2 (b_centroid b)) (map (scaled_halfspace 2) (b_halfspaces b)) (b_polarization b)).
  assert (B2 : scaled_beam 2 b b2) by (repeat split; apply pC94_scaled_faces; auto).
  destruct (pC94_built_sample 2 (ex_xtal two_planes) ex_coord ex_enod me (One mI) (One mzero) [ex_phase] (Some [0]) p P2 H1 H2) as (me2 & p2 & _ & _ & Pp).
  set (m2 := Motion (m_axis ex_motion) (m_angle ex_motion) (vscale 2 (m_trans ex_motion)) (vscale 2 (m_origin ex_motion))).
  assert (M2 : scaled_motion 2 ex_motion m2) by reflexivity.
  destruct Bd as (c0 & c1 & c2 & np & ps & sg & th & mr & ul & up & us & Hd).
  destruct (proj2 (pC94_built_detector 2 c0 c1 c2 np ps sg th mr ul up us P2) d Hd) as (d2 & _ & S).
  assert (HR := H3).
  pose proof (pC94_same_table 2 false (ex_xtal two_planes) p p2 b b2 ex_motion m2 0 1 None None P2 HR Pp B2 M2 I) as (_ & T & _). cbv zeta in T.
  destruct (T pd (f_equal fst D)) as (pd2 & D2 & _).
  assert (Hf2 : fresh pd2) by (eapply pC32_diffract_tables_fresh; exact D2).
  destruct (pC39_micro_never_fails e d2 pd2 1%Z None 1 Hf2) as (im2 & out2 & HI2).
  exists false, (ex_xtal two_planes), p, p2, b, b2, ex_motion, m2, 0, 1, d, d2, pd, pd2, e, im, out, im2, out2.
  split; [exact HR|]. split; [exact Pp|]. split; [exact B2|]. split; [exact M2|]. split; [exact S|]. split; [exact (f_equal fst D)|]. split; [exact D2|].
  split; [|split; [exact HI|exact HI2]].
  assert (Ic : nth_error (me_espherecentroids (pc_mesh_lab p)) 0 = Some (V3 7 1 (9/4))) by (rewrite H8, H9; reflexivity).
  assert (Hin' : forall v, -10 < vx v < 10 -> -10 < vy v < 10 -> -10 < vz v < 10 -> strictly_inside (b_halfspaces b) v).
  { intros v Q1 Q2 Q3. apply Hin; apply Rabs_def1; lra. }
  exact (ex_rows p b p' pd Hk Hin' H3 H4 H6 H7 Ic D Oph).
Qed.
