(** * Friedel pairs: opposite reflections half a turn apart (C99). *)
From Verif Require Import Vec Spec MMotion MLaue MMesh MScattering MStrain MBeam SBeam MPolycrystal SPolycrystal SEvents SFriedel.
From Verif Require Import PMotion PLaue PMesh PBeam PStrain PPolycrystal PPolycrystal2 PPolycrystal3 PEvents.
From Verif Require Import SPolycrystal.
Open Scope list_scope. Open Scope R_scope.

Lemma mirror_dot a u v : unit a -> dot (mirror a u) (mirror a v) = dot u v.
Proof.
  intros U. apply norm_unit in U; unfold normsq in U. unfold mirror.
  assert (E : dot (vsub u (vscale (2 * dot a u) a)) (vsub v (vscale (2 * dot a v) a)) = dot u v - 4 * dot a u * dot a v + 4 * dot a u * dot a v * dot a a) by (clear; vdes; vunf; ring).
  rewrite E, U. ring.
Qed.
Lemma mirror_norm a v : unit a -> norm (mirror a v) = norm v.
Proof. intros U. unfold norm, normsq. now rewrite mirror_dot. Qed.
Lemma mirror_twice a v : unit a -> mirror a (mirror a v) = v.
Proof.
  intros U. apply norm_unit in U; unfold normsq in U. unfold mirror.
  assert (E : dot a (vsub v (vscale (2 * dot a v) a)) = dot a v - 2 * dot a v * dot a a) by (clear; vdes; vunf; ring).
  rewrite E, U. generalize (dot a v). intros s. clear. veq.
Qed.
Lemma mirror_perp a k : dot a k = 0 -> mirror a k = k.
Proof. intros H. unfold mirror. rewrite H. clear. veq. Qed.
Lemma mirror_axis a v : unit a -> dot a (mirror a v) = - dot a v.
Proof.
  intros U. apply norm_unit in U; unfold normsq in U. unfold mirror.
  assert (E : dot a (vsub v (vscale (2 * dot a v) a)) = dot a v - 2 * dot a v * dot a a) by (clear; vdes; vunf; ring).
  rewrite E, U. ring.
Qed.
Lemma mirror_add a u v : mirror a (vadd u v) = vadd (mirror a u) (mirror a v).
Proof. unfold mirror. clear. vdes; vunf; f_equal; ring. Qed.
Lemma mirror_scale a s v : mirror a (vscale s v) = vscale s (mirror a v).
Proof. unfold mirror. clear. vdes; vunf; f_equal; ring. Qed.
Lemma mirror_sub a u v : mirror a (vsub u v) = vsub (mirror a u) (mirror a v).
Proof. unfold mirror. clear. vdes; vunf; f_equal; ring. Qed.
Lemma mirror_neg a v : mirror a (vneg v) = vneg (mirror a v).
Proof. unfold mirror. clear. vdes; vunf; f_equal; ring. Qed.
Lemma dot_mirror_r a u v : dot u (mirror a v) = dot u v - 2 * dot a v * dot u a.
Proof. unfold mirror. clear. vdes; vunf; ring. Qed.

Lemma rod_mirror a th v : unit a -> mv (rod_matrix a th) (mirror a v) = mirror a (mv (rod_matrix a th) v).
Proof.
  intros U. unfold mirror. rewrite mv_sub, mv_scale.
  assert (E : mv (rod_matrix a th) a = a).
  { rewrite rod_spec by auto. apply norm_unit in U; unfold normsq in U. unfold right_handed_rotation, across, along. rewrite U. generalize (cos th) (sin th). intros c s. clear. veq. }
  rewrite E. do 3 f_equal.
  rewrite <- E at 2. now rewrite rotation_dot by (apply rod_rotation; auto).
Qed.
Lemma half_turn_mirror a n v : unit a -> mv (rod_matrix a (PI * (2 * IZR n + 1))) (vneg v) = mirror a v.
Proof.
  intros U. rewrite rod_spec by auto. apply norm_unit in U; unfold normsq in U.
  assert (C : cos (PI * (2 * IZR n + 1)) = -1 /\ sin (PI * (2 * IZR n + 1)) = 0).
  { replace (PI * (2 * IZR n + 1)) with (2 * IZR n * PI + PI) by ring. rewrite neg_cos, neg_sin.
    assert (X : cos (2 * IZR n * PI) = 1 /\ sin (2 * IZR n * PI) = 0).
    { destruct (Z_le_gt_dec 0 n) as [P|P].
      - rewrite <- (Z2Nat.id n) by lia. rewrite <- INR_IZR_INZ. generalize (Z.to_nat n). intros k.
        rewrite <- (Rplus_0_l (2 * INR k * PI)), cos_period, sin_period, cos_0, sin_0. auto.
      - assert (K : exists k, IZR n = - INR k) by (exists (Z.to_nat (- n)); rewrite INR_IZR_INZ, Z2Nat.id by lia; rewrite opp_IZR; ring).
        destruct K as (k & ->). replace (2 * - INR k * PI) with (- (0 + 2 * INR k * PI)) by ring.
        rewrite cos_neg, sin_neg, cos_period, sin_period, cos_0, sin_0. split; ring. }
    destruct X as (-> & ->). split; ring. }
  destruct C as (C & S). unfold right_handed_rotation, across, along, mirror. rewrite C, S. clear. vdes; vunf; f_equal; ring.
Qed.

(** ** The Lorentz factor, the Bragg angle and the polarization factor *)
Lemma lorentz_mirror z k a kp : unit a -> dot a k = 0 -> lorentz z k a (mirror a kp) = lorentz z k a kp.
Proof.
  intros U P. unfold lorentz.
  replace (dot k (mirror a kp)) with (dot k kp) by (rewrite <- (mirror_perp a k P) at 2; now rewrite mirror_dot).
  destruct (ndiv z (Fin (dot k kp)) (Fin (norm k ^ 2))) as [c| | |]; try reflexivity.
  assert (E : vsub (mirror a kp) (vscale c k) = mirror a (vsub kp (vscale c k))) by (rewrite mirror_sub, mirror_scale, (mirror_perp a k P); reflexivity).
  rewrite E, mirror_axis, mirror_norm by auto. set (y := vsub kp (vscale c k)).
  set (th := ndiv z (nacos (Fin c)) (Fin 2)). clearbody th.
  assert (ET : let e1 := nacos (ndiv z (Fin (dot a y)) (Fin (norm y))) in let e2 := nacos (ndiv z (Fin (- dot a y)) (Fin (norm y))) in
    (e1 = NaN /\ e2 = NaN) \/ exists et, 0 <= et <= PI /\ e1 = Fin et /\ e2 = Fin (PI - et)).
  { cbv zeta. destruct (Req_EM_T (norm y) 0) as [N|N].
    - left. assert (dot a y = 0).
      { assert (Y0 : y = vzero) by (apply normsq_0; rewrite <- norm_sq, N; ring). rewrite Y0. clear. vdes; vunf; ring. }
      unfold ndiv. destruct (Req_EM_T (norm y) 0); [|contradiction]. destruct (Req_EM_T (dot a y) 0); [|contradiction]. destruct (Req_EM_T (- dot a y) 0); [|lra]. auto.
    - unfold ndiv. destruct (Req_EM_T (norm y) 0); [contradiction|]. set (q := dot a y / norm y).
      replace (- dot a y / norm y) with (- q) by (unfold q; field; auto). unfold nacos.
      destruct (Rle_dec (-1) q), (Rle_dec q 1), (Rle_dec (-1) (- q)), (Rle_dec (- q) 1); auto; try lra.
      right. exists (acos q). split; [apply acos_bound|]. split; auto. now rewrite acos_opp. }
  cbv zeta in ET. destruct ET as [[-> ->]|(et & B & -> & ->)]; [reflexivity|].
  pose proof PI_RGT_0 as PP.
  assert (D : forall x, nabs (nrad2deg (Fin x)) = Fin (Rabs (x * (180 / PI)))) by reflexivity.
  rewrite !D. replace (nsin (Fin (PI - et))) with (nsin (Fin et)) by (cbn; now rewrite sin_PI_x).
  assert (Q : 0 < 180 / PI) by (apply Rdiv_lt_0_compat; lra).
  rewrite (Rabs_right (et * _)) by nra. rewrite (Rabs_right ((PI - et) * _)) by nra.
  replace ((PI - et) * (180 / PI)) with (180 - et * (180 / PI)) by (field; lra). set (g := et * (180 / PI)).
  assert (S : nlt (Fin (180 - g)) (Fin (1/2)) || nlt (Fin (180 - 1/2)) (Fin (180 - g)) = nlt (Fin g) (Fin (1/2)) || nlt (Fin (180 - 1/2)) (Fin g)).
  { unfold nlt, Rltb. destruct (Rlt_dec (180 - g) (1/2)), (Rlt_dec (180 - 1/2) (180 - g)), (Rlt_dec g (1/2)), (Rlt_dec (180 - 1/2) g); auto; lra. }
  rewrite S. reflexivity.
Qed.
Lemma two_theta_mirror k a kp : unit a -> dot a k = 0 -> two_theta k (mirror a kp) = two_theta k kp.
Proof.
  intros U P. unfold two_theta. rewrite mirror_norm by auto. destruct (Req_EM_T (norm kp) 0); [reflexivity|]. do 2 f_equal.
  assert (E : forall u s, vdiv u s = vscale (/ s) u) by (intros u s; unfold vdiv, vscale, Rdiv; f_equal; ring).
  rewrite !E. rewrite <- mirror_scale. rewrite !dot_scale_l, dot_mirror_r.
  rewrite (dot_comm k a), P. ring.
Qed.
Lemma polarization_mirror a pol kp : unit a -> dot a pol = 0 \/ cross a pol = vzero -> polarization pol (mirror a kp) = polarization pol kp.
Proof.
  intros U P. unfold polarization. rewrite mirror_norm by auto. destruct (Req_EM_T (norm kp) 0) as [|N]; [reflexivity|]. cbv zeta. do 2 f_equal.
  assert (E : forall u, dot (V3 (vx u / norm kp) (vy u / norm kp) (vz u / norm kp)) pol = dot pol u / norm kp) by (intros u; clear; generalize (norm kp); intros n; destruct u, pol; unfold dot; cbn; unfold Rdiv; ring).
  rewrite !E. rewrite dot_mirror_r. rewrite (dot_comm pol a). destruct P as [P|P].
  - rewrite P. f_equal. f_equal. ring.
  - assert (L : pol = vscale (dot a pol) a).
    { apply norm_unit in U; unfold normsq in U. assert (X : cross (cross a pol) a = vsub (vscale (dot a a) pol) (vscale (dot a pol) a)) by (clear; vdes; vunf; f_equal; ring).
      rewrite P, U in X. set (s := dot a pol) in *. clearbody s. clear - X. revert X. vdes. vunf. intros X. injection X as X1 X2 X3. f_equal; lra. }
    assert (Q : dot pol kp = dot a pol * dot a kp) by (rewrite L at 1; apply dot_scale_l). rewrite Q. unfold Rdiv. ring.
Qed.

(** ** The sample half a turn further *)
Definition opposite (a : vec) (p q : polycrystal) : Prop :=
  (forall e h G, scattering_vector p e h G -> scattering_vector q e (vneg h) (mirror a G)) /\
  (forall e i, in_phase p e i -> in_phase q e i) /\
  (forall e v, nth_error (pc_volumes p) e = Some v -> nth_error (pc_volumes q) e = Some v) /\
  List.length (me_espherecentroids (pc_mesh_lab p)) = List.length (me_espherecentroids (pc_mesh_lab q)).
Lemma transforms_about a moves : forall p, unit a -> (forall gs, In gs moves -> m_axis (fst gs) = a) ->
  let q := transforms moves p in
  pc_U q = map (mm (rod_matrix a (sum_list (map (fun gs => m_angle (fst gs) * snd gs) moves)))) (pc_U p) /\ pc_eB q = pc_eB p /\ pc_map q = pc_map p /\
  pc_volumes q = pc_volumes p /\ List.length (me_espherecentroids (pc_mesh_lab p)) = List.length (me_espherecentroids (pc_mesh_lab q)).
Proof.
  induction moves as [|[g s] l IH]; intros p U H; cbn [map transforms fold_left].
  - split; [|auto]. rewrite sum_list_nil. rewrite <- (map_id (pc_U p)) at 1. apply map_ext. intros M. rewrite rod_0. now rewrite mm_I_l.
  - destruct (IH (transform p g s) U) as (A1 & A2 & A3 & A4 & A5); [intros gs Hg; apply H; now right|]. unfold transforms in A1, A2, A3, A4, A5. cbv zeta.
    cbn [fst snd]. rewrite A1, A2, A3, A4, <- A5. cbn [transform pc_U pc_eB pc_map pc_volumes pc_mesh_lab mesh_update me_espherecentroids].
    split; [|split; [auto|split; [auto|split; [auto|now rewrite map_length]]]].
    rewrite map_map. apply map_ext. intros M. assert (Ea : m_axis g = a) by (apply (H (g, s)); now left). rewrite Ea.
    rewrite mm_assoc, rod_add by auto. rewrite sum_list_cons. do 2 f_equal. ring.
Qed.
Lemma vneg_neg h : vneg (vneg h) = h. Proof. destruct h. unfold vneg. cbn. f_equal; ring. Qed.
Lemma mv_neg M v : mv M (vneg v) = vneg (mv M v). Proof. clear. destruct M. vdes; vunf; f_equal; ring. Qed.
Lemma opposite_transforms a moves p : unit a -> half_turn_about a moves -> opposite a p (transforms moves p) /\ opposite a (transforms moves p) p.
Proof.
  intros U (HA & n & HS). destruct (transforms_about a moves p U HA) as (A1 & A2 & A3 & A4 & A5). cbv zeta in *. rewrite HS in A1. set (q := transforms moves p) in *. clearbody q.
  split; unfold opposite, in_phase, scattering_vector; rewrite ?A1, ?A2, ?A3, ?A4.
  - split; [|auto]. intros e h G (V & B & E1 & E2 & ->). exists (mm (rod_matrix a (PI * (2 * IZR n + 1))) V), B. rewrite nth_error_map, E1. split; auto. split; auto.
    rewrite mv_mm, !mv_neg, <- (mv_neg (rod_matrix _ _)). now rewrite half_turn_mirror.
  - split; [|auto]. intros e h G (V & B & E1 & E2 & ->). rewrite nth_error_map in E1. destruct (nth_error (pc_U p) e) as [V0|] eqn:E; [|discriminate]. cbn in E1. injection E1 as <-.
    exists V0, B. split; auto. split; auto. rewrite !mv_neg. rewrite mv_mm. set (G := mv V0 (mv B h)).
    replace (mv (rod_matrix a (PI * (2 * IZR n + 1))) G) with (vneg (mirror a G)) by (rewrite <- half_turn_mirror with (n := n) by auto; now rewrite mv_neg, vneg_neg).
    replace (mirror a (vneg (mirror a G))) with (vneg (mirror a (mirror a G))) by (symmetry; apply mirror_neg).
    now rewrite mirror_twice.
Qed.
Lemma solves_mirror k a w T o m G t : make_motion a w T o = Ok m -> unit a -> dot a k = 0 ->
  solves (laue_factors k (m_axis m)) (m_angle m) G t -> solves (laue_factors k (m_axis m)) (m_angle m) (mirror a G) t.
Proof.
  intros Hm U P H. apply (solves_iff k a w T o m) in H as (Ht & HL & HP); auto. apply (solves_iff k a w T o m); auto.
  assert (Em : m = Motion a w T o) by (apply make_motion_ok_iff in Hm as (_ & _ & ->); auto).
  assert (L : forall y, laue_condition k (mirror a y) <-> laue_condition k y).
  { intros y. unfold laue_condition. rewrite <- (mirror_perp a k P) at 1. rewrite <- mirror_add, mirror_norm by auto. tauto. }
  split; auto. split.
  - unfold rot_at in *. subst m. cbn [m_axis m_angle] in *. rewrite rod_mirror by auto. now apply L.
  - rewrite <- rod_spec in * by auto. rewrite rod_mirror by auto. now rewrite L.
Qed.
Lemma nth_same_len {A B} (l : list A) (l2 : list B) e c : List.length l = List.length l2 -> nth_error l e = Some c -> exists c2, nth_error l2 e = Some c2.
Proof. intros L H. assert (X : (e < List.length l2)%nat) by (rewrite <- L; apply nth_error_Some; congruence). apply nth_error_Some in X. destruct (nth_error l2 e); eauto. congruence. Qed.

(** The mate of one row. *)
Lemma mate_core z x p q b a w T o m lo hi det d p1 lo2 hi2 det2 d2 p2 r :
  make_motion a w T o = Ok m -> unit a -> dot a (b_wave_vector b) = 0 -> opposite a p q ->
  diffract z x p b m lo hi det = (Ok d, p1) -> diffract z x q b m lo2 hi2 det2 = (Ok d2, p2) -> In r (pd_peaks d) ->
  exists e i h t, has d r "grain_index" (INR e) /\ has d r "phase_number" (INR i) /\ has_vec d r "h" "k" "l" h /\ has d r "diffraction_times" t /\
    forall ph2 sf2 c src, nth_error (pc_phases p2) i = Some ph2 -> plane_of ph2 (vneg h) sf2 ->
      nth_error (me_espherecentroids (pc_mesh_lab q)) e = Some c -> motion_call m (P1 c) (S0 t) = Ok (P1 src) -> strictly_inside (b_halfspaces b) src ->
      exists r2, In r2 (pd_peaks d2) /\ friedel_mate a d d2 r r2 /\ has d2 r2 "structure_factors" sf2 /\
        has_vec d2 r2 "Source_x" "Source_y" "Source_z" src /\
        (dot a (b_polarization b) = 0 \/ cross a (b_polarization b) = vzero -> field d2 r2 "polarization_factors" = field d r "polarization_factors").
Proof.
  intros Hm U P (OG & OI & OV & OC) D D2 Hin. apply In_nth_error in Hin as (k & Hk).
  pose proof (columns_of _ _ _ _ _ _ _ _ _ _ D) as HC. pose proof (columns_of _ _ _ _ _ _ _ _ _ _ D2) as HC2.
  destruct (peaks_iff _ _ _ _ _ _ _ _ _ _ _ _ D Hk) as (i & ph & e & h & sf & t & G & c0 & v & A1 & A2 & A3 & A4 & A5 & A6 & A7 & A8 & ->).
  assert (Em : m = Motion a w T o) by (apply make_motion_ok_iff in Hm as (_ & _ & ->); auto).
  assert (Ea : m_axis m = a) by now rewrite Em.
  exists e, i, h, t. unfold friedel_mate, has_vec, has, field. rewrite HC, HC2. split; [reflexivity|]. split; [reflexivity|]. split; [repeat split|]. split; [reflexivity|].
  intros ph2 sf2 c src H1 H2 H3 H4 H5. rewrite call_P1_S0 in H4. apply okP1_inj in H4. apply contains_iff in H5. rewrite <- H4 in H5.
  pose proof (solves_mirror _ _ _ _ _ _ _ _ Hm U P A5) as S2.
  destruct (peaks_complete _ _ _ _ _ _ _ _ _ _ i ph2 e (vneg h) sf2 t (mirror a G) c v D2 H1 (OI _ _ A2) H2 (OG _ _ _ A4) S2 H3 (OV _ _ A7) H5) as (k2 & Hk2).
  eexists. split; [eapply nth_error_In; exact Hk2|].
  assert (RM : rot_at m t (mirror a G) = mirror a (rot_at m t G)) by (unfold rot_at; rewrite Ea; now apply rod_mirror).
  assert (KM : vadd (mirror a (rot_at m t G)) (b_wave_vector b) = mirror a (vadd (rot_at m t G) (b_wave_vector b))) by (rewrite mirror_add, (mirror_perp a _ P); reflexivity).
  unfold full_row. cbv zeta. rewrite !rvec_row10. change (rcol (row10 e i h sf t G) 6) with t. change (rcol (row10 e i (vneg h) sf2 t (mirror a G)) 6) with t.
  rewrite RM, KM, Ea, lorentz_mirror, two_theta_mirror by auto. rewrite H4.
  set (K := vadd (rot_at m t G) (b_wave_vector b)). set (g := rot_at m t G).
  split; [split; [|split; [|split]]|split; [|split]].
  - intros s Hs. cbn [In] in Hs. repeat (destruct Hs as [<-|Hs]; [reflexivity|]). destruct Hs.
  - exists h. repeat split.
  - exists g. repeat split.
  - exists K. repeat split.
  - reflexivity.
  - repeat split.
  - intros HPl. pose proof (polarization_mirror a (b_polarization b) K U HPl) as E.
    transitivity (Some (polarization (b_polarization b) (mirror a K))); [reflexivity|]. rewrite E. reflexivity.
Qed.
(** C99. The rotation axis is perpendicular to the beam and the sample is turned by half a turn about the axis before the
    second scan.  Every peak of the first scan with Miller indices h has a Friedel mate in the second one - at the same time, with
    indices -h, mirrored in the plane perpendicular to the axis - as soon as -h is among the planes of the phase and the element
    is in the beam. *)
Lemma pC99_mate : forall z x p b a w T o m moves lo hi det d p1 lo2 hi2 det2 d2 p2 r,
  make_motion a w T o = Ok m -> unit a -> dot a (b_wave_vector b) = 0 -> half_turn_about a moves ->
  diffract z x p b m lo hi det = (Ok d, p1) -> diffract z x (transforms moves p) b m lo2 hi2 det2 = (Ok d2, p2) -> In r (pd_peaks d) ->
  exists e i h t, has d r "grain_index" (INR e) /\ has d r "phase_number" (INR i) /\ has_vec d r "h" "k" "l" h /\ has d r "diffraction_times" t /\
    forall ph2 sf2 c src, nth_error (pc_phases p2) i = Some ph2 -> plane_of ph2 (vneg h) sf2 ->
      nth_error (me_espherecentroids (pc_mesh_lab (transforms moves p))) e = Some c -> motion_call m (P1 c) (S0 t) = Ok (P1 src) -> strictly_inside (b_halfspaces b) src ->
      exists r2, In r2 (pd_peaks d2) /\ friedel_mate a d d2 r r2 /\ has d2 r2 "structure_factors" sf2 /\
        has_vec d2 r2 "Source_x" "Source_y" "Source_z" src /\
        (dot a (b_polarization b) = 0 \/ cross a (b_polarization b) = vzero -> field d2 r2 "polarization_factors" = field d r "polarization_factors").
Proof.
  intros z x p b a w T o m moves lo hi det d p1 lo2 hi2 det2 d2 p2 r Hm U P HT D D2 Hin.
  exact (mate_core z x p (transforms moves p) b a w T o m lo hi det d p1 lo2 hi2 det2 d2 p2 r Hm U P (proj1 (opposite_transforms a moves p U HT)) D D2 Hin).
Qed.
(** C99. And the other way round: the second scan contains nothing but mates. *)
Lemma pC99_mate_back : forall z x p b a w T o m moves lo hi det d p1 lo2 hi2 det2 d2 p2 r2,
  make_motion a w T o = Ok m -> unit a -> dot a (b_wave_vector b) = 0 -> half_turn_about a moves ->
  diffract z x p b m lo hi det = (Ok d, p1) -> diffract z x (transforms moves p) b m lo2 hi2 det2 = (Ok d2, p2) -> In r2 (pd_peaks d2) ->
  exists e i h t, has d2 r2 "grain_index" (INR e) /\ has d2 r2 "phase_number" (INR i) /\ has_vec d2 r2 "h" "k" "l" h /\ has d2 r2 "diffraction_times" t /\
    forall ph sf c src, nth_error (pc_phases p1) i = Some ph -> plane_of ph (vneg h) sf ->
      nth_error (me_espherecentroids (pc_mesh_lab p)) e = Some c -> motion_call m (P1 c) (S0 t) = Ok (P1 src) -> strictly_inside (b_halfspaces b) src ->
      exists r, In r (pd_peaks d) /\ friedel_mate a d2 d r2 r /\ has d r "structure_factors" sf /\
        has_vec d r "Source_x" "Source_y" "Source_z" src /\
        (dot a (b_polarization b) = 0 \/ cross a (b_polarization b) = vzero -> field d r "polarization_factors" = field d2 r2 "polarization_factors").
Proof.
  intros z x p b a w T o m moves lo hi det d p1 lo2 hi2 det2 d2 p2 r2 Hm U P HT D D2 Hin.
  exact (mate_core z x (transforms moves p) p b a w T o m lo2 hi2 det2 d2 p2 lo hi det d p1 r2 Hm U P (proj2 (opposite_transforms a moves p U HT)) D2 D Hin).
Qed.
(** C99. A tilted axis breaks the pairs: whatever the angle between axis and beam, a mate at the same time requires that the
    axis is perpendicular to the beam or to the scattering vector. *)
Lemma pC99_tilted : forall z x p b a w T o m moves lo hi det d p1 lo2 hi2 det2 d2 p2 r r2 e h t,
  make_motion a w T o = Ok m -> unit a -> half_turn_about a moves ->
  diffract z x p b m lo hi det = (Ok d, p1) -> diffract z x (transforms moves p) b m lo2 hi2 det2 = (Ok d2, p2) ->
  In r (pd_peaks d) -> has d r "grain_index" (INR e) -> has_vec d r "h" "k" "l" h -> has d r "diffraction_times" t ->
  In r2 (pd_peaks d2) -> has d2 r2 "grain_index" (INR e) -> has_vec d2 r2 "h" "k" "l" (vneg h) -> has d2 r2 "diffraction_times" t ->
  exists G, has_vec d r "Gx" "Gy" "Gz" G /\ has_vec d2 r2 "Gx" "Gy" "Gz" (mirror a G) /\ (dot a (b_wave_vector b) = 0 \/ dot a G = 0).
Proof.
  intros z x p b a w T o m moves lo hi det d p1 lo2 hi2 det2 d2 p2 r r2 e h t Hm U HT D D2 Hin N1 N2 N3 Hin2 M1 M2 M3.
  apply In_nth_error in Hin as (k & Hk). apply In_nth_error in Hin2 as (k2 & Hk2).
  pose proof (columns_of _ _ _ _ _ _ _ _ _ _ D) as HC. pose proof (columns_of _ _ _ _ _ _ _ _ _ _ D2) as HC2.
  destruct (peaks_iff _ _ _ _ _ _ _ _ _ _ _ _ D Hk) as (i & ph & e1 & h1 & sf & t1 & G & c0 & v & A1 & A2 & A3 & A4 & A5 & A6 & A7 & A8 & ->).
  destruct (peaks_iff _ _ _ _ _ _ _ _ _ _ _ _ D2 Hk2) as (i2 & ph2 & e2 & h2 & sf2 & t2 & G2 & c2 & v2 & B1 & B2 & B3 & B4 & B5 & B6 & B7 & B8 & ->).
  assert (Em : m = Motion a w T o) by (apply make_motion_ok_iff in Hm as (_ & _ & ->); auto).
  assert (Ea : m_axis m = a) by now rewrite Em.
  unfold has_vec, has, field in *. rewrite HC in *. rewrite HC2 in *.
  assert (X1 : Some (Fin (INR e1)) = Some (Fin (INR e))) by exact N1. assert (X2 : Some (Fin (INR e2)) = Some (Fin (INR e))) by exact M1.
  assert (X3 : Some (Fin t1) = Some (Fin t)) by exact N3. assert (X4 : Some (Fin t2) = Some (Fin t)) by exact M3.
  destruct N2 as (Y1 & Y2 & Y3). destruct M2 as (Z1 & Z2 & Z3).
  assert (Y1' : Some (Fin (vx h1)) = Some (Fin (vx h))) by exact Y1. assert (Y2' : Some (Fin (vy h1)) = Some (Fin (vy h))) by exact Y2. assert (Y3' : Some (Fin (vz h1)) = Some (Fin (vz h))) by exact Y3.
  assert (Z1' : Some (Fin (vx h2)) = Some (Fin (vx (vneg h)))) by exact Z1. assert (Z2' : Some (Fin (vy h2)) = Some (Fin (vy (vneg h)))) by exact Z2. assert (Z3' : Some (Fin (vz h2)) = Some (Fin (vz (vneg h)))) by exact Z3.
  clear N1 M1 N3 M3 Y1 Y2 Y3 Z1 Z2 Z3.
  assert (e1 = e) by (apply INR_eq; congruence). assert (e2 = e) by (apply INR_eq; congruence). assert (t1 = t) by congruence. assert (t2 = t) by congruence. subst e1 e2 t1 t2.
  assert (Eh : h1 = h) by (destruct h1, h; cbn in *; congruence). assert (Eh2 : h2 = vneg h) by (destruct h2; destruct (vneg h); cbn in *; congruence). subst h1 h2.
  assert (EG : G2 = mirror a G).
  { destruct (opposite_transforms a moves p U HT) as ((OG & _) & _). apply OG in A4. destruct A4 as (V & B & V1 & V2 & ->). destruct B4 as (V' & B' & V1' & V2' & ->).
    rewrite V1 in V1'. rewrite V2 in V2'. congruence. }
  assert (RM : rot_at m t (mirror a G) = mirror a (rot_at m t G)) by (unfold rot_at; rewrite Ea; now apply rod_mirror).
  exists (rot_at m t G). unfold full_row. cbv zeta. rewrite !rvec_row10. change (rcol (row10 e i h sf t G) 6) with t. change (rcol (row10 e i2 (vneg h) sf2 t G2) 6) with t.
  rewrite EG in B5. apply (solves_laue _ a w T o) in A5; auto. apply (solves_laue _ a w T o) in B5; auto. rewrite EG, RM in *.
  split; [repeat split|]. split; [repeat split|].
  set (g := rot_at m t G) in *. unfold laue_condition in A5, B5. set (kk := b_wave_vector b) in *. clearbody g kk.
  assert (S1 : dot (vadd kk g) (vadd kk g) = dot kk kk) by (change (normsq (vadd kk g) = normsq kk); rewrite <- !norm_sq; now rewrite A5).
  assert (S2 : dot (vadd kk (mirror a g)) (vadd kk (mirror a g)) = dot kk kk) by (change (normsq (vadd kk (mirror a g)) = normsq kk); rewrite <- !norm_sq; now rewrite B5).
  assert (F : dot (vadd kk (mirror a g)) (vadd kk (mirror a g)) = dot kk kk + 2 * dot kk (mirror a g) + dot (mirror a g) (mirror a g)) by (generalize (mirror a g); clear; intros y; vdes; vunf; ring).
  rewrite F, mirror_dot, dot_mirror_r in S2 by auto. assert (F1 : dot (vadd kk g) (vadd kk g) = dot kk kk + 2 * dot kk g + dot g g) by (clear; vdes; vunf; ring).
  rewrite F1 in S1. rewrite (dot_comm kk a) in S2. assert (Q : dot a g * dot a kk = 0) by nra.
  apply Rmult_integral in Q. tauto.
Qed.
