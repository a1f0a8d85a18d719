(** * The deprecated detector helpers against the methods that replaced them (C83). *)
From Verif Require Import Vec Spec MMotion MLaue MMesh MScattering MStrain MBeam MClip SClip PClip MPolycrystal SPolycrystal MDetector SDetector MDeprecated.
From Verif Require Import PScattering PDetector PDetector2 PDetector3 PDetector4 MRender SRender PRenderEx PExtra.
Open Scope R_scope.

Lemma ray_hit_closed d v o : built d -> dot v (N_of d) <> 0 ->
  ray_hit d o v = if Rltb (Rabs (dot v (N_of d)) / norm (N_of d)) (/ 10^10) then None
                  else if Rltb (svalue d v o) 0 then None else Some (nfin (ray_at o v (svalue d v o))).
Proof.
  intros Hb Hv. pose proof (N_nonzero _ _ Hv) as HN. destruct (detector_frame d Hb HN) as (_ & _ & Hn & _). pose proof (norm_pos _ HN) as PN.
  unfold ray_hit. rewrite Hn, nvsub_nfin, !ndot_nfin. cbn [nabs nlt].
  assert (E : dot v (vscale (/ norm (N_of d)) (N_of d)) = dot v (N_of d) / norm (N_of d)) by (unfold Rdiv; generalize (N_of d) (/ norm (N_of d)); intros; vdes; vunf; ring).
  rewrite E. replace (Rabs (dot v (N_of d) / norm (N_of d))) with (Rabs (dot v (N_of d)) / norm (N_of d)) by (unfold Rdiv; rewrite Rabs_mult, (Rabs_right (/ norm (N_of d))); [reflexivity|apply Rle_ge; left; apply Rinv_0_lt_compat; auto]).
  destruct (Rltb _ (/ 10^10)); [reflexivity|]. assert (dot v (N_of d) / norm (N_of d) <> 0) by (unfold Rdiv; apply Rmult_integral_contrapositive_currified; auto; apply Rinv_neq_0_compat; lra).
  rewrite ndiv_fin by auto. cbn [nlt].
  assert (ES : dot (vsub (d_c0 d) o) (vscale (/ norm (N_of d)) (N_of d)) / (dot v (N_of d) / norm (N_of d)) = svalue d v o).
  { unfold svalue. replace (dot (vsub (d_c0 d) o) (vscale (/ norm (N_of d)) (N_of d))) with (dot (vsub (d_c0 d) o) (N_of d) / norm (N_of d)) by (unfold Rdiv; generalize (N_of d) (/ norm (N_of d)) (d_c0 d); intros; vdes; vunf; ring).
    field. split; auto. lra. }
  rewrite ES. destruct (Rltb (svalue d v o) 0); [reflexivity|]. rewrite nvscale_nfin, nvadd_nfin. reflexivity.
Qed.
(** The point returned is the point at which the ray meets the plane going forward; none is returned
    exactly when there is none (rays within 1e-10 of parallel aside). *)
Lemma pC83_ray_point : forall d o v p, built d ->
  let n := plane_normal (d_c0 d) (d_c1 d) (d_c2 d) in
  n <> vzero -> / 10^10 <= Rabs (dot v n) / norm n ->
  (ray_hit d o v = Some (nfin p) <-> in_plane (d_c0 d) (d_c1 d) (d_c2 d) p /\ exists s, 0 <= s /\ p = ray_at o v s) /\
  (ray_hit d o v = None <-> forall s, 0 <= s -> ~ in_plane (d_c0 d) (d_c1 d) (d_c2 d) (ray_at o v s)).
Proof.
  intros d o v p Hb n HN Hv. fold (N_of d) in n. subst n. pose proof (norm_pos _ HN) as PN.
  assert (D0 : 0 < / 10^10) by (apply Rinv_0_lt_compat, pow_lt; lra).
  assert (Hd : dot v (N_of d) <> 0) by (intros E; rewrite E, Rabs_R0 in Hv; unfold Rdiv in Hv; lra).
  rewrite ray_hit_closed by auto. replace (Rltb (Rabs (dot v (N_of d)) / norm (N_of d)) (/ 10^10)) with false by (symmetry; apply Rltb_false; lra).
  assert (IP : in_plane (d_c0 d) (d_c1 d) (d_c2 d) (ray_at o v (svalue d v o))).
  { unfold in_plane. fold (N_of d). unfold svalue, ray_at. revert Hd. generalize (N_of d) (d_c0 d). clear. intros n c Hd.
    replace (dot (vsub (vadd o (vscale (dot (vsub c o) n / dot v n) v)) c) n) with (dot (vsub o c) n + dot (vsub c o) n / dot v n * dot v n) by (generalize (dot (vsub c o) n / dot v n); intros; vdes; vunf; ring).
    replace (dot (vsub c o) n / dot v n * dot v n) with (dot (vsub c o) n) by (field; auto). vdes; vunf; ring. }
  split.
  - destruct (Rltb (svalue d v o) 0) eqn:E.
    + apply Rltb_true in E. split; [discriminate|]. intros (HP & s & Hs & ->). apply (ray_plane_unique d v o s Hd) in HP. lra.
    + apply Rltb_false in E. split.
      * intros H. assert (ray_at o v (svalue d v o) = p) as <- by (apply nfin_inj; congruence). split; auto. exists (svalue d v o). split; auto.
      * intros (HP & s & Hs & ->). rewrite (ray_plane_unique d v o s Hd HP). reflexivity.
  - destruct (Rltb (svalue d v o) 0) eqn:E.
    + apply Rltb_true in E. split; auto. intros _ s Hs HP. apply (ray_plane_unique d v o s Hd) in HP. lra.
    + apply Rltb_false in E. split; [discriminate|]. intros H. exfalso. exact (H _ E IP).
Qed.
(** The pixel coordinates of that point are the detector coordinates of the ray divided by the pixel sizes,
    and are returned exactly when they lie in the pixel array. *)
Lemma pC83_pixel_coordinates : forall z d o v p, built d -> 0 < d_pz d -> 0 < d_py d ->
  dot v (plane_normal (d_c0 d) (d_c1 d) (d_c2 d)) <> 0 -> ray_hit d o v = Some p ->
  exists zd yd a, get_intersection z d (nfin v) (nfin o) = (Fin zd, Fin yd, a) /\
    (0 <= zd < INR (d_nz d) * d_pz d /\ 0 <= yd < INR (d_ny d) * d_py d -> world_to_pixel d p = Some (Fin (zd / d_pz d), Fin (yd / d_py d))) /\
    (~ (0 <= zd < INR (d_nz d) * d_pz d /\ 0 <= yd < INR (d_ny d) * d_py d) -> world_to_pixel d p = None).
Proof.
  intros z d o v p Hb Pz Py Hv H. fold (N_of d) in Hv. rewrite ray_hit_closed in H by auto. destruct (Rltb (Rabs _ / _) _); [discriminate|].
  rewrite intersection_closed by auto. cbv zeta. destruct (Rltb (svalue d v o) 0); [discriminate|]. injection H as <-.
  set (q := ray_at o v (svalue d v o)). destruct (detector_frame d Hb (N_nonzero _ _ Hv)) as (Ez & Ey & _).
  do 3 eexists. split; [reflexivity|]. unfold world_to_pixel. rewrite Ez, Ey, nvsub_nfin, !ndot_nfin, !ndiv_fin by lra.
  set (zd := dot _ (zhat_of d)). set (yd := dot _ (yhat_of d)). clearbody zd yd. cbn [nlt nle].
  assert (A : forall x p n, 0 < p -> (Rltb (x / p) 0 = true <-> x < 0) /\ (Rleb n (x / p) = true <-> n * p <= x)).
  { intros x w n Hw. rewrite Rltb_true, Rleb_true. assert (Ex : x = x / w * w) by (field; lra). split; split; intros Q.
    - rewrite Ex. nra.
    - apply (Rmult_lt_reg_r w); auto. lra.
    - rewrite Ex. apply Rmult_le_compat_r; lra.
    - apply (Rmult_le_reg_r w); auto. lra. }
  destruct (A zd (d_pz d) (INR (d_nz d)) Pz) as [A1 A2]. destruct (A yd (d_py d) (INR (d_ny d)) Py) as [A3 A4].
  assert (B : forall b (P : Prop), (b = true <-> P) -> (b = false <-> ~ P)) by (intros [] P [X Y]; split; intros; try congruence; intuition congruence).
  split; intros Q.
  - replace (Rltb (zd / d_pz d) 0) with false by (symmetry; apply (B _ _ A1); lra). replace (Rleb (INR (d_nz d)) (zd / d_pz d)) with false by (symmetry; apply (B _ _ A2); lra).
    replace (Rltb (yd / d_py d) 0) with false by (symmetry; apply (B _ _ A3); lra). replace (Rleb (INR (d_ny d)) (yd / d_py d)) with false by (symmetry; apply (B _ _ A4); lra). reflexivity.
  - destruct (Rltb (zd / d_pz d) 0) eqn:E1; [reflexivity|]. destruct (Rleb (INR (d_nz d)) (zd / d_pz d)) eqn:E2; [reflexivity|].
    destruct (Rltb (yd / d_py d) 0) eqn:E3; [reflexivity|]. destruct (Rleb (INR (d_ny d)) (yd / d_py d)) eqn:E4; [reflexivity|]. exfalso. apply Q.
    pose proof (proj1 (B _ _ A1) eq_refl). pose proof (proj1 (B _ _ A2) eq_refl). pose proof (proj1 (B _ _ A3) eq_refl). pose proof (proj1 (B _ _ A4) eq_refl). lra.
Qed.
(** On a detector of whole pixels both tests for a hit agree but on the two far edges. *)
Lemma pC83_same_hits : forall z d o v p, built d -> 0 < d_pz d -> 0 < d_py d ->
  d_zmax d = INR (d_nz d) * d_pz d -> d_ymax d = INR (d_ny d) * d_py d ->
  dot v (plane_normal (d_c0 d) (d_c1 d) (d_c2 d)) <> 0 -> ray_hit d o v = Some p ->
  exists zd yd a, get_intersection z d (nfin v) (nfin o) = (Fin zd, Fin yd, a) /\
    (zd <> d_zmax d -> yd <> d_ymax d -> (det_contains d (Fin zd) (Fin yd) = true <-> world_to_pixel d p <> None)) /\
    (zd = d_zmax d \/ yd = d_ymax d -> world_to_pixel d p = None).
Proof.
  intros z d o v p Hb Pz Py Ez Ey Hv H. destruct (pC83_pixel_coordinates z d o v p Hb Pz Py Hv H) as (zd & yd & a & E & A & B). exists zd, yd, a. split; auto.
  rewrite <- Ez, <- Ey in A, B. split.
  - intros Nz Ny. unfold det_contains. cbn [nle]. rewrite !andb_true_iff, !Rleb_true. split.
    + intros (((Q1 & Q2) & Q3) & Q4). rewrite A by lra. discriminate.
    + intros Q. destruct (Rle_dec 0 zd), (Rlt_dec zd (d_zmax d)), (Rle_dec 0 yd), (Rlt_dec yd (d_ymax d)); try (exfalso; apply Q, B; lra). lra.
  - intros Q. apply B. lra.
Qed.
(** The two tests differ: a ray on the far edge is on the detector, but has no pixel ... *)
Lemma pC83_far_edge_refuted : exists d o v p zd yd a, built d /\ norm v = 1 /\ ray_hit d o v = Some p /\
  get_intersection false d (nfin v) (nfin o) = (Fin zd, Fin yd, a) /\ det_contains d (Fin zd) (Fin yd) = true /\ world_to_pixel d p = None.
Proof.
  set (d := flat 10 1 4 1 (2/100) 2). assert (Hb : built d) by (apply flat_built; [lra|lia]).
  assert (HN : N_of d = V3 (-16) 0 0) by (unfold N_of, plane_normal; cbn [d flat d_c0 d_c1 d_c2]; vext; vunf; lra).
  assert (Hv : dot (V3 1 0 0) (N_of d) <> 0) by (rewrite HN; vunf; lra).
  assert (NN : norm (N_of d) = 16) by (rewrite HN; apply norm_sqrt_eq; vunf; lra).
  assert (Es : svalue d (V3 1 0 0) (V3 0 4 2) = 10) by (unfold svalue; rewrite HN; cbn [d flat d_c0]; vunf; field).
  assert (Hr : ray_hit d (V3 0 4 2) (V3 1 0 0) = Some (nfin (V3 10 4 2))).
  { rewrite ray_hit_closed by auto. rewrite NN, HN, Es. replace (dot (V3 1 0 0) (V3 (-16) 0 0)) with (-16) by (vunf; lra). rewrite (Rabs_left (-16)) by lra.
    assert (/ 10^10 < 1) by (rewrite <- Rinv_1; apply Rinv_lt_contravar; lra).
    replace (Rltb (- -16 / 16) (/ 10^10)) with false by (symmetry; apply Rltb_false; lra). replace (Rltb 10 0) with false by (symmetry; apply Rltb_false; lra).
    f_equal. f_equal. unfold ray_at. vext; vunf; ring. }
  pose proof (flat_hit false 10 1 4 1 (2/100) 2 4 2 ltac:(lra) ltac:(lra)) as G. fold d in G.
  exists d, (V3 0 4 2), (V3 1 0 0), (nfin (V3 10 4 2)), 2, 4, (Fin 0). split; auto. split; [apply norm_sqrt_eq; vunf; lra|]. split; auto. split; auto. split.
  - unfold det_contains. cbn [nle d flat d_zmax d_ymax]. rewrite !andb_true_iff, !Rleb_true. lra.
  - destruct (pC83_same_hits false d (V3 0 4 2) (V3 1 0 0) (nfin (V3 10 4 2))) as (zd & yd & a & E & _ & B); auto; try (cbn [d flat d_pz d_py]; lra).
    + unfold d, flat; cbn [d_zmax d_nz d_pz]; change (Pos.to_nat 4) with 4%nat; cbn [INR]; lra.
    + unfold d, flat; cbn [d_ymax d_ny d_py]; change (Pos.to_nat 4) with 4%nat; cbn [INR]; lra.
    + rewrite G in E. injection E as <- <- <-. apply B. right. cbn [d flat d_ymax]. lra.
Qed.
(** ... and with a partial last pixel a ray that misses the detector gets a pixel. *)
Lemma pC83_beyond_edge_refuted : exists d o v p zd yd a zp yp, built d /\ norm v = 1 /\ ray_hit d o v = Some p /\
  get_intersection false d (nfin v) (nfin o) = (Fin zd, Fin yd, a) /\ det_contains d (Fin zd) (Fin yd) = false /\ world_to_pixel d p = Some (zp, yp).
Proof.
  destruct ex_partial as (d & Hb & H0 & H1 & H2 & Hz & Hy & Pz & Py & Nz & Ny).
  assert (HN : N_of d = V3 (-16) 0 0) by (unfold N_of, plane_normal; rewrite H0, H1, H2; vext; vunf; lra).
  assert (Hv : dot (V3 1 0 0) (N_of d) <> 0) by (rewrite HN; vunf; lra).
  assert (NN : norm (N_of d) = 16) by (rewrite HN; apply norm_sqrt_eq; vunf; lra).
  assert (Es : svalue d (V3 1 0 0) (V3 0 5 2) = 10) by (unfold svalue; rewrite HN, H0; vunf; field).
  assert (D2 : dist (V3 10 4 0) (V3 10 0 0) = 4) by (apply norm_sqrt_eq; vunf; lra).
  assert (D1 : dist (V3 10 0 4) (V3 10 0 0) = 4) by (apply norm_sqrt_eq; vunf; lra).
  assert (Hr : ray_hit d (V3 0 5 2) (V3 1 0 0) = Some (nfin (V3 10 5 2))).
  { rewrite ray_hit_closed by auto. rewrite NN, HN, Es. replace (dot (V3 1 0 0) (V3 (-16) 0 0)) with (-16) by (vunf; lra). rewrite (Rabs_left (-16)) by lra.
    assert (/ 10^10 < 1) by (rewrite <- Rinv_1; apply Rinv_lt_contravar; lra).
    replace (Rltb (- -16 / 16) (/ 10^10)) with false by (symmetry; apply Rltb_false; lra). replace (Rltb 10 0) with false by (symmetry; apply Rltb_false; lra).
    f_equal. f_equal. unfold ray_at. vext; vunf; ring. }
  assert (G : exists a, get_intersection false d (nfin (V3 1 0 0)) (nfin (V3 0 5 2)) = (Fin 2, Fin 5, a)).
  { rewrite intersection_closed by auto. cbv zeta. rewrite Es. replace (Rltb 10 0) with false by (symmetry; apply Rltb_false; lra).
    unfold zhat_of, yhat_of. rewrite H0, H1, H2, D1, D2. eexists. apply f_equal2; [apply f_equal2; apply f_equal; unfold ray_at; vunf; field|reflexivity]. }
  destruct G as (a & G). destruct (pC83_pixel_coordinates false d _ _ _ Hb ltac:(lra) ltac:(lra) Hv Hr) as (zd & yd & a' & E & A & _).
  rewrite G in E. injection E as <- <- <-. exists d, (V3 0 5 2), (V3 1 0 0), (nfin (V3 10 5 2)), 2, 5, a. do 2 eexists. split; auto. split; [apply norm_sqrt_eq; vunf; lra|]. split; auto. split; auto. split.
  - unfold det_contains. cbn [nle]. rewrite Hy. replace (Rleb 5 4) with false by (symmetry; apply Rleb_false; lra). now rewrite andb_false_r.
  - apply A. rewrite Nz, Ny, Pz, Py. cbn. lra.
Qed.
(** A ray that hits the detector at grazing incidence is reported as parallel. *)
Lemma pC83_grazing_refuted : exists d o v p, built d /\ norm v = 1 /\ hits (d_c0 d) (d_c1 d) (d_c2 d) o v p /\ ray_hit d o v = None.
Proof.
  set (d := flat 10 1 4 1 (2/100) 2). assert (Hb : built d) by (apply flat_built; [lra|lia]).
  assert (HN : N_of d = V3 (-16) 0 0) by (unfold N_of, plane_normal; cbn [d flat d_c0 d_c1 d_c2]; vext; vunf; lra).
  set (e := / 10^11). assert (E0 : 0 < e) by (apply Rinv_0_lt_compat; lra). assert (E1 : e < / 10^10) by (apply Rinv_lt_contravar; lra). assert (E2 : e < 1) by (rewrite <- Rinv_1; apply Rinv_lt_contravar; lra).
  clearbody e. set (c := sqrt (1 - e * e)). assert (C : c * c = 1 - e * e) by (apply sqrt_sqrt; nra).
  assert (Hv : dot (V3 e c 0) (N_of d) <> 0) by (rewrite HN; vunf; lra).
  assert (NN : norm (N_of d) = 16) by (rewrite HN; apply norm_sqrt_eq; vunf; lra).
  exists d, (V3 (10 - e) (2 - c) 2), (V3 e c 0), (V3 10 2 2). split; auto. split; [apply norm_sqrt_eq; [lra|vunf; nra]|]. split.
  - split; [exact Hv|]. split.
    + exists (1/2), (1/2). split; [lra|]. split; [lra|]. cbn [d flat d_c0 d_c1 d_c2]. vext; vunf; lra.
    + exists 1. split; [lra|]. unfold ray_at. vext; vunf; ring.
  - rewrite ray_hit_closed by auto. rewrite NN, HN. replace (dot (V3 e c 0) (V3 (-16) 0 0)) with (- (16 * e)) by (vunf; ring). rewrite Rabs_Ropp, Rabs_right by lra.
    replace (16 * e / 16) with e by field. replace (Rltb e (/ 10^10)) with true by (symmetry; now apply Rltb_true). reflexivity.
Qed.
(** The path length is the length of the ray inside the hull, up to the 1e-12 cut-off; 0 if there is no hull. *)
Lemma pC83_path_length : forall hull points eqs simplices p dir L,
  hull points = Ok (eqs, simplices) -> List.length eqs = List.length simplices ->
  (forall h s, In (h, s) (combine eqs simplices) -> exists q, nth_error points (fst (fst s)) = Some q /\ dot (hs_n h) q + hs_d h = 0) ->
  unit_normals eqs -> (forall h, In h eqs -> dot (hs_n h) dir <> 0) -> length_inside eqs p dir L ->
  pixel_path_length hull p dir points = if Rltb (/ 10^12) L then L else 0.
Proof.
  intros hull points eqs simplices p dir L H HL Hon Hu Hp HI. unfold pixel_path_length. rewrite H.
  rewrite <- (pC48_hull_length eqs p dir L Hu Hp HI).
  assert (B : forall P, In P (map (fun es : halfspace * (nat * nat * nat) => (nth (fst (fst (snd es))) points vzero, hs_n (fst es))) (combine eqs simplices)) -> True) by auto.
  set (f := fun es : halfspace * (nat * nat * nat) => (nth (fst (fst (snd es))) points vzero, hs_n (fst es))).
  assert (E : forall l, (forall hs, In hs l -> In hs (combine eqs simplices)) ->
     map (plane_param p dir) (filter (fun pl => Rltb (dot (snd pl) dir) 0) (map f l)) = map (plane_param p dir) (filter (fun pl => Rltb (dot (snd pl) dir) 0) (hull_planes (map fst l))) /\
     map (plane_param p dir) (filter (fun pl => Rltb 0 (dot (snd pl) dir)) (map f l)) = map (plane_param p dir) (filter (fun pl => Rltb 0 (dot (snd pl) dir)) (hull_planes (map fst l)))).
  { induction l as [|[h s] l IH]; intros Hl; [split; reflexivity|]. destruct IH as [I1 I2]; [intros; apply Hl; now right|].
    destruct (Hon h s (Hl _ (or_introl eq_refl))) as (q & Eq & Q). assert (Hin : In h eqs) by (eapply in_combine_l; apply (Hl (h, s)); now left).
    assert (PP : plane_param p dir (f (h, s)) = plane_param p dir (vscale (- hs_d h) (hs_n h), hs_n h)).
    { unfold f, plane_param. cbn [fst snd]. rewrite (nth_error_nth _ _ vzero Eq). f_equal. f_equal. specialize (Hu h Hin).
      replace (dot (hs_n h) (vscale (- hs_d h) (hs_n h))) with (- hs_d h * normsq (hs_n h)) by (generalize (hs_n h) (hs_d h); intros; vdes; vunf; ring).
      rewrite <- norm_sq, Hu. lra. }
    unfold hull_planes in *. cbn [map filter]. change (snd (f (h, s))) with (hs_n h). cbn [fst snd].
    split.
    - destruct (Rltb (dot (hs_n h) dir) 0); [cbn [map]; rewrite PP, I1; reflexivity|exact I1].
    - destruct (Rltb 0 (dot (hs_n h) dir)); [cbn [map]; rewrite PP, I2; reflexivity|exact I2]. }
  destruct (E (combine eqs simplices) ltac:(auto)) as [E1 E2].
  assert (F : map fst (combine eqs simplices) = eqs).
  { clear -HL. revert simplices HL. induction eqs as [|h eqs IH]; intros [|s ss] HL; try discriminate; [reflexivity|]. cbn. f_equal. apply IH. now injection HL. }
  rewrite F in E1, E2. unfold clip_length. cbv zeta. rewrite E1, E2. reflexivity.
Qed.
Lemma pC83_no_hull : forall hull points e p dir, hull points = Err e -> pixel_path_length hull p dir points = 0.
Proof. intros hull points e p dir H. unfold pixel_path_length. now rewrite H. Qed.
(** The pair is the sine of the Bragg angle and the length of G, whenever a Bragg angle exists. *)
Lemma pC83_sin_theta : forall G wavelength s g, 0 < wavelength -> sin_theta_and_norm G wavelength = (s, g) ->
  g = norm G /\ (s <= 1 -> s = sin (bragg_angle G wavelength)) /\ (s <= 1 <-> wavelength * g <= 4 * PI).
Proof.
  intros G wl s g Hw H. unfold sin_theta_and_norm in H. injection H as <- <-. split; auto. pose proof PI_RGT_0 as HP. pose proof (norm_nonneg G) as HG.
  assert (0 <= norm G * wl / (4 * PI)) by (apply Rmult_le_pos; [nra|left; apply Rinv_0_lt_compat; lra]). split.
  - intros L. unfold bragg_angle. rewrite sin_asin; auto. lra.
  - split; intros L.
    + assert (norm G * wl = norm G * wl / (4 * PI) * (4 * PI)) by (field; lra). nra.
    + apply (Rmult_le_reg_r (4 * PI)); [lra|]. replace (norm G * wl / (4 * PI) * (4 * PI)) with (norm G * wl) by (field; lra). lra.
Qed.
(** A ray through the middle of a detector of whole pixels. *)
Lemma xC83_middle : exists d o v, built d /\ 0 < d_pz d /\ 0 < d_py d /\ d_zmax d = INR (d_nz d) * d_pz d /\ d_ymax d = INR (d_ny d) * d_py d /\
  dot v (plane_normal (d_c0 d) (d_c1 d) (d_c2 d)) <> 0 /\ norm v = 1 /\
  plane_normal (d_c0 d) (d_c1 d) (d_c2 d) <> vzero /\
  / 10^10 <= Rabs (dot v (plane_normal (d_c0 d) (d_c1 d) (d_c2 d))) / norm (plane_normal (d_c0 d) (d_c1 d) (d_c2 d)) /\
  ray_hit d o v = Some (nfin (V3 10 (3/2) (5/2))) /\ world_to_pixel d (nfin (V3 10 (3/2) (5/2))) = Some (Fin (5/2), Fin (3/2)).
Proof.
  set (d := flat 10 1 4 1 (2/100) 2). assert (Hb : built d) by (apply flat_built; [lra|lia]).
  assert (HN : N_of d = V3 (-16) 0 0) by (unfold N_of, plane_normal; cbn [d flat d_c0 d_c1 d_c2]; vext; vunf; lra).
  assert (Hv : dot (V3 1 0 0) (N_of d) <> 0) by (rewrite HN; vunf; lra).
  assert (NN : norm (N_of d) = 16) by (rewrite HN; apply norm_sqrt_eq; vunf; lra).
  assert (Es : svalue d (V3 1 0 0) (V3 0 (3/2) (5/2)) = 10) by (unfold svalue; rewrite HN; cbn [d flat d_c0]; vunf; field).
  assert (L : / 10^10 <= Rabs (dot (V3 1 0 0) (N_of d)) / norm (N_of d)).
  { rewrite NN, HN. replace (dot (V3 1 0 0) (V3 (-16) 0 0)) with (-16) by (vunf; lra). rewrite (Rabs_left (-16)) by lra.
    assert (/ 10^10 < 1) by (rewrite <- Rinv_1; apply Rinv_lt_contravar; lra). lra. }
  exists d, (V3 0 (3/2) (5/2)), (V3 1 0 0). split; auto. split; [cbn; lra|]. split; [cbn; lra|].
  split; [unfold d, flat; cbn [d_zmax d_nz d_pz]; change (Pos.to_nat 4) with 4%nat; cbn [INR]; lra|]. split; [unfold d, flat; cbn [d_ymax d_ny d_py]; change (Pos.to_nat 4) with 4%nat; cbn [INR]; lra|]. split; [exact Hv|]. split; [apply norm_sqrt_eq; vunf; lra|].
  split; [change (N_of d <> vzero); exact (N_nonzero _ _ Hv)|]. split; [exact L|].
  assert (Hr : ray_hit d (V3 0 (3/2) (5/2)) (V3 1 0 0) = Some (nfin (V3 10 (3/2) (5/2)))).
  { rewrite ray_hit_closed by auto. rewrite Es. destruct (Rltb _ (/ 10^10)) eqn:Q; [apply Rltb_true in Q; lra|]. replace (Rltb 10 0) with false by (symmetry; apply Rltb_false; lra).
    f_equal. f_equal. unfold ray_at. vext; vunf; ring. }
  split; auto. destruct (pC83_pixel_coordinates false d _ _ _ Hb ltac:(cbn; lra) ltac:(cbn; lra) Hv Hr) as (zd & yd & a & E & A & _).
  unfold d in E. rewrite (flat_hit false 10 1 4 1 (2/100) 2 (3/2) (5/2)) in E by lra. fold d in E. injection E as <- <- <-.
  rewrite A by (unfold d, flat; cbn [d_nz d_ny d_pz d_py]; change (Pos.to_nat 4) with 4%nat; cbn [INR]; lra). cbn [d flat d_pz d_py]. f_equal. f_equal; f_equal; field.
Qed.
(** A tetrahedron crossed from its right-angled corner to the middle of the opposite face. *)
Lemma xC83_tetra : exists (hull : list vec -> result (list halfspace * list (nat * nat * nat))) points eqs simplices p dir L,
  hull points = Ok (eqs, simplices) /\ List.length eqs = 4%nat /\ List.length simplices = 4%nat /\
  (forall h s, In (h, s) (combine eqs simplices) -> exists q, nth_error points (fst (fst s)) = Some q /\ dot (hs_n h) q + hs_d h = 0) /\
  unit_normals eqs /\ (forall h, In h eqs -> dot (hs_n h) dir <> 0) /\ norm dir = 1 /\ length_inside eqs p dir L /\ 1/2 < L.
Proof.
  set (w := / sqrt 3). assert (S3 : 0 < sqrt 3) by (apply sqrt_lt_R0; lra). assert (W : 0 < w) by (apply Rinv_0_lt_compat; auto).
  assert (WW : 3 * (w * w) = 1) by (unfold w; rewrite <- Rinv_mult, sqrt_sqrt by lra; field).
  clearbody w. set (points := [V3 0 0 0; V3 1 0 0; V3 0 1 0; V3 0 0 1]).
  set (eqs := [HS (V3 (-1) 0 0) 0; HS (V3 0 (-1) 0) 0; HS (V3 0 0 (-1)) 0; HS (V3 w w w) (- w)]). set (sim := [(0, 2, 3); (0, 1, 3); (0, 1, 2); (1, 2, 3)]%nat).
  exists (fun _ => Ok (eqs, sim)), points, eqs, sim, vzero, (V3 w w w), w. split; [reflexivity|]. split; [reflexivity|]. split; [reflexivity|]. split.
  - intros h s H. unfold eqs, sim in H. cbn [combine In] in H. destruct H as [E | [E | [E | [E | [] ] ] ] ]; injection E as <- <-; cbn [fst nth_error points hs_n hs_d]; eexists; (split; [reflexivity|vunf; lra]).
  - split; [|split; [|split; [|split] ] ].
    + intros h [<- | [<- | [<- | [<- | [] ] ] ] ]; apply norm_sqrt_eq; cbn [hs_n]; vunf; lra.
    + intros h [<- | [<- | [<- | [<- | [] ] ] ] ]; cbn [hs_n]; vunf; nra.
    + apply norm_sqrt_eq; vunf; lra.
    + left. exists 0, w. split; [|split; lra]. intros t. split.
      * intros H. pose proof (H (HS (V3 (-1) 0 0) 0) ltac:(cbn; auto)) as A. pose proof (H (HS (V3 w w w) (- w)) ltac:(cbn; auto 6)) as B. revert A B. unfold on_line. cbn [hs_n hs_d]. vunf. intros A B. split; nra.
      * intros Ht h [<- | [<- | [<- | [<- | [] ] ] ] ]; unfold on_line; cbn [hs_n hs_d]; vunf; nra.
    + nra.
Qed.
