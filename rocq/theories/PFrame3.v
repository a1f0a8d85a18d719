(** * The same experiment set up elsewhere: the detector (C89). *)
From Verif Require Import Vec Spec MMotion MLaue MMesh MScattering MStrain MBeam SBeam MPolycrystal SPolycrystal MDetector MClip MRender SRender SNano SFrame.
From Verif Require Import PMotion PLaue PMesh PBeam PStrain PPolycrystal PPolycrystal2 PDetector PDetector2 PDetector3 PRender PRender2 PRender3 PEvents PFrame PFrame2.
From Verif Require Import SDetector.
Open Scope list_scope. Open Scope R_scope.

Lemma mv_zero A : mv A vzero = vzero. Proof. veq. Qed.
Lemma put_add A t x y : vadd (put A t x) (mv A y) = put A t (vadd x y).
Proof. unfold put. rewrite mv_add. generalize (mv A x) (mv A y). intros; veq. Qed.
(** The scalars of two detectors agree. *)
Definition same_panel (d d2 : detector) : Prop :=
  d_zmax d2 = d_zmax d /\ d_ymax d2 = d_ymax d /\ d_pz d2 = d_pz d /\ d_py d2 = d_py d /\ d_nz d2 = d_nz d /\ d_ny d2 = d_ny d /\
  d_sigma d2 = d_sigma d /\ d_threshold d2 = d_threshold d /\ d_max_radius d2 = d_max_radius d /\
  d_lorentz d2 = d_lorentz d /\ d_polarization d2 = d_polarization d /\ d_structure d2 = d_structure d.

Section Frame3.
Variables (A : mat) (t : vec).
Hypothesis HA : is_rotation A.

Lemma dist_put x y : norm (vsub (put A t x) (put A t y)) = norm (vsub x y).
Proof. rewrite put_sub. now apply rotation_norm. Qed.
Lemma make_turn c0 c1 c2 np ps sg th mr ul up us :
  match make_detector c0 c1 c2 np ps sg th mr ul up us, make_detector (put A t c0) (put A t c1) (put A t c2) np ps sg th mr ul up us with
  | Ok d, Ok d2 => same_panel d d2 /\ d_c0 d2 = put A t (d_c0 d) /\ d_c1 d2 = put A t (d_c1 d) /\ d_c2 d2 = put A t (d_c2 d)
  | Err e, Err e2 => e2 = e
  | _, _ => False
  end.
Proof.
  unfold make_detector. cbv zeta. rewrite !dist_put. destruct (pixel_sizes _ _ np ps) as [[pz py]|e]; cbn [bind fst snd]; [|reflexivity].
  destruct (arange_len _ pz) as [nz|e]; cbn [bind]; [|reflexivity]. destruct (arange_len _ py) as [ny|e]; cbn [bind]; [|reflexivity].
  destruct (mr <? 0)%Z; [reflexivity|]. unfold same_panel. cbn. auto 20.
Qed.
Lemma panel_turn d d2 : moved_detector A t d d2 -> same_panel d d2 /\ built d /\ built d2 /\
  d_c0 d2 = put A t (d_c0 d) /\ d_c1 d2 = put A t (d_c1 d) /\ d_c2 d2 = put A t (d_c2 d).
Proof.
  intros (c0 & c1 & c2 & np & ps & sg & th & mr & ul & up & us & E1 & E2).
  pose proof (make_turn c0 c1 c2 np ps sg th mr ul up us) as H. rewrite E1, E2 in H. destruct H as (H & H0 & H1 & H2).
  split; [exact H|]. split; [repeat eexists; exact E1|]. split; [repeat eexists; exact E2|]. auto.
Qed.
Lemma N_turn d d2 : moved_detector A t d d2 -> N_of d2 = mv A (N_of d).
Proof.
  intros M. apply panel_turn in M as (_ & _ & _ & H0 & H1 & H2). unfold N_of, plane_normal. rewrite H0, H1, H2, !put_sub. now apply rotation_cross.
Qed.
Lemma hats_turn d d2 : moved_detector A t d d2 -> zhat_of d2 = mv A (zhat_of d) /\ yhat_of d2 = mv A (yhat_of d).
Proof.
  intros M. apply panel_turn in M as (_ & _ & _ & H0 & H1 & H2). unfold zhat_of, yhat_of, dist. rewrite H0, H1, H2, !put_sub, !rotation_norm, !mv_scale by auto. auto.
Qed.
Lemma svalue_turn d d2 v o : moved_detector A t d d2 -> svalue d2 (mv A v) (put A t o) = svalue d v o.
Proof.
  intros M. unfold svalue. rewrite (N_turn d d2 M). apply panel_turn in M as (_ & _ & _ & H0 & _). rewrite H0, put_sub, !rotation_dot by auto. reflexivity.
Qed.
Lemma incident_turn d d2 v : moved_detector A t d d2 -> incident_of d2 (mv A v) = incident_of d v.
Proof.
  intros M. unfold incident_of, angle_between. rewrite (N_turn d d2 M). rewrite !neg_mv || idtac. rewrite ?rotation_dot, ?rotation_norm by auto. reflexivity.
Qed.
Lemma ray_turn o v s : ray_at (put A t o) (mv A v) s = put A t (ray_at o v s).
Proof. unfold ray_at. rewrite <- mv_scale. apply put_add. Qed.
Lemma intersection_turn z d d2 v o : moved_detector A t d d2 -> dot v (N_of d) <> 0 ->
  get_intersection z d2 (nfin (mv A v)) (nfin (put A t o)) = get_intersection z d (nfin v) (nfin o).
Proof.
  intros M Hv. pose proof (panel_turn d d2 M) as (_ & B & B2 & H0 & _). destruct (hats_turn d d2 M) as (Z1 & Z2).
  rewrite !intersection_closed; auto.
  2:{ rewrite (N_turn d d2 M), rotation_dot by auto. exact Hv. }
  cbv zeta. rewrite (svalue_turn d d2 v o M), (incident_turn d d2 v M), ray_turn, H0, put_sub, Z1, Z2, !rotation_dot by auto. reflexivity.
Qed.
(** A ray parallel to the detector, or a collinear detector: no hit. *)
Lemma parallel_no_hit z d v o : built d -> dot v (N_of d) = 0 ->
  let q := get_intersection z d (nfin v) (nfin o) in det_contains d (fst (fst q)) (snd (fst q)) = false.
Proof.
  intros B H. cbv zeta. destruct (get_intersection z d (nfin v) (nfin o)) as [[zd yd] a] eqn:E. cbn [fst snd].
  destruct (pC28_parallel_not_finite z d v o zd yd a B H E) as (F & _). destruct (det_contains d zd yd) eqn:C; [|reflexivity].
  apply pC29_contains_iff in C as (x & y & -> & _). discriminate F.
Qed.
Definition good_row (r : list num) : Prop := List.length r = 25%nat /\ (exists v, row_nvec r 13 = nfin v) /\ (exists o, row_nvec r 16 = nfin o).
Lemma turn_dir r v : (19 <= List.length r)%nat -> row_nvec r 13 = nfin v -> row_nvec (turn A t r) 13 = nfin (mv A v).
Proof.
  intros L E. unfold turn. destruct (Nat.leb_spec 19 (List.length r)) as [_|]; [|lia].
  do 19 (destruct r as [|? r]; [cbn in L; lia|]). clear L. unfold row_nvec, ncol in *. cbn in E. unfold nfin in E. 
  assert (n12 = Fin (vx v) /\ n13 = Fin (vy v) /\ n14 = Fin (vz v)) as (-> & -> & ->) by (repeat split; congruence).
  change (fvec _ 13) with (V3 (vx v) (vy v) (vz v)). replace (V3 (vx v) (vy v) (vz v)) with v by (destruct v; reflexivity). reflexivity.
Qed.
Lemma turn_src r o : (19 <= List.length r)%nat -> row_nvec r 16 = nfin o -> row_nvec (turn A t r) 16 = nfin (put A t o).
Proof.
  intros L E. unfold turn. destruct (Nat.leb_spec 19 (List.length r)) as [_|]; [|lia].
  do 19 (destruct r as [|? r]; [cbn in L; lia|]). clear L. unfold row_nvec, ncol in *. cbn in E. unfold nfin in E.
  assert (n15 = Fin (vx o) /\ n16 = Fin (vy o) /\ n17 = Fin (vz o)) as (-> & -> & ->) by (repeat split; congruence).
  change (fvec _ 16) with (V3 (vx o) (vy o) (vz o)). replace (V3 (vx o) (vy o) (vz o)) with o by (destruct o; reflexivity). reflexivity.
Qed.

Lemma intensity_turn d d2 r : same_panel d d2 -> intensity d2 (turn A t r) = intensity d r.
Proof.
  intros (_ & _ & _ & _ & _ & _ & _ & _ & _ & L & P & S). unfold intensity. rewrite L, P, S, !turn_ncol by lia. reflexivity.
Qed.
Lemma keep_turn z d d2 frames r : moved_detector A t d d2 -> good_row r ->
  keepb z d2 frames (turn A t r) = keepb z d frames r /\
  (keepb z d frames r = true -> extend z d2 frames (turn A t r) = turn A t (extend z d frames r)).
Proof.
  intros M (L & (v & Ev) & (o & Eo)). pose proof (panel_turn d d2 M) as (SP & B & B2 & _).
  assert (L2 : List.length (turn A t r) = 25%nat) by (rewrite turn_length; exact L).
  pose proof (turn_dir r v ltac:(lia) Ev) as Ev2. pose proof (turn_src r o ltac:(lia) Eo) as Eo2.
  destruct (get_intersection z d (row_nvec r 13) (row_nvec r 16)) as [[zd yd] a] eqn:E.
  destruct (get_intersection z d2 (row_nvec (turn A t r) 13) (row_nvec (turn A t r) 16)) as [[zd2 yd2] a2] eqn:E2.
  rewrite (keepb_fresh z d frames r zd yd a L E), (keepb_fresh z d2 frames (turn A t r) zd2 yd2 a2 L2 E2), (intensity_turn d d2 r SP).
  destruct (Req_EM_T (dot v (N_of d)) 0) as [Hv|Hv].
  - pose proof (parallel_no_hit z d v o B Hv) as F. cbv zeta in F. rewrite <- Ev, <- Eo, E in F. cbn [fst snd] in F.
    assert (Hv2 : dot (mv A v) (N_of d2) = 0) by (rewrite (N_turn d d2 M), rotation_dot by auto; exact Hv).
    pose proof (parallel_no_hit z d2 (mv A v) (put A t o) B2 Hv2) as F2. cbv zeta in F2. rewrite <- Ev2, <- Eo2, E2 in F2. cbn [fst snd] in F2.
    rewrite F, F2. split; [reflexivity|]. discriminate.
  - pose proof (intersection_turn z d d2 v o M Hv) as I. rewrite <- Ev2, <- Eo2, <- Ev, <- Eo, E, E2 in I.
    assert (zd2 = zd /\ yd2 = yd /\ a2 = a) as (-> & -> & ->) by (repeat split; congruence).
    split.
    + unfold det_contains. destruct SP as (Z1 & Z2 & _). rewrite Z1, Z2. reflexivity.
    + intros _. rewrite !extend_eq by lia. rewrite E, E2. rewrite turn_app by lia. rewrite (turn_ncol A t r 6) by lia. now rewrite (intensity_turn d d2 r SP).
Qed.
Lemma project_turn z d d2 pd pd2 frames out : moved_detector A t d d2 -> Forall good_row (pd_peaks pd) -> pd_peaks pd2 = map (turn A t) (pd_peaks pd) ->
  pd_columns pd2 = pd_columns pd -> project z d pd frames = Ok out ->
  exists out2, project z d2 pd2 frames = Ok out2 /\ pd_peaks out2 = map (turn A t) (pd_peaks out) /\ pd_columns out2 = pd_columns out.
Proof.
  intros M G E C H. destruct (project_ok z d2 pd2 frames) as (out2 & H2).
  { rewrite E. apply Forall_forall. intros r Hr. apply in_map_iff in Hr as (r0 & <- & Hr0). rewrite turn_length. rewrite Forall_forall in G. destruct (G _ Hr0) as (L & _). lia. }
  exists out2. split; [exact H2|]. apply project_inv in H as (P & Pc & _). apply project_inv in H2 as (P2 & Pc2 & _). split; [|now rewrite Pc, Pc2, C].
  rewrite P, P2, E. clear P P2 E Pc Pc2. induction (pd_peaks pd) as [|r l IH]; [reflexivity|]. inversion G as [|? ? G1 G2]; subst. cbn [map filter].
  destruct (keep_turn z d d2 frames r M G1) as (K1 & K2). rewrite K1. destruct (keepb z d frames r); cbn [map]; [rewrite K2 by reflexivity; f_equal|]; now apply IH.
Qed.

(** ** Pictures *)
Lemma deposits_turn d d2 r : same_panel d d2 -> g_deposits d2 (turn A t r) = g_deposits d r.
Proof.
  intros (_ & _ & Z & Y & NZ & NY & S & _). unfold g_deposits, g_offsets, g_weight, g_radius, g_sigma, pos_z, pos_y, peak_intensity, fcol.
  rewrite !turn_ncol by lia. rewrite Z, Y, NZ, NY, S. reflexivity.
Qed.
Lemma micro_turn e d d2 rows n : same_panel d d2 -> micro_method e d2 (map (turn A t) rows) n = micro_method e d rows n.
Proof.
  intros S. rewrite !micro_flat, map_map.
  rewrite (map_ext (fun r => g_deposits d2 (turn A t r)) (g_deposits d)) by (intros; now apply deposits_turn).
  destruct S as (_ & _ & _ & _ & NZ & NY & _). rewrite NZ, NY. reflexivity.
Qed.
Section Nano.
Variables d d2 : detector.
Hypothesis SP : same_panel d d2.
Hypothesis HC : norm (d_c0 d2) = norm (d_c0 d).
Lemma zero_turn z r : first_zero z d2 (turn A t r) = first_zero z d r.
Proof. unfold first_zero, airy_dist. rewrite !turn_ncol by lia. destruct SP as (_ & _ & Z & _). now rewrite HC, Z. Qed.
Lemma memory_turn z r : airy_memory z d2 (turn A t r) = airy_memory z d r.
Proof. unfold airy_memory. rewrite zero_turn. destruct SP as (_ & _ & _ & _ & _ & _ & S & _). now rewrite S. Qed.
Lemma kernels_turn z j1 psf rows : airy_kernels z j1 d2 psf (map (turn A t) rows) = airy_kernels z j1 d psf rows.
Proof.
  unfold airy_kernels, airy_radius, airy_kernel, airy_grid. rewrite map_map, (map_ext (fun r => first_zero z d2 (turn A t r)) (first_zero z d)) by (intros; apply zero_turn).
  destruct SP as (_ & _ & _ & _ & _ & _ & S & T & _). rewrite S, T. reflexivity.
Qed.
Lemma psf_turn : psf_kernel d2 = psf_kernel d.
Proof. unfold psf_kernel, psf_radius. destruct SP as (_ & _ & _ & _ & _ & _ & S & T & M & _). rewrite S, T, M. reflexivity. Qed.
Lemma combine_map_l {X Y Z} (f : X -> Y) (l : list X) (m : list Z) : combine (map f l) m = map (fun p => (f (fst p), snd p)) (combine l m).
Proof. revert m. induction l as [|x l IH]; intros [|y m]; cbn; try reflexivity. now rewrite IH. Qed.
Lemma batch_turn z j1 psf n im rows : airy_batch z j1 d2 psf n im (map (turn A t) rows) = airy_batch z j1 d psf n im rows.
Proof.
  unfold airy_batch. rewrite kernels_turn. destruct (airy_kernels z j1 d psf rows) as [ks|]; [|reflexivity]. cbn [bind].
  assert (K : map (fun rk : list num * kernel => kscale (peak_intensity (fst rk)) (snd rk)) (combine (map (turn A t) rows) ks) =
              map (fun rk => kscale (peak_intensity (fst rk)) (snd rk)) (combine rows ks)).
  { rewrite combine_map_l, map_map. apply map_ext. intros (r & k). cbn [fst snd]. unfold peak_intensity. rewrite !turn_ncol by lia. reflexivity. }
  rewrite K, combine_map_l. generalize (combine rows (map (fun rk => kscale (peak_intensity (fst rk)) (snd rk)) (combine rows ks))). intros items. f_equal. f_equal.
  apply map_ext. intros f. rewrite filter_map, map_map. f_equal. cbn [fst snd].
  rewrite (filter_ext (fun x : list num * kernel => Reqb (fcol (turn A t (fst x)) 28) (INR f)) (fun rk => Reqb (fcol (fst rk) 28) (INR f)))
    by (intros (r & k); cbn [fst]; unfold fcol; now rewrite turn_ncol by lia).
  apply map_ext. intros (r & k). cbn [fst snd]. unfold pos_z, pos_y, fcol. rewrite !turn_ncol by lia.
  destruct SP as (_ & _ & Z & Y & NZ & NY & _). rewrite Z, Y, NZ, NY. reflexivity.
Qed.
Lemma loop_turn z j1 psf n bs : forall im, airy_loop z j1 d2 psf n im (map (map (turn A t)) bs) = airy_loop z j1 d psf n im bs.
Proof.
  induction bs as [|b bs IH]; intros im; [reflexivity|]. cbn [map airy_loop]. rewrite batch_turn. destruct (airy_batch _ _ _ _ _ _ _); [|reflexivity]. apply IH.
Qed.
Lemma batches_turn z avail fuel : forall l, airy_batches (airy_memory z d2) avail (map (turn A t) l) fuel = option_map (map (map (turn A t))) (airy_batches (airy_memory z d) avail l fuel).
Proof.
  induction fuel as [|f IH]; intros l; [destruct l; reflexivity|]. destruct l as [|r l]; [reflexivity|].
  change (airy_batches (airy_memory z d2) avail (map (turn A t) (r :: l)) (S f)) with
    (let bs := fit_count avail (map (airy_memory z d2) (map (turn A t) (r :: l))) in
     option_map (cons (firstn bs (map (turn A t) (r :: l)))) (airy_batches (airy_memory z d2) avail (skipn bs (map (turn A t) (r :: l))) f)).
  change (airy_batches (airy_memory z d) avail (r :: l) (S f)) with
    (let bs := fit_count avail (map (airy_memory z d) (r :: l)) in
     option_map (cons (firstn bs (r :: l))) (airy_batches (airy_memory z d) avail (skipn bs (r :: l)) f)).
  set (L := r :: l). clearbody L. cbv zeta.
  assert (E : map (airy_memory z d2) (map (turn A t) L) = map (airy_memory z d) L) by (rewrite map_map; apply map_ext; intros; apply memory_turn).
  rewrite E. set (bs := fit_count _ _). clearbody bs. rewrite skipn_map, IH, firstn_map. destruct (airy_batches (airy_memory z d) avail (skipn bs L) f); reflexivity.
Qed.
Lemma nano_turn e rows n : nano_method e d2 (map (turn A t) rows) n = nano_method e d rows n.
Proof.
  unfold nano_method, render_airy. destruct rows as [|r0 rows0]; [cbn [map]; destruct SP as (_ & _ & _ & _ & NZ & NY & _); now rewrite NZ, NY|].
  change (map (turn A t) (r0 :: rows0)) with (turn A t r0 :: map (turn A t) rows0). cbv iota.
  change (turn A t r0 :: map (turn A t) rows0) with (map (turn A t) (r0 :: rows0)). set (rows := r0 :: rows0). clearbody rows.
  rewrite psf_turn. destruct (psf_kernel d) as [psf|]; [|reflexivity]. cbn [bind].
  assert (E : map (airy_memory (re_z e) d2) (map (turn A t) rows) = map (airy_memory (re_z e) d) rows) by (rewrite map_map; apply map_ext; intros; apply memory_turn).
  rewrite E, gather_rmap. destruct (gather rows _) as [sorted|]; [|reflexivity]. cbn [rmap bind]. rewrite batches_turn, map_length.
  destruct (airy_batches _ _ sorted _) as [bs|]; [|reflexivity]. cbn [option_map].
  destruct SP as (_ & _ & _ & _ & NZ & NY & _). rewrite NZ, NY, loop_turn. reflexivity.
Qed.
End Nano.

(** ** The cone *)
Lemma unit_dot z u v : ndot (nvdiv z (nfin (mv A u)) (nnorm (nfin (mv A u)))) (nvdiv z (nfin (mv A v)) (nnorm (nfin (mv A v)))) =
  ndot (nvdiv z (nfin u) (nnorm (nfin u))) (nvdiv z (nfin v) (nnorm (nfin v))).
Proof.
  rewrite !nnorm_nfin, !rotation_norm by auto. destruct (classic_vec u vzero) as [->|Hu].
  { rewrite mv_zero. destruct (nvdiv_00 z) as (E & N0). rewrite N0, E, !ndot_nan. reflexivity. }
  destruct (classic_vec v vzero) as [->|Hv].
  { rewrite mv_zero. destruct (nvdiv_00 z) as (E & N0). rewrite N0, E, !ndot_nan_r. reflexivity. }
  apply norm_neq0 in Hu, Hv. rewrite !nvdiv_nfin, !ndot_nfin by auto. rewrite <- !mv_scale, rotation_dot by auto. reflexivity.
Qed.
Lemma corner_turn z k s c : corner_angle z (mv A k) (put A t s) (put A t c) = corner_angle z k s c.
Proof. unfold corner_angle. cbv zeta. rewrite put_sub, unit_dot. reflexivity. Qed.
Lemma cone_turn z d d2 k s : moved_detector A t d d2 -> wrapping_cone z d2 (mv A k) (put A t s) = wrapping_cone z d k s.
Proof.
  intros M. apply panel_turn in M as (_ & _ & _ & H0 & H1 & H2). unfold wrapping_cone. cbv zeta. rewrite H0, H1, H2, put_sub, put_add, !corner_turn. reflexivity.
Qed.
End Frame3.
