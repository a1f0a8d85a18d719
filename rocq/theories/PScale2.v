(** * All lengths multiplied by s: the detector and the picture (C94). *)
From Verif Require Import Vec Spec MMotion MLaue MMesh MScattering MStrain MBeam SBeam MPolycrystal SPolycrystal MDetector MClip MRender SRender SNano SScale.
From Verif Require Import PMotion PLaue PMesh PBeam PStrain PPolycrystal PPolycrystal2 PDetector PDetector2 PDetector3 PRender PRender2 PRender3 PEvents PEnd2 PFrame PFrame2 PFrame3 PFrame4 PScale.
From Verif Require Import SDetector.
Open Scope list_scope. Open Scope R_scope.

Lemma norm_pos_scale s v : 0 < s -> norm (vscale s v) = s * norm v.
Proof. intros H. rewrite norm_scale, Rabs_right by lra. reflexivity. Qed.
Lemma vscale_vscale a b v : vscale a (vscale b v) = vscale (a * b) v. Proof. veq. Qed.
Lemma vscale_1' v : vscale 1 v = v. Proof. veq. Qed.
Definition grown_panel (s : R) (d d2 : detector) : Prop :=
  d_zmax d2 = s * d_zmax d /\ d_ymax d2 = s * d_ymax d /\ d_pz d2 = s * d_pz d /\ d_py d2 = s * d_py d /\ d_nz d2 = d_nz d /\ d_ny d2 = d_ny d /\
  d_sigma d2 = d_sigma d /\ d_threshold d2 = d_threshold d /\ d_max_radius d2 = d_max_radius d /\
  d_lorentz d2 = d_lorentz d /\ d_polarization d2 = d_polarization d /\ d_structure d2 = d_structure d.

Section Scale2.
Variable s : R.
Hypothesis Hs : 0 < s.

Lemma dist_scale x y : norm (vsub (vscale s x) (vscale s y)) = s * norm (vsub x y).
Proof. rewrite vscale_sub. now apply norm_pos_scale. Qed.
Lemma arange_scale stop step : arange_len (s * stop) (s * step) = arange_len stop step.
Proof.
  unfold arange_len. destruct (Req_EM_T step 0) as [->|N].
  - destruct (Req_EM_T (s * 0) 0) as [_|N]; [reflexivity|]. exfalso. apply N. ring.
  - destruct (Req_EM_T (s * step) 0) as [E|_]; [apply Rmult_integral in E as [E|E]; lra|].
    assert (E1 : Rltb (s * step) 0 = Rltb step 0).
    { destruct (Rltb step 0) eqn:E; [apply Rltb_true in E; apply Rltb_true|apply Rltb_false in E; apply Rltb_false]; nra. }
    assert (E2 : Rltb 0 (s * stop) = Rltb 0 stop).
    { destruct (Rltb 0 stop) eqn:E; [apply Rltb_true in E; apply Rltb_true|apply Rltb_false in E; apply Rltb_false]; nra. }
    rewrite E1, E2. replace (s * stop / (s * step)) with (stop / step) by (field; lra). reflexivity.
Qed.
Lemma sizes_scale zm ym np ps : pixel_sizes (s * zm) (s * ym) np (scale_sizes s ps) = rmap (fun q => (s * fst q, s * snd q)) (pixel_sizes zm ym np ps).
Proof.
  unfold pixel_sizes, scale_sizes. destruct np as [n|], ps as [[a|a b]|]; cbn [option_map rmap fst snd first_of second_of]; try reflexivity.
  destruct (Z.eqb _ 0 || Z.eqb _ 0); [reflexivity|]. cbn [rmap fst snd]. unfold Rdiv. f_equal. f_equal; ring.
Qed.
Lemma make_scale c0 c1 c2 np ps sg th mr ul up us :
  match make_detector c0 c1 c2 np ps sg th mr ul up us, make_detector (vscale s c0) (vscale s c1) (vscale s c2) np (scale_sizes s ps) sg th mr ul up us with
  | Ok d, Ok d2 => grown_panel s d d2 /\ d_c0 d2 = vscale s (d_c0 d) /\ d_c1 d2 = vscale s (d_c1 d) /\ d_c2 d2 = vscale s (d_c2 d) /\ d_pz d <> 0 /\ d_py d <> 0
  | Err e, Err e2 => e2 = e
  | _, _ => False
  end.
Proof.
  unfold make_detector. cbv zeta. rewrite !dist_scale, sizes_scale. destruct (pixel_sizes _ _ np ps) as [[pz py]|e]; cbn [rmap bind fst snd]; [|reflexivity].
  rewrite !arange_scale. destruct (arange_len _ pz) as [nz|e] eqn:E1; cbn [bind]; [|reflexivity]. destruct (arange_len _ py) as [ny|e] eqn:E2; cbn [bind]; [|reflexivity].
  destruct (mr <? 0)%Z; [reflexivity|]. unfold grown_panel. cbn. repeat match goal with |- _ /\ _ => split end; auto.
  - intros ->. unfold arange_len in E1. destruct (Req_EM_T 0 0); [discriminate|lra].
  - intros ->. unfold arange_len in E2. destruct (Req_EM_T 0 0); [discriminate|lra].
Qed.
Lemma panel_scale d d2 : scaled_detector s d d2 -> grown_panel s d d2 /\ built d /\ built d2 /\
  d_c0 d2 = vscale s (d_c0 d) /\ d_c1 d2 = vscale s (d_c1 d) /\ d_c2 d2 = vscale s (d_c2 d) /\ d_pz d <> 0 /\ d_py d <> 0.
Proof.
  intros (c0 & c1 & c2 & np & ps & sg & th & mr & ul & up & us & E1 & E2).
  pose proof (make_scale c0 c1 c2 np ps sg th mr ul up us) as H. rewrite E1, E2 in H. destruct H as (H & H0 & H1 & H2 & H3 & H4).
  split; [exact H|]. split; [repeat eexists; exact E1|]. split; [repeat eexists; exact E2|]. auto 10.
Qed.
Lemma N_scale d d2 : scaled_detector s d d2 -> N_of d2 = vscale (s * s) (N_of d).
Proof.
  intros M. apply panel_scale in M as (_ & _ & _ & H0 & H1 & H2 & _). unfold N_of, plane_normal. rewrite H0, H1, H2, !vscale_sub. apply PDetector.cross_scale.
Qed.
Lemma hat_scale v : vscale (/ (s * norm v)) (vscale s v) = vscale (/ norm v) v.
Proof. rewrite vscale_vscale. f_equal. destruct (Req_dec (norm v) 0) as [->|N]; [rewrite Rmult_0_r, Rinv_0; ring|field; lra]. Qed.
Lemma hats_scale d d2 : scaled_detector s d d2 -> zhat_of d2 = zhat_of d /\ yhat_of d2 = yhat_of d.
Proof.
  intros M. apply panel_scale in M as (_ & _ & _ & H0 & H1 & H2 & _). unfold zhat_of, yhat_of, dist. rewrite H0, H1, H2, !vscale_sub, !norm_pos_scale by auto.
  split; apply hat_scale.
Qed.
Lemma svalue_scale d d2 v o : scaled_detector s d d2 -> dot v (N_of d) <> 0 -> svalue d2 v (vscale s o) = s * svalue d v o.
Proof.
  intros M Hv. unfold svalue. rewrite (N_scale d d2 M). apply panel_scale in M as (_ & _ & _ & H0 & _). rewrite H0, vscale_sub, !dot_scale_r, dot_scale_l. field. split; [exact Hv|lra].
Qed.
Lemma incident_scale d d2 v : scaled_detector s d d2 -> dot v (N_of d) <> 0 -> incident_of d2 v = incident_of d v.
Proof.
  intros M Hv. unfold incident_of. rewrite (N_scale d d2 M), dot_scale_r, norm_pos_scale by nra.
  assert (HN : N_of d <> vzero) by (intros E; apply Hv; rewrite E; vdes; vunf; ring).
  assert (Hv0 : v <> vzero) by (intros E; apply Hv; rewrite E; generalize (N_of d); intros; vdes; vunf; ring).
  apply norm_neq0 in HN, Hv0. do 3 f_equal. field. repeat split; auto. lra.
Qed.
Lemma ray_scale o v x : ray_at (vscale s o) v (s * x) = vscale s (ray_at o v x).
Proof. unfold ray_at. rewrite <- vscale_vscale, vscale_add. reflexivity. Qed.
Definition nscale (q : num * num * num) : num * num * num := (nmul (Fin s) (fst (fst q)), nmul (Fin s) (snd (fst q)), snd q).
Lemma intersection_scale z d d2 v o : scaled_detector s d d2 -> dot v (N_of d) <> 0 ->
  get_intersection z d2 (nfin v) (nfin (vscale s o)) = nscale (get_intersection z d (nfin v) (nfin o)).
Proof.
  intros M Hv. pose proof (panel_scale d d2 M) as (_ & B & B2 & H0 & _). destruct (hats_scale d d2 M) as (Z1 & Z2).
  rewrite !intersection_closed; auto.
  2:{ rewrite (N_scale d d2 M), dot_scale_r. intros E. apply Rmult_integral in E as [E|E]; [nra|auto]. }
  cbv zeta. rewrite (svalue_scale d d2 v o M Hv), (incident_scale d d2 v M Hv), ray_scale, H0, vscale_sub, Z1, Z2, !dot_scale_l.
  replace (Rltb (s * svalue d v o) 0) with (Rltb (svalue d v o) 0).
  2:{ destruct (Rltb (svalue d v o) 0) eqn:E; symmetry; [apply Rltb_true in E; apply Rltb_true|apply Rltb_false in E; apply Rltb_false]; nra. }
  destruct (Rltb (svalue d v o) 0); reflexivity.
Qed.
Lemma nle_scale a x : nle (Fin (s * a)) (nmul (Fin s) x) = nle (Fin a) x /\ nle (nmul (Fin s) x) (Fin (s * a)) = nle x (Fin a).
Proof.
  destruct x as [r| | |]; cbn [nmul].
  - unfold nle. split; destruct (Rleb _ _) eqn:E1, (Rleb _ _) eqn:E2 in |- *; auto;
      repeat match goal with H : Rleb _ _ = true |- _ => apply Rleb_true in H | H : Rleb _ _ = false |- _ => apply Rleb_false in H end; nra.
  - destruct (Req_EM_T s 0); [lra|]. replace (Rltb 0 s) with true by (symmetry; now apply Rltb_true). split; reflexivity.
  - destruct (Req_EM_T s 0); [lra|]. replace (Rltb s 0) with false by (symmetry; apply Rltb_false; lra). split; reflexivity.
  - split; reflexivity.
Qed.
Lemma contains_grow d d2 zd yd : grown_panel s d d2 -> det_contains d2 (nmul (Fin s) zd) (nmul (Fin s) yd) = det_contains d zd yd.
Proof.
  intros (Z1 & Z2 & _). unfold det_contains. rewrite Z1, Z2. replace (Fin 0) with (Fin (s * 0)) by (f_equal; ring).
  rewrite !(proj1 (nle_scale _ _)), !(proj2 (nle_scale _ _)). now rewrite Rmult_0_r.
Qed.
Lemma intensity_scale d d2 r : grown_panel s d d2 -> intensity d2 (grow s r) = intensity d r.
Proof.
  intros (_ & _ & _ & _ & _ & _ & _ & _ & _ & L & P & S). unfold intensity. rewrite L, P, S, !grow_same by reflexivity. reflexivity.
Qed.
Lemma grow_dir r v : row_nvec r 13 = nfin v -> row_nvec (grow s r) 13 = nfin v.
Proof. unfold row_nvec. intros E. rewrite !grow_same by reflexivity. exact E. Qed.
Lemma grow_src r o : row_nvec r 16 = nfin o -> row_nvec (grow s r) 16 = nfin (vscale s o).
Proof.
  unfold row_nvec, nfin. intros E. rewrite !grow_ncol. cbn [Nat.add cf] in *.
  assert (ncol r 16 = Fin (vx o) /\ ncol r 17 = Fin (vy o) /\ ncol r 18 = Fin (vz o)) as (-> & -> & ->) by (repeat split; congruence). reflexivity.
Qed.
Lemma grow_app5 r a b c f i : List.length r = 25%nat -> grow s (r ++ [a; b; c; Fin f; i]) = grow s r ++ [nmul (Fin s) a; nmul (Fin s) b; c; Fin f; i].
Proof. intros L. unfold grow, mapi. rewrite mapi_app', L. cbn [mapi_from Nat.add cf]. rewrite !nmul_1. reflexivity. Qed.
Lemma keep_scale z d d2 frames r : scaled_detector s d d2 -> good_row r ->
  keepb z d2 frames (grow s r) = keepb z d frames r /\
  (keepb z d frames r = true -> extend z d2 frames (grow s r) = grow s (extend z d frames r)).
Proof.
  intros M (L & (v & Ev) & (o & Eo)). pose proof (panel_scale d d2 M) as (SP & B & B2 & _).
  assert (L2 : List.length (grow s r) = 25%nat) by (rewrite grow_length; exact L).
  pose proof (grow_dir r v Ev) as Ev2. pose proof (grow_src r o Eo) as Eo2.
  destruct (get_intersection z d (row_nvec r 13) (row_nvec r 16)) as [[zd yd] a] eqn:E.
  destruct (get_intersection z d2 (row_nvec (grow s r) 13) (row_nvec (grow s r) 16)) as [[zd2 yd2] a2] eqn:E2.
  rewrite (keepb_fresh z d frames r zd yd a L E), (keepb_fresh z d2 frames (grow s r) zd2 yd2 a2 L2 E2), (intensity_scale d d2 r SP).
  destruct (Req_EM_T (dot v (N_of d)) 0) as [Hv|Hv].
  - pose proof (parallel_no_hit z d v o B Hv) as F. cbv zeta in F. rewrite <- Ev, <- Eo, E in F. cbn [fst snd] in F.
    assert (Hv2 : dot v (N_of d2) = 0) by (rewrite (N_scale d d2 M), dot_scale_r, Hv; ring).
    pose proof (parallel_no_hit z d2 v (vscale s o) B2 Hv2) as F2. cbv zeta in F2. rewrite <- Ev2, <- Eo2, E2 in F2. cbn [fst snd] in F2.
    rewrite F, F2. split; [reflexivity|]. discriminate.
  - pose proof (intersection_scale z d d2 v o M Hv) as I. rewrite Ev, Eo in E. rewrite Ev2, Eo2 in E2. rewrite E, E2 in I. rewrite <- Ev, <- Eo in E. rewrite <- Ev2, <- Eo2 in E2. unfold nscale in I. cbn [fst snd] in I.
    assert (zd2 = nmul (Fin s) zd /\ yd2 = nmul (Fin s) yd /\ a2 = a) as (-> & -> & ->) by (repeat split; congruence).
    split.
    + now rewrite (contains_grow d d2 zd yd SP).
    + intros _. rewrite !extend_eq by lia. rewrite E, E2. rewrite grow_app5 by exact L. rewrite (grow_same s r 6) by reflexivity. now rewrite (intensity_scale d d2 r SP).
Qed.
Lemma project_scale z d d2 pd pd2 frames out : scaled_detector s d d2 -> Forall good_row (pd_peaks pd) -> pd_peaks pd2 = map (grow s) (pd_peaks pd) ->
  pd_columns pd2 = pd_columns pd -> project z d pd frames = Ok out ->
  exists out2, project z d2 pd2 frames = Ok out2 /\ pd_peaks out2 = map (grow s) (pd_peaks out) /\ pd_columns out2 = pd_columns out.
Proof.
  intros M G E C H. destruct (project_ok z d2 pd2 frames) as (out2 & H2).
  { rewrite E. apply Forall_forall. intros r Hr. apply in_map_iff in Hr as (r0 & <- & Hr0). rewrite grow_length. rewrite Forall_forall in G. destruct (G _ Hr0) as (L & _). lia. }
  exists out2. split; [exact H2|]. apply project_inv in H as (P & Pc & _). apply project_inv in H2 as (P2 & Pc2 & _). split; [|now rewrite Pc, Pc2, C].
  rewrite P, P2, E. clear P P2 E Pc Pc2. induction (pd_peaks pd) as [|r l IH]; [reflexivity|]. inversion G as [|? ? G1 G2]; subst. cbn [map filter].
  destruct (keep_scale z d d2 frames r M G1) as (K1 & K2). rewrite K1. destruct (keepb z d frames r); cbn [map]; [rewrite K2 by reflexivity; f_equal|]; now apply IH.
Qed.

(** ** The cone *)
Lemma unit_dot_scale z u v : ndot (nvdiv z (nfin (vscale s u)) (nnorm (nfin (vscale s u)))) (nvdiv z (nfin v) (nnorm (nfin v))) =
  ndot (nvdiv z (nfin u) (nnorm (nfin u))) (nvdiv z (nfin v) (nnorm (nfin v))).
Proof.
  f_equal. rewrite !nnorm_nfin, norm_pos_scale by auto. destruct (classic_vec u vzero) as [->|Hu].
  { assert (E : vscale s vzero = vzero) by (vext; vunf; ring). destruct (nvdiv_00 z) as (E0 & N0). rewrite E, N0, Rmult_0_r. reflexivity. }
  apply norm_neq0 in Hu. rewrite !nvdiv_nfin by (auto; nra). now rewrite hat_scale.
Qed.
Lemma corner_scale z k o c : corner_angle z k (vscale s o) (vscale s c) = corner_angle z k o c.
Proof. unfold corner_angle. cbv zeta. rewrite vscale_sub, unit_dot_scale. reflexivity. Qed.
Lemma cone_scale z d d2 k o : scaled_detector s d d2 -> wrapping_cone z d2 k (vscale s o) = wrapping_cone z d k o.
Proof.
  intros M. apply panel_scale in M as (_ & _ & _ & H0 & H1 & H2 & _). unfold wrapping_cone. cbv zeta. rewrite H0, H1, H2, vscale_sub, vscale_add, !corner_scale. reflexivity.
Qed.

(** ** Columns by name *)
Lemma cf_names c j : nth_error (column_names ++ new_columns) j = Some c -> column_factor s c = cf s j.
Proof. intros H. do 30 (destruct j as [|j]; [cbn in H; apply f_equal with (f := fun o => match o with Some x => x | None => c end) in H; subst c; reflexivity|]). destruct j; discriminate H. Qed.
Lemma grow_scaled pd pd2 r : pd_columns pd = column_names \/ pd_columns pd = column_names ++ new_columns -> pd_columns pd2 = pd_columns pd -> scaled_row s pd pd2 r (grow s r).
Proof.
  intros C C2 c. unfold field. rewrite C2. destruct (index_of c (pd_columns pd)) as [j|] eqn:J; [|reflexivity]. rewrite grow_nth. do 3 f_equal. symmetry. apply cf_names.
  apply index_nth in J. destruct C as [E|E]; rewrite E in J; [|exact J]. rewrite nth_error_app1; [exact J|]. apply nth_error_Some. congruence.
Qed.
End Scale2.
