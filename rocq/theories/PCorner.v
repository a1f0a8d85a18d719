(** * One rectangle with its corners listed in another order (C105): rays and tables. *)
From Verif Require Import Vec Spec MMotion MLaue MMesh MScattering MStrain MBeam SBeam MPolycrystal SPolycrystal MDetector MClip MRender SRender SWindow.
From Verif Require Import PMotion PLaue PMesh PBeam PStrain PPolycrystal PPolycrystal2 PDetector PDetector2 PDetector3 PDetector4 PRender PRender2 PRender3 PEvents PEnd2 PJoin2 PFrame PFrame2 PFrame3 PFrame4 PWindow PWindow2 PWindow3.
From Verif Require Import SCorner SDetector.
Open Scope list_scope. Open Scope R_scope.
Local Notation len := List.length.

Lemma panel_sizes d : built d -> d_zmax d = dist (d_c2 d) (d_c0 d) /\ d_ymax d = dist (d_c1 d) (d_c0 d) /\
  arange_len (d_zmax d) (d_pz d) = Ok (d_nz d) /\ arange_len (d_ymax d) (d_py d) = Ok (d_ny d).
Proof.
  intros (c0 & c1 & c2 & np & ps & sg & th & mr & ul & up & us & H). apply make_detector_inv in H as (-> & -> & -> & -> & -> & _ & _ & _ & _ & A1 & A2 & _). auto.
Qed.
Lemma incident_neg d d2 v c : dot v (N_of d) <> 0 -> 0 < c -> N_of d2 = vscale (- c) (N_of d) -> incident_of d2 v = 180 - incident_of d v.
Proof.
  intros Hv Hc HN. assert (Hv0 : v <> vzero) by (intros E; apply Hv; rewrite E; generalize (N_of d); intros; vdes; vunf; ring).
  pose proof (N_nonzero _ _ Hv) as HN0. unfold incident_of. rewrite HN, dot_scale_r, norm_scale, Rabs_Ropp, Rabs_right by lra.
  pose proof (dot_norm_range v (N_of d) Hv0 HN0) as Hrng. apply norm_neq0 in Hv0, HN0.
  replace (- (- c * dot v (N_of d) / (norm v * (c * norm (N_of d))))) with (- - (dot v (N_of d) / (norm v * norm (N_of d)))) by (field; repeat split; auto; lra).
  set (x := dot v (N_of d) / (norm v * norm (N_of d))) in *. rewrite (acos_opp (- x)). pose proof PI_neq0. field. auto.
Qed.

(** What relates the rays on two detectors whose coordinates are related by [to]. *)
Definition rays_via (to : R -> R -> R * R) (d d2 : detector) : Prop :=
  (forall z v o, let '(zd, yd, a) := get_intersection z d (nfin v) (nfin o) in let '(zd2, yd2, a2) := get_intersection z d2 (nfin v) (nfin o) in
     (det_contains d zd yd = false /\ det_contains d2 zd2 yd2 = false) \/
     exists x y w, zd = Fin x /\ yd = Fin y /\ a = Fin w /\ zd2 = Fin (fst (to x y)) /\ yd2 = Fin (snd (to x y)) /\ a2 = Fin (180 - w)) /\
  (forall x y, onb d2 (fst (to x y)) (snd (to x y)) = onb d x y) /\ (forall r, intensity d2 r = intensity d r).
Definition via_pair (to : R -> R -> R * R) (r e1 e2 : list num) : Prop := exists x y w f i,
  e1 = r ++ [Fin x; Fin y; Fin w; f; i] /\ e2 = r ++ [Fin (fst (to x y)); Fin (snd (to x y)); Fin (180 - w); f; i].
Lemma contains_onb d x y : det_contains d (Fin x) (Fin y) = onb d x y.
Proof. reflexivity. Qed.
Lemma via_row to d d2 z fr r : rays_via to d d2 -> good_row r ->
  keepb z d2 fr r = keepb z d fr r /\ (keepb z d fr r = true -> via_pair to r (extend z d fr r) (extend z d2 fr r)).
Proof.
  intros (RV & PV & IV) (L & (v & Ev) & (o & Eo)). specialize (RV z v o). rewrite <- Ev, <- Eo in RV.
  destruct (get_intersection z d (row_nvec r 13) (row_nvec r 16)) as [[zd yd] a] eqn:E. destruct (get_intersection z d2 (row_nvec r 13) (row_nvec r 16)) as [[zd2 yd2] a2] eqn:E2.
  rewrite (keepb_fresh z d fr r zd yd a L E), (keepb_fresh z d2 fr r zd2 yd2 a2 L E2), IV.
  destruct RV as [(H1 & H2)|(x & y & w & -> & -> & -> & -> & -> & ->)]; [rewrite H1, H2; split; [reflexivity|discriminate]|].
  rewrite !contains_onb, PV. split; [reflexivity|]. intros _. rewrite !extend_eq by lia. rewrite E, E2, IV. repeat eexists.
Qed.
Lemma via_tables to d d2 z fr A : rays_via to d d2 -> Forall good_row A ->
  Forall2 (fun e1 e2 => exists r, good_row r /\ via_pair to r e1 e2) (map (extend z d fr) (filter (keepb z d fr) A)) (map (extend z d2 fr) (filter (keepb z d2 fr) A)).
Proof.
  intros RV H. induction H as [|r A Hr H IH]; [constructor|]. cbn [filter]. destruct (via_row to d d2 z fr r RV Hr) as (E & P). rewrite E.
  destruct (keepb z d fr r) eqn:K; cbn [map]; [|exact IH]. constructor; [|exact IH]. eauto.
Qed.
Lemma via_relaid to out out2 r e1 e2 : pd_columns out = column_names ++ new_columns -> pd_columns out2 = column_names ++ new_columns -> len r = 25%nat ->
  via_pair to r e1 e2 -> relaid to out out2 e1 e2.
Proof.
  intros C1 C2 L (x & y & w & f & i & -> & ->).
  assert (NX : forall (e : list num) j, nth_error (r ++ e) (25 + j) = nth_error e j) by (intros e j; rewrite nth_error_app2 by lia; f_equal; lia).
  split.
  - intros c N. unfold field. rewrite C1, C2. destruct (index_of c (column_names ++ new_columns)) as [j|] eqn:Ej; [|reflexivity].
    pose proof (index_of_nth _ _ _ Ej) as H. destruct (Nat.lt_ge_cases j 25) as [Hj|Hj]; [rewrite !nth_error_app1 by lia; reflexivity|]. rewrite !nth_error_app2 by lia. rewrite L.
    assert (j <> 25%nat /\ j <> 26%nat /\ j <> 27%nat) as (N1 & N2 & N3).
    { repeat apply conj; intros ->; apply N; cbn in H; injection H as <-; cbn; tauto. }
    destruct (j - 25)%nat as [|[|[|q]]] eqn:Eq; [lia|lia|lia|reflexivity].
  - exists x, y, w. unfold has, field. rewrite C1, C2.
    change (index_of "zd" (column_names ++ new_columns)) with (Some (25 + 0)%nat). change (index_of "yd" (column_names ++ new_columns)) with (Some (25 + 1)%nat).
    change (index_of "incident_angle" (column_names ++ new_columns)) with (Some (25 + 2)%nat). cbv iota. rewrite !NX. auto 10.
Qed.
Lemma via_project to d d2 z x p b m lo hi det pd z' frames out : rays_via to d d2 -> fst (diffract z x p b m lo hi det) = Ok pd ->
  project z' d pd frames = Ok out -> exists out2, project z' d2 pd frames = Ok out2 /\ Forall2 (relaid to out out2) (pd_peaks out) (pd_peaks out2).
Proof.
  intros RV D H1. pose proof (diffract_good _ _ _ _ _ _ _ _ _ D) as A. assert (Hf : fresh pd) by (eapply pC32_diffract_tables_fresh; exact D).
  destruct (project_ok z' d2 pd frames) as (out2 & H2). { destruct Hf as (_ & Hl). eapply Forall_impl; [|exact Hl]. cbn. intros; lia. }
  exists out2. split; [exact H2|]. pose proof (out_columns _ _ _ _ _ Hf H1) as C1. pose proof (out_columns _ _ _ _ _ Hf H2) as C2.
  apply project_inv in H1 as (P1 & _). apply project_inv in H2 as (P2 & _). rewrite P1, P2. eapply F2_impl; [|apply (via_tables to d d2 z' frames _ RV A)].
  intros e1 e2 (r & (L & _) & Hp). eapply via_relaid; eauto.
Qed.

(** ** Corners 1 and 2 exchanged *)
Lemma transposed_maxes d d2 : transposed d d2 -> d_zmax d2 = d_ymax d /\ d_ymax d2 = d_zmax d.
Proof.
  intros (B & B2 & _ & _ & E0 & E1 & E2 & _). destruct (panel_sizes d B) as (-> & -> & _). destruct (panel_sizes d2 B2) as (-> & -> & _). now rewrite E0, E1, E2.
Qed.
Lemma settings_intensity d d2 r : same_settings d d2 -> intensity d2 r = intensity d r.
Proof. intros (_ & _ & _ & L & P & S). unfold intensity. now rewrite L, P, S. Qed.
Lemma transposed_rays d d2 : transposed d d2 -> rays_via exchanged d d2.
Proof.
  intros T. pose proof (transposed_maxes d d2 T) as (M1 & M2). destruct T as (B & B2 & N2 & N1 & E0 & E1 & E2 & _ & _ & S).
  assert (HN : N_of d2 = vneg (N_of d)) by (unfold N_of, plane_normal; rewrite E0, E1, E2; generalize (vsub (d_c2 d) (d_c0 d)) (vsub (d_c1 d) (d_c0 d)); intros; veq).
  assert (Dn : forall w, dot w (N_of d2) = - dot w (N_of d)) by (intros w; rewrite HN; generalize (N_of d); intros; vdes; vunf; ring).
  split; [|split].
  - intros z v o. destruct (Req_EM_T (dot v (N_of d)) 0) as [Hv|Hv].
    + pose proof (parallel_no_hit z d v o B Hv) as F. pose proof (parallel_no_hit z d2 v o B2 (eq_trans (Dn v) (f_equal Ropp Hv) : _)) as F2 || assert (F2 : let q := get_intersection z d2 (nfin v) (nfin o) in det_contains d2 (fst (fst q)) (snd (fst q)) = false) by (apply parallel_no_hit; [exact B2|rewrite Dn, Hv; ring]).
      cbv zeta in F, F2. destruct (get_intersection z d (nfin v) (nfin o)) as [[zd yd] a]. destruct (get_intersection z d2 (nfin v) (nfin o)) as [[zd2 yd2] a2]. left. auto.
    + pose proof (fun zd yd a => pC49_corner_order z d d2 v o zd yd a B B2 E0 E1 E2 Hv) as C.
      rewrite (intersection_closed z d v o B Hv) in *. cbv zeta in *. destruct (Rltb (svalue d v o) 0).
      * rewrite (C _ _ _ eq_refl). left. split; reflexivity.
      * rewrite (C _ _ _ eq_refl). right. repeat eexists.
  - intros x y. unfold exchanged. cbn [fst snd]. apply eq_true_iff_eq. rewrite !onb_iff. unfold on_panel. rewrite M1, M2. tauto.
  - intros r. now apply settings_intensity.
Qed.
(** C105. Exchanging corner 1 and corner 2 (and the pixel sizes): the same reflections are recorded, in the same order, with zd and yd
    exchanged and the supplement of the incident angle; every other column is the same. *)
Lemma pC105_transposed_table : forall d d2 z x p b m lo hi det pd z' frames out, transposed d d2 ->
  fst (diffract z x p b m lo hi det) = Ok pd -> project z' d pd frames = Ok out ->
  exists out2, project z' d2 pd frames = Ok out2 /\ Forall2 (relaid exchanged out out2) (pd_peaks out) (pd_peaks out2).
Proof.
  intros d d2 z x p b m lo hi det pd z' frames out T D H. eapply via_project; eauto. now apply transposed_rays.
Qed.
(** ** The z edge run through the other way *)
Lemma over_maxes d d2 : turned_over d d2 -> d_zmax d2 = d_zmax d /\ d_ymax d2 = d_ymax d.
Proof.
  intros (B & B2 & _ & _ & _ & E0 & E1 & E2 & _). destruct (panel_sizes d B) as (-> & -> & _). destruct (panel_sizes d2 B2) as (-> & -> & _). rewrite E0, E1, E2.
  unfold dist, fourth_corner. generalize (d_c0 d) (d_c1 d) (d_c2 d). intros. unfold norm. split; f_equal; vdes; vunf; ring.
Qed.
Lemma over_rays d d2 : turned_over d d2 -> rays_via (from_far_end d) d d2.
Proof.
  intros T. pose proof (over_maxes d d2 T) as (M1 & M2). destruct T as (B & B2 & Rr & N2 & N1 & E0 & E1 & E2 & _ & _ & S).
  assert (HN : N_of d2 = vscale (-(1)) (N_of d)) by (unfold N_of, plane_normal; rewrite E0, E1, E2; unfold fourth_corner; generalize (d_c0 d) (d_c1 d) (d_c2 d); intros; veq).
  assert (Dn : forall w, dot w (N_of d2) = - dot w (N_of d)) by (intros w; rewrite HN, dot_scale_r; ring).
  assert (HZ : zhat_of d2 = vneg (zhat_of d)).
  { unfold zhat_of, dist. rewrite E0, E2. replace (vsub (d_c0 d) (d_c2 d)) with (vscale (-(1)) (vsub (d_c2 d) (d_c0 d))) by (generalize (d_c0 d) (d_c2 d); intros; veq).
    rewrite norm_scale, Rabs_Ropp, Rabs_R1, Rmult_1_l. generalize (/ norm (vsub (d_c2 d) (d_c0 d))) (vsub (d_c2 d) (d_c0 d)). intros. veq. }
  assert (HY : yhat_of d2 = yhat_of d).
  { unfold yhat_of, dist. rewrite E0, E1. unfold fourth_corner. now replace (vsub (vadd (d_c2 d) (vsub (d_c1 d) (d_c0 d))) (d_c2 d)) with (vsub (d_c1 d) (d_c0 d)) by (generalize (d_c0 d) (d_c1 d) (d_c2 d); intros; veq). }
  assert (P2 := sub_nonzero _ _ N2). assert (P1 := sub_nonzero _ _ N1).
  assert (C2 : d_c2 d = vadd (d_c0 d) (vscale (d_zmax d) (zhat_of d))).
  { destruct (panel_sizes d B) as (-> & _). unfold zhat_of, dist. rewrite al_ss. replace (_ * / _) with 1 by (field; lra). generalize (d_c0 d) (d_c2 d). intros. veq. }
  assert (U : dot (zhat_of d) (zhat_of d) = 1 /\ dot (zhat_of d) (yhat_of d) = 0).
  { unfold zhat_of, yhat_of, dist. unfold rectangular in Rr. rewrite !dot_scale_l, !dot_scale_r, Rr, PWindow.norm_sq. split; field; lra. }
  destruct U as (U1 & U2).
  split; [|split].
  - intros z v o. destruct (Req_EM_T (dot v (N_of d)) 0) as [Hv|Hv].
    + pose proof (parallel_no_hit z d v o B Hv) as F. assert (F2 : let q := get_intersection z d2 (nfin v) (nfin o) in det_contains d2 (fst (fst q)) (snd (fst q)) = false) by (apply parallel_no_hit; [exact B2|rewrite Dn, Hv; ring]).
      cbv zeta in F, F2. destruct (get_intersection z d (nfin v) (nfin o)) as [[zd yd] a]. destruct (get_intersection z d2 (nfin v) (nfin o)) as [[zd2 yd2] a2]. left. auto.
    + assert (Hv2 : dot v (N_of d2) <> 0) by (rewrite Dn; lra).
      assert (ES : svalue d2 v o = svalue d v o).
      { unfold svalue. rewrite !Dn, E0, C2. replace (dot (vsub (vadd (d_c0 d) (vscale (d_zmax d) (zhat_of d))) o) (N_of d)) with (dot (vsub (d_c0 d) o) (N_of d)); [field; exact Hv|].
        unfold N_of, plane_normal, zhat_of. generalize (d_zmax d) (/ dist (d_c2 d) (d_c0 d)) (vsub (d_c2 d) (d_c0 d)) (vsub (d_c1 d) (d_c0 d)) (d_c0 d). intros. vdes. vunf. ring. }
      rewrite (intersection_closed z d v o B Hv), (intersection_closed z d2 v o B2 Hv2). cbv zeta. rewrite ES, (incident_neg d d2 v 1 Hv ltac:(lra) HN), HZ, HY.
      destruct (Rltb (svalue d v o) 0); [left; split; reflexivity|]. right. eexists. eexists. eexists. split; [reflexivity|]. split; [reflexivity|]. split; [reflexivity|].
      rewrite E0, C2. generalize dependent (zhat_of d). intros Z _ _ U1 U2. unfold from_far_end. cbn [fst snd].
      repeat split; f_equal.
      * replace (dot (vsub (ray_at o v (svalue d v o)) (vadd (d_c0 d) (vscale (d_zmax d) Z))) (vneg Z)) with (d_zmax d * dot Z Z - dot (vsub (ray_at o v (svalue d v o)) (d_c0 d)) Z); [rewrite U1; ring|].
        generalize (ray_at o v (svalue d v o)) (d_c0 d) (d_zmax d). clear. intros. vdes. vunf. ring.
      * replace (dot (vsub (ray_at o v (svalue d v o)) (vadd (d_c0 d) (vscale (d_zmax d) Z))) (yhat_of d)) with (dot (vsub (ray_at o v (svalue d v o)) (d_c0 d)) (yhat_of d) - d_zmax d * dot Z (yhat_of d)); [rewrite U2; ring|].
        generalize (ray_at o v (svalue d v o)) (d_c0 d) (d_zmax d) (yhat_of d). clear. intros. vdes. vunf. ring.
  - intros x y. unfold from_far_end. cbn [fst snd]. apply eq_true_iff_eq. rewrite !onb_iff. unfold on_panel. rewrite M1, M2. lra.
  - intros r. now apply settings_intensity.
Qed.
(** C105. Listing the corners from the other end of the z edge: the same reflections are recorded, in the same order, with zd measured
    from the other end and the supplement of the incident angle; every other column is the same. *)
Lemma pC105_turned_table : forall d d2 z x p b m lo hi det pd z' frames out, turned_over d d2 ->
  fst (diffract z x p b m lo hi det) = Ok pd -> project z' d pd frames = Ok out ->
  exists out2, project z' d2 pd frames = Ok out2 /\ Forall2 (relaid (from_far_end d) out out2) (pd_peaks out) (pd_peaks out2).
Proof.
  intros d d2 z x p b m lo hi det pd z' frames out T D H. eapply via_project; eauto. now apply over_rays.
Qed.
