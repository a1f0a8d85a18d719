(** * Proofs about MDetector (geometry). *)
From Verif Require Import Vec Spec MMotion PMotion MLaue PLaue MMesh SMesh PMesh MScattering SScattering PScattering.
From Verif Require Import MStrain SStrain PStrain MBeam SBeam PBeam MPolycrystal SPolycrystal PPolycrystal.
From Verif Require Import MDetector SDetector.
Open Scope R_scope.
Local Notation len := List.length.

(** ** num arithmetic *)
Lemma nadd_fin_inv x y r : nadd x y = Fin r -> exists a b, x = Fin a /\ y = Fin b /\ r = a + b.
Proof. destruct x, y; simpl; intros H; try discriminate. inversion H; eauto. Qed.
Lemma nneg_fin_inv x r : nneg x = Fin r -> x = Fin (- r).
Proof. destruct x; simpl; intros H; try discriminate. inversion H; subst. f_equal; ring. Qed.
Lemma nsub_fin_inv x y r : nsub x y = Fin r -> exists a b, x = Fin a /\ y = Fin b /\ r = a - b.
Proof.
  intros H. apply nadd_fin_inv in H as (a & b & -> & Hb & ->). apply nneg_fin_inv in Hb as ->.
  exists a, (- b). repeat split; auto. ring.
Qed.
Lemma nmul_fin_inv x y r : nmul x y = Fin r -> exists a b, x = Fin a /\ y = Fin b /\ r = a * b.
Proof.
  destruct x, y; simpl; intros H; try discriminate;
    try (destruct (Req_EM_T r0 0); [discriminate|]; unfold nsign_inf in H;
         match type of H with (if ?b then _ else _) = _ => destruct b end; discriminate).
  inversion H; eauto.
Qed.
Lemma ndot_fin_inv a b r : ndot a b = Fin r -> exists u v, a = nfin u /\ b = nfin v /\ r = dot u v.
Proof.
  destruct a as [a1 a2 a3], b as [b1 b2 b3]. unfold ndot; cbn [nx ny nz]. intros H.
  apply nadd_fin_inv in H as (s & t & H1 & H2 & ->).
  apply nadd_fin_inv in H1 as (s1 & s2 & H3 & H4 & ->).
  apply nmul_fin_inv in H2 as (? & ? & -> & -> & ->).
  apply nmul_fin_inv in H3 as (? & ? & -> & -> & ->).
  apply nmul_fin_inv in H4 as (? & ? & -> & -> & ->).
  match goal with |- exists u v, NV (Fin ?a) (Fin ?b) (Fin ?c) = _ /\ NV (Fin ?d) (Fin ?e) (Fin ?f) = _ /\ _ =>
    exists (V3 a b c), (V3 d e f) end. repeat split; auto.
Qed.
Lemma ndot_nfin a b : ndot (nfin a) (nfin b) = Fin (dot a b).
Proof. reflexivity. Qed.
Lemma nvsub_nfin a b : nvsub (nfin a) (nfin b) = nfin (vsub a b).
Proof. reflexivity. Qed.
Lemma nvadd_nfin a b : nvadd (nfin a) (nfin b) = nfin (vadd a b).
Proof. reflexivity. Qed.
Lemma nvneg_nfin a : nvneg (nfin a) = nfin (vneg a).
Proof. reflexivity. Qed.
Lemma nvscale_nfin s a : nvscale (Fin s) (nfin a) = nfin (vscale s a).
Proof. unfold nvscale, nfin, vscale; simpl. f_equal; f_equal; ring. Qed.
Lemma ncross_nfin a b : ncross (nfin a) (nfin b) = nfin (cross a b).
Proof. reflexivity. Qed.
Lemma nvdiv_nfin z a s : s <> 0 -> nvdiv z (nfin a) (Fin s) = nfin (vscale (/ s) a).
Proof.
  intros H. unfold nvdiv, nfin; cbn [nx ny nz]. rewrite !ndiv_fin by auto. unfold vscale; cbn [vx vy vz].
  f_equal; f_equal; unfold Rdiv; ring.
Qed.
Lemma nnorm_nfin a : nnorm (nfin a) = Fin (norm a).
Proof.
  unfold nnorm. rewrite ndot_nfin. simpl. pose proof (normsq_nonneg a). unfold normsq in H.
  destruct (Rlt_dec (dot a a) 0); [lra|]. reflexivity.
Qed.
Lemma nfin_inj a b : nfin a = nfin b -> a = b.
Proof. destruct a, b. unfold nfin; simpl. intros H; injection H; intros; subst; auto. Qed.
Lemma norm_neq0 a : a <> vzero -> norm a <> 0.
Proof. intros H E. apply H. apply normsq_0. rewrite <- norm_sq, E. ring. Qed.
Lemma norm_pos a : a <> vzero -> 0 < norm a.
Proof. intros H. pose proof (norm_nonneg a). pose proof (norm_neq0 a H). lra. Qed.
Lemma nvdiv_nan z a : nvdiv z a NaN = nan3.
Proof. unfold nvdiv, nan3. destruct (nx a), (ny a), (nz a); reflexivity. Qed.

(** ** Frames of a detector *)
Definition zhat_of (d : detector) : vec := vscale (/ dist (d_c2 d) (d_c0 d)) (vsub (d_c2 d) (d_c0 d)).
Definition yhat_of (d : detector) : vec := vscale (/ dist (d_c1 d) (d_c0 d)) (vsub (d_c1 d) (d_c0 d)).
Definition N_of (d : detector) : vec := plane_normal (d_c0 d) (d_c1 d) (d_c2 d).

Lemma make_detector_inv c0 c1 c2 np ps sg th mr ul up us d :
  make_detector c0 c1 c2 np ps sg th mr ul up us = Ok d ->
  d_c0 d = c0 /\ d_c1 d = c1 /\ d_c2 d = c2 /\ d_zmax d = dist c2 c0 /\ d_ymax d = dist c1 c0 /\
  d_zdhat d = nvdiv false (nfin (vsub c2 c0)) (Fin (dist c2 c0)) /\
  d_ydhat d = nvdiv false (nfin (vsub c1 c0)) (Fin (dist c1 c0)) /\
  d_normal d = nvdiv false (ncross (d_zdhat d) (d_ydhat d)) (nnorm (ncross (d_zdhat d) (d_ydhat d))) /\
  pixel_sizes (dist c2 c0) (dist c1 c0) np ps = Ok (d_pz d, d_py d) /\
  arange_len (dist c2 c0) (d_pz d) = Ok (d_nz d) /\ arange_len (dist c1 c0) (d_py d) = Ok (d_ny d) /\
  d_sigma d = sg /\ d_threshold d = th /\ d_max_radius d = mr /\
  d_lorentz d = ul /\ d_polarization d = up /\ d_structure d = us.
Proof.
  unfold make_detector, dist. cbv zeta. destruct (pixel_sizes _ _ _ _) as [[pz py]|] eqn:Hp; [|discriminate].
  cbn [bind fst snd]. destruct (arange_len _ pz) eqn:H1; [|discriminate]. cbn [bind].
  destruct (arange_len _ py) eqn:H2; [|discriminate]. cbn [bind]. destruct (mr <? 0)%Z; [discriminate|]. intros H; inversion H; subst; clear H. cbn.
  repeat split; auto.
Qed.

Lemma cross_zero_l b : cross vzero b = vzero. Proof. veq. Qed.
Lemma cross_zero_r b : cross b vzero = vzero. Proof. veq. Qed.
Lemma cross_scale a b s t : cross (vscale s a) (vscale t b) = vscale (s * t) (cross a b). Proof. veq. Qed.

Lemma detector_frame d : built d -> N_of d <> vzero ->
  d_zdhat d = nfin (zhat_of d) /\ d_ydhat d = nfin (yhat_of d) /\
  d_normal d = nfin (vscale (/ norm (N_of d)) (N_of d)) /\
  d_zmax d = dist (d_c2 d) (d_c0 d) /\ d_ymax d = dist (d_c1 d) (d_c0 d) /\
  0 < d_zmax d /\ 0 < d_ymax d.
Proof.
  intros (c0 & c1 & c2 & np & ps & sg & th & mr & ul & up & us & H) HN.
  apply make_detector_inv in H as (H0 & H1 & H2 & Hz & Hy & Hzh & Hyh & Hn & _).
  unfold N_of, plane_normal in *. unfold zhat_of, yhat_of. rewrite H0, H1, H2 in *.
  assert (A2 : vsub c2 c0 <> vzero) by (intros E; apply HN; rewrite E; apply cross_zero_l).
  assert (A1 : vsub c1 c0 <> vzero) by (intros E; apply HN; rewrite E; apply cross_zero_r).
  pose proof (norm_neq0 _ A1) as B1. pose proof (norm_neq0 _ A2) as B2. pose proof (norm_neq0 _ HN) as BN.
  pose proof (norm_pos _ A1) as P1. pose proof (norm_pos _ A2) as P2. pose proof (norm_pos _ HN) as PN.
  rewrite nvdiv_nfin in Hzh, Hyh by auto. repeat split; auto; try (rewrite ?Hz, ?Hy; auto; fail).
  rewrite Hzh, Hyh in Hn. rewrite Hn, ncross_nfin, cross_scale, nnorm_nfin, norm_scale.
  unfold dist. set (zm := norm (vsub c2 c0)) in *. set (ym := norm (vsub c1 c0)) in *.
  set (N := cross (vsub c2 c0) (vsub c1 c0)) in *.
  assert (0 < / zm * / ym) by (apply Rmult_lt_0_compat; apply Rinv_0_lt_compat; auto).
  rewrite Rabs_right by lra. rewrite nvdiv_nfin.
  - f_equal. generalize dependent (norm N). intros n BN PN. clear Hn.
    assert (E : forall a, / (/ zm * / ym * n) * (/ zm * / ym * a) = / n * a) by (intros; field; auto).
    destruct N as [a b c]; unfold vscale; cbn [vx vy vz]. rewrite !E. reflexivity.
  - apply Rgt_not_eq. apply Rmult_lt_0_compat; auto.
Qed.

(** Degenerate corners: everything is NaN. *)
Lemma classic_vec (a b : vec) : a = b \/ a <> b.
Proof.
  destruct a as [a1 a2 a3], b as [b1 b2 b3].
  destruct (Req_dec a1 b1), (Req_dec a2 b2), (Req_dec a3 b3); subst; auto; right; intros E; injection E; intros; contradiction.
Qed.
Lemma ndot_nan a : ndot nan3 a = NaN.
Proof. reflexivity. Qed.
Lemma ndot_nan_r a : ndot a nan3 = NaN.
Proof. unfold ndot, nan3; cbn. destruct (nx a), (ny a), (nz a); reflexivity. Qed.
Lemma nvdiv_00 z : nvdiv z (nfin vzero) (Fin 0) = nan3 /\ norm vzero = 0.
Proof.
  split.
  - unfold nvdiv, nan3, nfin, vzero; simpl. destruct (Req_EM_T 0 0); [reflexivity|contradiction].
  - unfold norm, normsq, dot, vzero; simpl. replace (0*0+0*0+0*0) with 0 by ring. apply sqrt_0.
Qed.
Lemma ncross_nan_l b : ncross nan3 b = nan3.
Proof. unfold ncross, nan3, nsub; simpl. destruct (nx b), (ny b), (nz b); reflexivity. Qed.
Lemma ncross_nan_r b : ncross b nan3 = nan3.
Proof. unfold ncross, nan3, nsub; simpl. destruct (nx b), (ny b), (nz b); reflexivity. Qed.
Lemma detector_degenerate d : built d -> N_of d = vzero -> d_normal d = nan3.
Proof.
  intros (c0 & c1 & c2 & np & ps & sg & th & mr & ul & up & us & H) HN.
  apply make_detector_inv in H as (H0 & H1 & H2 & Hz & Hy & Hzh & Hyh & Hn & _).
  unfold N_of, plane_normal in HN. rewrite H0, H1, H2 in HN. rewrite Hn.
  assert (D0 : forall x y, vsub x y = vzero -> nvdiv false (nfin (vsub x y)) (Fin (dist x y)) = nan3).
  { intros x y E. unfold dist. rewrite E. destruct (nvdiv_00 false) as [E1 E2]. rewrite E2. auto. }
  assert (D : forall x y, x <> y -> vsub x y <> vzero).
  { intros x y Hn' E. apply Hn'. vdes. unfold vsub, vzero in E; cbn in E. injection E; intros. f_equal; lra. }
  destruct (classic_vec c2 c0) as [E|E].
  - rewrite Hzh, (D0 c2 c0), ncross_nan_l; [reflexivity|]. rewrite E; apply vsub_self.
  - destruct (classic_vec c1 c0) as [E'|E'].
    + rewrite Hyh, (D0 c1 c0), ncross_nan_r; [reflexivity|]. rewrite E'; apply vsub_self.
    + rewrite Hzh, Hyh, !nvdiv_nfin by (apply norm_neq0; auto).
      rewrite ncross_nfin, cross_scale, HN. 
      replace (vscale (/ dist c2 c0 * / dist c1 c0) vzero) with vzero by (unfold vscale, vzero; cbn; f_equal; ring).
      rewrite nnorm_nfin. destruct (nvdiv_00 false) as [E1 E2]. rewrite E2. auto.
Qed.

(** ** Intersection *)
Definition svalue (d : detector) (v o : vec) : R := dot (vsub (d_c0 d) o) (N_of d) / dot v (N_of d).
Definition incident_of (d : detector) (v : vec) : R := acos (- (dot v (N_of d) / (norm v * norm (N_of d)))) * (180 / PI).

Lemma dot_norm_range v n : v <> vzero -> n <> vzero -> -1 <= dot v n / (norm v * norm n) <= 1.
Proof.
  intros Hv Hn. pose proof (norm_pos _ Hv). pose proof (norm_pos _ Hn).
  pose proof (cauchy v n) as C. apply Rabs_le_inv in C.
  assert (0 < norm v * norm n) by (apply Rmult_lt_0_compat; auto).
  split; [apply Rmult_le_reg_r with (norm v * norm n)|apply Rmult_le_reg_r with (norm v * norm n)]; auto;
    unfold Rdiv; rewrite Rmult_assoc, Rinv_l by lra; lra.
Qed.
Lemma norm_vscale_inv n : n <> vzero -> norm (vscale (/ norm n) n) = 1.
Proof.
  intros H. pose proof (norm_pos _ H). rewrite norm_scale, Rabs_right; [field; lra|].
  left. now apply Rinv_0_lt_compat.
Qed.
Lemma vneg_scale s a : vneg (vscale s a) = vscale (- s) a. Proof. veq. Qed.

Lemma incident_closed z v n : v <> vzero -> n <> vzero ->
  nmul (nacos (ndot (nvdiv z (nfin v) (nnorm (nfin v)))
                    (nvneg (nvdiv z (nfin (vscale (/ norm n) n)) (nnorm (nfin (vscale (/ norm n) n)))))))
       (Fin (180 / PI)) = Fin (acos (- (dot v n / (norm v * norm n))) * (180 / PI)).
Proof.
  intros Hv Hn. pose proof (norm_pos _ Hv). pose proof (norm_pos _ Hn).
  rewrite !nnorm_nfin, norm_vscale_inv, !nvdiv_nfin by (auto; lra).
  rewrite nvneg_nfin, ndot_nfin, vneg_scale, Rinv_1.
  replace (dot (vscale (/ norm v) v) (vscale (- (1)) (vscale (/ norm n) n))) with (- (dot v n / (norm v * norm n))).
  - pose proof (dot_norm_range v n Hv Hn). rewrite nacos_in by lra. reflexivity.
  - rewrite !dot_scale_l, !dot_scale_r. field. lra.
Qed.

Lemma intersection_closed z d v o : built d -> dot v (N_of d) <> 0 ->
  get_intersection z d (nfin v) (nfin o) =
  let p := ray_at o v (svalue d v o) in
  if Rltb (svalue d v o) 0 then (NaN, NaN, Fin (incident_of d v))
  else (Fin (dot (vsub p (d_c0 d)) (zhat_of d)), Fin (dot (vsub p (d_c0 d)) (yhat_of d)), Fin (incident_of d v)).
Proof.
  intros Hb Hv. cbv zeta.
  assert (HN : N_of d <> vzero).
  { intros E. apply Hv. rewrite E. vdes; vunf; ring. }
  assert (Hv0 : v <> vzero).
  { intros E. apply Hv. rewrite E. generalize (N_of d); intros; vdes; vunf; ring. }
  destruct (detector_frame d Hb HN) as (Hz & Hy & Hn & _).
  unfold get_intersection. rewrite Hz, Hy, Hn. cbv zeta. unfold incident_of. rewrite incident_closed by auto.
  rewrite nvsub_nfin, !ndot_nfin. pose proof (norm_pos _ HN) as PN.
  assert (Hdv : dot v (vscale (/ norm (N_of d)) (N_of d)) <> 0).
  { rewrite dot_scale_r. apply Rmult_integral_contrapositive_currified; auto. apply Rinv_neq_0_compat. lra. }
  rewrite ndiv_fin by auto.
  replace (dot (vsub (d_c0 d) o) (vscale (/ norm (N_of d)) (N_of d)) / dot v (vscale (/ norm (N_of d)) (N_of d)))
    with (svalue d v o).
  2: { unfold svalue. rewrite !dot_scale_r. field. split; auto. lra. }
  cbn [nlt]. destruct (Rltb (svalue d v o) 0) eqn:E.
  - reflexivity.
  - rewrite nvscale_nfin, nvadd_nfin, nvsub_nfin, !ndot_nfin. reflexivity.
Qed.

Lemma ray_in_plane d v o : dot v (N_of d) <> 0 ->
  in_plane (d_c0 d) (d_c1 d) (d_c2 d) (ray_at o v (svalue d v o)).
Proof.
  intros H. unfold in_plane. fold (N_of d). unfold svalue, ray_at. revert H. generalize (N_of d) (d_c0 d). intros n c H.
  replace (dot (vsub (vadd o (vscale (dot (vsub c o) n / dot v n) v)) c) n)
    with (dot (vsub c o) n / dot v n * dot v n - dot (vsub c o) n).
  - field. auto.
  - generalize (dot (vsub c o) n / dot v n). intros s. vdes; vunf; ring.
Qed.
Lemma ray_plane_unique d v o s : dot v (N_of d) <> 0 ->
  in_plane (d_c0 d) (d_c1 d) (d_c2 d) (ray_at o v s) -> s = svalue d v o.
Proof.
  intros H. unfold in_plane. fold (N_of d). unfold svalue, ray_at. revert H. generalize (N_of d) (d_c0 d). intros n c H.
  replace (dot (vsub (vadd o (vscale s v)) c) n) with (s * dot v n - dot (vsub c o) n) by (vdes; vunf; ring).
  intros E. apply Rmult_eq_reg_r with (dot v n); auto. field_simplify; auto. lra.
Qed.

Lemma baccab a b c : cross a (cross b c) = vsub (vscale (dot a c) b) (vscale (dot a b) c).
Proof. veq. Qed.
Lemma plane_decompose a b w : norm a = 1 -> norm b = 1 -> dot a b = 0 -> dot w (cross a b) = 0 ->
  w = vadd (vscale (dot w a) a) (vscale (dot w b) b).
Proof.
  intros Ha Hb Hab Hw. apply norm_unit in Ha, Hb. unfold normsq in Ha, Hb.
  assert (E : cross (cross a b) w = vsub (vscale (dot w a) b) (vscale (dot w b) a)) by veq.
  assert (E2 : cross (cross a b) (cross (cross a b) w) = vscale (-1) w).
  { rewrite (baccab (cross a b) (cross a b) w).
    replace (dot (cross a b) w) with 0 by (rewrite dot_comm; auto).
    pose proof (lagrange a b) as L. unfold normsq in L. rewrite Ha, Hb, Hab in L.
    replace (dot (cross a b) (cross a b)) with 1 by lra. generalize (cross a b). intros; veq. }
  rewrite E in E2.
  assert (E3 : cross (cross a b) b = vscale (-1) a).
  { replace (cross (cross a b) b) with (vsub (vscale (dot a b) b) (vscale (dot b b) a)) by veq.
    rewrite Hab, Hb. veq. }
  assert (E4 : cross (cross a b) a = b).
  { replace (cross (cross a b) a) with (vsub (vscale (dot a a) b) (vscale (dot a b) a)) by veq.
    rewrite Ha, Hab. veq. }
  assert (E5 : forall s t, cross (cross a b) (vsub (vscale s b) (vscale t a)) =
     vsub (vscale s (cross (cross a b) b)) (vscale t (cross (cross a b) a))) by (intros; veq).
  rewrite E5, E3, E4 in E2.
  clear E E5. revert E2. generalize (dot w a) (dot w b). intros s t E2.
  apply vec_ext; [pose proof (f_equal vx E2)|pose proof (f_equal vy E2)|pose proof (f_equal vz E2)];
    clear - H; vdes; vunf; lra.
Qed.

Lemma frame_orthonormal d : N_of d <> vzero -> rectangular (d_c0 d) (d_c1 d) (d_c2 d) ->
  norm (zhat_of d) = 1 /\ norm (yhat_of d) = 1 /\ dot (zhat_of d) (yhat_of d) = 0.
Proof.
  intros HN Hr. unfold N_of, plane_normal in HN.
  assert (A2 : vsub (d_c2 d) (d_c0 d) <> vzero) by (intros E; apply HN; rewrite E; apply cross_zero_l).
  assert (A1 : vsub (d_c1 d) (d_c0 d) <> vzero) by (intros E; apply HN; rewrite E; apply cross_zero_r).
  unfold zhat_of, yhat_of, dist. repeat split; try (apply norm_vscale_inv; auto).
  rewrite dot_scale_l, dot_scale_r, Hr. ring.
Qed.
Lemma plane_point d p : built d -> N_of d <> vzero -> rectangular (d_c0 d) (d_c1 d) (d_c2 d) ->
  in_plane (d_c0 d) (d_c1 d) (d_c2 d) p ->
  p = surface_point (d_c0 d) (d_c1 d) (d_c2 d) (dot (vsub p (d_c0 d)) (zhat_of d)) (dot (vsub p (d_c0 d)) (yhat_of d)).
Proof.
  intros Hb HN Hr Hp. destruct (frame_orthonormal d HN Hr) as (Hz & Hy & Hzy).
  assert (E := plane_decompose (zhat_of d) (yhat_of d) (vsub p (d_c0 d)) Hz Hy Hzy).
  assert (Hw : dot (vsub p (d_c0 d)) (cross (zhat_of d) (yhat_of d)) = 0).
  { unfold zhat_of, yhat_of. rewrite cross_scale, dot_scale_r. unfold in_plane, plane_normal in Hp. rewrite Hp. ring. }
  specialize (E Hw). unfold surface_point.
  revert E. generalize (dot (vsub p (d_c0 d)) (zhat_of d)) (dot (vsub p (d_c0 d)) (yhat_of d)). intros s t E.
  replace p with (vadd (d_c0 d) (vsub p (d_c0 d))) at 1 by (generalize (d_c0 d); intros; veq).
  rewrite E. unfold zhat_of, yhat_of, Rdiv.
  generalize (/ dist (d_c2 d) (d_c0 d)) (/ dist (d_c1 d) (d_c0 d)) (vsub (d_c2 d) (d_c0 d)) (vsub (d_c1 d) (d_c0 d)) (d_c0 d).
  intros. veq.
Qed.
Lemma surface_coords d zd yd : N_of d <> vzero -> rectangular (d_c0 d) (d_c1 d) (d_c2 d) ->
  let p := surface_point (d_c0 d) (d_c1 d) (d_c2 d) zd yd in
  dot (vsub p (d_c0 d)) (zhat_of d) = zd /\ dot (vsub p (d_c0 d)) (yhat_of d) = yd /\
  in_plane (d_c0 d) (d_c1 d) (d_c2 d) p.
Proof.
  intros HN Hr. cbv zeta. destruct (frame_orthonormal d HN Hr) as (Hz & Hy & Hzy).
  assert (E : vsub (surface_point (d_c0 d) (d_c1 d) (d_c2 d) zd yd) (d_c0 d) =
              vadd (vscale zd (zhat_of d)) (vscale yd (yhat_of d))).
  { unfold surface_point, zhat_of, yhat_of, Rdiv.
    generalize (/ dist (d_c2 d) (d_c0 d)) (/ dist (d_c1 d) (d_c0 d)) (vsub (d_c2 d) (d_c0 d)) (vsub (d_c1 d) (d_c0 d)) (d_c0 d).
    intros. veq. }
  rewrite E. apply norm_unit in Hz, Hy. unfold normsq in *.
  assert (F : forall a b w, dot (vadd (vscale zd a) (vscale yd b)) w = zd * dot a w + yd * dot b w)
    by (intros; vdes; vunf; ring).
  rewrite !F, Hz, Hy, Hzy, (dot_comm (yhat_of d)), Hzy. repeat split; try ring.
  unfold in_plane. rewrite E, F. fold (N_of d). unfold zhat_of, yhat_of. rewrite !dot_scale_l. unfold N_of, plane_normal.
  generalize (vsub (d_c2 d) (d_c0 d)) (vsub (d_c1 d) (d_c0 d)) (/ dist (d_c2 d) (d_c0 d)) (/ dist (d_c1 d) (d_c0 d)).
  intros a b s t. replace (dot a (cross a b)) with 0 by (vdes; vunf; ring).
  replace (dot b (cross a b)) with 0 by (vdes; vunf; ring). ring.
Qed.

(** ** C28 *)
Lemma N_nonzero d v : dot v (N_of d) <> 0 -> N_of d <> vzero.
Proof. intros H E. apply H. rewrite E. vdes; vunf; ring. Qed.

(** A ray that reaches the detector plane going forward gets the coordinates of
    the point where it does. *)
Lemma pC28_round_trip : forall z d v o s, built d ->
  rectangular (d_c0 d) (d_c1 d) (d_c2 d) ->
  dot v (plane_normal (d_c0 d) (d_c1 d) (d_c2 d)) <> 0 -> 0 <= s ->
  in_plane (d_c0 d) (d_c1 d) (d_c2 d) (ray_at o v s) ->
  exists zd yd a, get_intersection z d (nfin v) (nfin o) = (Fin zd, Fin yd, Fin a) /\
    surface_point (d_c0 d) (d_c1 d) (d_c2 d) zd yd = ray_at o v s.
Proof.
  intros z d v o s Hb Hr Hv Hs Hp. fold (N_of d) in Hv. pose proof (N_nonzero _ _ Hv) as HN.
  rewrite intersection_closed by auto. cbv zeta. rewrite <- (ray_plane_unique d v o s) by auto.
  destruct (Rltb s 0) eqn:E; [apply Rltb_true in E; lra|].
  do 3 eexists. split; [reflexivity|]. symmetry. apply plane_point; auto.
Qed.
(** Conversely a point of the plane with coordinates (zd, yd) that is ahead on the
    ray is reported with exactly those coordinates. *)
Lemma pC28_coordinates_exact : forall z d v o s zd yd, built d ->
  rectangular (d_c0 d) (d_c1 d) (d_c2 d) ->
  dot v (plane_normal (d_c0 d) (d_c1 d) (d_c2 d)) <> 0 -> 0 <= s ->
  surface_point (d_c0 d) (d_c1 d) (d_c2 d) zd yd = ray_at o v s ->
  exists a, get_intersection z d (nfin v) (nfin o) = (Fin zd, Fin yd, Fin a).
Proof.
  intros z d v o s zd yd Hb Hr Hv Hs Hp. fold (N_of d) in Hv. pose proof (N_nonzero _ _ Hv) as HN.
  destruct (surface_coords d zd yd HN Hr) as (H1 & H2 & H3). rewrite Hp in H1, H2, H3.
  rewrite intersection_closed by auto. cbv zeta. rewrite <- (ray_plane_unique d v o s) by auto.
  destruct (Rltb s 0) eqn:E; [apply Rltb_true in E; lra|]. rewrite H1, H2. eauto.
Qed.
(** The plane lies behind the source: both coordinates are NaN. *)
Lemma pC28_backward_nan : forall z d v o s, built d ->
  dot v (plane_normal (d_c0 d) (d_c1 d) (d_c2 d)) <> 0 -> s < 0 ->
  in_plane (d_c0 d) (d_c1 d) (d_c2 d) (ray_at o v s) ->
  exists a, get_intersection z d (nfin v) (nfin o) = (NaN, NaN, Fin a).
Proof.
  intros z d v o s Hb Hv Hs Hp. fold (N_of d) in Hv.
  rewrite intersection_closed by auto. cbv zeta. rewrite <- (ray_plane_unique d v o s) by auto.
  destruct (Rltb s 0) eqn:E; [eauto|apply Rltb_false in E; lra].
Qed.

Definition fin3 (a : nvec) : Prop := exists u, a = nfin u.
Lemma nvadd_inv a b u : nvadd a b = nfin u -> exists v w, a = nfin v /\ b = nfin w.
Proof.
  destruct a, b, u. unfold nvadd, nfin; cbn. intros H. injection H; intros H1 H2 H3.
  apply nadd_fin_inv in H1 as (? & ? & -> & -> & _), H2 as (? & ? & -> & -> & _), H3 as (? & ? & -> & -> & _).
  eexists (V3 _ _ _), (V3 _ _ _); split; reflexivity.
Qed.
Lemma nvsub_inv a b u : nvsub a b = nfin u -> exists v w, a = nfin v /\ b = nfin w.
Proof.
  destruct a, b, u. unfold nvsub, nfin; cbn. intros H. injection H; intros H1 H2 H3.
  apply nsub_fin_inv in H1 as (? & ? & -> & -> & _), H2 as (? & ? & -> & -> & _), H3 as (? & ? & -> & -> & _).
  eexists (V3 _ _ _), (V3 _ _ _); split; reflexivity.
Qed.
Lemma nvscale_inv s a u : nvscale s a = nfin u -> exists t v, s = Fin t /\ a = nfin v.
Proof.
  destruct a, u. unfold nvscale, nfin; cbn. intros H. injection H; intros H1 H2 H3.
  apply nmul_fin_inv in H1 as (? & ? & -> & -> & _), H2 as (? & ? & -> & E2 & _), H3 as (? & ? & -> & E3 & _).
  eexists _, (V3 _ _ _); split; reflexivity.
Qed.
(** Whenever a coordinate is finite, source and direction are finite, the ray is
    transversal and the detector corners are not collinear. *)
Lemma coordinate_finite z d dir src zd yd a : built d ->
  get_intersection z d dir src = (zd, yd, a) -> (exists x, zd = Fin x) \/ (exists y, yd = Fin y) ->
  exists v o, dir = nfin v /\ src = nfin o /\ dot v (N_of d) <> 0 /\ 0 <= svalue d v o.
Proof.
  intros Hb H Hf. unfold get_intersection in H. cbv zeta in H.
  set (s := ndiv z (ndot (nvsub (nfin (d_c0 d)) src) (d_normal d)) (ndot dir (d_normal d))) in H.
  assert (Hq : exists u, nvsub (if nlt s (Fin 0) then nan3 else nvadd src (nvscale s dir)) (nfin (d_c0 d)) = nfin u).
  { inversion H; subst. clear H. destruct Hf as [[x Hx]|[x Hx]];
      apply ndot_fin_inv in Hx as (u & v & Hu & _); eauto. }
  destruct Hq as [u Hq]. destruct (nlt s (Fin 0)) eqn:Es.
  { apply nvsub_inv in Hq as (v & w & E & _). discriminate E. }
  apply nvsub_inv in Hq as (v & w & E & _). apply nvadd_inv in E as (o & w' & -> & E).
  apply nvscale_inv in E as (t & v' & Et & ->).
  exists v', o. split; auto. split; auto.
  assert (HN : N_of d <> vzero).
  { intros E. apply (detector_degenerate d Hb) in E. subst s. rewrite E, !ndot_nan_r in Et. discriminate. }
  destruct (detector_frame d Hb HN) as (_ & _ & Hn & _). pose proof (norm_pos _ HN) as PN.
  subst s. rewrite Hn, nvsub_nfin, !ndot_nfin, !dot_scale_r in *.
  assert (Hv : dot v' (N_of d) <> 0).
  { intros E. rewrite E, Rmult_0_r in Et. simpl in Et. destruct (Req_EM_T 0 0); [|contradiction].
    destruct (Req_EM_T _ _); [discriminate|]. unfold nsign_inf in Et.
    match type of Et with (if ?b then _ else _) = _ => destruct b end; discriminate. }
  split; auto.
  assert (Hi : / norm (N_of d) * dot v' (N_of d) <> 0).
  { apply Rmult_integral_contrapositive_currified; auto. apply Rinv_neq_0_compat. lra. }
  rewrite ndiv_fin in * by auto. cbn [nlt] in Es. apply Rltb_false in Es.
  unfold svalue. replace (dot (vsub (d_c0 d) o) (N_of d) / dot v' (N_of d)) with
    (/ norm (N_of d) * dot (vsub (d_c0 d) o) (N_of d) / (/ norm (N_of d) * dot v' (N_of d))); auto.
  field. split; auto. lra.
Qed.

(** A ray parallel to the detector plane (including one inside the plane) never
    gets a finite coordinate, whatever the sign of the zero denominator. *)
Lemma pC28_parallel_not_finite : forall z d v o zd yd a, built d ->
  dot v (plane_normal (d_c0 d) (d_c1 d) (d_c2 d)) = 0 ->
  get_intersection z d (nfin v) (nfin o) = (zd, yd, a) -> is_finite zd = false /\ is_finite yd = false.
Proof.
  intros z d v o zd yd a Hb Hv H. split.
  - destruct zd eqn:E; try reflexivity.
    apply coordinate_finite in H as (v' & o' & Ev & _ & Hv' & _); [|auto|left; eauto].
    apply nfin_inj in Ev. subst v'. contradiction.
  - destruct yd eqn:E; try reflexivity.
    apply coordinate_finite in H as (v' & o' & Ev & _ & Hv' & _); [|auto|right; eauto].
    apply nfin_inj in Ev. subst v'. contradiction.
Qed.
(** Collinear corners are accepted by the constructor, and then no ray ever gets a
    finite coordinate. *)
Lemma pC28_collinear_not_finite : forall z d dir src zd yd a, built d ->
  ~ non_collinear (d_c0 d) (d_c1 d) (d_c2 d) ->
  get_intersection z d dir src = (zd, yd, a) -> is_finite zd = false /\ is_finite yd = false.
Proof.
  intros z d dir src zd yd a Hb Hc H.
  assert (HN : N_of d = vzero).
  { destruct (classic_vec (N_of d) vzero); auto. exfalso. apply Hc. auto. }
  split.
  - destruct zd eqn:E; try reflexivity.
    apply coordinate_finite in H as (v' & o' & Ev & _ & Hv' & _); [|auto|left; eauto].
    apply N_nonzero in Hv'. contradiction.
  - destruct yd eqn:E; try reflexivity.
    apply coordinate_finite in H as (v' & o' & Ev & _ & Hv' & _); [|auto|right; eauto].
    apply N_nonzero in Hv'. contradiction.
Qed.

(** Concrete detectors. *)
Lemma ceil_spec x : IZR (ceil x) - 1 < x <= IZR (ceil x).
Proof. unfold ceil. rewrite opp_IZR. destruct (base_Int_part (- x)) as [H1 H2]. lra. Qed.
Lemma ceil_eq x n : IZR n - 1 < x <= IZR n -> ceil x = n.
Proof. intros H. unfold ceil. rewrite (Int_part_eq (- x) (- n)); [lia|]. rewrite opp_IZR. lra. Qed.
Lemma norm_sqrt_eq a r : 0 <= r -> normsq a = r * r -> norm a = r.
Proof. intros H E. unfold norm. rewrite E. apply sqrt_square; auto. Qed.

Definition sq_corners : vec * vec * vec := (V3 10 (-1) (-1), V3 10 1 (-1), V3 10 (-1) 1).
Lemma ex_built c0 c1 c2 nz ny : (0 < nz)%Z -> (0 < ny)%Z -> vsub c2 c0 <> vzero -> vsub c1 c0 <> vzero ->
  exists d, built d /\ d_c0 d = c0 /\ d_c1 d = c1 /\ d_c2 d = c2 /\
    d_pz d = dist c2 c0 / IZR nz /\ d_py d = dist c1 c0 / IZR ny /\
    d_lorentz d = true /\ d_polarization d = true /\ d_structure d = true.
Proof.
  intros Hz Hy H2 H1. pose proof (norm_pos _ H1) as P1. pose proof (norm_pos _ H2) as P2.
  apply IZR_lt in Hz as Rz. apply IZR_lt in Hy as Ry.
  assert (A : forall x n, 0 < x -> 0 < IZR n -> exists m, arange_len x (x / IZR n) = Ok m).
  { intros x n Hx Hn. unfold arange_len. assert (0 < x / IZR n) by (apply Rdiv_lt_0_compat; auto).
    destruct (Req_EM_T (x / IZR n) 0); [lra|].
    replace (Rltb (x / IZR n) 0) with false by (symmetry; apply Rltb_false; lra). simpl. eauto. }
  destruct (A _ _ P2 Rz) as [m2 E2]. destruct (A _ _ P1 Ry) as [m1 E1].
  destruct (make_detector c0 c1 c2 (Some (Pair nz ny)) None 1 (2/100) 2 true true true) as [d|e] eqn:E.
  - exists d. split; [repeat eexists; eauto|].
    apply make_detector_inv in E as (? & ? & ? & _ & _ & _ & _ & _ & Hp & _ & _ & _ & _ & _ & ? & ? & ?).
    simpl in Hp. destruct (Z.eqb_spec nz 0); [lia|]. destruct (Z.eqb_spec ny 0); [lia|]. simpl in Hp.
    inversion Hp. repeat split; auto.
  - exfalso. unfold make_detector in E. cbv zeta in E. unfold pixel_sizes in E. simpl in E.
    destruct (Z.eqb_spec nz 0); [lia|]. destruct (Z.eqb_spec ny 0); [lia|]. simpl in E.
    rewrite E2, E1 in E. discriminate.
Qed.
Lemma vec_neq a b : (vx a <> vx b) \/ (vy a <> vy b) \/ (vz a <> vz b) -> a <> b.
Proof. intros H E; subst; tauto. Qed.

(** The square detector at distance 10 along x, and a ray that hits it. *)
Lemma xC28_square : exists d, built d /\ rectangular (d_c0 d) (d_c1 d) (d_c2 d) /\
  dot (V3 2 0 0) (plane_normal (d_c0 d) (d_c1 d) (d_c2 d)) <> 0 /\
  in_plane (d_c0 d) (d_c1 d) (d_c2 d) (ray_at (V3 1 0 0) (V3 2 0 0) (9/2)) /\
  surface_point (d_c0 d) (d_c1 d) (d_c2 d) 1 1 = ray_at (V3 1 0 0) (V3 2 0 0) (9/2).
Proof.
  destruct (ex_built (V3 10 (-1) (-1)) (V3 10 1 (-1)) (V3 10 (-1) 1) 4 4) as (d & Hb & H0 & H1 & H2 & _); try lia;
    try (apply vec_neq; simpl; lra).
  exists d. split; auto. rewrite H0, H1, H2. unfold rectangular, in_plane, plane_normal, ray_at.
  repeat split; try (vunf; lra).
  unfold surface_point, dist.
  rewrite (norm_sqrt_eq (vsub (V3 10 (-1) 1) _) 2), (norm_sqrt_eq (vsub (V3 10 1 (-1)) _) 2) by (vunf; lra).
  vext; vunf; lra.
Qed.
Lemma xC28_collinear : exists d, built d /\ ~ non_collinear (d_c0 d) (d_c1 d) (d_c2 d).
Proof.
  destruct (ex_built (V3 10 0 0) (V3 10 1 0) (V3 10 2 0) 4 4) as (d & Hb & H0 & H1 & H2 & _); try lia;
    try (apply vec_neq; simpl; lra).
  exists d. split; auto. rewrite H0, H1, H2. unfold non_collinear, plane_normal. intros H; apply H. vext; vunf; lra.
Qed.
(** Skew corners are accepted, but the reported coordinates do not locate the
    point that was hit. *)
Lemma pC28_skew_refuted : exists d v o s, built d /\ non_collinear (d_c0 d) (d_c1 d) (d_c2 d) /\ 0 < s /\
  on_surface (d_c0 d) (d_c1 d) (d_c2 d) (ray_at o v s) /\
  forall z, exists zd yd a, get_intersection z d (nfin v) (nfin o) = (Fin zd, Fin yd, Fin a) /\
    surface_point (d_c0 d) (d_c1 d) (d_c2 d) zd yd <> ray_at o v s.
Proof.
  destruct (ex_built (V3 10 0 0) (V3 10 5 0) (V3 10 3 4) 4 4) as (d & Hb & H0 & H1 & H2 & _); try lia;
    try (apply vec_neq; simpl; lra).
  exists d, (V3 1 0 0), (V3 0 3 4), 10. split; auto.
  assert (HN : N_of d = V3 (-20) 0 0) by (unfold N_of, plane_normal; rewrite H0, H1, H2; vext; vunf; lra).
  assert (Hs : svalue d (V3 1 0 0) (V3 0 3 4) = 10) by (unfold svalue; rewrite HN, H0; vunf; field).
  split; [unfold non_collinear; fold (N_of d); rewrite HN; apply vec_neq; simpl; lra|]. split; [lra|].
  split.
  { exists 1, 0. rewrite H0, H1, H2. repeat split; try lra. unfold ray_at. vext; vunf; lra. }
  intros z. rewrite intersection_closed by (auto; rewrite HN; vunf; lra). cbv zeta. rewrite Hs.
  destruct (Rltb 10 0) eqn:E; [apply Rltb_true in E; lra|].
  do 3 eexists. split; [reflexivity|]. unfold zhat_of, yhat_of, surface_point. rewrite H0, H1, H2.
  unfold dist. rewrite (norm_sqrt_eq (vsub (V3 10 3 4) _) 5), (norm_sqrt_eq (vsub (V3 10 5 0) _) 5) by (vunf; lra).
  unfold ray_at. apply vec_neq. right. left. vunf. simpl. lra.
Qed.
