(** * Proofs about the scattering factors. *)
From Verif Require Import Vec Spec MScattering SScattering.

Lemma norm_pow2' a : (norm a)^2 = normsq a.
Proof. rewrite <- norm_sq. ring. Qed.

Lemma Rabs_le_inv x y : Rabs x <= y -> - y <= x <= y.
Proof. intros H. unfold Rabs in H. destruct (Rcase_abs x); lra. Qed.
Lemma ndiv_fin z a b : b <> 0 -> ndiv z (Fin a) (Fin b) = Fin (a / b).
Proof. intros; unfold ndiv. destruct (Req_EM_T b 0); [contradiction|auto]. Qed.
Lemma nacos_in a : -1 <= a <= 1 -> nacos (Fin a) = Fin (acos a).
Proof. intros H; unfold nacos. destruct (Rle_dec (-1) a); [|lra]. destruct (Rle_dec a 1); [auto|lra]. Qed.

(** ** C59 *)
(** polarization *)
Lemma polarization_closed p kp : kp <> vzero -> polarization p kp = Fin (1 - (dot p kp / norm kp) ^ 2).
Proof.
  intros H. pose proof (norm_pos kp H). unfold polarization. destruct (Req_EM_T (norm kp) 0); [lra|].
  f_equal. f_equal. f_equal. unfold dot; simpl. field. lra.
Qed.
(** For a unit polarization vector the factor is between 0 and 1, 1 exactly for
    scattering orthogonal to the polarization and 0 exactly along it. *)
Lemma pC59_polarization_range : forall p kp, unit p -> kp <> vzero ->
  exists r, polarization p kp = Fin r /\ 0 <= r <= 1 /\ (r = 1 <-> orthogonal p kp) /\
    (r = 0 <-> cross p kp = vzero).
Proof.
  intros p kp Hp Hk. pose proof (norm_pos kp Hk) as Hn.
  eexists. split; [apply polarization_closed; auto|].
  pose proof (lagrange p kp) as HL. apply norm_unit in Hp. rewrite Hp, Rmult_1_l in HL.
  assert (E : (dot p kp / norm kp) ^ 2 = dot p kp * dot p kp / normsq kp).
  { rewrite <- norm_sq. field. lra. }
  rewrite E.
  assert (Hq : 0 < normsq kp) by (rewrite <- norm_sq; nra).
  pose proof (normsq_nonneg (cross p kp)).
  assert (D : 1 - dot p kp * dot p kp / normsq kp = normsq (cross p kp) / normsq kp).
  { apply (Rmult_eq_reg_r (normsq kp)); [|lra]. field_simplify; [|lra|lra]. lra. }
  rewrite D. split; [split|split; split].
  - apply Rmult_le_pos; [lra|]. left. now apply Rinv_0_lt_compat.
  - apply (Rmult_le_reg_r (normsq kp)); auto. unfold Rdiv. rewrite Rmult_assoc, Rinv_l by lra. nra.
  - intros H1. unfold orthogonal. assert (normsq (cross p kp) = normsq kp).
    { apply (Rmult_eq_reg_r (/ normsq kp)); [|apply Rinv_neq_0_compat; lra]. rewrite Rinv_r by lra. exact H1. }
    nra.
  - intros H1. unfold orthogonal in H1. rewrite H1 in HL. replace (normsq (cross p kp)) with (normsq kp) by lra. field. lra.
  - intros H1. apply normsq_0. apply (Rmult_eq_reg_r (/ normsq kp)); [|apply Rinv_neq_0_compat; lra]. unfold Rdiv in H1. lra.
  - intros H1. rewrite H1. unfold normsq at 1, vzero, dot. simpl. unfold Rdiv. ring.
Qed.
(** The factor depends on the direction of scattering only. *)
Lemma pC59_polarization_direction : forall p kp c, c <> 0 -> kp <> vzero ->
  polarization p (vscale c kp) = polarization p kp.
Proof.
  intros p kp c Hc Hk. pose proof (norm_pos kp Hk).
  rewrite !polarization_closed; auto.
  - f_equal. f_equal. rewrite norm_scale. unfold Rdiv. rewrite !Rpow_mult_distr.
    replace (dot p (vscale c kp)) with (c * dot p kp) by (clear; vdes; vunf; ring).
    rewrite Rinv_mult, !Rpow_mult_distr, !pow_inv.
    replace (Rabs c ^ 2) with (c ^ 2) by (rewrite <- (pow2_abs c); reflexivity). field. split; lra.
  - intros E. apply Hk. apply normsq_0. apply (f_equal normsq) in E.
    replace (normsq (vscale c kp)) with (c * c * normsq kp) in E by (clear; vdes; vunf; ring).
    replace (normsq vzero) with 0 in E by (vunf; ring).
    apply Rmult_integral in E. destruct E; auto. nra.
Qed.

(** Lorentz *)
Lemma normsq_pos a : a <> vzero -> 0 < normsq a.
Proof. intros H. pose proof (norm_pos a H). rewrite <- norm_sq. nra. Qed.
Lemma kk_range k kp : k <> vzero -> norm kp = norm k -> -1 <= dot k kp / normsq k <= 1.
Proof.
  intros Hk E. pose proof (normsq_pos k Hk).
  pose proof (cauchy k kp) as C. rewrite E, norm_sq in C.
  apply Rabs_le_inv in C. split.
  - apply (Rmult_le_reg_r (normsq k)); auto. unfold Rdiv. rewrite Rmult_assoc, Rinv_l by lra. lra.
  - apply (Rmult_le_reg_r (normsq k)); auto. unfold Rdiv. rewrite Rmult_assoc, Rinv_l by lra. lra.
Qed.
Lemma transverse_sq k kp : k <> vzero -> norm kp = norm k ->
  normsq (transverse k kp) = normsq k * (1 - (dot k kp / normsq k)^2).
Proof.
  intros Hk E. pose proof (normsq_pos k Hk). apply norm_eq_normsq in E.
  unfold transverse. set (c := dot k kp / normsq k).
  replace (normsq (vsub kp (vscale c k))) with (normsq kp - 2 * c * dot k kp + c^2 * normsq k)
    by (clear; vdes; vunf; ring).
  rewrite E. replace (dot k kp) with (c * normsq k) by (unfold c; field; lra). ring.
Qed.
Lemma transverse_zero k kp : k <> vzero -> norm kp = norm k ->
  transverse k kp = vzero <-> (kp = k \/ kp = vneg k).
Proof.
  intros Hk E. pose proof (normsq_pos k Hk) as Hp. split.
  - intros H. pose proof (transverse_sq k kp Hk E) as S. rewrite H in S.
    replace (normsq vzero) with 0 in S by (vunf; ring).
    set (c := dot k kp / normsq k) in *.
    assert (Hc : c = 1 \/ c = -1).
    { assert ((1 - c) * (1 + c) = 0) as Z by nra.
      apply Rmult_integral in Z. destruct Z; [left|right]; lra. }
    unfold transverse in H. fold c in H.
    clearbody c. assert (kp = vscale c k) as ->.
    { rewrite <- (vsub_add kp (vscale c k)), H. apply vadd_0_l. }
    destruct Hc as [-> | ->]; [left; apply vscale_1|right]. clear. veq.
  - intros [-> | ->]; unfold transverse.
    + replace (dot k k / normsq k) with 1 by (unfold normsq in *; field; lra). rewrite vscale_1. apply vsub_self.
    + replace (dot k (vneg k) / normsq k) with (-1).
      * clear. veq.
      * replace (dot k (vneg k)) with (- normsq k) by (clear; vdes; vunf; ring). field; lra.
Qed.

Lemma deg_scale x : x * (180 / PI) < 1/2 <-> x < PI / 360.
Proof.
  pose proof PI_RGT_0. split; intros H1.
  - apply (Rmult_lt_reg_r (180 / PI)); [apply Rdiv_lt_0_compat; lra|]. replace (PI/360 * (180/PI)) with (1/2) by (field; lra). auto.
  - replace (1/2) with (PI/360 * (180/PI)) by (field; lra). apply Rmult_lt_compat_r; auto. apply Rdiv_lt_0_compat; lra.
Qed.
Lemma deg_scale' x : 180 - 1/2 < x * (180 / PI) <-> PI - PI / 360 < x.
Proof.
  pose proof PI_RGT_0. split; intros H1.
  - apply (Rmult_lt_reg_r (180 / PI)); [apply Rdiv_lt_0_compat; lra|]. replace ((PI - PI/360) * (180/PI)) with (180 - 1/2) by (field; lra). auto.
  - replace (180 - 1/2) with ((PI - PI/360) * (180/PI)) by (field; lra). apply Rmult_lt_compat_r; auto. apply Rdiv_lt_0_compat; lra.
Qed.

Lemma eta_range k a kp : unit a -> transverse k kp <> vzero ->
  -1 <= dot a (transverse k kp) / norm (transverse k kp) <= 1.
Proof.
  intros Ha Ht. pose proof (norm_pos _ Ht) as Hn. pose proof (cauchy a (transverse k kp)) as C. rewrite Ha in C.
  apply Rabs_le_inv in C. split;
  apply (Rmult_le_reg_r (norm (transverse k kp))); auto; unfold Rdiv; rewrite Rmult_assoc, Rinv_l by lra; lra.
Qed.

Lemma lorentz_closed z k a kp : unit a -> k <> vzero -> norm kp = norm k -> transverse k kp <> vzero ->
  lorentz z k a kp =
  let tt := scattering_angle k kp in let eta := azimuth k a kp in
  if Rltb eta (PI/360) || Rltb (PI - PI/360) eta || Rltb (tt / 2) (PI/360) then PInf
  else ndiv z (Fin 1) (Fin (sin tt * Rabs (sin eta))).
Proof.
  intros Ha Hk E Ht. unfold lorentz. rewrite norm_pow2'. pose proof (normsq_pos k Hk) as Hp.
  rewrite (ndiv_fin z (dot k kp) (normsq k)) by lra.
  rewrite (nacos_in (dot k kp / normsq k)) by (apply kk_range; auto).
  rewrite (ndiv_fin z _ 2) by lra.
  fold (transverse k kp). fold (scattering_angle k kp).
  pose proof (norm_pos _ Ht) as Hn.
  rewrite (ndiv_fin z (dot a (transverse k kp)) (norm (transverse k kp))) by lra.
  rewrite (nacos_in (dot a (transverse k kp) / norm (transverse k kp))) by (apply eta_range; auto).
  fold (azimuth k a kp).
  set (tt := scattering_angle k kp). set (eta := azimuth k a kp).
  assert (Heta : 0 <= eta <= PI) by (apply acos_bound).
  cbn [nrad2deg nmul nabs nsin nlt]. cbv zeta.
  pose proof PI_RGT_0.
  assert (P180 : 0 < 180 / PI) by (apply Rdiv_lt_0_compat; lra).
  rewrite (Rabs_right (eta * (180/PI))) by (apply Rle_ge, Rmult_le_pos; lra).
  assert (X1 : Rltb (eta * (180/PI)) (1/2) = Rltb eta (PI/360)).
  { destruct (Rltb eta (PI/360)) eqn:B; [apply Rltb_true in B; apply Rltb_true, deg_scale; auto|].
    apply Rltb_false in B. apply Rltb_false. apply Rnot_lt_le. intros C. apply deg_scale in C. lra. }
  assert (X2 : Rltb (180 - 1/2) (eta * (180/PI)) = Rltb (PI - PI/360) eta).
  { destruct (Rltb (PI - PI/360) eta) eqn:B; [apply Rltb_true in B; apply Rltb_true, deg_scale'; auto|].
    apply Rltb_false in B. apply Rltb_false. apply Rnot_lt_le. intros C. apply deg_scale' in C. lra. }
  assert (X3 : Rltb (tt / 2 * (180/PI)) (1/2) = Rltb (tt/2) (PI/360)).
  { destruct (Rltb (tt/2) (PI/360)) eqn:B; [apply Rltb_true in B; apply Rltb_true, deg_scale; auto|].
    apply Rltb_false in B. apply Rltb_false. apply Rnot_lt_le. intros C. apply deg_scale in C. lra. }
  rewrite X1, X2, X3. replace (2 * (tt/2)) with tt by field. reflexivity.
Qed.

(** Forward direction: infinite. *)
Lemma lorentz_forward z k a : k <> vzero -> lorentz z k a k = PInf.
Proof.
  intros Hk. unfold lorentz. rewrite norm_pow2'. pose proof (normsq_pos k Hk) as Hp.
  change (dot k k) with (normsq k).
  rewrite (ndiv_fin z (normsq k) (normsq k)) by lra. replace (normsq k / normsq k) with 1 by (field; lra).
  rewrite (nacos_in 1) by lra. rewrite acos_1. rewrite (ndiv_fin z 0 2) by lra. cbn [nrad2deg nmul nlt].
  replace (0 / 2 * (180 / PI)) with 0 by (field; pose proof PI_RGT_0; lra).
  replace (Rltb 0 (1/2)) with true by (symmetry; apply Rltb_true; lra). rewrite !orb_true_r. reflexivity.
Qed.
(** Exact backscatter: NaN. *)
Lemma lorentz_back z k a : k <> vzero -> lorentz z k a (vneg k) = NaN.
Proof.
  intros Hk. unfold lorentz. rewrite norm_pow2'. pose proof (normsq_pos k Hk) as Hp.
  replace (dot k (vneg k)) with (- normsq k) by (clear; vdes; vunf; ring).
  rewrite (ndiv_fin z (- normsq k) (normsq k)) by lra. replace (- normsq k / normsq k) with (-1) by (field; lra).
  cbv iota.
  replace (vsub (vneg k) (vscale (-1) k)) with vzero by (clear; veq).
  replace (dot a vzero) with 0 by (clear; vdes; vunf; ring).
  replace (norm vzero) with 0 by (unfold norm; replace (normsq vzero) with 0 by (vunf; ring); now rewrite sqrt_0).
  assert (N : ndiv z (Fin 0) (Fin 0) = NaN).
  { unfold ndiv. destruct (Req_EM_T 0 0); [auto|lra]. }
  rewrite N. rewrite (nacos_in (-1)) by lra.
  replace (acos (-1)) with PI.
  2:{ change (-1) with (- (1)). rewrite acos_opp, acos_1. ring. }
  rewrite (ndiv_fin z PI 2) by lra. cbn [nacos nrad2deg nmul nabs nsin nlt orb].
  replace (Rltb (PI / 2 * (180 / PI)) (1 / 2)) with false; [reflexivity|].
  symmetry. apply Rltb_false. pose proof PI_RGT_0. replace (PI/2 * (180/PI)) with 90 by (field; lra). lra.
Qed.

Lemma acos_strict x : -1 < x < 1 -> 0 < acos x < PI.
Proof. intros H. apply acos_bound_lt; auto. Qed.

(** The Lorentz factor of an elastically scattered reflection is NaN for exact
    backscattering only; otherwise it is +infinity (exactly when the scattering
    angle is below one degree or the scattered direction is within half a degree
    of the axis azimuth) or the finite number 1/(sin(2 theta) |sin(eta)|), which
    is at least 1.  It is never negative. *)
Lemma pC59_lorentz_cases : forall z k a kp, unit a -> k <> vzero -> norm kp = norm k ->
  (kp = vneg k /\ lorentz z k a kp = NaN) \/
  (kp <> vneg k /\ lorentz z k a kp = PInf /\
     (kp = k \/ scattering_angle k kp < PI/180 \/ azimuth k a kp < PI/360 \/ PI - PI/360 < azimuth k a kp)) \/
  (exists r, lorentz z k a kp = Fin r /\ 1 <= r /\
     PI/180 <= scattering_angle k kp < PI /\ PI/360 <= azimuth k a kp <= PI - PI/360 /\
     r = 1 / (sin (scattering_angle k kp) * Rabs (sin (azimuth k a kp)))).
Proof.
  intros z k a kp Ha Hk E.
  destruct (Req_EM_T (normsq (transverse k kp)) 0) as [H0|H0].
  { apply normsq_0 in H0. apply (transverse_zero k kp Hk E) in H0.
    assert (Hkk : k <> vneg k).
    { intros X. apply Hk. apply (f_equal (fun v => vadd v k)) in X. clear - X. destruct k as [x y w]. unfold vadd, vneg in X; simpl in X.
      inversion X. unfold vzero. f_equal; lra. }
    destruct H0 as [-> | ->].
    - right; left. split; auto. split; [apply lorentz_forward; auto|auto].
    - left. split; auto. apply lorentz_back; auto. }
  assert (Ht : transverse k kp <> vzero) by (intros X; apply H0; apply normsq_0; auto).
  assert (Hnb : kp <> vneg k) by (intros X; apply Ht, transverse_zero; auto).
  assert (Hnk : kp <> k) by (intros X; apply Ht, transverse_zero; auto).
  right. rewrite (lorentz_closed z k a kp Ha Hk E Ht). cbv zeta.
  set (tt := scattering_angle k kp). set (eta := azimuth k a kp).
  destruct (Rltb eta (PI/360) || Rltb (PI - PI/360) eta || Rltb (tt/2) (PI/360)) eqn:B.
  - left. split; auto. split; auto. right.
    apply orb_true_iff in B as [B|B]; [apply orb_true_iff in B as [B|B]|]; apply Rltb_true in B; auto. left. lra.
  - right. apply orb_false_iff in B as [B B3]. apply orb_false_iff in B as [B1 B2].
    apply Rltb_false in B1, B2, B3. pose proof PI_RGT_0.
    assert (Hc : -1 < dot k kp / normsq k < 1).
    { pose proof (transverse_sq k kp Hk E) as S. pose proof (normsq_pos _ Ht). pose proof (normsq_pos k Hk).
      set (c := dot k kp / normsq k) in *. assert (0 < 1 - c^2) by nra. split; nra. }
    assert (Htt : 0 < tt < PI) by (apply acos_strict; auto).
    assert (S1 : 0 < sin tt) by (apply sin_gt_0; lra).
    assert (S2 : 0 < sin eta) by (apply sin_gt_0; lra).
    rewrite (Rabs_right (sin eta)) by lra.
    assert (P : 0 < sin tt * sin eta) by (apply Rmult_lt_0_compat; auto).
    exists (1 / (sin tt * sin eta)). split; [apply ndiv_fin; lra|]. split.
    + apply (Rmult_le_reg_r (sin tt * sin eta)); auto. unfold Rdiv. rewrite Rmult_assoc, Rinv_l by lra.
      pose proof (SIN_bound tt). pose proof (SIN_bound eta). nra.
    + repeat split; lra.
Qed.

(** Meaning, for the usual geometry of a rotation axis orthogonal to the beam: a
    finite factor is |k|^2 / |a . (k x k')|, the inverse speed at which the
    reflection crosses the Ewald sphere per unit rotation angle. *)
Lemma pC59_lorentz_speed : forall z k a kp r, unit a -> k <> vzero -> norm kp = norm k -> orthogonal a k ->
  lorentz z k a kp = Fin r -> r = normsq k / Rabs (triple a k kp).
Proof.
  intros z k a kp r Ha Hk E Ho H.
  destruct (pC59_lorentz_cases z k a kp Ha Hk E) as [(_ & X)|[(_ & X & _)|(r' & X & Hr1 & Htt & Heta & Hr)]];
    rewrite X in H; try discriminate. assert (r = r') as -> by congruence. clear H.
  pose proof (normsq_pos k Hk) as Hp.
  assert (Ht : transverse k kp <> vzero).
  { intros T. apply (transverse_zero k kp Hk E) in T. destruct T as [-> | ->].
    - rewrite (lorentz_forward z k a Hk) in X. discriminate.
    - rewrite (lorentz_back z k a Hk) in X. discriminate. }
  pose proof (norm_pos _ Ht) as Hn.
  set (c := dot k kp / normsq k) in *. set (u := transverse k kp) in *.
  (* sin of the angles *)
  assert (Hc : -1 <= c <= 1) by (apply kk_range; auto).
  assert (S1 : sin (scattering_angle k kp) = sqrt (1 - c^2)).
  { unfold scattering_angle. fold c. rewrite sin_acos by lra. f_equal. unfold Rsqr. ring. }
  set (d := dot a u / norm u) in *.
  assert (Hd : -1 <= d <= 1) by (apply eta_range; auto).
  assert (S2 : sin (azimuth k a kp) = sqrt (1 - d^2)).
  { unfold azimuth. fold u. fold d. rewrite sin_acos by lra. f_equal. unfold Rsqr. ring. }
  assert (T1 : normsq u = normsq k * (1 - c^2)) by (apply transverse_sq; auto).
  assert (T2 : triple a k kp = triple a k u).
  { unfold u, transverse. fold c. clear. unfold triple. vdes; vunf; ring. }
  assert (T3 : dot k u = 0).
  { unfold u, transverse. fold c. replace (dot k (vsub kp (vscale c k))) with (dot k kp - c * normsq k) by (clear; vdes; vunf; ring).
    unfold c. field. lra. }
  (* Gram: triple^2 = |a|^2|k|^2|u|^2 - |k|^2 (a.u)^2 when a.k = k.u = 0 *)
  assert (G : triple a k u * triple a k u = normsq k * (normsq u - (dot a u)^2)).
  { assert (Gram : triple a k u * triple a k u = normsq a * normsq k * normsq u + 2 * dot a k * dot k u * dot a u
        - normsq a * (dot k u)^2 - normsq k * (dot a u)^2 - normsq u * (dot a k)^2)
      by (clear; generalize u; intros; vdes; vunf; ring).
    rewrite Gram. unfold orthogonal in Ho. rewrite Ho, T3. apply norm_unit in Ha. rewrite Ha. ring. }
  assert (G2 : triple a k kp * triple a k kp = (normsq k * (sqrt (1 - c^2) * sqrt (1 - d^2))) * (normsq k * (sqrt (1 - c^2) * sqrt (1 - d^2)))).
  { rewrite T2, G. assert (Ed : dot a u = d * norm u) by (unfold d; field; lra).
    assert (Z : (dot a u)^2 = d^2 * normsq u) by (rewrite Ed, <- norm_sq; ring). rewrite Z, T1.
    assert (Q1 : sqrt (1 - c^2) * sqrt (1 - c^2) = 1 - c^2) by (apply sqrt_sqrt; nra).
    assert (Q2 : sqrt (1 - d^2) * sqrt (1 - d^2) = 1 - d^2) by (apply sqrt_sqrt; nra).
    set (s1 := sqrt (1 - c^2)) in *. set (s2 := sqrt (1 - d^2)) in *.
    replace (normsq k * (s1 * s2) * (normsq k * (s1 * s2))) with (normsq k * normsq k * (s1 * s1) * (s2 * s2)) by ring.
    rewrite Q1, Q2. ring. }
  assert (A1 : Rabs (triple a k kp) = normsq k * (sqrt (1 - c^2) * sqrt (1 - d^2))).
  { rewrite <- (Rabs_right (normsq k * (sqrt (1 - c^2) * sqrt (1 - d^2)))).
    - apply Rsqr_eq_abs_0. exact G2.
    - apply Rle_ge. repeat apply Rmult_le_pos; try apply sqrt_pos; lra. }
  rewrite A1, Hr, S1, S2. rewrite (Rabs_right (sqrt (1 - d^2))) by (apply Rle_ge, sqrt_pos).
  pose proof PI_RGT_0.
  assert (0 < sqrt (1 - c^2)) by (rewrite <- S1; apply sin_gt_0; lra).
  assert (0 < sqrt (1 - d^2)) by (rewrite <- S2; apply sin_gt_0; lra).
  field. repeat split; lra.
Qed.
(** A batch of n reflections is returned as n factors, except that a single
    reflection comes back as a scalar, on which the caller's unsqueeze raises. *)
Lemma pC59_lorentz_batch : forall z k a kps,
  unsqueeze1 (lorentz_call z k a kps) =
  if Nat.eqb (length kps) 1 then Err IndexError else Ok (map (lorentz z k a) kps).
Proof.
  intros z k a kps. destruct kps as [|x [|y l]]; reflexivity.
Qed.

Lemma xC59_finite : exists r, lorentz false (V3 1 0 0) (V3 0 0 1) (V3 0 1 0) = Fin r /\ r = 1.
Proof.
  assert (U : unit (V3 0 0 1)) by (apply norm_unit; vunf; ring).
  assert (K : V3 1 0 0 <> vzero) by (intros X; inversion X; lra).
  assert (E : norm (V3 0 1 0) = norm (V3 1 0 0)) by (unfold norm; f_equal; vunf; ring).
  assert (T : transverse (V3 1 0 0) (V3 0 1 0) = V3 0 1 0) by (unfold transverse; vext; vunf; field).
  assert (Ht : transverse (V3 1 0 0) (V3 0 1 0) <> vzero) by (rewrite T; intros X; inversion X; lra).
  pose proof PI_RGT_0.
  rewrite (lorentz_closed _ _ _ _ U K E Ht). cbv zeta.
  assert (S : scattering_angle (V3 1 0 0) (V3 0 1 0) = PI/2).
  { unfold scattering_angle. replace (dot _ _ / _) with 0 by (vunf; field). apply acos_0. }
  assert (A : azimuth (V3 1 0 0) (V3 0 0 1) (V3 0 1 0) = PI/2).
  { unfold azimuth. rewrite T. replace (dot (V3 0 0 1) (V3 0 1 0)) with 0 by (vunf; ring). unfold Rdiv at 1. rewrite Rmult_0_l. apply acos_0. }
  rewrite S, A.
  replace (Rltb (PI/2) (PI/360)) with false by (symmetry; apply Rltb_false; lra).
  replace (Rltb (PI - PI/360) (PI/2)) with false by (symmetry; apply Rltb_false; lra).
  replace (Rltb (PI/2/2) (PI/360)) with false by (symmetry; apply Rltb_false; lra).
  cbn [orb]. rewrite sin_PI2, Rabs_R1. exists (1 / (1*1)). split; [apply ndiv_fin; lra|lra].
Qed.

(** ** C60 Scherrer *)
Lemma cbrt_pos x : 0 < x -> 0 < cbrt_nonneg x.
Proof. intros H. unfold cbrt_nonneg. destruct (Req_EM_T x 0); [lra|]. apply exp_pos. Qed.
Lemma cbrt_cube x : 0 <= x -> (cbrt_nonneg x)^3 = x.
Proof.
  intros H. unfold cbrt_nonneg. destruct (Req_EM_T x 0); [subst; ring|].
  rewrite <- Rpower_pow by (apply exp_pos). rewrite Rpower_mult.
  replace (1/3 * INR 3) with 1 by (simpl; field). apply Rpower_1. lra.
Qed.
Lemma cbrt_unique x y : 0 <= x -> 0 <= y -> y^3 = x -> cbrt_nonneg x = y.
Proof.
  intros Hx Hy E. pose proof (cbrt_cube x Hx) as C.
  assert (0 <= cbrt_nonneg x).
  { unfold cbrt_nonneg. destruct (Req_EM_T x 0); [lra|]. left. apply exp_pos. }
  set (c := cbrt_nonneg x) in *.
  assert ((c - y) * (c*c + c*y + y*y) = 0) by nra.
  apply Rmult_integral in H0. destruct H0; [lra|]. nra.
Qed.
Lemma cbrt_lt x y : 0 <= x -> x < y -> cbrt_nonneg x < cbrt_nonneg y.
Proof.
  intros Hx Hxy. apply Rnot_le_lt. intros C.
  pose proof (cbrt_cube x Hx) as Cx. pose proof (cbrt_cube y ltac:(lra)) as Cy.
  pose proof (cbrt_pos y ltac:(lra)) as P.
  set (a := cbrt_nonneg x) in *. set (b := cbrt_nonneg y) in *.
  assert (b^3 <= a^3) by (apply pow_incr; lra). lra.
Qed.
Lemma size_pos v : 0 < v -> 0 < crystallite_size v.
Proof.
  intros H. unfold crystallite_size. pose proof PI_RGT_0.
  assert (0 < cbrt_nonneg (3 * v / (4 * PI))) by (apply cbrt_pos; apply Rdiv_lt_0_compat; lra). lra.
Qed.
(** the size entering the formula is the diameter (in angstrom) of the sphere
    with the element's volume (in cubic microns) *)
Lemma pC60_size_is_equivalent_diameter : forall d, 0 <= d -> crystallite_size (PI * d^3 / 6) = d * 10000.
Proof.
  intros d Hd. unfold crystallite_size. pose proof PI_RGT_0.
  rewrite (cbrt_unique _ (d/2)); [field| | |].
  - apply Rmult_le_pos; [|left; apply Rinv_0_lt_compat; lra].
    assert (0 <= d^3) by (apply pow_le; auto). assert (0 <= PI * d^3) by (apply Rmult_le_pos; lra). lra.
  - lra.
  - field. lra.
Qed.
Lemma scherrer_fin z v tt l : 0 < v -> - PI < tt < PI ->
  scherrer z v tt l = Fin (scherrer_K * l / (crystallite_size v * cos (tt/2))) /\ 0 < crystallite_size v * cos (tt/2).
Proof.
  intros Hv Ht. assert (0 < crystallite_size v * cos (tt/2)).
  { apply Rmult_lt_0_compat; [apply size_pos; auto|apply cos_gt_0; lra]. }
  split; auto. unfold scherrer. apply ndiv_fin. lra.
Qed.
Lemma pC60_scherrer_positive : forall z v tt l, 0 < v -> 0 < l -> 0 <= tt < PI ->
  exists w, scherrer z v tt l = Fin w /\ 0 < w.
Proof.
  intros z v tt l Hv Hl Ht. destruct (scherrer_fin z v tt l Hv ltac:(lra)) as (E & P).
  eexists. split; [exact E|]. unfold scherrer_K. apply Rdiv_lt_0_compat; auto. lra.
Qed.
(** The Scherrer formula itself: an element with the volume of a ball of diameter d (microns, 10000
    angstroms each) broadens the peak by 0.9 wavelength / (d cos(theta)), theta half the scattering angle. *)
Lemma pC60_scherrer_formula : forall z d tt l, 0 < d -> - PI < tt < PI ->
  exists w, scherrer z (PI * d^3 / 6) tt l = Fin w /\ w * (d * 10000) * cos (tt / 2) = 9 / 10 * l.
Proof.
  intros z d tt l Hd Ht. pose proof PI_RGT_0. assert (H3 : 0 < d^3) by (apply pow_lt; auto).
  assert (Hv : 0 < PI * d^3 / 6) by (apply Rdiv_lt_0_compat; [apply Rmult_lt_0_compat; auto|lra]).
  destruct (scherrer_fin z _ tt l Hv Ht) as (E & P). eexists. split; [exact E|].
  assert (S : crystallite_size (PI * d^3 / 6) = d * 10000).
  { unfold crystallite_size, cbrt_nonneg. replace (3 * (PI * d^3 / 6) / (4 * PI)) with ((d/2)^3) by (field; lra).
    assert (0 < (d/2)^3) by (apply pow_lt; lra). destruct (Req_EM_T _ 0); [lra|].
    rewrite <- Rpower_pow, Rpower_mult by lra. replace (INR 3 * (1/3)) with 1 by (cbn [INR]; lra). rewrite Rpower_1 by lra. field. }
  rewrite S in *. assert (cos (tt / 2) <> 0) by (intros C; rewrite C in P; lra). unfold scherrer_K. field. split; auto; lra.
Qed.
Lemma pC60_scherrer_decreases_with_volume : forall z v v' tt l w w', 0 < v < v' -> 0 < l -> 0 <= tt < PI ->
  scherrer z v tt l = Fin w -> scherrer z v' tt l = Fin w' -> w' < w.
Proof.
  intros z v v' tt l w w' Hv Hl Ht E E'.
  destruct (scherrer_fin z v tt l ltac:(lra) ltac:(lra)) as (F & P).
  destruct (scherrer_fin z v' tt l ltac:(lra) ltac:(lra)) as (F' & P').
  rewrite F in E. rewrite F' in E'. inversion E; inversion E'; subst. unfold scherrer_K.
  apply Rmult_lt_compat_l; [lra|]. apply Rinv_lt_contravar; [apply Rmult_lt_0_compat; auto|].
  apply Rmult_lt_compat_r; [apply cos_gt_0; lra|]. unfold crystallite_size.
  assert (cbrt_nonneg (3 * v / (4 * PI)) < cbrt_nonneg (3 * v' / (4 * PI))); [|lra].
  pose proof PI_RGT_0. apply cbrt_lt.
  - apply Rmult_le_pos; [lra|]. left; apply Rinv_0_lt_compat; lra.
  - apply Rmult_lt_compat_r; [apply Rinv_0_lt_compat; lra|lra].
Qed.
Lemma pC60_scherrer_increases_with_angle : forall z v tt tt' l w w', 0 < v -> 0 < l -> 0 <= tt -> tt < tt' < PI ->
  scherrer z v tt l = Fin w -> scherrer z v tt' l = Fin w' -> w < w'.
Proof.
  intros z v tt tt' l w w' Hv Hl H0 Ht E E'.
  destruct (scherrer_fin z v tt l Hv ltac:(lra)) as (F & P).
  destruct (scherrer_fin z v tt' l Hv ltac:(lra)) as (F' & P').
  rewrite F in E. rewrite F' in E'. inversion E; inversion E'; subst. unfold scherrer_K.
  apply Rmult_lt_compat_l; [lra|]. apply Rinv_lt_contravar; [apply Rmult_lt_0_compat; auto|].
  apply Rmult_lt_compat_l; [apply size_pos; auto|].
  apply cos_decreasing_1; lra.
Qed.
(** Halving the linear size doubles the width; the width is proportional to the wavelength. *)
Lemma pC60_scherrer_scaling : forall z v tt l w, 0 < v -> 0 <= tt < PI -> scherrer z (8 * v) tt l = Fin w ->
  scherrer z v tt l = Fin (2 * w) /\ (forall c, scherrer z (8 * v) tt (c * l) = Fin (c * w)).
Proof.
  intros z v tt l w Hv Ht E.
  destruct (scherrer_fin z (8*v) tt l ltac:(lra) ltac:(lra)) as (F & P).
  destruct (scherrer_fin z v tt l Hv ltac:(lra)) as (F' & P').
  rewrite F in E. inversion E; subst; clear E.
  assert (S : crystallite_size (8 * v) = 2 * crystallite_size v).
  { unfold crystallite_size. pose proof PI_RGT_0.
    assert (Hx : 0 <= 3 * v / (4 * PI)) by (apply Rmult_le_pos; [lra|left; apply Rinv_0_lt_compat; lra]).
    rewrite (cbrt_unique (3 * (8 * v) / (4 * PI)) (2 * cbrt_nonneg (3 * v / (4 * PI)))); [ring| | |].
    - replace (3 * (8 * v) / (4 * PI)) with (8 * (3 * v / (4 * PI))) by (field; lra). lra.
    - pose proof (cbrt_pos (3 * v / (4 * PI)) ltac:(apply Rdiv_lt_0_compat; lra)). lra.
    - rewrite Rpow_mult_distr, cbrt_cube by auto. field. lra. }
  assert (C0 : 0 < cos (tt/2)) by (apply cos_gt_0; lra). pose proof (size_pos v Hv).
  split.
  - rewrite F'. f_equal. rewrite S. field. split; lra.
  - intros c. unfold scherrer. rewrite ndiv_fin by lra. f_equal. field. split; [lra|]. rewrite S; lra.
Qed.
(** Zero-volume elements (never produced by a mesh) would give an infinite width. *)
Lemma pC60_zero_volume : forall z tt l, 0 < l -> exists s, scherrer z 0 tt l = nsign_inf s.
Proof.
  intros z tt l Hl. unfold scherrer, crystallite_size, cbrt_nonneg.
  replace (3 * 0 / (4 * PI)) with 0 by (field; pose proof PI_RGT_0; lra).
  destruct (Req_EM_T 0 0); [|lra]. replace (2 * 0 * 10000 * cos (tt/2)) with 0 by ring.
  unfold ndiv. destruct (Req_EM_T 0 0); [|lra]. unfold scherrer_K.
  destruct (Req_EM_T (9/10*l) 0); [lra|]. eauto.
Qed.
Lemma xC60_value : exists w, scherrer false (PI/6) 0 1 = Fin w /\ w = 9/100000.
Proof.
  destruct (scherrer_fin false (PI/6) 0 1) as (E & _); [pose proof PI_RGT_0; lra|pose proof PI_RGT_0; lra|].
  eexists. split; [exact E|]. replace (PI/6) with (PI * 1^3/6) by field. rewrite pC60_size_is_equivalent_diameter by lra.
  replace (0/2) with 0 by field. rewrite cos_0. unfold scherrer_K. field.
Qed.
