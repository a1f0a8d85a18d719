(** * Proofs about MDetector (incident angle, wrapping cone, bounding box). *)
From Verif Require Import Vec Spec MMotion PMotion MLaue PLaue MMesh SMesh PMesh MScattering SScattering PScattering.
From Verif Require Import MStrain SStrain PStrain MBeam SBeam PBeam MPolycrystal SPolycrystal PPolycrystal.
From Verif Require Import MDetector SDetector PDetector PDetector2 PDetector3 PPolycrystal3.
Open Scope R_scope.
Local Notation len := List.length.

(** ** C49 *)
(** The recorded incident angle is the angle, in degrees, between the ray and the
    reversed normal -(zhat x yhat). *)
Lemma pC49_incident_angle : forall z d pd frames out r, built d ->
  rectangular (d_c0 d) (d_c1 d) (d_c2 d) -> fresh pd -> project z d pd frames = Ok out -> In r (pd_peaks out) ->
  exists dir, has_vec out r "K_out_x" "K_out_y" "K_out_z" dir /\
    has out r "incident_angle"
      (angle_between dir (vneg (plane_normal (d_c0 d) (d_c1 d) (d_c2 d))) * (180 / PI)).
Proof.
  intros z d pd frames out r' Hb Hr Hf Ho Hin.
  destruct (out_row _ _ _ _ _ _ Hf Ho Hin) as (r & zd & yd & a & Hir & Hl & Hk & E & -> & Hc).
  rewrite (keepb_fresh z d frames r zd yd a) in Hk by auto. apply andb_true_iff in Hk as [Hk _].
  apply (hit_iff z d _ _ _ _ _ Hb Hr E) in Hk as (v & o & p & Hv & Ho' & Hh). rewrite Hv, Ho' in E.
  exists v. split.
  - apply (has_vec_ncol _ _ _ _ _ 13); try (rewrite Hc; reflexivity); [rewrite app_length; lia|].
    unfold row_nvec in *. rewrite !ncol_app_l by lia. auto.
  - apply (has_col _ _ _ 27); [rewrite Hc; reflexivity|]. rewrite nth_error_app2 by lia. rewrite Hl. cbn [nth_error Nat.sub].
    destruct Hh as [Hh _]. rewrite intersection_closed in E by auto. cbv zeta in E.
    assert (Ea : a = Fin (incident_of d v)) by (destruct (Rltb _ 0); now inversion E). rewrite Ea.
    unfold incident_of, angle_between. fold (N_of d). f_equal. f_equal. f_equal.
    replace (norm (vneg (N_of d))) with (norm (N_of d)).
    2: { unfold norm. f_equal. generalize (N_of d). intros; vdes; vunf; ring. }
    replace (dot v (vneg (N_of d))) with (- dot v (N_of d)) by (generalize (N_of d); intros; vdes; vunf; ring).
    do 2 f_equal. unfold Rdiv. ring.
Qed.
(** Exchanging corners 1 and 2 describes the same physical rectangle; zd and yd are
    exchanged and the incident angle becomes its supplement. *)
Lemma pC49_corner_order : forall z d d' v o zd yd a, built d -> built d' ->
  d_c0 d' = d_c0 d -> d_c1 d' = d_c2 d -> d_c2 d' = d_c1 d ->
  dot v (plane_normal (d_c0 d) (d_c1 d) (d_c2 d)) <> 0 ->
  get_intersection z d (nfin v) (nfin o) = (zd, yd, Fin a) ->
  get_intersection z d' (nfin v) (nfin o) = (yd, zd, Fin (180 - a)).
Proof.
  intros z d d' v o zd yd a Hb Hb' E0 E1 E2 Hv H. fold (N_of d) in Hv.
  assert (HN : N_of d' = vneg (N_of d)).
  { unfold N_of, plane_normal. rewrite E0, E1, E2. generalize (vsub (d_c2 d) (d_c0 d)) (vsub (d_c1 d) (d_c0 d)). intros; veq. }
  assert (Dn : forall w, dot w (N_of d') = - dot w (N_of d)).
  { intros w. rewrite HN. generalize (N_of d); intros; vdes; vunf; ring. }
  assert (Hv0 : v <> vzero).
  { intros E. apply Hv. rewrite E. generalize (N_of d); intros; vdes; vunf; ring. }
  pose proof (N_nonzero _ _ Hv) as HN0.
  rewrite intersection_closed in H by auto. rewrite intersection_closed by (auto; rewrite Dn; lra).
  cbv zeta in *. assert (Es : svalue d' v o = svalue d v o).
  { unfold svalue. rewrite !Dn, E0. field. auto. }
  rewrite Es, E0.
  assert (Ea : incident_of d' v = 180 - incident_of d v).
  { unfold incident_of. rewrite Dn. replace (norm (N_of d')) with (norm (N_of d)).
    2: { rewrite HN. unfold norm. f_equal. generalize (N_of d). intros; vdes; vunf; ring. }
    pose proof (dot_norm_range v (N_of d) Hv0 HN0) as Hrng.
    replace (- (- dot v (N_of d) / (norm v * norm (N_of d)))) with (- - (dot v (N_of d) / (norm v * norm (N_of d)))).
    2: { unfold Rdiv. ring. }
    set (x := dot v (N_of d) / (norm v * norm (N_of d))) in *. rewrite (acos_opp (- x)).
    pose proof PI_neq0. field. auto. }
  unfold zhat_of, yhat_of in *. rewrite E0, E1, E2.
  destruct (Rltb (svalue d v o) 0); injection H as Hz Hy Ha; subst zd yd a; rewrite Ea; reflexivity.
Qed.
Lemma xC49_pair : exists d d' v o, built d /\ built d' /\ d_c0 d' = d_c0 d /\ d_c1 d' = d_c2 d /\ d_c2 d' = d_c1 d /\
  dot v (plane_normal (d_c0 d) (d_c1 d) (d_c2 d)) <> 0 /\
  (exists zd yd, get_intersection false d (nfin v) (nfin o) = (Fin zd, Fin yd, Fin 0)) /\
  (exists zd yd, get_intersection false d' (nfin v) (nfin o) = (Fin zd, Fin yd, Fin 180)).
Proof.
  destruct (ex_built (V3 10 (-1) (-1)) (V3 10 1 (-1)) (V3 10 (-1) 1) 4 4) as (d & Hb & H0 & H1 & H2 & _); try lia;
    try (apply vec_neq; simpl; lra).
  destruct (ex_built (V3 10 (-1) (-1)) (V3 10 (-1) 1) (V3 10 1 (-1)) 4 4) as (d' & Hb' & H0' & H1' & H2' & _); try lia;
    try (apply vec_neq; simpl; lra).
  assert (HN : N_of d = V3 (-4) 0 0) by (unfold N_of, plane_normal; rewrite H0, H1, H2; vext; vunf; lra).
  exists d, d', (V3 2 0 0), vzero. split; auto. split; auto. rewrite H0', H1', H2'.
  split; [auto|]. split; [auto|]. split; [auto|]. split; [fold (N_of d); rewrite HN; vunf; lra|].
  assert (A : exists zd yd, get_intersection false d (nfin (V3 2 0 0)) (nfin vzero) = (Fin zd, Fin yd, Fin 0)).
  { rewrite intersection_closed by (auto; rewrite HN; vunf; lra). cbv zeta.
    assert (Hs : svalue d (V3 2 0 0) vzero = 5) by (unfold svalue; rewrite HN, H0; vunf; field).
    rewrite Hs. destruct (Rltb 5 0) eqn:E; [apply Rltb_true in E; lra|]. do 2 eexists. repeat f_equal.
    unfold incident_of. rewrite HN. rewrite (norm_sqrt_eq (V3 2 0 0) 2), (norm_sqrt_eq (V3 (-4) 0 0) 4) by (vunf; lra).
    replace (- (dot (V3 2 0 0) (V3 (-4) 0 0) / (2 * 4))) with 1 by (vunf; field). rewrite acos_1. ring. }
  split; auto. destruct A as (zd & yd & A).
  apply (pC49_corner_order false d d' (V3 2 0 0) vzero) in A; auto; try congruence.
  - exists yd, zd. rewrite A. repeat f_equal. ring.
  - fold (N_of d). rewrite HN. vunf. lra.
Qed.

(** ** C34 *)
Lemma corner_angle_closed z k src c : k <> vzero -> c <> src ->
  corner_angle z k src c = Fin (angle_between (vsub c src) k).
Proof.
  intros Hk Hc. assert (Hg : vsub c src <> vzero).
  { intros E. apply Hc. rewrite <- (vsub_add c src), E. apply vadd_0_l. }
  unfold corner_angle. cbv zeta. rewrite !nnorm_nfin, !nvdiv_nfin by (apply norm_neq0; auto). rewrite ndot_nfin.
  pose proof (norm_pos _ Hk). pose proof (norm_pos _ Hg).
  replace (dot (vscale (/ norm (vsub c src)) (vsub c src)) (vscale (/ norm k) k))
    with (dot (vsub c src) k / (norm (vsub c src) * norm k)).
  - rewrite nacos_in by (apply dot_norm_range; auto). reflexivity.
  - rewrite dot_scale_l, dot_scale_r. field. lra.
Qed.
Lemma nmax_fin a b : nmax (Fin a) (Fin b) = Fin (Rmax a b).
Proof.
  simpl. unfold Rmax. destruct (Rltb a b) eqn:E; destruct (Rle_dec a b); auto.
  - apply Rltb_true in E. lra.
  - apply Rltb_false in E. f_equal. lra.
Qed.
Definition corners (d : detector) : list vec :=
  [d_c0 d; d_c1 d; d_c2 d; vadd (d_c2 d) (vsub (d_c1 d) (d_c0 d))].
Lemma wrapping_closed z d k src : k <> vzero -> (forall c, In c (corners d) -> c <> src) ->
  exists m, wrapping_cone z d k src = Fin (m / 2) /\
    (forall c, In c (corners d) -> angle_between (vsub c src) k <= m) /\
    (exists c, In c (corners d) /\ angle_between (vsub c src) k = m).
Proof.
  intros Hk Hc. unfold wrapping_cone. cbv zeta. rewrite !corner_angle_closed by (auto; apply Hc; unfold corners; simpl; auto).
  rewrite !nmax_fin, ndiv_fin by lra. eexists. split; [reflexivity|].
  set (a0 := angle_between (vsub (d_c0 d) src) k). set (a1 := angle_between (vsub (d_c1 d) src) k).
  set (a2 := angle_between (vsub (d_c2 d) src) k). set (a3 := angle_between (vsub (vadd (d_c2 d) (vsub (d_c1 d) (d_c0 d))) src) k).
  split.
  - intros c [<-|[<-|[<-|[<-|[]]]]]; fold a0 a1 a2 a3; unfold Rmax; repeat destruct (Rle_dec _ _); lra.
  - unfold Rmax at 1. destruct (Rle_dec _ a3); [exists (vadd (d_c2 d) (vsub (d_c1 d) (d_c0 d))); simpl; auto 6|].
    unfold Rmax at 1. destruct (Rle_dec _ a2); [exists (d_c2 d); simpl; auto|].
    unfold Rmax. destruct (Rle_dec a0 a1); [exists (d_c1 d); simpl; auto|exists (d_c0 d); simpl; auto].
Qed.
(** The maximum Bragg angle taken from the detector is half of the largest angle
    between the beam and the directions of the four corners. *)
Lemma pC34_half_of_largest_corner_angle : forall z d k src, k <> vzero ->
  let cs := [d_c0 d; d_c1 d; d_c2 d; vadd (d_c2 d) (vsub (d_c1 d) (d_c0 d))] in
  (forall c, In c cs -> c <> src) ->
  exists m, wrapping_cone z d k src = Fin (m / 2) /\
    (forall c, In c cs -> angle_between (vsub c src) k <= m) /\
    (exists c, In c cs /\ angle_between (vsub c src) k = m).
Proof. intros z d k src Hk cs Hc. apply wrapping_closed; auto. Qed.

Lemma acos_le_cos x m : -1 <= x <= 1 -> 0 <= m <= PI -> cos m <= x -> acos x <= m.
Proof.
  intros Hx Hm H. pose proof (acos_bound x). apply Rnot_lt_le. intros C.
  apply cos_decreasing_1 in C; try lra. rewrite cos_acos in C by auto. lra.
Qed.
Lemma angle_cos a b m : a <> vzero -> b <> vzero -> 0 <= m <= PI ->
  (angle_between a b <= m <-> cos m * (norm a * norm b) <= dot a b).
Proof.
  intros Ha Hb Hm. pose proof (norm_pos _ Ha). pose proof (norm_pos _ Hb).
  pose proof (dot_norm_range a b Ha Hb) as Hr. unfold angle_between.
  assert (P : 0 < norm a * norm b) by (apply Rmult_lt_0_compat; auto).
  assert (E : dot a b = dot a b / (norm a * norm b) * (norm a * norm b)) by (field; lra).
  rewrite E at 2. split.
  - intros H1. apply Rmult_le_compat_r; [lra|]. rewrite <- (cos_acos (dot a b / (norm a * norm b))) by auto.
    pose proof (acos_bound (dot a b / (norm a * norm b))). destruct H1 as [H1|H1]; [|rewrite H1; lra].
    left. apply cos_decreasing_1; lra.
  - intros H1. apply Rmult_le_reg_r in H1; auto. apply acos_le_cos; auto.
Qed.
Lemma norm_triangle4 a b c e p q r s : 0 <= p -> 0 <= q -> 0 <= r -> 0 <= s ->
  norm (vadd (vadd (vscale p a) (vscale q b)) (vadd (vscale r c) (vscale s e))) <=
  p * norm a + q * norm b + r * norm c + s * norm e.
Proof.
  intros. eapply Rle_trans; [apply norm_triangle|].
  pose proof (norm_triangle (vscale p a) (vscale q b)). pose proof (norm_triangle (vscale r c) (vscale s e)).
  rewrite !norm_scale, !Rabs_right in * by lra. lra.
Qed.
(** If no corner is more than 90 degrees away from the beam direction, the whole
    sensitive area is inside the cone of twice the maximum Bragg angle. *)
Lemma pC34_cone_covers_detector : forall z d k src m p, k <> vzero ->
  (forall c, In c [d_c0 d; d_c1 d; d_c2 d; vadd (d_c2 d) (vsub (d_c1 d) (d_c0 d))] -> c <> src) ->
  wrapping_cone z d k src = Fin m -> 2 * m <= PI / 2 ->
  on_surface (d_c0 d) (d_c1 d) (d_c2 d) p -> p <> src ->
  angle_between (vsub p src) k <= 2 * m.
Proof.
  intros z d k src m p Hk Hc Hw Hm (a & b & Ha & Hb & Hp) Hps.
  destruct (wrapping_closed z d k src Hk Hc) as (m' & E & Hall & (c & Hin & Hex)). rewrite Hw in E.
  injection E as E. assert (Em : m' = 2 * m) by lra. rewrite Em in Hall, Hex. clear Em E.
  assert (D : forall x y, x <> y -> vsub x y <> vzero).
  { intros x y Hn E. apply Hn. rewrite <- (vsub_add x y), E. apply vadd_0_l. }
  assert (M0 : 0 <= 2 * m <= PI).
  { split; [rewrite <- Hex; apply acos_bound|]. pose proof PI_RGT_0. lra. }
  assert (Hcos : 0 <= cos (2 * m)) by (apply cos_ge_0; pose proof PI_RGT_0; lra).
  apply angle_cos; auto.
  assert (A : forall c, In c (corners d) -> cos (2*m) * (norm (vsub c src) * norm k) <= dot (vsub c src) k).
  { intros c' Hc'. apply angle_cos; auto. }
  set (c0 := vsub (d_c0 d) src). set (c1 := vsub (d_c1 d) src). set (c2 := vsub (d_c2 d) src).
  set (c3 := vsub (vadd (d_c2 d) (vsub (d_c1 d) (d_c0 d))) src).
  assert (Ep : vsub p src = vadd (vadd (vscale ((1-a)*(1-b)) c0) (vscale ((1-a)*b) c1))
                                 (vadd (vscale (a*(1-b)) c2) (vscale (a*b) c3))).
  { subst p c0 c1 c2 c3. generalize (d_c0 d) (d_c1 d) (d_c2 d). intros; veq. }
  pose proof (A (d_c0 d) ltac:(simpl; auto)) as A0. pose proof (A (d_c1 d) ltac:(simpl; auto)) as A1.
  pose proof (A (d_c2 d) ltac:(simpl; auto)) as A2.
  pose proof (A (vadd (d_c2 d) (vsub (d_c1 d) (d_c0 d))) ltac:(simpl; auto 6)) as A3.
  fold c0 in A0. fold c1 in A1. fold c2 in A2. fold c3 in A3.
  assert (W1 : 0 <= (1-a)*(1-b)) by nra. assert (W2 : 0 <= (1-a)*b) by nra.
  assert (W3 : 0 <= a*(1-b)) by nra. assert (W4 : 0 <= a*b) by nra.
  pose proof (norm_triangle4 c0 c1 c2 c3 _ _ _ _ W1 W2 W3 W4) as T. rewrite Ep.
  match goal with |- _ <= dot ?w k => replace (dot w k) with
    ((1-a)*(1-b) * dot c0 k + (1-a)*b * dot c1 k + a*(1-b) * dot c2 k + a*b * dot c3 k)
    by (clearbody c0 c1 c2 c3; clear; vdes; vunf; ring) end.
  revert T W1 W2 W3 W4 A0 A1 A2 A3.
  generalize ((1-a)*(1-b)) ((1-a)*b) (a*(1-b)) (a*b). intros w1 w2 w3 w4 T W1 W2 W3 W4 A0 A1 A2 A3.
  set (NN := norm (vadd (vadd (vscale w1 c0) (vscale w2 c1)) (vadd (vscale w3 c2) (vscale w4 c3)))) in *. pose proof (norm_nonneg k).
  assert (X : cos (2*m) * (NN * norm k) <= cos (2*m) * ((w1 * norm c0 + w2 * norm c1 + w3 * norm c2 + w4 * norm c3) * norm k)).
  { apply Rmult_le_compat_l; auto. apply Rmult_le_compat_r; auto. }
  apply (Rmult_le_compat_l w1) in A0; auto. apply (Rmult_le_compat_l w2) in A1; auto.
  apply (Rmult_le_compat_l w3) in A2; auto. apply (Rmult_le_compat_l w4) in A3; auto.
  eapply Rle_trans; [exact X|]. clear X. 
  replace (cos (2 * m) * ((w1 * norm c0 + w2 * norm c1 + w3 * norm c2 + w4 * norm c3) * norm k)) with
   (w1 * (cos (2 * m) * (norm c0 * norm k)) + w2 * (cos (2 * m) * (norm c1 * norm k)) +
    w3 * (cos (2 * m) * (norm c2 * norm k)) + w4 * (cos (2 * m) * (norm c3 * norm k))) by ring. lra.
Qed.

Lemma acos_strict_dec x y : -1 <= x -> x < y -> y <= 1 -> acos y < acos x.
Proof.
  intros H1 H2 H3. apply Rnot_le_lt. intros C. pose proof (acos_bound x). pose proof (acos_bound y).
  apply cos_decr_1 in C; try lra. rewrite !cos_acos in C by lra. lra.
Qed.
Lemma sqrt_gt a b : 0 <= b -> b * b < a -> b < sqrt a.
Proof. intros H1 H2. rewrite <- (sqrt_square b) by auto. apply sqrt_lt_1; nra. Qed.

(** Back-scatter: the centre of a detector behind the sample is outside of the cone. *)
Lemma pC34_backscatter_refuted : exists d k src m p, built d /\ rectangular (d_c0 d) (d_c1 d) (d_c2 d) /\ k <> vzero /\
  (forall z, wrapping_cone z d k src = Fin m) /\ on_surface (d_c0 d) (d_c1 d) (d_c2 d) p /\
  2 * m < angle_between (vsub p src) k.
Proof.
  destruct (ex_built (V3 (-10) (-1) (-1)) (V3 (-10) 1 (-1)) (V3 (-10) (-1) 1) 4 4) as (d & Hb & H0 & H1 & H2 & _); try lia;
    try (apply vec_neq; simpl; lra).
  assert (Hk : V3 1 0 0 <> vzero) by (apply vec_neq; simpl; lra).
  assert (Hc : forall c, In c (corners d) -> c <> vzero /\ angle_between (vsub c vzero) (V3 1 0 0) = acos (- 10 / (sqrt 102 * 1))).
  { unfold corners. rewrite H0, H1, H2. intros c Hin. unfold angle_between.
    rewrite (norm_sqrt_eq (V3 1 0 0) 1) by (vunf; lra). unfold norm.
    destruct Hin as [<-|[<-|[<-|[<-|[]]]]]; (split; [apply vec_neq; simpl; lra|]);
      (f_equal; f_equal; [vunf; lra|]); f_equal; f_equal; vunf; lra. }
  exists d, (V3 1 0 0), vzero, (acos (- 10 / (sqrt 102 * 1)) / 2), (V3 (-10) 0 0).
  split; auto. split; [rewrite H0, H1, H2; unfold rectangular; vunf; lra|]. split; auto. split; [|split].
  - intros z. destruct (wrapping_closed z d (V3 1 0 0) vzero Hk) as (m' & E & _ & (c & Hin & Hex)); [intros; now apply Hc|].
    rewrite E. f_equal. rewrite <- Hex. f_equal. now apply Hc.
  - exists (1/2), (1/2). rewrite H0, H1, H2. repeat split; try lra. vext; vunf; lra.
  - unfold angle_between. rewrite (norm_sqrt_eq (V3 1 0 0) 1), (norm_sqrt_eq (vsub (V3 (-10) 0 0) vzero) 10) by (vunf; lra).
    replace (dot (vsub (V3 (-10) 0 0) vzero) (V3 1 0 0) / (10 * 1)) with (-1) by (vunf; field).
    assert (10 < sqrt 102) by (apply sqrt_gt; lra).
    assert (Hi : 0 < / sqrt 102) by (apply Rinv_0_lt_compat; lra).
    assert (Hi2 : / sqrt 102 * sqrt 102 = 1) by (apply Rinv_l; lra).
    replace (-10 / (sqrt 102 * 1)) with (-10 * / sqrt 102) by (field; lra).
    pose proof (acos_strict_dec (-1) (-10 * / sqrt 102)). apply Rle_lt_trans with (acos (-10 * / sqrt 102)); [lra|].
    apply H3; nra.
Qed.
(** The cone is taken from one representative source point.  A ray starting at
    another point of the sample may reach the detector at a larger angle. *)
Lemma pC34_other_source_refuted : exists d k src src' m p, built d /\ rectangular (d_c0 d) (d_c1 d) (d_c2 d) /\ k <> vzero /\
  (forall z, wrapping_cone z d k src = Fin m) /\ 2 * m <= PI / 2 /\
  on_surface (d_c0 d) (d_c1 d) (d_c2 d) p /\ 2 * m < angle_between (vsub p src') k.
Proof.
  destruct (ex_built (V3 10 (-1) (-1)) (V3 10 1 (-1)) (V3 10 (-1) 1) 4 4) as (d & Hb & H0 & H1 & H2 & _); try lia;
    try (apply vec_neq; simpl; lra).
  assert (Hk : V3 1 0 0 <> vzero) by (apply vec_neq; simpl; lra).
  assert (Hc : forall c, In c (corners d) -> c <> vzero /\ angle_between (vsub c vzero) (V3 1 0 0) = acos (10 / (sqrt 102 * 1))).
  { unfold corners. rewrite H0, H1, H2. intros c Hin. unfold angle_between.
    rewrite (norm_sqrt_eq (V3 1 0 0) 1) by (vunf; lra). unfold norm.
    destruct Hin as [<-|[<-|[<-|[<-|[]]]]]; (split; [apply vec_neq; simpl; lra|]);
      (f_equal; f_equal; [vunf; lra|]); f_equal; f_equal; vunf; lra. }
  assert (10 < sqrt 102) by (apply sqrt_gt; lra).
  assert (Hi : 0 < / sqrt 102) by (apply Rinv_0_lt_compat; lra).
  assert (Hi2 : / sqrt 102 * sqrt 102 = 1) by (apply Rinv_l; lra).
  assert (Hq : 10 / (sqrt 102 * 1) = 10 * / sqrt 102) by (field; lra).
  exists d, (V3 1 0 0), vzero, (V3 10 0 0), (acos (10 / (sqrt 102 * 1)) / 2), (V3 10 1 0).
  split; auto. split; [rewrite H0, H1, H2; unfold rectangular; vunf; lra|]. split; auto.
  assert (Hlt : acos (10 * / sqrt 102) < acos 0) by (apply acos_strict_dec; nra). rewrite acos_0 in Hlt.
  split; [|split; [|split]].
  - intros z. destruct (wrapping_closed z d (V3 1 0 0) vzero Hk) as (m' & E & _ & (c & Hin & Hex)); [intros; now apply Hc|].
    rewrite E. f_equal. rewrite <- Hex. f_equal. now apply Hc.
  - rewrite Hq. lra.
  - exists (1/2), 1. rewrite H0, H1, H2. repeat split; try lra. vext; vunf; lra.
  - unfold angle_between. rewrite (norm_sqrt_eq (V3 1 0 0) 1), (norm_sqrt_eq (vsub (V3 10 1 0) (V3 10 0 0)) 1) by (vunf; lra).
    replace (dot (vsub (V3 10 1 0) (V3 10 0 0)) (V3 1 0 0) / (1 * 1)) with 0 by (vunf; field). rewrite acos_0, Hq. lra.
Qed.
Lemma xC34_square : exists d, built d /\ rectangular (d_c0 d) (d_c1 d) (d_c2 d) /\
  (forall c, In c [d_c0 d; d_c1 d; d_c2 d; vadd (d_c2 d) (vsub (d_c1 d) (d_c0 d))] -> c <> vzero) /\
  exists m, (forall z, wrapping_cone z d (V3 1 0 0) vzero = Fin m) /\ 2 * m <= PI / 2.
Proof.
  destruct (ex_built (V3 10 (-1) (-1)) (V3 10 1 (-1)) (V3 10 (-1) 1) 4 4) as (d & Hb & H0 & H1 & H2 & _); try lia;
    try (apply vec_neq; simpl; lra).
  exists d. split; auto. split; [rewrite H0, H1, H2; unfold rectangular; vunf; lra|].
  assert (Hc : forall c, In c (corners d) -> c <> vzero).
  { unfold corners. rewrite H0, H1, H2. intros c [<-|[<-|[<-|[<-|[]]]]]; apply vec_neq; simpl; lra. }
  split; [exact Hc|].
  assert (Hk : V3 1 0 0 <> vzero) by (apply vec_neq; simpl; lra).
  destruct (wrapping_closed false d (V3 1 0 0) vzero Hk Hc) as (m' & E & _ & (c & Hin & Hex)).
  exists (m' / 2). split.
  - intros z. rewrite <- E. unfold wrapping_cone. cbv zeta.
    rewrite !corner_angle_closed by (auto; apply Hc; unfold corners; simpl; auto).
    rewrite !nmax_fin, !ndiv_fin by lra. reflexivity.
  - replace (2 * (m' / 2)) with m' by field. rewrite <- Hex. rewrite <- acos_0. unfold angle_between.
    assert (Hg : vsub c vzero <> vzero).
    { intros Ez. apply (Hc c Hin). rewrite <- (vsub_add c vzero), Ez. apply vadd_0_l. }
    assert (Hd : 0 <= dot (vsub c vzero) (V3 1 0 0) / (norm (vsub c vzero) * norm (V3 1 0 0)) <= 1).
    { pose proof (dot_norm_range _ _ Hg Hk). split; [|lra]. apply Rmult_le_pos.
      - unfold corners in Hin. rewrite H0, H1, H2 in Hin. destruct Hin as [<-|[<-|[<-|[<-|[]]]]]; vunf; lra.
      - left. apply Rinv_0_lt_compat. apply Rmult_lt_0_compat; apply norm_pos; auto. }
    destruct Hd as [[Hd|Hd] Hd']; [left; apply acos_strict_dec; lra|]. rewrite <- Hd. lra.
Qed.

(** ** C35 *)
Lemma ztrunc_nonneg x : 0 <= x -> IZR (ztrunc x) <= x < IZR (ztrunc x) + 1 /\ (0 <= ztrunc x)%Z.
Proof.
  intros H. unfold ztrunc. destruct (Rlt_dec x 0); [lra|]. destruct (base_Int_part x) as [H1 H2].
  split; [lra|]. apply Z.lt_succ_r. apply lt_IZR. rewrite succ_IZR. lra.
Qed.
Lemma ztrunc_mono x y : 0 <= x -> x <= y -> (ztrunc x <= ztrunc y)%Z.
Proof.
  intros H1 H2. destruct (ztrunc_nonneg x H1) as [A _]. destruct (ztrunc_nonneg y) as [B _]; [lra|].
  apply Z.lt_succ_r. apply lt_IZR. rewrite succ_IZR. lra.
Qed.
Lemma clip_axis_inv r v lo hi : clip_axis r v = Some (lo, hi) -> 0 <= lo /\ lo <= hi /\ hi <= v.
Proof.
  unfold clip_axis. destruct r as [a b]. cbn [fst snd].
  destruct (nmax2 a (Fin 0)) as [l| | |] eqn:E1; try discriminate.
  destruct (nmin2 b (Fin v)) as [h| | |] eqn:E2; try discriminate.
  destruct (Rltb h l) eqn:E; [discriminate|]. intros H; inversion H; subst l h. apply Rltb_false in E.
  split; [|split; auto].
  - unfold nmax2 in E1. destruct (nlt a (Fin 0)) eqn:E'; [inversion E1; lra|]. subst a. cbn in E'. apply Rltb_false in E'. auto.
  - unfold nmin2 in E2. destruct (nlt (Fin v) b) eqn:E'; [inversion E2; lra|]. subst b. cbn in E'. apply Rltb_false in E'. auto.
Qed.
Lemma axis_box_spec lo hi v p i0 i1 : 0 < p -> 0 <= lo -> lo <= hi -> hi <= v ->
  axis_box (lo, hi) v p = (i0, i1) -> (0 <= i0)%Z /\ (i0 <= i1)%Z /\ IZR i1 * p <= v /\
  forall x i, lo <= x <= hi -> IZR i * p <= x < (IZR i + 1) * p -> (i0 <= i)%Z /\ ((IZR i + 1) * p <= v -> (i < i1)%Z).
Proof.
  intros Hp H0 H1 H2 E. unfold axis_box in E. cbn [fst snd] in E. injection E as E0 E1.
  assert (Hi : 0 < / p) by now apply Rinv_0_lt_compat.
  assert (M : forall x, 0 <= x -> 0 <= x / p) by (intros; apply Rmult_le_pos; lra).
  assert (L : forall x y, x <= y -> x / p <= y / p) by (intros; apply Rmult_le_compat_r; lra).
  destruct (ztrunc_nonneg (lo / p)) as [A1 A2]; [apply M; lra|].
  destruct (ztrunc_nonneg (hi / p)) as [B1 B2]; [apply M; lra|].
  destruct (ztrunc_nonneg (v / p)) as [C1 C2]; [apply M; lra|].
  pose proof (ztrunc_mono (lo / p) (hi / p) (M _ H0) (L _ _ H1)).
  pose proof (ztrunc_mono (hi / p) (v / p) (M _ (Rle_trans _ _ _ H0 H1)) (L _ _ H2)).
  subst i0 i1. split; [lia|]. split; [lia|]. split.
  - apply Rle_trans with (IZR (ztrunc (v / p)) * p); [apply Rmult_le_compat_r; [lra|]; apply IZR_le; lia|].
    apply Rmult_le_reg_r with (/ p); auto. rewrite Rmult_assoc, Rinv_r, Rmult_1_r by lra. apply C1.
  - intros x i Hx Hix. assert (D : x / p * p = x) by (unfold Rdiv; rewrite Rmult_assoc, Rinv_l; lra).
    assert (F : IZR i <= x / p < IZR i + 1) by nra.
    pose proof (L _ _ (proj1 Hx)). pose proof (L _ _ (proj2 Hx)). split.
    + apply Z.lt_succ_r, lt_IZR. rewrite succ_IZR. lra.
    + intros Hv. apply Z.min_glb_lt.
      * apply lt_IZR. rewrite plus_IZR. lra.
      * apply lt_IZR. assert (IZR i + 1 <= v / p).
        { apply Rmult_le_reg_r with p; auto. unfold Rdiv. rewrite Rmult_assoc, Rinv_l; lra. }
        assert (E' : IZR i + 1 < IZR (ztrunc (v / p)) + 1) by lra.
        rewrite <- !plus_IZR in E'. apply lt_IZR in E'. apply IZR_lt. lia.
Qed.
Lemma range_fin l : forall x, exists lo hi,
  fold_left nmin2 (map Fin l) (Fin x) = Fin lo /\ fold_left nmax2 (map Fin l) (Fin x) = Fin hi /\
  lo <= x <= hi /\ (forall y, In y l -> lo <= y <= hi) /\
  (lo = x \/ In lo l) /\ (hi = x \/ In hi l).
Proof.
  assert (A : forall l x, exists lo, fold_left nmin2 (map Fin l) (Fin x) = Fin lo /\ lo <= x /\ (forall y, In y l -> lo <= y) /\ (lo = x \/ In lo l)).
  { induction l0 as [|y l0 IH]; intros x; cbn [map fold_left].
    - exists x. repeat split; auto; try lra. intros y [].
    - unfold nmin2 at 2. cbn [nlt]. destruct (Rltb y x) eqn:E; [apply Rltb_true in E|apply Rltb_false in E].
      + destruct (IH y) as (lo & E1 & L1 & L2 & L3). exists lo. split; auto. split; [lra|]. split.
        * intros z [<-|Hz]; auto.
        * destruct L3 as [->|]; auto; right; simpl; auto.
      + destruct (IH x) as (lo & E1 & L1 & L2 & L3). exists lo. split; auto. split; [lra|]. split.
        * intros z [<-|Hz]; auto. lra.
        * destruct L3 as [->|]; auto; right; simpl; auto. }
  assert (B : forall l x, exists hi, fold_left nmax2 (map Fin l) (Fin x) = Fin hi /\ x <= hi /\ (forall y, In y l -> y <= hi) /\ (hi = x \/ In hi l)).
  { induction l0 as [|y l0 IH]; intros x; cbn [map fold_left].
    - exists x. repeat split; auto; try lra. intros y [].
    - unfold nmax2 at 2. cbn [nlt]. destruct (Rltb x y) eqn:E; [apply Rltb_true in E|apply Rltb_false in E].
      + destruct (IH y) as (lo & E1 & L1 & L2 & L3). exists lo. split; auto. split; [lra|]. split.
        * intros z [<-|Hz]; auto.
        * destruct L3 as [->|]; auto; right; simpl; auto.
      + destruct (IH x) as (lo & E1 & L1 & L2 & L3). exists lo. split; auto. split; [lra|]. split.
        * intros z [<-|Hz]; auto. lra.
        * destruct L3 as [->|]; auto; right; simpl; auto. }
  intros x. destruct (A l x) as (lo & A1 & A2 & A3 & A4). destruct (B l x) as (hi & B1 & B2 & B3 & B4).
  exists lo, hi. repeat split; auto.
Qed.
Lemma box_inv z d vs k r0 r1 c0 c1 : projected_box z d vs k = Some (r0, r1, c0, c1) ->
  exists lz hz ly hy, 0 <= lz /\ lz <= hz /\ hz <= d_zmax d /\ 0 <= ly /\ ly <= hy /\ hy <= d_ymax d /\
    axis_box (lz, hz) (d_zmax d) (d_pz d) = (r0, r1) /\ axis_box (ly, hy) (d_ymax d) (d_py d) = (c0, c1).
Proof.
  unfold projected_box. cbv zeta. destruct (range_of _) as [rz|]; [|discriminate].
  destruct (range_of _) as [ry|]; [|discriminate].
  destruct (clip_axis rz _) as [[lz hz]|] eqn:Ez; [|discriminate].
  destruct (clip_axis ry _) as [[ly hy]|] eqn:Ey; [|discriminate].
  destruct (axis_box (lz, hz) _ _) as [a b] eqn:E1. destruct (axis_box (ly, hy) _ _) as [a' b'] eqn:E2.
  intros H; inversion H; subst. apply clip_axis_inv in Ez as (? & ? & ?), Ey as (? & ? & ?).
  exists lz, hz, ly, hy. auto 10.
Qed.
(** The box lies inside of the pixel array, and only covers complete rows and
    columns: a partial last row or column is never part of any box. *)
Lemma pC35_box_inside_complete_pixels : forall z d vs k r0 r1 c0 c1, built d -> 0 < d_zmax d -> 0 < d_ymax d ->
  projected_box z d vs k = Some (r0, r1, c0, c1) ->
  (0 <= r0 <= r1)%Z /\ (0 <= c0 <= c1)%Z /\ (r1 <= Z.of_nat (d_nz d))%Z /\ (c1 <= Z.of_nat (d_ny d))%Z /\
  (d_zmax d < INR (d_nz d) * d_pz d -> (r1 <= Z.of_nat (d_nz d) - 1)%Z) /\
  (d_ymax d < INR (d_ny d) * d_py d -> (c1 <= Z.of_nat (d_ny d) - 1)%Z).
Proof.
  intros z d vs k r0 r1 c0 c1 Hb Pz Py H.
  apply box_inv in H as (lz & hz & ly & hy & A1 & A2 & A3 & B1 & B2 & B3 & Ez & Ey).
  destruct (pC30_grid_shape d Hb Pz Py) as (Q1 & Q2 & _ & _ & G1 & G2).
  destruct (axis_box_spec _ _ _ _ _ _ Q1 A1 A2 A3 Ez) as (Z1 & Z2 & Z3 & _).
  destruct (axis_box_spec _ _ _ _ _ _ Q2 B1 B2 B3 Ey) as (Y1 & Y2 & Y3 & _).
  assert (M : forall v p n i, 0 < p -> v / p <= INR n -> IZR i * p <= v ->
     (i <= Z.of_nat n)%Z /\ (v < INR n * p -> (i <= Z.of_nat n - 1)%Z)).
  { intros v p n i Hp Hn Hi. assert (v / p * p = v) by (unfold Rdiv; rewrite Rmult_assoc, Rinv_l; lra).
    rewrite INR_IZR_INZ in *. split.
    - apply le_IZR. apply Rmult_le_reg_r with p; auto. nra.
    - intros Hlt. assert (IZR i < IZR (Z.of_nat n)) by (apply Rmult_lt_reg_r with p; lra). apply lt_IZR in H0. lia. }
  destruct (M _ _ _ _ Q1 (proj2 G1) Z3). destruct (M _ _ _ _ Q2 (proj2 G2) Y3). repeat split; auto.
Qed.

Lemma traverse_fin z d k vs : (forall v, In v vs -> exists zd yd a, get_intersection z d (nfin k) (nfin v) = (Fin zd, Fin yd, a)) ->
  exists zs ys, map (fun t => fst (fst t)) (map (fun v => get_intersection z d (nfin k) (nfin v)) vs) = map Fin zs /\
    map (fun t => snd (fst t)) (map (fun v => get_intersection z d (nfin k) (nfin v)) vs) = map Fin ys /\
    (forall v zd yd a, In v vs -> get_intersection z d (nfin k) (nfin v) = (Fin zd, Fin yd, a) -> In zd zs /\ In yd ys) /\
    len zs = len vs /\ len ys = len vs.
Proof.
  induction vs as [|v vs IH]; intros H.
  - exists [], []. repeat split; auto; destruct H0.
  - destruct IH as (zs & ys & E1 & E2 & E3 & E4 & E5); [intros; apply H; right; auto|].
    destruct (H v) as (zd & yd & a & E); [left; auto|]. exists (zd :: zs), (yd :: ys). cbn [map]. rewrite E, E1, E2.
    split; [reflexivity|]. split; [reflexivity|]. split; [|simpl; lia].
    intros v' zd' yd' a' [<-|Hin] Hv.
    + rewrite E in Hv. inversion Hv; subst. split; left; auto.
    + destruct (E3 _ _ _ _ Hin Hv). split; right; auto.
Qed.
Lemma nonnan_fin l : filter nonnan (map Fin l) = map Fin l.
Proof. induction l; simpl; auto. now rewrite IHl. Qed.

(** zd and yd of a projected point are affine in the point. *)
Lemma coord_affine d k (w : vec) : dot k (N_of d) <> 0 -> exists n c, forall o,
  dot (vsub (ray_at o k (svalue d k o)) (d_c0 d)) w = dot n o + c.
Proof.
  intros Hk. exists (vsub w (vscale (dot k w / dot k (N_of d)) (N_of d))),
    (dot (d_c0 d) (N_of d) * (dot k w / dot k (N_of d)) - dot (d_c0 d) w).
  intros o. unfold ray_at, svalue. revert Hk. generalize (N_of d) (d_c0 d). intros n c Hk.
  replace (dot (vsub (vadd o (vscale (dot (vsub c o) n / dot k n) k)) c) w) with
    (dot o w + dot (vsub c o) n / dot k n * dot k w - dot c w).
  - replace (dot (vsub c o) n) with (dot c n - dot o n) by (vdes; vunf; ring).
    replace (dot (vsub w (vscale (dot k w / dot k n) n)) o) with (dot o w - dot k w / dot k n * dot o n).
    + field. auto.
    + generalize (dot k w / dot k n). intros s. vdes; vunf; ring.
  - generalize (dot (vsub c o) n / dot k n). intros s. vdes; vunf; ring.
Qed.
(** Suppose every vertex of the body projects forward onto the detector plane.
    If any point q of the body projects onto the detector, there is a box, and it
    contains the pixel row and column of that projection, unless these are
    partial (not completely inside of the detector). *)
Lemma pC35_box_covers_projection : forall z d vs k q zd yd a, built d -> 0 < d_pz d -> 0 < d_py d ->
  (forall v, In v vs -> exists x y a', get_intersection z d (nfin k) (nfin v) = (Fin x, Fin y, a')) ->
  in_hull vs q -> get_intersection z d (nfin k) (nfin q) = (Fin zd, Fin yd, a) ->
  0 <= zd <= d_zmax d -> 0 <= yd <= d_ymax d ->
  exists r0 r1 c0 c1, projected_box z d vs k = Some (r0, r1, c0, c1) /\
    forall i j, IZR i * d_pz d <= zd < (IZR i + 1) * d_pz d -> IZR j * d_py d <= yd < (IZR j + 1) * d_py d ->
      (r0 <= i)%Z /\ (c0 <= j)%Z /\
      ((IZR i + 1) * d_pz d <= d_zmax d -> (i < r1)%Z) /\ ((IZR j + 1) * d_py d <= d_ymax d -> (j < c1)%Z).
Proof.
  intros z d vs k q zd yd a Hb Ppz Ppy Hall Hq Eq Hz Hy.
  destruct (coordinate_finite z d _ _ _ _ _ Hb Eq) as (k' & q' & E1 & E2 & Hk & _); [left; eauto|].
  apply nfin_inj in E1, E2. subst k' q'. pose proof (N_nonzero _ _ Hk) as HN.
  assert (Hne : vs <> []).
  { destruct Hq as (ws & Hl & _ & Hs & _). intros ->. destruct ws; [|discriminate]. rewrite sum_list_nil in Hs. lra. }
  destruct (traverse_fin z d k vs Hall) as (zs & ys & Ez & Ey & Hin & Lz & Ly).
  destruct vs as [|v0 vs']; [contradiction|]. destruct zs as [|z0 zs]; [discriminate|]. destruct ys as [|y0 ys]; [discriminate|].
  unfold projected_box. cbv zeta. unfold range_of. rewrite Ez, Ey, !nonnan_fin. cbn [map].
  destruct (range_fin zs z0) as (lz & hz & F1 & F2 & F3 & F4 & _).
  destruct (range_fin ys y0) as (ly & hy & G1 & G2 & G3 & G4 & _).
  rewrite F1, F2, G1, G2.
  assert (Hcl : forall v x y a', get_intersection z d (nfin k) (nfin v) = (Fin x, Fin y, a') ->
     x = dot (vsub (ray_at v k (svalue d k v)) (d_c0 d)) (zhat_of d) /\
     y = dot (vsub (ray_at v k (svalue d k v)) (d_c0 d)) (yhat_of d)).
  { intros v x y a' E. rewrite intersection_closed in E by auto. cbv zeta in E.
    destruct (Rltb _ 0); [discriminate|]. injection E; auto. }
  assert (Hrange : lz <= zd <= hz /\ ly <= yd <= hy).
  { assert (A : forall w t lo hi, (forall v x y a', In v (v0 :: vs') -> get_intersection z d (nfin k) (nfin v) = (Fin x, Fin y, a') ->
        lo <= dot (vsub (ray_at v k (svalue d k v)) (d_c0 d)) w <= hi) ->
        t = dot (vsub (ray_at q k (svalue d k q)) (d_c0 d)) w -> lo <= t <= hi).
    { intros w t lo hi Hv Ht. destruct (coord_affine d k w Hk) as (n & c & Haff). rewrite Haff in Ht.
      pose proof (hull_halfspace _ _ (HS n (c - hi)) Hq) as HU. pose proof (hull_halfspace _ _ (HS (vneg n) (lo - c)) Hq) as HL.
      cbn [hs_n hs_d] in HU, HL.
      assert (dot n q + (c - hi) <= 0).
      { apply HU. intros v Hvin. destruct (Hall v Hvin) as (x & y & a' & E). specialize (Hv v x y a' Hvin E).
        rewrite Haff in Hv. lra. }
      assert (dot (vneg n) q + (lo - c) <= 0).
      { apply HL. intros v Hvin. destruct (Hall v Hvin) as (x & y & a' & E). specialize (Hv v x y a' Hvin E).
        rewrite Haff in Hv. replace (dot (vneg n) v) with (- dot n v) by (vdes; vunf; ring). lra. }
      replace (dot (vneg n) q) with (- dot n q) in H0 by (vdes; vunf; ring). lra. }
    apply Hcl in Eq as [Eqz Eqy]. split.
    - apply (A (zhat_of d)); auto. intros v x y a' Hvin E. destruct (Hin _ _ _ _ Hvin E) as [I1 I2].
      apply Hcl in E as [<- _]. destruct I1 as [<-|I1]; [lra|auto].
    - apply (A (yhat_of d)); auto. intros v x y a' Hvin E. destruct (Hin _ _ _ _ Hvin E) as [I1 I2].
      apply Hcl in E as [_ <-]. destruct I2 as [<-|I2]; [lra|auto]. }
  destruct Hrange as [Rz Ry].
  assert (C : forall lo hi v t, lo <= t <= hi -> 0 <= t <= v -> exists lo' hi', clip_axis (Fin lo, Fin hi) v = Some (lo', hi') /\
     lo' <= t <= hi' /\ 0 <= lo' /\ lo' <= hi' /\ hi' <= v).
  { intros lo hi v t H1 H2. unfold clip_axis, nmax2, nmin2. cbn [fst snd nlt].
    destruct (Rltb lo 0) eqn:E1; [apply Rltb_true in E1|apply Rltb_false in E1];
    destruct (Rltb v hi) eqn:E2; [apply Rltb_true in E2|apply Rltb_false in E2|apply Rltb_true in E2|apply Rltb_false in E2];
    match goal with |- context[if Rltb ?h ?l then _ else _] => replace (Rltb h l) with false by (symmetry; apply Rltb_false; lra);
      exists l, h end; repeat split; lra. }
  destruct (C lz hz (d_zmax d) zd Rz Hz) as (lz' & hz' & -> & Cz1 & Cz2 & Cz3 & Cz4).
  destruct (C ly hy (d_ymax d) yd Ry Hy) as (ly' & hy' & -> & Cy1 & Cy2 & Cy3 & Cy4).
  destruct (axis_box (lz', hz') (d_zmax d) (d_pz d)) as [r0 r1] eqn:Bz.
  destruct (axis_box (ly', hy') (d_ymax d) (d_py d)) as [c0 c1] eqn:By.
  exists r0, r1, c0, c1. split; auto. intros i j Hi Hj.
  destruct (axis_box_spec _ _ _ _ _ _ Ppz Cz2 Cz3 Cz4 Bz) as (_ & _ & _ & Sz).
  destruct (axis_box_spec _ _ _ _ _ _ Ppy Cy2 Cy3 Cy4 By) as (_ & _ & _ & Sy).
  destruct (Sz zd i Cz1 Hi). destruct (Sy yd j Cy1 Hj). auto.
Qed.

Lemma Int_part_of x n : IZR n <= x < IZR n + 1 -> 0 <= x -> ztrunc x = n.
Proof. intros H H0. unfold ztrunc. destruct (Rlt_dec x 0); [lra|]. now apply Int_part_eq. Qed.
(** A 4 x 4 detector with pixels of size 3: the array has 2 x 2 pixels. *)
Lemma ex_partial : exists d, built d /\ d_c0 d = V3 10 0 0 /\ d_c1 d = V3 10 4 0 /\ d_c2 d = V3 10 0 4 /\
  d_zmax d = 4 /\ d_ymax d = 4 /\ d_pz d = 3 /\ d_py d = 3 /\ d_nz d = 2%nat /\ d_ny d = 2%nat.
Proof.
  assert (D1 : norm (vsub (V3 10 0 4) (V3 10 0 0)) = 4) by (apply norm_sqrt_eq; vunf; lra).
  assert (D2 : norm (vsub (V3 10 4 0) (V3 10 0 0)) = 4) by (apply norm_sqrt_eq; vunf; lra).
  assert (A : arange_len 4 3 = Ok 2%nat).
  { unfold arange_len. destruct (Req_EM_T 3 0); [lra|]. replace (Rltb 3 0) with false by (symmetry; apply Rltb_false; lra).
    simpl. rewrite (ceil_eq (4/3) 2) by lra. reflexivity. }
  destruct (make_detector (V3 10 0 0) (V3 10 4 0) (V3 10 0 4) None (Some (Single 3)) 1 (2/100) 2 true true true) as [d|e] eqn:E.
  - exists d. assert (Hb : built d) by (repeat eexists; eauto). split; auto.
    apply make_detector_inv in E as (? & ? & ? & Hz & Hy & _ & _ & _ & Hp & Ha & Hc & _).
    unfold dist in *. rewrite D1 in *. rewrite D2 in *. simpl in Hp. inversion Hp as [[P1 P2]].
    rewrite <- P1 in *. rewrite <- P2 in *. rewrite A in *. inversion Ha. inversion Hc. auto 12.
  - exfalso. unfold make_detector in E. cbv zeta in E. unfold pixel_sizes in E. rewrite D1, D2 in E. simpl in E.
    rewrite A in E. discriminate.
Qed.
(** Vertices whose ray never meets the plane do not change the box; if none does there is no box. *)
Lemma pC35_missing_vertices_ignored : forall z d vs v ws k a, get_intersection z d (nfin k) (nfin v) = (NaN, NaN, a) ->
  projected_box z d (vs ++ v :: ws) k = projected_box z d (vs ++ ws) k.
Proof.
  intros z d vs v ws k a E. unfold projected_box. cbv zeta. rewrite !map_app. cbn [map]. rewrite E. cbn [fst snd]. unfold range_of. rewrite !filter_app. cbn [filter nonnan]. reflexivity.
Qed.
Lemma pC35_nothing_projected : forall z d vs k, (forall v, In v vs -> exists a, get_intersection z d (nfin k) (nfin v) = (NaN, NaN, a)) ->
  projected_box z d vs k = None.
Proof.
  intros z d vs k. induction vs as [|v vs IH]; intros H; [reflexivity|]. destruct (H v (or_introl eq_refl)) as (a & E).
  change (v :: vs) with (([] ++ v :: vs)%list). rewrite (pC35_missing_vertices_ignored z d [] v vs k a E). apply IH. intros w Hw. apply H. now right.
Qed.
(** A point that projects onto the detector, into a pixel of the array, but outside
    of its own box. *)
Lemma pC35_partial_row_refuted : exists d v k zd yd a r0 r1 c0 c1, built d /\
  get_intersection false d (nfin k) (nfin v) = (Fin zd, Fin yd, a) /\
  det_contains d (Fin zd) (Fin yd) = true /\ projected_box false d [v] k = Some (r0, r1, c0, c1) /\
  IZR 1 * d_pz d <= zd < (IZR 1 + 1) * d_pz d /\ (1 < d_nz d)%nat /\ ~ (r0 <= 1 < r1)%Z.
Proof.
  destruct ex_partial as (d & Hb & H0 & H1 & H2 & Hz & Hy & Pz & Py & Nz & Ny).
  assert (HN : N_of d = V3 (-16) 0 0) by (unfold N_of, plane_normal; rewrite H0, H1, H2; vext; vunf; lra).
  assert (Hs : svalue d (V3 1 0 0) (V3 0 (7/2) (7/2)) = 10) by (unfold svalue; rewrite HN, H0; vunf; field).
  assert (Hn : dot (V3 1 0 0) (N_of d) <> 0) by (rewrite HN; vunf; lra).
  assert (E : exists a, get_intersection false d (nfin (V3 1 0 0)) (nfin (V3 0 (7/2) (7/2))) = (Fin (7/2), Fin (7/2), a)).
  { rewrite intersection_closed by auto. cbv zeta. rewrite Hs.
    destruct (Rltb 10 0) eqn:E; [apply Rltb_true in E; lra|]. eexists. unfold zhat_of, yhat_of. rewrite H0, H1, H2. unfold dist.
    rewrite (norm_sqrt_eq (vsub (V3 10 0 4) _) 4), (norm_sqrt_eq (vsub (V3 10 4 0) _) 4) by (vunf; lra).
    unfold ray_at. f_equal. f_equal; f_equal; vunf; field. }
  destruct E as (a & E).
  exists d, (V3 0 (7/2) (7/2)), (V3 1 0 0), (7/2), (7/2), a, 1%Z, 1%Z, 1%Z, 1%Z.
  split; auto. split; auto. split; [apply pC29_contains_iff; exists (7/2), (7/2); rewrite Hz, Hy; repeat split; lra|].
  split; [|rewrite Pz, Nz; repeat split; try lra; try lia].
  unfold projected_box. cbv zeta. cbn [map]. rewrite E. cbn [fst snd range_of filter nonnan fold_left].
  unfold clip_axis, nmax2, nmin2. cbn [fst snd nlt]. rewrite Hz, Hy, Pz, Py.
  replace (Rltb (7/2) 0) with false by (symmetry; apply Rltb_false; lra).
  replace (Rltb 4 (7/2)) with false by (symmetry; apply Rltb_false; lra).
  replace (Rltb (7/2) (7/2)) with false by (symmetry; apply Rltb_false; lra).
  unfold axis_box. cbn [fst snd]. rewrite (Int_part_of (7/2/3) 1), (Int_part_of (4/3) 1) by lra. reflexivity.
Qed.
Lemma xC35_box : exists d v k q zd yd a, built d /\ 0 < d_pz d /\ 0 < d_py d /\ in_hull [v] q /\
  get_intersection false d (nfin k) (nfin v) = (Fin zd, Fin yd, a) /\
  get_intersection false d (nfin k) (nfin q) = (Fin zd, Fin yd, a) /\ 0 <= zd <= d_zmax d /\ 0 <= yd <= d_ymax d /\
  IZR 0 * d_pz d <= zd < (IZR 0 + 1) * d_pz d /\ (IZR 0 + 1) * d_pz d <= d_zmax d.
Proof.
  destruct ex_partial as (d & Hb & H0 & H1 & H2 & Hz & Hy & Pz & Py & Nz & Ny).
  assert (HN : N_of d = V3 (-16) 0 0) by (unfold N_of, plane_normal; rewrite H0, H1, H2; vext; vunf; lra).
  assert (Hs : svalue d (V3 1 0 0) (V3 0 1 2) = 10) by (unfold svalue; rewrite HN, H0; vunf; field).
  assert (Hn : dot (V3 1 0 0) (N_of d) <> 0) by (rewrite HN; vunf; lra).
  assert (E : exists a, get_intersection false d (nfin (V3 1 0 0)) (nfin (V3 0 1 2)) = (Fin 2, Fin 1, a)).
  { rewrite intersection_closed by auto. cbv zeta. rewrite Hs.
    destruct (Rltb 10 0) eqn:E; [apply Rltb_true in E; lra|]. eexists. unfold zhat_of, yhat_of. rewrite H0, H1, H2. unfold dist.
    rewrite (norm_sqrt_eq (vsub (V3 10 0 4) _) 4), (norm_sqrt_eq (vsub (V3 10 4 0) _) 4) by (vunf; lra).
    unfold ray_at. f_equal. f_equal; f_equal; vunf; field. }
  destruct E as (a & E). exists d, (V3 0 1 2), (V3 1 0 0), (V3 0 1 2), 2, 1, a.
  rewrite Pz, Py, Hz, Hy. repeat (split; [first [assumption|lra]|]). split.
  - exists [1]. repeat split; auto. + intros w [<-|[]]; lra. + unfold sum_list; simpl; lra. + cbn. vext; vunf; lra.
  - repeat (split; [first [assumption|lra]|]). lra.
Qed.
