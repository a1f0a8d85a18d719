(** * Proofs: a full turn taken in several scans (C108), the two angles of a reflection. *)
From Verif Require Import Vec Spec MMotion PMotion MLaue PLaue.
Open Scope R_scope.

Definition wrap (s : R) : R := if Rlt_dec s 0 then 2 * atan s + 2 * PI else 2 * atan s.
Lemma wrap_range s : 0 <= wrap s < 2 * PI /\ wrap s <> PI.
Proof.
  unfold wrap. pose proof (atan_bound s) as [A1 A2]. destruct (Rlt_dec s 0) as [L|L].
  - assert (atan s < 0) by (rewrite <- atan_0; now apply atan_increasing). split; [lra|]. lra.
  - assert (0 <= atan s). { rewrite <- atan_0. destruct (Rle_lt_or_eq_dec 0 s) as [K|K]; [lra| |subst; lra]. left. now apply atan_increasing. }
    split; [lra|]. lra.
Qed.
Lemma wrap_inj s t : wrap s = wrap t -> s = t.
Proof.
  assert (AI : forall u v, atan u = atan v -> u = v) by (intros u v E; rewrite <- (atan_right_inv u), <- (atan_right_inv v); now rewrite E).
  assert (W : forall u v, u < 0 -> ~ v < 0 -> 2 * atan u + 2 * PI = 2 * atan v -> False).
  { intros u v Hu Hv E. pose proof (atan_bound u). pose proof (atan_bound v). lra. }
  unfold wrap. destruct (Rlt_dec s 0), (Rlt_dec t 0); intros E; try (apply AI; lra); exfalso; eapply W; eauto.
Qed.
Lemma wrap_trig s : cos (wrap s) * (1 + s * s) = 1 - s * s /\ sin (wrap s) * (1 + s * s) = 2 * s.
Proof.
  assert (E : cos (wrap s) = cos (2 * atan s) /\ sin (wrap s) = sin (2 * atan s)).
  { unfold wrap. destruct (Rlt_dec s 0); auto. replace (2 * atan s + 2 * PI) with (2 * atan s + 2 * INR 1 * PI) by (cbn; ring). now rewrite cos_period, sin_period. }
  destruct E as [-> ->]. rewrite cos_2a, sin_2a, cos_atan, sin_atan. assert (P : 0 < 1 + s²) by (unfold Rsqr; nra).
  assert (Q : sqrt (1 + s²) * sqrt (1 + s²) = 1 + s²) by (apply sqrt_sqrt; lra). assert (sqrt (1 + s²) <> 0) by (intros Z; rewrite Z in Q; lra).
  replace (1 + s * s) with (sqrt (1 + s²) * sqrt (1 + s²)) by (rewrite Q; reflexivity). split; [|field; assumption].
  field_simplify; [|assumption..]. unfold Rdiv. try (now rewrite Rinv_1, Rmult_1_r; ring). ring.
Qed.
Lemma wrap_onto x : 0 <= x < 2 * PI -> x <> PI -> exists s, x = wrap s.
Proof.
  intros H N. destruct (Rlt_or_le x PI) as [L|L].
  - exists (tan (x / 2)). unfold wrap. assert (T : 0 <= tan (x / 2)).
    { destruct (Rle_lt_or_eq_dec 0 x) as [K|K]; [lra| |]. { left. apply tan_gt_0; lra. } subst x. replace (0 / 2) with 0 by lra. rewrite tan_0. lra. }
    destruct (Rlt_dec (tan (x / 2)) 0); [lra|]. rewrite atan_tan by lra. lra.
  - exists (tan (x / 2 - PI)). unfold wrap. assert (T : tan (x / 2 - PI) < 0) by (apply tan_lt_0; lra).
    destruct (Rlt_dec (tan (x / 2 - PI)) 0); [|lra]. rewrite atan_tan by lra. lra.
Qed.
Lemma two_zeros A B C : C * C < A * A + B * B -> C - A <> 0 ->
  exists x1 x2, 0 <= x1 < 2 * PI /\ 0 <= x2 < 2 * PI /\ x1 <> x2 /\
    forall x, 0 <= x < 2 * PI -> (A * cos x + B * sin x + C = 0 <-> x = x1 \/ x = x2).
Proof.
  intros H1 HD. set (q := B * B - (C * C - A * A)). assert (Q : 0 < q) by (unfold q; lra).
  pose proof (sqrt_lt_R0 q Q) as S0. pose proof (sqrt_sqrt q ltac:(lra)) as SS. set (r := sqrt q) in *.
  set (s1 := (- B + r) / (C - A)). set (s2 := (- B - r) / (C - A)).
  assert (N : s1 <> s2).
  { intros E. assert (X : (s1 - s2) * (C - A) = 2 * r) by (unfold s1, s2; field; exact HD). rewrite E in X. lra. }
  assert (F : forall s, (A * cos (wrap s) + B * sin (wrap s) + C) * (1 + s * s) = (C - A) * ((s - s1) * (s - s2))).
  { intros s. destruct (wrap_trig s) as [E1 E2].
    replace ((A * cos (wrap s) + B * sin (wrap s) + C) * (1 + s * s)) with (A * (cos (wrap s) * (1 + s * s)) + B * (sin (wrap s) * (1 + s * s)) + C * (1 + s * s)) by ring.
    rewrite E1, E2. replace ((C - A) * ((s - s1) * (s - s2))) with ((C - A) * (s * s) + 2 * B * s + (B * B - r * r) / (C - A)) by (unfold s1, s2; field; exact HD).
    rewrite SS. unfold q. field. exact HD. }
  exists (wrap s1), (wrap s2). split; [apply wrap_range|]. split; [apply wrap_range|]. split; [intros E; apply N; now apply wrap_inj|].
  assert (Z : forall s, A * cos (wrap s) + B * sin (wrap s) + C = 0 <-> s = s1 \/ s = s2).
  { intros s. specialize (F s). assert (P : 1 + s * s <> 0) by (intros PX; pose proof (Rle_0_sqr s) as PY; unfold Rsqr in PY; lra). split.
    - intros E. rewrite E, Rmult_0_l in F. symmetry in F. apply Rmult_integral in F as [F|F]; [contradiction|]. apply Rmult_integral in F as [F|F]; [left|right]; lra.
    - intros E. assert (K : (s - s1) * (s - s2) = 0) by (destruct E as [->| ->]; ring). rewrite K, Rmult_0_r in F. apply Rmult_integral in F as [F|F]; [exact F|contradiction]. }
  intros x Hx. split.
  - intros E. assert (x <> PI). { intros ->. rewrite cos_PI, sin_PI in E. lra. }
    destruct (wrap_onto x Hx H) as (s & ->). apply Z in E as [->| ->]; auto.
  - intros [->| ->]; apply Z; auto.
Qed.
Lemma no_zeros A B C x : A * A + B * B < C * C -> A * cos x + B * sin x + C <> 0.
Proof.
  intros H E. pose proof (sin2_cos2 x) as SC. unfold Rsqr in SC. set (c := cos x) in *. set (s := sin x) in *. clearbody c s.
  assert (C * C = (A * c + B * s) * (A * c + B * s)) by (replace C with (- (A * c + B * s)) by lra; ring).
  assert (0 <= (A * s - B * c) * (A * s - B * c)) by (apply Rle_0_sqr).
  assert ((A * c + B * s) * (A * c + B * s) + (A * s - B * c) * (A * s - B * c) = (A * A + B * B) * (s * s + c * c)) by ring. rewrite SC in H2. lra.
Qed.
(** the three coefficients, for a unit axis *)
Lemma rho_geometry k a G : unit a -> let f := laue_factors k a in
  rho0 f G * rho0 f G + rho1 f G * rho1 f G = normsq (cross a k) * normsq (cross a G) /\
  rho2 f G = dot k a * dot G a + normsq G / 2.
Proof.
  intros U. apply norm_unit in U. cbv zeta.
  assert (E0 : rho0 (laue_factors k a) G = dot (cross a k) (cross a G)).
  { unfold rho0, laue_factors, rod_K2, rod_K. cbn [rf0]. clear. vdes. vunf. ring. }
  assert (E1 : rho1 (laue_factors k a) G = dot k (cross a G)).
  { unfold rho1, laue_factors, rod_K2, rod_K. cbn [rf1]. clear. vdes. vunf. ring. }
  assert (E2 : rho2 (laue_factors k a) G = dot k G - dot (cross a k) (cross a G) + normsq G / 2).
  { unfold rho2, laue_factors, rod_K2, rod_K. cbn [rf2]. clear. vdes. vunf. field. }
  assert (L : dot (cross a k) (cross a G) = normsq a * dot k G - dot k a * dot G a) by (clear; vdes; vunf; ring).
  rewrite E0, E1, E2. split.
  - assert (L3 : normsq a * (dot k (cross a G) * dot k (cross a G)) =
       normsq (cross a k) * normsq (cross a G) - dot (cross a k) (cross a G) * dot (cross a k) (cross a G)).
    { clear. vdes. vunf. ring. }
    rewrite U in L3. lra.
  - rewrite L, U. lra.
Qed.
