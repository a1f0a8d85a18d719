(** * Properties of the orientation sampler (C57, C58). *)
From Verif Require Import Vec Spec MMotion MMesh MStrain MBeam MPolycrystal MDetector MTemplates STemplates.
From Verif Require Import PDetector PDetector4 PRender.
From Coq Require Import String Permutation Ratan.
Open Scope R_scope.
Local Notation len := List.length.

(** ** The grid *)
Lemma eps_pos : 0 < odf_eps. Proof. apply Rinv_0_lt_compat. lra. Qed.
Lemma eps_val : odf_eps = 1 / 100000000. Proof. unfold odf_eps. field. Qed.
Lemma count_spec sep : 0 < sep <= PI -> (1 <= odf_count sep)%nat /\ INR (odf_count sep) <= PI / sep < INR (odf_count sep) + 1.
Proof.
  intros [H1 H2]. unfold odf_count. destruct (base_Int_part (PI / sep)) as [A B]. assert (1 <= PI / sep). { apply Rmult_le_reg_r with sep; auto. unfold Rdiv. rewrite Rmult_assoc, Rinv_l by lra. lra. }
  assert (1 <= Int_part (PI / sep))%Z. { assert (0 < Int_part (PI / sep))%Z; [apply lt_IZR; lra|lia]. }
  rewrite INR_IZR_INZ, Z2Nat.id by lia. split; [lia|lra].
Qed.
Lemma count_pos sep : 0 < sep <= PI -> 0 < INR (odf_count sep).
Proof. intros H. apply lt_0_INR. destruct (count_spec sep H). lia. Qed.
Lemma step_ok sep : 0 < sep <= PI -> odf_step sep = Ok (odf_bin_step sep).
Proof.
  intros H. unfold odf_step. cbv zeta. replace (sep / 2 * 2) with sep by field. destruct (Req_EM_T sep 0); [lra|]. destruct (count_spec sep H) as [C1 C2].
  assert (0 <= PI / sep) by (pose proof (pos_INR (odf_count sep)); lra).
  unfold odf_bin_step. rewrite INR_IZR_INZ. assert (E : ztrunc (PI / sep) = Z.of_nat (odf_count sep)). { apply Int_part_of; auto. rewrite <- INR_IZR_INZ. lra. }
  rewrite E. destruct (Z.eqb_spec (Z.of_nat (odf_count sep)) 0); [lia|]. reflexivity.
Qed.
(** The step of the sampling grid lies between half the requested separation and the requested
    separation; a request above pi divides by zero. *)
Lemma pC57_step : forall separation, 0 < separation <= PI ->
  odf_step separation = Ok (odf_bin_step separation) /\ separation / 2 <= odf_bin_step separation < separation.
Proof.
  intros sep H. split; [now apply step_ok|]. destruct (count_spec sep H) as [C1 C2]. pose proof (count_pos sep H) as C0. unfold odf_bin_step. set (n := INR (odf_count sep)) in *.
  assert (C3 : 1 <= n) by (unfold n; change 1 with (INR 1); now apply le_INR). pose proof PI_RGT_0.
  assert (E : PI = sep * (PI / sep)) by (field; lra). set (x := PI / sep) in *. clearbody x n. rewrite E.
  split.
  - apply Rmult_le_reg_r with n; auto. unfold Rdiv at 2. rewrite Rmult_assoc, Rinv_l by lra. nra.
  - apply Rmult_lt_reg_r with n; auto. unfold Rdiv at 1. rewrite Rmult_assoc, Rinv_l by lra. nra.
Qed.
Lemma pC57_too_coarse : forall gen odf separation xs, PI < separation -> sample_odf gen odf separation xs = Err ZeroDivisionError.
Proof.
  intros gen odf sep xs H. pose proof PI_RGT_0. unfold sample_odf, odf_step. cbv zeta. replace (sep / 2 * 2) with sep by field. destruct (Req_EM_T sep 0); [lra|].
  assert (0 < PI / sep < 1). { split; [apply Rdiv_lt_0_compat; lra|]. apply Rmult_lt_reg_r with sep; [lra|]. unfold Rdiv. rewrite Rmult_assoc, Rinv_l by lra. lra. }
  rewrite (Int_part_of (PI / sep) 0) by lra. reflexivity.
Qed.
Section Grid.
Context (sep : R) (Hs : 0 < sep <= PI) (Hn : INR (odf_count sep) < 10^7).
Let n := odf_count sep.
Let d := odf_bin_step sep.
Lemma d_pos : 0 < d. Proof. unfold d, odf_bin_step. pose proof (count_pos sep Hs). pose proof PI_RGT_0. apply Rdiv_lt_0_compat; [lra|auto]. Qed.
Lemma nd : INR n * d = PI / 2. Proof. unfold d, odf_bin_step, n. pose proof (count_pos sep Hs). field. lra. Qed.
Lemma d_eps : 2 * odf_eps < d.
Proof.
  pose proof nd as E. pose proof (count_pos sep Hs) as C. fold n in C, Hn. pose proof PI2_3_2. rewrite eps_val. apply Rmult_lt_reg_l with (INR n); auto. rewrite E. nra.
Qed.
Lemma axis_spec m top : INR m * d = top -> odf_axis d top = map (fun k => (INR k + 1/2) * d + odf_eps) (seq 0 m).
Proof.
  intros <-. unfold odf_axis, np_arange. pose proof d_pos. pose proof d_eps. pose proof eps_pos.
  assert (E : Z.to_nat (ceil ((INR m * d - d / 2 - odf_eps + d - (0 + d / 2 + odf_eps)) / d)) = m).
  { replace ((INR m * d - d / 2 - odf_eps + d - (0 + d / 2 + odf_eps)) / d) with (INR m - 2 * odf_eps / d) by (field; lra).
    assert (0 < 2 * odf_eps / d < 1). { split; [apply Rdiv_lt_0_compat; lra|]. apply Rmult_lt_reg_r with d; auto. unfold Rdiv. rewrite Rmult_assoc, Rinv_l by lra. lra. }
    rewrite (ceil_eq _ (Z.of_nat m)); [apply Nat2Z.id|]. rewrite <- INR_IZR_INZ. lra. }
  rewrite E. apply map_ext. intros k. field.
Qed.
Lemma axis1 : odf_axis d (PI / 2) = map (fun k => (INR k + 1/2) * d + odf_eps) (seq 0 n).
Proof. apply axis_spec, nd. Qed.
Lemma axis2 : odf_axis d PI = map (fun k => (INR k + 1/2) * d + odf_eps) (seq 0 (2 * n)).
Proof. apply axis_spec. rewrite mult_INR. cbn [INR]. pose proof nd. lra. Qed.
Lemma axis3 : odf_axis d (2 * PI) = map (fun k => (INR k + 1/2) * d + odf_eps) (seq 0 (4 * n)).
Proof. apply axis_spec. rewrite mult_INR. cbn [INR]. pose proof nd. lra. Qed.
Lemma grid_in g : In g (odf_grid d) <-> exists i j k, (i < n)%nat /\ (j < 2 * n)%nat /\ (k < 4 * n)%nat /\ g = bin_centre d i j k.
Proof.
  unfold odf_grid, bin_centre. rewrite axis1, axis2, axis3. destruct g as [[a b] c]. rewrite !in_prod_iff, !in_map_iff. split.
  - intros [[(i & <- & Hi) (j & <- & Hj)] (k & <- & Hk)]. apply in_seq in Hi, Hj, Hk. exists i, j, k. repeat split; auto; lia.
  - intros (i & j & k & Hi & Hj & Hk & E). inversion E. repeat split; [exists i|exists j|exists k]; (split; auto; apply in_seq; lia).
Qed.
Lemma grid_length : len (odf_grid d) = (8 * n * n * n)%nat.
Proof. unfold odf_grid. rewrite axis1, axis2, axis3, !prod_length, !map_length, !seq_length. lia. Qed.
Lemma telescope (F : R -> R) m : sum_list (map (fun k => F ((INR k + 1/2) * d + odf_eps + d / 2) - F ((INR k + 1/2) * d + odf_eps - d / 2)) (seq 0 m)) = F (INR m * d + odf_eps) - F odf_eps.
Proof.
  induction m as [|m IH].
  - cbn [seq map]. rewrite sum_list_nil. cbn [INR]. replace (0 * d + odf_eps) with odf_eps by ring. ring.
  - rewrite seq_S, map_app, sum_list_app, IH. cbn [map Nat.add]. rewrite sum_list_cons, sum_list_nil, S_INR.
    replace ((INR m + 1/2) * d + odf_eps + d / 2) with ((INR m + 1) * d + odf_eps) by field. replace ((INR m + 1/2) * d + odf_eps - d / 2) with (INR m * d + odf_eps) by field. ring.
Qed.
Lemma sum_prod3 (f g h : R -> R) la lb lc : sum_list (map (fun abc => f (fst (fst abc)) * g (snd (fst abc)) * h (snd abc)) (list_prod (list_prod la lb) lc)) = sum_list (map f la) * sum_list (map g lb) * sum_list (map h lc).
Proof.
  rewrite (sum_list_prod (fun ab c => f (fst ab) * g (snd ab) * h c)). rewrite (sum_list_ext _ (fun ab => sum_list (map h lc) * (f (fst ab) * g (snd ab)))); [|intros ab _; cbv beta; rewrite (sum_list_map_scal (f (fst ab) * g (snd ab)) h); ring].
  rewrite sum_list_map_scal, (sum_list_prod (fun a b => f a * g b)). rewrite (sum_list_ext (fun a => sum_list (map (fun b => f a * g b) lb)) (fun a => sum_list (map g lb) * f a)); [|intros a _; cbv beta; rewrite (sum_list_map_scal (f a) g); ring]. rewrite sum_list_map_scal. ring.
Qed.
Definition F1 (t : R) : R := (1/2) * (t - sin t * cos t).
Lemma volume_split g : odf_volume d g = (F1 (fst (fst g) + d / 2) - F1 (fst (fst g) - d / 2)) * (- cos (snd (fst g) + d / 2) - - cos (snd (fst g) - d / 2)) * ((snd g + d / 2) - (snd g - d / 2)).
Proof. destruct g as [[a b] c]. unfold odf_volume, F1. cbn [fst snd]. cbv zeta. ring. Qed.
Lemma total_volume : sum_list (map (odf_volume d) (odf_grid d)) = (PI / 4 + sin odf_eps * cos odf_eps) * (2 * cos odf_eps) * (2 * PI).
Proof.
  rewrite (sum_list_ext _ _ _ (fun g _ => volume_split g)). unfold odf_grid.
  rewrite (sum_prod3 (fun t => F1 (t + d / 2) - F1 (t - d / 2)) (fun t => - cos (t + d / 2) - - cos (t - d / 2)) (fun t => (t + d / 2) - (t - d / 2))).
  rewrite axis1, axis2, axis3, !map_map. rewrite (telescope F1), (telescope (fun t => - cos t)), (telescope (fun t => t)).
  replace (INR (2 * n) * d) with PI by (rewrite mult_INR; cbn [INR]; pose proof nd; lra). replace (INR (4 * n) * d) with (2 * PI) by (rewrite mult_INR; cbn [INR]; pose proof nd; lra). rewrite nd.
  unfold F1. set (e := odf_eps). replace (PI + e) with (e + PI) by ring. rewrite neg_cos. replace (PI / 2 + e) with (e + PI / 2) by ring.
  assert (S : sin (e + PI / 2) = cos e) by (rewrite sin_plus, sin_PI2, cos_PI2; ring). assert (C : cos (e + PI / 2) = - sin e) by (rewrite cos_plus, sin_PI2, cos_PI2; ring). rewrite S, C. field.
Qed.
Lemma volume_close : Rabs (sum_list (map (odf_volume d) (odf_grid d)) - PI * PI) < / 10^6.
Proof.
  rewrite total_volume. pose proof eps_pos as E. pose proof (sin_lt_x odf_eps E) as S. assert (S0 : 0 < sin odf_eps) by (apply sin_gt_0; [auto|rewrite eps_val; pose proof PI2_3_2; lra]).
  pose proof (COS_bound odf_eps) as C. assert (C1 : 1 - cos odf_eps <= odf_eps).
  { replace odf_eps with (2 * (odf_eps / 2)) at 1 by field. rewrite cos_2a_sin. assert (0 < odf_eps / 2) by lra. pose proof (sin_lt_x (odf_eps / 2) H). assert (0 < sin (odf_eps / 2)) by (apply sin_gt_0; [lra|rewrite eps_val; pose proof PI2_3_2; lra]). assert (odf_eps < 1) by (rewrite eps_val; lra). nra. }
  pose proof PI_4. pose proof PI_RGT_0. set (s := sin odf_eps) in *. set (c := cos odf_eps) in *. rewrite eps_val in *. clearbody s c.
  replace ((PI / 4 + s * c) * (2 * c) * (2 * PI) - PI * PI) with (PI * (4 * (c * c) * s - PI * (1 - c))) by field.
  assert (c * c <= 1) by nra. assert (0 <= c * c) by nra. assert (A : 0 <= c * c * s <= s) by nra. assert (B : 0 <= PI * (1 - c) <= 4 * (1 - c)) by nra.
  set (u := c * c * s) in *. set (v := PI * (1 - c)) in *. assert (U : - (4 * (1 / 100000000)) <= 4 * u - v <= 4 * (1 / 100000000)) by lra. replace (4 * (c * c) * s) with (4 * u) by (unfold u; ring).
  rewrite Rabs_mult, (Rabs_right PI) by lra. assert (Rabs (4 * u - v) <= 4 * (1 / 100000000)) by (apply Rabs_le; lra). pose proof (Rabs_pos (4 * u - v)). apply Rle_lt_trans with (4 * (4 * (1 / 100000000))); [|lra]. apply Rmult_le_compat; lra.
Qed.
Lemma F1_incr a b : a < b -> sin ((a + b) / 2) <> 0 \/ b - a < PI -> F1 a < F1 b.
Proof.
  intros H _. (* F1 b - F1 a = (b - a)/2 - sin(b-a) cos(a+b) / 2 *)
  unfold F1. assert (E : sin b * cos b - sin a * cos a = sin (b - a) * cos (a + b)).
  { rewrite sin_minus, cos_plus. pose proof (sin2_cos2 a) as A. pose proof (sin2_cos2 b) as B. unfold Rsqr in *.
    replace ((sin b * cos a - cos b * sin a) * (cos a * cos b - sin a * sin b)) with (sin b * cos b * (cos a * cos a + sin a * sin a) - sin a * cos a * (cos b * cos b + sin b * sin b)) by ring.
    replace (cos a * cos a + sin a * sin a) with 1 by lra. replace (cos b * cos b + sin b * sin b) with 1 by lra. ring. }
  assert (Rabs (sin (b - a) * cos (a + b)) < b - a); [|pose proof (Rle_abs (sin (b - a) * cos (a + b))); lra].
  rewrite Rabs_mult. assert (Rabs (sin (b - a)) < b - a).
  { pose proof (sin_lt_x (b - a) ltac:(lra)). apply Rabs_def1; auto. destruct (Rlt_dec (b - a) PI) as [L|L]; [pose proof (sin_gt_0 (b - a) ltac:(lra) L); lra|]. pose proof (SIN_bound (b - a)). pose proof PI2_3_2. lra. }
  assert (Rabs (cos (a + b)) <= 1) by (apply Rabs_le; apply COS_bound). pose proof (Rabs_pos (cos (a + b))). pose proof (Rabs_pos (sin (b - a))). nra.
Qed.
Lemma volume_pos g : In g (odf_grid d) -> 0 < odf_volume d g.
Proof.
  intros H. apply grid_in in H as (i & j & k & Hi & Hj & Hk & ->). rewrite volume_split. unfold bin_centre. cbn [fst snd]. pose proof d_pos as D. pose proof d_eps. pose proof eps_pos.
  repeat apply Rmult_lt_0_compat.
  - match goal with |- 0 < F1 ?x - F1 ?y => assert (F1 y < F1 x) end; [|lra]. apply F1_incr; [lra|]. right. pose proof nd as E. assert (1 <= INR n) by (change 1 with (INR 1); apply le_INR; lia). pose proof PI_RGT_0. nra.
  - set (t := (INR j + 1/2) * d + odf_eps). replace (- cos (t + d / 2) - - cos (t - d / 2)) with (2 * (sin t * sin (d / 2))) by (rewrite cos_plus, cos_minus; ring).
    assert (T : 0 < t < PI). { pose proof (pos_INR j). assert (INR j + 1 <= INR (2 * n)) by (rewrite <- S_INR; apply le_INR; lia). assert (INR (2 * n) * d = PI) by (rewrite mult_INR; cbn [INR]; pose proof nd; lra). unfold t. nra. }
    assert (d / 2 < PI). { pose proof nd. assert (1 <= INR n) by (change 1 with (INR 1); apply le_INR; lia). pose proof PI_RGT_0. nra. }
    pose proof (sin_gt_0 t (proj1 T) (proj2 T)). pose proof (sin_gt_0 (d / 2) ltac:(lra) ltac:(lra)). nra.
  - lra.
Qed.
End Grid.
(** The sampler uses n x 2n x 4n bins, n the whole part of pi / separation. *)
Lemma pC57_bins : forall separation, 0 < separation <= PI -> INR (odf_count separation) < 10^7 ->
  let n := odf_count separation in let d := odf_bin_step separation in
  List.length (odf_grid d) = (8 * n * n * n)%nat /\
  forall g, In g (odf_grid d) <-> exists i j k, (i < n)%nat /\ (j < 2 * n)%nat /\ (k < 4 * n)%nat /\ g = bin_centre d i j k.
Proof. intros sep H1 H2. cbv zeta. split; [now apply grid_length|]. intros g. now apply grid_in. Qed.
(** Every bin has a positive volume and together they make up half the unit 3-sphere, pi^2, with
    an error below 1e-6; so the assertion on the volumes (1e-5) never fires. *)
Lemma pC57_volumes : forall separation, 0 < separation <= PI -> INR (odf_count separation) < 10^7 ->
  let d := odf_bin_step separation in
  (forall g, In g (odf_grid d) -> 0 < odf_volume d g) /\
  Rabs (sum_list (map (odf_volume d) (odf_grid d)) - PI * PI) < / 10^6.
Proof. intros sep H1 H2. cbv zeta. split; [intros g; now apply volume_pos|now apply volume_close]. Qed.
Lemma sample_reduces gen odf sep xs : 0 < sep <= PI -> INR (odf_count sep) < 10^7 -> sample_odf gen odf sep xs = draw_all gen odf (odf_bin_step sep) 0 xs.
Proof.
  intros H1 H2. unfold sample_odf. rewrite step_ok by auto. cbn [bind]. pose proof (volume_close sep H1 H2) as V. assert (/ 10^6 < / 10^5) by (apply Rinv_lt_contravar; lra).
  replace (Rltb _ (/ 10^5)) with true by (symmetry; apply Rltb_true; lra). reflexivity.
Qed.
(** The uniform density 1/pi^2 is accepted at every resolution and every set of points. *)
Lemma total_const sep c x : odf_total (odf_bin_step sep) (fun _ _ => c) x = c * sum_list (map (odf_volume (odf_bin_step sep)) (odf_grid (odf_bin_step sep))).
Proof. unfold odf_total. rewrite <- sum_list_map_scal. apply sum_list_ext. intros. ring. Qed.
Lemma draw_one_ok gen odf d i x : Rabs (odf_total d odf x - 1) < 5/100 -> (forall g, In g (odf_grid d) -> 0 <= odf_volume d g * odf x (grid_quat g)) ->
  exists m, draw_one gen odf d i x = Ok m.
Proof.
  intros H P. unfold draw_one. cbv zeta. fold (odf_total d odf x). replace (Rltb _ _) with true by (symmetry; now apply Rltb_true). cbn [assert_ bind].
  assert (T : 0 < odf_total d odf x) by (apply Rabs_def2 in H; lra).
  replace (existsb _ _) with false.
  - destruct (nth _ (odf_grid d) (0, 0, 0)) as [[a b] c]. eauto.
  - symmetry. destruct (existsb _ _) eqn:E; auto. apply existsb_exists in E as (v & Hv & E). apply Rltb_true in E. apply in_map_iff in Hv as (w & <- & Hw). apply in_map_iff in Hw as (g & <- & Hg). specialize (P g Hg).
    assert (0 <= odf_volume d g * odf x (grid_quat g) / odf_total d odf x) by (apply Rmult_le_pos; auto; left; now apply Rinv_0_lt_compat). lra.
Qed.
Lemma draw_all_ok gen odf d : forall xs i, (forall x j, In x xs -> exists m, draw_one gen odf d j x = Ok m) -> exists ms, draw_all gen odf d i xs = Ok ms.
Proof.
  induction xs as [|x xs IH]; intros i H; cbn [draw_all]; [eauto|]. destruct (H x i (or_introl eq_refl)) as (m & ->). cbn [bind]. destruct (IH (S i)) as (ms & ->); [intros; apply H; now right|]. cbn [bind]. eauto.
Qed.
Lemma pC57_uniform_accepted : forall gen separation xs, 0 < separation <= PI -> INR (odf_count separation) < 10^7 ->
  exists ms, sample_odf gen (fun _ _ => / (PI * PI)) separation xs = Ok ms.
Proof.
  intros gen sep xs H1 H2. rewrite sample_reduces by auto. apply draw_all_ok. intros x j _. pose proof PI_RGT_0 as P. assert (PP : 9 <= PI * PI) by (pose proof PI2_3_2; nra). apply draw_one_ok.
  - rewrite total_const. pose proof (volume_close sep H1 H2) as V. set (s := sum_list _) in *. replace (/ (PI * PI) * s - 1) with (/ (PI * PI) * (s - PI * PI)) by (field; lra). rewrite Rabs_mult. assert (I : 0 < / (PI * PI)) by (apply Rinv_0_lt_compat; lra). rewrite (Rabs_right (/ (PI * PI))) by lra.
    assert (/ (PI * PI) <= 1) by (rewrite <- Rinv_1; apply Rinv_le_contravar; lra). assert (/ 10^6 < 5/100) by (apply Rmult_lt_reg_r with (10^6); [lra|]; rewrite Rinv_l by lra; lra). pose proof (Rabs_pos (s - PI * PI)). nra.
  - intros g Hg. apply Rmult_le_pos; [left; now apply volume_pos|]. left. apply Rinv_0_lt_compat. lra.
Qed.
