(** * Properties of the drawn orientations (C57 separation, C58). *)
From Verif Require Import Vec Spec MMotion MMesh MStrain MBeam MPolycrystal MDetector MTemplates STemplates.
From Verif Require Import PDetector PDetector4 PRender POdf.
From Coq Require Import String Permutation Ratan.
Open Scope R_scope.
Local Notation len := List.length.

Lemma sc1 t : sin t * sin t + cos t * cos t = 1. Proof. pose proof (sin2_cos2 t). unfold Rsqr in *. lra. Qed.
(** The quaternion of three angles is a unit quaternion, whatever the angles. *)
Lemma pC58_unit : forall a1 a2 a3, unit_quat (alpha_to_quaternion a1 a2 a3).
Proof.
  intros a b c. unfold unit_quat, alpha_to_quaternion. cbn [qx qy qz qw]. pose proof (sc1 a) as A. pose proof (sc1 b) as B. pose proof (sc1 c) as C.
  replace (_ + _) with (cos a * cos a + sin a * sin a * (sin b * sin b * (sin c * sin c + cos c * cos c) + cos b * cos b)) by ring. rewrite C, Rmult_1_r, B. lra.
Qed.
Lemma qn1 q : unit_quat q -> quat_norm q = 1. Proof. unfold unit_quat, quat_norm. intros ->. apply sqrt_1. Qed.
Lemma quat_matrix_unit x y z w : unit_quat (Q x y z w) -> quat_matrix (Q x y z w) =
  M3 (V3 (x*x - y*y - z*z + w*w) (2 * (x*y - z*w)) (2 * (x*z + y*w)))
     (V3 (2 * (x*y + z*w)) (- (x*x) + y*y - z*z + w*w) (2 * (y*z - x*w)))
     (V3 (2 * (x*z - y*w)) (2 * (y*z + x*w)) (- (x*x) - y*y + z*z + w*w)).
Proof. intros H. unfold quat_matrix. rewrite (qn1 _ H). cbv zeta. cbn [qx qy qz qw]. unfold Rdiv; now rewrite Rinv_1, !Rmult_1_r. Qed.
Lemma quat_rotation q : unit_quat q -> is_rotation (quat_matrix q).
Proof.
  destruct q as [x y z w]. intros H. rewrite quat_matrix_unit by auto. unfold unit_quat in H. cbn [qx qy qz qw] in H.
  assert (S : (x * x + y * y + z * z + w * w) * (x * x + y * y + z * z + w * w) = 1) by (rewrite H; ring).
  assert (S3 : (x * x + y * y + z * z + w * w) * (x * x + y * y + z * z + w * w) * (x * x + y * y + z * z + w * w) = 1) by (rewrite H; ring).
  split; [|split].
  - vunf. vext; cbn [vx vy vz]; try ring; rewrite <- S; ring.
  - vunf. vext; cbn [vx vy vz]; try ring; rewrite <- S; ring.
  - vunf. rewrite <- S3. ring.
Qed.
Lemma quat_trace q p : unit_quat q -> unit_quat p -> mtrace (mm (mT (quat_matrix q)) (quat_matrix p)) = 4 * ((qx q * qx p + qy q * qy p + qz q * qz p + qw q * qw p) ^ 2) - 1.
Proof.
  destruct q as [x y z w], p as [a b c d]. intros H1 H2. rewrite !quat_matrix_unit by auto. unfold unit_quat in *. cbn [qx qy qz qw] in *.
  assert (S : (x * x + y * y + z * z + w * w) * (a * a + b * b + c * c + d * d) = 1) by (rewrite H1, H2; ring). transitivity (4 * (x * a + y * b + z * c + w * d) ^ 2 - (x * x + y * y + z * z + w * w) * (a * a + b * b + c * c + d * d)).
  - unfold mtrace. vunf. ring.
  - rewrite S. reflexivity.
Qed.
Definition qdot (q p : quat) : R := qx q * qx p + qy q * qy p + qz q * qz p + qw q * qw p.
Lemma misorientation_quat q p : unit_quat q -> unit_quat p -> misorientation (quat_matrix q) (quat_matrix p) = acos (2 * (qdot q p)^2 - 1).
Proof. intros H1 H2. unfold misorientation. rewrite quat_trace by auto. f_equal. unfold qdot. field. Qed.
Lemma qdot_le1 q p : unit_quat q -> unit_quat p -> (qdot q p)^2 <= 1.
Proof.
  destruct q as [x y z w], p as [a b c d]. unfold unit_quat, qdot. cbn [qx qy qz qw]. intros H1 H2.
  assert (S : (x * x + y * y + z * z + w * w) * (a * a + b * b + c * c + d * d) = 1) by (rewrite H1, H2; ring).
  assert ((x * x + y * y + z * z + w * w) * (a * a + b * b + c * c + d * d) - (x * a + y * b + z * c + w * d)^2 = (x*b-y*a)^2 + (x*c-z*a)^2 + (x*d-w*a)^2 + (y*c-z*b)^2 + (y*d-w*b)^2 + (z*d-w*c)^2) by ring.
  pose proof (pow2_ge_0 (x*b-y*a)). pose proof (pow2_ge_0 (x*c-z*a)). pose proof (pow2_ge_0 (x*d-w*a)). pose proof (pow2_ge_0 (y*c-z*b)). pose proof (pow2_ge_0 (y*d-w*b)). pose proof (pow2_ge_0 (z*d-w*c)). lra.
Qed.
Lemma misorientation_le q p t : unit_quat q -> unit_quat p -> 0 <= t <= PI / 2 -> cos t <= qdot q p -> misorientation (quat_matrix q) (quat_matrix p) <= 2 * t.
Proof.
  intros H1 H2 Ht C. rewrite misorientation_quat by auto. pose proof (qdot_le1 q p H1 H2). assert (0 <= cos t) by (apply cos_ge_0; pose proof PI_RGT_0; lra). pose proof (pow2_ge_0 (qdot q p)).
  apply acos_le_cos; [lra|lra|]. rewrite cos_2a_cos. nra.
Qed.
Lemma misorientation_eq q p t : unit_quat q -> unit_quat p -> 0 <= t <= PI / 2 -> qdot q p = cos t -> misorientation (quat_matrix q) (quat_matrix p) = 2 * t.
Proof.
  intros H1 H2 Ht C. rewrite misorientation_quat by auto. rewrite C. replace (2 * cos t ^ 2 - 1) with (cos (2 * t)) by (rewrite cos_2a_cos; ring). apply acos_cos. lra.
Qed.
Lemma dot1 a b c t : qdot (alpha_to_quaternion a b c) (alpha_to_quaternion (a + t) b c) = cos t.
Proof.
  unfold qdot, alpha_to_quaternion. cbn [qx qy qz qw]. rewrite cos_plus, sin_plus. pose proof (sc1 a) as A. pose proof (sc1 b) as B. pose proof (sc1 c) as C.
  replace (_ + _) with (cos a * (cos a * cos t - sin a * sin t) + sin a * (sin a * cos t + cos a * sin t) * (sin b * sin b * (sin c * sin c + cos c * cos c) + cos b * cos b)) by ring. rewrite C, Rmult_1_r, B.
  replace (_ + _) with (cos t * (sin a * sin a + cos a * cos a)) by ring. rewrite A. ring.
Qed.
Lemma dot2 a b c t : cos t <= qdot (alpha_to_quaternion a b c) (alpha_to_quaternion a (b + t) c).
Proof.
  unfold qdot, alpha_to_quaternion. cbn [qx qy qz qw]. rewrite cos_plus, sin_plus. pose proof (sc1 a) as A. pose proof (sc1 b) as B. pose proof (sc1 c) as C.
  replace (_ + _) with (cos a * cos a + sin a * sin a * (sin b * (sin b * cos t + cos b * sin t) * (sin c * sin c + cos c * cos c) + cos b * (cos b * cos t - sin b * sin t))) by ring. rewrite C, Rmult_1_r.
  replace (sin b * (sin b * cos t + cos b * sin t) + cos b * (cos b * cos t - sin b * sin t)) with (cos t * (sin b * sin b + cos b * cos b)) by ring. rewrite B, Rmult_1_r. pose proof (COS_bound t). assert (0 <= cos a * cos a) by nra. replace (sin a * sin a) with (1 - cos a * cos a) by lra. nra.
Qed.
Lemma dot3 a b c t : cos t <= qdot (alpha_to_quaternion a b c) (alpha_to_quaternion a b (c + t)).
Proof.
  unfold qdot, alpha_to_quaternion. cbn [qx qy qz qw]. rewrite cos_plus, sin_plus. pose proof (sc1 a) as A. pose proof (sc1 b) as B. pose proof (sc1 c) as C.
  replace (_ + _) with (cos a * cos a + sin a * sin a * (sin b * sin b * (cos t * (sin c * sin c + cos c * cos c)) + cos b * cos b)) by ring. rewrite C, Rmult_1_r.
  pose proof (COS_bound t). replace (cos a * cos a) with (1 - sin a * sin a) by lra. replace (cos b * cos b) with (1 - sin b * sin b) by lra. assert (0 <= sin a * sin a <= 1) by (split; nra). assert (0 <= sin b * sin b <= 1) by (split; nra).
  assert (0 <= sin a * sin a * (sin b * sin b) <= 1) by (split; nra). nra.
Qed.
Lemma bin_step_half sep : 0 < sep <= PI -> 0 <= odf_bin_step sep <= PI / 2.
Proof.
  intros H. pose proof (count_pos sep H) as C. destruct (count_spec sep H) as [C1 C2]. assert (1 <= INR (odf_count sep)) by (change 1 with (INR 1); now apply le_INR). unfold odf_bin_step. pose proof PI_RGT_0. split.
  - left. apply Rdiv_lt_0_compat; lra.
  - apply Rmult_le_reg_r with (INR (odf_count sep)); auto. unfold Rdiv at 1. rewrite Rmult_assoc, Rinv_l by lra. nra.
Qed.
(** Bins that follow each other in one of the three angles differ by a rotation of at most
    2 x step = pi / n, which is below twice the requested separation. *)
Lemma pC57_neighbours : forall separation i j k g', 0 < separation <= PI ->
  let d := odf_bin_step separation in
  g' = bin_centre d (S i) j k \/ g' = bin_centre d i (S j) k \/ g' = bin_centre d i j (S k) ->
  misorientation (quat_matrix (grid_quat (bin_centre d i j k))) (quat_matrix (grid_quat g')) <= PI / INR (odf_count separation) < 2 * separation.
Proof.
  intros sep i j k g' H. cbv zeta. intros G. pose proof (bin_step_half sep H) as B. pose proof (pC57_step sep H) as [_ SS]. pose proof (count_pos sep H). set (d := odf_bin_step sep) in *.
  replace (PI / INR (odf_count sep)) with (2 * d) by (unfold d, odf_bin_step; field; lra). split; [|lra].
  assert (E : forall m, (INR (S m) + 1/2) * d + odf_eps = (INR m + 1/2) * d + odf_eps + d) by (intros m; rewrite S_INR; field).
  destruct G as [-> | [-> | -> ] ]; unfold bin_centre, grid_quat; rewrite E; apply misorientation_le; auto using pC58_unit; [right; symmetry; apply dot1|apply dot2|apply dot3].
Qed.
(** The argument is called the maximum bin separation, but bins that follow each other in the
    first angle are exactly pi / n apart, never closer than the requested separation, and further
    apart whenever pi is not a multiple of it. *)
Lemma pC57_separation_refuted : forall separation i j k, 0 < separation <= PI ->
  let d := odf_bin_step separation in
  let m := misorientation (quat_matrix (grid_quat (bin_centre d i j k))) (quat_matrix (grid_quat (bin_centre d (S i) j k))) in
  m = PI / INR (odf_count separation) /\ separation <= m /\ (separation * INR (odf_count separation) <> PI -> separation < m).
Proof.
  intros sep i j k H. cbv zeta. pose proof (bin_step_half sep H) as B. pose proof (count_pos sep H) as C. destruct (count_spec sep H) as [C1 C2]. set (d := odf_bin_step sep) in *.
  assert (M : misorientation (quat_matrix (grid_quat (bin_centre d i j k))) (quat_matrix (grid_quat (bin_centre d (S i) j k))) = PI / INR (odf_count sep)).
  { replace (PI / INR (odf_count sep)) with (2 * d) by (unfold d, odf_bin_step; field; lra). unfold bin_centre, grid_quat. replace ((INR (S i) + 1/2) * d + odf_eps) with ((INR i + 1/2) * d + odf_eps + d) by (rewrite S_INR; field). apply misorientation_eq; auto using pC58_unit. apply dot1. }
  rewrite M. split; auto. set (n := INR (odf_count sep)) in *. assert (L : sep * n <= PI). { destruct C2 as [C2 _]. apply Rmult_le_compat_l with (r := sep) in C2; [|lra]. replace (sep * (PI / sep)) with PI in C2 by (field; lra). lra. }
  split.
  - apply Rmult_le_reg_r with n; auto. unfold Rdiv. rewrite Rmult_assoc, Rinv_l by lra. lra.
  - intros N. apply Rmult_lt_reg_r with n; auto. unfold Rdiv. rewrite Rmult_assoc, Rinv_l by lra. lra.
Qed.

(** ** What a successful call returns *)
Lemma draw_all_inv gen odf d : forall xs i ms, draw_all gen odf d i xs = Ok ms -> len ms = len xs /\ forall j x m, nth_error xs j = Some x -> nth_error ms j = Some m -> draw_one gen odf d (i + j) x = Ok m.
Proof.
  induction xs as [|x xs IH]; intros i ms; cbn [draw_all].
  - intros E. assert (ms = []) by congruence. subst. split; auto. intros [|j]; discriminate.
  - destruct (draw_one gen odf d i x) as [m|] eqn:D; [|discriminate]. cbn [bind]. destruct (draw_all gen odf d (S i) xs) as [ms'|] eqn:A; [|discriminate]. cbn [bind]. intros E. assert (ms = m :: ms') by congruence. subst.
    destruct (IH _ _ A) as [L N]. split; [cbn [List.length]; lia|]. intros [|j] y n; cbn [nth_error].
    + intros E1 E2. assert (y = x) by congruence. assert (n = m) by congruence. subst. now rewrite Nat.add_0_r.
    + intros E1 E2. replace (i + S j)%nat with (S i + j)%nat by lia. eauto.
Qed.
Lemma draw_one_inv gen odf d i x m : draw_one gen odf d i x = Ok m ->
  Rabs (odf_total d odf x - 1) < 5/100 /\ (forall g, In g (odf_grid d) -> 0 <= odf_volume d g * odf x (grid_quat g)) /\
  exists g, g = nth (choice gen i (map (fun v => v / odf_total d odf x) (map (fun a => odf_volume d a * odf x (grid_quat a)) (odf_grid d)))) (odf_grid d) (0, 0, 0) /\
  m = quat_matrix (alpha_to_quaternion (fst (fst g) + d * (rand gen i 0 - 1/2)) (snd (fst g) + d * (rand gen i 1 - 1/2)) (snd g + d * (rand gen i 2 - 1/2))).
Proof.
  unfold draw_one. cbv zeta. fold (odf_total d odf x). destruct (Rltb (Rabs (odf_total d odf x - 1)) (5/100)) eqn:A; [|discriminate]. apply Rltb_true in A. cbn [assert_ bind].
  destruct (existsb _ _) eqn:X; [discriminate|]. intros E. split; auto. assert (T : 0 < odf_total d odf x) by (apply Rabs_def2 in A; lra). split.
  - intros g Hg. apply Rnot_lt_le. intros L. assert (N : existsb (fun v => Rltb v 0) (map (fun v => v / odf_total d odf x) (map (fun a => odf_volume d a * odf x (grid_quat a)) (odf_grid d))) = true); [|congruence].
    apply existsb_exists. exists (odf_volume d g * odf x (grid_quat g) / odf_total d odf x). split; [apply (in_map (fun v => v / odf_total d odf x)), (in_map (fun a => odf_volume d a * odf x (grid_quat a))); auto|]. apply Rltb_true. apply Rinv_0_lt_compat in T. unfold Rdiv. nra.
  - eexists. split; [reflexivity|]. destruct (nth _ (odf_grid d) (0,0,0)) as [[a b] c]. cbn [fst snd]. congruence.
Qed.
Lemma sample_inv gen odf sep xs ms : sample_odf gen odf sep xs = Ok ms -> exists d, odf_step sep = Ok d /\ draw_all gen odf d 0 xs = Ok ms.
Proof. unfold sample_odf. destruct (odf_step sep) as [d|]; [|discriminate]. cbn [bind]. destruct (assert_ _) as [[]|]; [|discriminate]. cbn [bind]. eauto. Qed.
(** One proper rotation matrix per point. *)
Lemma pC58_rotations : forall gen odf separation xs ms, sample_odf gen odf separation xs = Ok ms ->
  List.length ms = List.length xs /\ forall m, In m ms -> is_rotation m.
Proof.
  intros gen odf sep xs ms H. apply sample_inv in H as (d & _ & H). apply draw_all_inv in H as [L N]. split; auto. intros m Hm. apply In_nth_error in Hm as (j & Hj).
  destruct (nth_error xs j) as [x|] eqn:X. { specialize (N _ _ _ X Hj). apply draw_one_inv in N as (_ & _ & g & _ & ->). apply quat_rotation, pC58_unit. }
  apply nth_error_None in X. assert (j < len ms)%nat by (apply nth_error_Some; congruence). lia.
Qed.
(** A successful call means that at every point the density had total weight within 5 % of 1 over
    the bins and was nowhere negative on them. *)
Lemma pC58_accepted_means : forall gen odf separation xs ms, 0 < separation <= PI -> INR (odf_count separation) < 10^7 ->
  sample_odf gen odf separation xs = Ok ms -> forall x, In x xs ->
  Rabs (odf_total (odf_bin_step separation) odf x - 1) < 5/100 /\
  forall g, In g (odf_grid (odf_bin_step separation)) -> 0 <= odf x (grid_quat g).
Proof.
  intros gen odf sep xs ms H1 H2 H x Hx. apply sample_inv in H as (d & D & H). rewrite step_ok in D by auto. assert (d = odf_bin_step sep) by congruence. subst d. apply draw_all_inv in H as [L N].
  apply In_nth_error in Hx as (j & Hj). destruct (nth_error ms j) as [m|] eqn:M.
  - specialize (N _ _ _ Hj M). apply draw_one_inv in N as (A & B & _). split; auto. intros g Hg. specialize (B g Hg). pose proof (volume_pos sep H1 H2 g Hg). apply Rnot_lt_le. intros C. nra.
  - apply nth_error_None in M. assert (j < len xs)%nat by (apply nth_error_Some; congruence). lia.
Qed.
(** Conversely a density that passes both checks at every point is sampled. *)
Lemma pC58_accepted : forall gen odf separation xs, 0 < separation <= PI -> INR (odf_count separation) < 10^7 ->
  (forall x, In x xs -> Rabs (odf_total (odf_bin_step separation) odf x - 1) < 5/100 /\ forall g, In g (odf_grid (odf_bin_step separation)) -> 0 <= odf x (grid_quat g)) ->
  exists ms, sample_odf gen odf separation xs = Ok ms.
Proof.
  intros gen odf sep xs H1 H2 H. rewrite sample_reduces by auto. apply draw_all_ok. intros x j Hx. destruct (H x Hx) as [A B]. apply draw_one_ok; auto. intros g Hg. apply Rmult_le_pos; auto. left. now apply volume_pos.
Qed.
(** With a generator that keeps numpy's promises, every returned orientation lies within half a
    step, in each of the three angles, of a bin in which the density is positive at that point. *)
Lemma pC58_from_bin : forall gen odf separation xs ms, fair gen -> 0 < separation <= PI -> INR (odf_count separation) < 10^7 ->
  sample_odf gen odf separation xs = Ok ms -> forall n x m, nth_error xs n = Some x -> nth_error ms n = Some m ->
  exists i j k a1 a2 a3, let d := odf_bin_step separation in let c := odf_count separation in
  (i < c)%nat /\ (j < 2 * c)%nat /\ (k < 4 * c)%nat /\ near_bin d (bin_centre d i j k) a1 a2 a3 /\
  0 < odf x (grid_quat (bin_centre d i j k)) /\ m = quat_matrix (alpha_to_quaternion a1 a2 a3).
Proof.
  intros gen odf sep xs ms [F1' F2'] H1 H2 H n x m Hx Hm. apply sample_inv in H as (d & D & H). rewrite step_ok in D by auto. assert (d = odf_bin_step sep) by congruence. subst d. apply draw_all_inv in H as [L N]. specialize (N _ _ _ Hx Hm). cbn [Nat.add] in N.
  apply draw_one_inv in N as (A & B & g & G & M). set (d := odf_bin_step sep) in *. set (pr := map (fun a => odf_volume d a * odf x (grid_quat a)) (odf_grid d)) in *. set (T := odf_total d odf x) in *. assert (T0 : 0 < T) by (apply Rabs_def2 in A; lra).
  assert (TS : T = sum_list pr) by reflexivity.
  assert (P : 0 < nth (choice gen n (map (fun v => v / T) pr)) (map (fun v => v / T) pr) 0).
  { apply F1'.
    - intros v Hv. apply in_map_iff in Hv as (w & <- & Hw). apply in_map_iff in Hw as (g' & <- & Hg'). specialize (B g' Hg'). apply Rmult_le_pos; auto. left. now apply Rinv_0_lt_compat.
    - rewrite (sum_list_ext _ (fun v => / T * v)) by (intros; unfold Rdiv; ring). rewrite sum_list_map_scal, map_id, <- TS. field. lra. }
  set (c := choice gen n (map (fun v => v / T) pr)) in *. destruct (le_lt_dec (len (odf_grid d)) c) as [Lc|Lc].
  { exfalso. rewrite nth_overflow in P; [lra|]. unfold pr. rewrite !map_length. auto. }
  assert (Hg : In g (odf_grid d)) by (rewrite G; now apply nth_In).
  rewrite (nth_indep _ 0 (odf_volume d (0,0,0) * odf x (grid_quat (0,0,0)) / T)) in P by (unfold pr; rewrite !map_length; auto).
  rewrite (map_nth (fun v => v / T)) in P. unfold pr in P. rewrite (map_nth (fun a => odf_volume d a * odf x (grid_quat a))) in P. rewrite <- G in P.
  pose proof (volume_pos sep H1 H2 g Hg) as V. fold d in V. assert (O : 0 < odf x (grid_quat g)). { apply Rnot_le_lt. intros O. apply Rinv_0_lt_compat in T0. unfold Rdiv in P. assert (odf_volume d g * odf x (grid_quat g) <= 0) by nra. nra. }
  apply (grid_in sep H1 H2) in Hg as (i & j & k & Hi & Hj & Hk & E). fold d in E. rewrite E in M, O. exists i, j, k. eexists _, _, _. cbv zeta. split; [auto|]. split; [auto|]. split; [auto|]. split; [|split; [exact O|exact M]].
  pose proof (d_pos sep H1) as D0. fold d in D0. unfold near_bin. clearbody d. repeat split; (match goal with |- Rabs (?y + d * (rand gen n ?q - 1/2) - _) <= _ => replace (y + d * (rand gen n q - 1/2) - y) with (d * (rand gen n q - 1/2)) by ring; pose proof (F2' n q); apply Rabs_le; nra end).
Qed.

(** ** Every orientation can be drawn *)
Lemma circle_angle x y : x * x + y * y = 1 -> exists t, 0 <= t <= 2 * PI /\ cos t = x /\ sin t = y.
Proof.
  intros H. assert (X : -1 <= x <= 1) by nra. pose proof (acos_bound x) as B. destruct (Rle_dec 0 y) as [Y|Y].
  - exists (acos x). split; [lra|]. split; [now apply cos_acos|]. rewrite sin_acos by auto. unfold Rsqr. replace (1 - x * x) with (y * y) by lra. now apply sqrt_square.
  - exists (2 * PI - acos x). split; [lra|]. rewrite cos_minus, sin_minus, cos_2PI, sin_2PI, cos_acos, sin_acos by auto. split; [ring|]. unfold Rsqr. replace (1 - x * x) with (- y * - y) by lra. rewrite sqrt_square by lra. ring.
Qed.
Lemma sphere_angles x y z w : unit_quat (Q x y z w) -> 0 <= x -> exists a1 a2 a3, 0 <= a1 <= PI / 2 /\ 0 <= a2 <= PI /\ 0 <= a3 <= 2 * PI /\ alpha_to_quaternion a1 a2 a3 = Q x y z w.
Proof.
  unfold unit_quat. cbn [qx qy qz qw]. intros H Hx. pose proof PI_RGT_0 as PP. assert (X : -1 <= x <= 1) by nra. set (s := sqrt (1 - x * x)). assert (S2 : s * s = 1 - x * x) by (apply sqrt_sqrt; nra). pose proof (sqrt_pos (1 - x * x)) as S0. fold s in S0.
  exists (acos x). assert (C1 : cos (acos x) = x) by now apply cos_acos. assert (C2 : sin (acos x) = s) by (rewrite sin_acos by auto; reflexivity).
  assert (A1 : 0 <= acos x <= PI / 2). { pose proof (acos_bound x). split; [lra|]. apply acos_le_cos; [auto|lra|]. now rewrite cos_PI2. }
  destruct (Req_EM_T s 0) as [Z|Z].
  - rewrite Z in *. exists 0, 0. split; [auto|]. split; [lra|]. split; [lra|]. unfold alpha_to_quaternion. rewrite C1, C2. assert (y = 0) by nra. assert (z = 0) by nra. assert (w = 0) by nra. subst y z w. f_equal; ring.
  - assert (S1 : 0 < s) by lra. set (b := w / s). assert (EW : s * b = w) by (unfold b; field; auto). assert (BB : b * b * (s * s) = w * w) by (rewrite <- EW; ring). assert (B2 : b * b <= 1) by (apply Rmult_le_reg_r with (s * s); nra). assert (B1 : -1 <= b <= 1) by (split; nra).
    set (r := sqrt (1 - b * b)). assert (R2 : r * r = 1 - b * b) by (apply sqrt_sqrt; nra). pose proof (sqrt_pos (1 - b * b)) as R0. fold r in R0. exists (acos b). assert (D1 : cos (acos b) = b) by now apply cos_acos. assert (D2 : sin (acos b) = r) by (rewrite sin_acos by auto; reflexivity). pose proof (acos_bound b) as AB.
    assert (YZ : y * y + z * z = s * s * (r * r)) by (rewrite R2; nra).
    destruct (Req_EM_T r 0) as [Zr|Zr].
    + exists 0. split; [auto|]. split; [auto|]. split; [lra|]. unfold alpha_to_quaternion. rewrite C1, C2, D1, D2. rewrite Zr in *. assert (y = 0) by nra. assert (z = 0) by nra. subst y z. rewrite EW. f_equal; ring.
    + destruct (circle_angle (y / (s * r)) (z / (s * r))) as (t & Ht & T1 & T2). { replace (_ + _) with ((y * y + z * z) / (s * s * (r * r))) by (field; split; lra). rewrite YZ. field. split; lra. }
      exists t. split; [auto|]. split; [auto|]. split; [auto|]. unfold alpha_to_quaternion. rewrite C1, C2, D1, D2, T1, T2, EW. f_equal; field; split; lra.
Qed.
Lemma quat_neg x y z w : unit_quat (Q x y z w) -> unit_quat (Q (-x) (-y) (-z) (-w)) /\ quat_matrix (Q (-x) (-y) (-z) (-w)) = quat_matrix (Q x y z w).
Proof.
  intros H. assert (H' : unit_quat (Q (-x) (-y) (-z) (-w))) by (unfold unit_quat in *; cbn [qx qy qz qw] in *; lra). split; auto. rewrite !quat_matrix_unit by auto. vext; cbn [vx vy vz]; ring.
Qed.

Lemma pivot p kl km K : 0 < p -> kl * km = p * K -> kl / (2 * sqrt p) * (km / (2 * sqrt p)) = K / 4.
Proof.
  intros H E. pose proof (sqrt_lt_R0 p H) as S. pose proof (sqrt_sqrt p ltac:(lra)) as SS. transitivity (kl * km / (4 * (sqrt p * sqrt p))); [field; lra|]. rewrite SS, E. field. lra.
Qed.
(** Entries of a rotation: the rows are the cross products of each other. *)
Lemma rotation_quat A : is_rotation A -> exists q, unit_quat q /\ quat_matrix q = A.
Proof.
  intros (H1 & H2 & H3). destruct A as [[a b c] [d e f] [g h i]].
  assert (E1 : a * a + d * d + g * g = 1) by (apply (f_equal (fun M => vx (r1 M))) in H1; revert H1; vunf; lra).
  assert (E2 : b * b + e * e + h * h = 1) by (apply (f_equal (fun M => vy (r2 M))) in H1; revert H1; vunf; lra).
  assert (E3 : c * c + f * f + i * i = 1) by (apply (f_equal (fun M => vz (r3 M))) in H1; revert H1; vunf; lra).
  assert (E4 : a * b + d * e + g * h = 0) by (apply (f_equal (fun M => vy (r1 M))) in H1; revert H1; vunf; lra).
  assert (E5 : a * c + d * f + g * i = 0) by (apply (f_equal (fun M => vz (r1 M))) in H1; revert H1; vunf; lra).
  assert (E6 : b * c + e * f + h * i = 0) by (apply (f_equal (fun M => vz (r2 M))) in H1; revert H1; vunf; lra).
  assert (F1 : a * a + b * b + c * c = 1) by (apply (f_equal (fun M => vx (r1 M))) in H2; revert H2; vunf; lra).
  assert (F2 : d * d + e * e + f * f = 1) by (apply (f_equal (fun M => vy (r2 M))) in H2; revert H2; vunf; lra).
  assert (F3 : g * g + h * h + i * i = 1) by (apply (f_equal (fun M => vz (r3 M))) in H2; revert H2; vunf; lra).
  assert (F4 : a * d + b * e + c * f = 0) by (apply (f_equal (fun M => vy (r1 M))) in H2; revert H2; vunf; lra).
  assert (F5 : a * g + b * h + c * i = 0) by (apply (f_equal (fun M => vz (r1 M))) in H2; revert H2; vunf; lra).
  assert (F6 : d * g + e * h + f * i = 0) by (apply (f_equal (fun M => vz (r2 M))) in H2; revert H2; vunf; lra).
  assert (D : a * (e * i - f * h) + b * (f * g - d * i) + c * (d * h - e * g) = 1) by (revert H3; vunf; lra).
  clear H1 H2 H3.
  assert (C1 : e * i - f * h = a). { replace (e*i-f*h) with ((a*a+d*d+g*g)*(e*i-f*h) + (a*b+d*e+g*h)*(f*g-d*i) + (a*c+d*f+g*i)*(d*h-e*g)) by (rewrite E1,E4,E5; ring). transitivity (a * 1); [rewrite <- D|]; ring. }
  assert (C2 : f * g - d * i = b). { replace (f*g-d*i) with ((a*b+d*e+g*h)*(e*i-f*h) + (b*b+e*e+h*h)*(f*g-d*i) + (b*c+e*f+h*i)*(d*h-e*g)) by (rewrite E2,E4,E6; ring). transitivity (b * 1); [rewrite <- D|]; ring. }
  assert (C3 : d * h - e * g = c). { replace (d*h-e*g) with ((a*c+d*f+g*i)*(e*i-f*h) + (b*c+e*f+h*i)*(f*g-d*i) + (c*c+f*f+i*i)*(d*h-e*g)) by (rewrite E3,E5,E6; ring). transitivity (c * 1); [rewrite <- D|]; ring. }
  assert (C4 : h * c - i * b = d). { replace (h*c-i*b) with ((a*a+d*d+g*g)*(h*c-i*b) + (a*b+d*e+g*h)*(i*a-g*c) + (a*c+d*f+g*i)*(g*b-h*a)) by (rewrite E1,E4,E5; ring). transitivity (d * 1); [rewrite <- D|]; ring. }
  assert (C5 : i * a - g * c = e). { replace (i*a-g*c) with ((a*b+d*e+g*h)*(h*c-i*b) + (b*b+e*e+h*h)*(i*a-g*c) + (b*c+e*f+h*i)*(g*b-h*a)) by (rewrite E2,E4,E6; ring). transitivity (e * 1); [rewrite <- D|]; ring. }
  assert (C6 : g * b - h * a = f). { replace (g*b-h*a) with ((a*c+d*f+g*i)*(h*c-i*b) + (b*c+e*f+h*i)*(i*a-g*c) + (c*c+f*f+i*i)*(g*b-h*a)) by (rewrite E3,E5,E6; ring). transitivity (f * 1); [rewrite <- D|]; ring. }
  assert (C7 : b * f - c * e = g). { replace (b*f-c*e) with ((a*a+d*d+g*g)*(b*f-c*e) + (a*b+d*e+g*h)*(c*d-a*f) + (a*c+d*f+g*i)*(a*e-b*d)) by (rewrite E1,E4,E5; ring). transitivity (g * 1); [rewrite <- D|]; ring. }
  assert (C8 : c * d - a * f = h). { replace (c*d-a*f) with ((a*b+d*e+g*h)*(b*f-c*e) + (b*b+e*e+h*h)*(c*d-a*f) + (b*c+e*f+h*i)*(a*e-b*d)) by (rewrite E2,E4,E6; ring). transitivity (h * 1); [rewrite <- D|]; ring. }
  assert (C9 : a * e - b * d = i). { replace (a*e-b*d) with ((a*c+d*f+g*i)*(b*f-c*e) + (b*c+e*f+h*i)*(c*d-a*f) + (c*c+f*f+i*i)*(a*e-b*d)) by (rewrite E3,E5,E6; ring). transitivity (i * 1); [rewrite <- D|]; ring. }
  assert (Fin : forall x y z w, x * x = (1+a-e-i)/4 -> y * y = (1-a+e-i)/4 -> z * z = (1-a-e+i)/4 -> w * w = (1+a+e+i)/4 -> x * y = (b+d)/4 -> x * z = (c+g)/4 -> y * z = (f+h)/4 -> x * w = (h-f)/4 -> y * w = (c-g)/4 -> z * w = (d-b)/4 ->
    exists q, unit_quat q /\ quat_matrix q = M3 (V3 a b c) (V3 d e f) (V3 g h i)).
  { clear. intros x y z w P1 P2 P3 P4 P5 P6 P7 P8 P9 P10. exists (Q x y z w). assert (U : unit_quat (Q x y z w)) by (unfold unit_quat; cbn [qx qy qz qw]; lra). split; auto. rewrite quat_matrix_unit by auto. vext; cbn [vx vy vz]; lra. }
  destruct (Rle_dec 1 (1+a+e+i)) as [L|L1]; [|destruct (Rle_dec 1 (1+a-e-i)) as [L|L2]; [|destruct (Rle_dec 1 (1-a+e-i)) as [L|L3]; [|assert (L : 1 <= 1-a-e+i) by lra]]].
  - apply (Fin ((h-f)/(2 * sqrt (1+a+e+i))) ((c-g)/(2 * sqrt (1+a+e+i))) ((d-b)/(2 * sqrt (1+a+e+i))) ((1+a+e+i)/(2 * sqrt (1+a+e+i)))); apply pivot; lra.
  - apply (Fin ((1+a-e-i)/(2 * sqrt (1+a-e-i))) ((b+d)/(2 * sqrt (1+a-e-i))) ((c+g)/(2 * sqrt (1+a-e-i))) ((h-f)/(2 * sqrt (1+a-e-i)))); apply pivot; lra.
  - apply (Fin ((b+d)/(2 * sqrt (1-a+e-i))) ((1-a+e-i)/(2 * sqrt (1-a+e-i))) ((f+h)/(2 * sqrt (1-a+e-i))) ((c-g)/(2 * sqrt (1-a+e-i)))); apply pivot; lra.
  - apply (Fin ((c+g)/(2 * sqrt (1-a-e+i))) ((f+h)/(2 * sqrt (1-a-e+i))) ((1-a-e+i)/(2 * sqrt (1-a-e+i))) ((d-b)/(2 * sqrt (1-a-e+i)))); apply pivot; lra.
Qed.
(** The three angle ranges the bins divide up reach every orientation. *)
Lemma pC58_covers : forall A, is_rotation A -> exists a1 a2 a3, 0 <= a1 <= PI / 2 /\ 0 <= a2 <= PI /\ 0 <= a3 <= 2 * PI /\
  quat_matrix (alpha_to_quaternion a1 a2 a3) = A.
Proof.
  intros A H. destruct (rotation_quat A H) as ([x y z w] & U & M). destruct (Rle_dec 0 x) as [X|X].
  - destruct (sphere_angles x y z w U X) as (a1 & a2 & a3 & H1 & H2 & H3 & E). exists a1, a2, a3. rewrite E. auto.
  - destruct (quat_neg x y z w U) as [U' M']. destruct (sphere_angles _ _ _ _ U' ltac:(lra)) as (a1 & a2 & a3 & H1 & H2 & H3 & E). exists a1, a2, a3. rewrite E, M'. auto.
Qed.

(** ** Examples *)
Lemma count_of sep n : 0 < sep -> INR n <= PI / sep < INR n + 1 -> odf_count sep = n.
Proof.
  intros H [A B]. unfold odf_count. replace (Int_part (PI / sep)) with (Z.of_nat n); [apply Nat2Z.id|]. destruct (base_Int_part (PI / sep)) as [C D]. rewrite INR_IZR_INZ in A, B. apply Z.le_antisymm.
  - assert (Z.of_nat n < Int_part (PI / sep) + 1)%Z; [|lia]. apply lt_IZR. rewrite plus_IZR. lra.
  - assert (Int_part (PI / sep) < Z.of_nat n + 1)%Z; [|lia]. apply lt_IZR. rewrite plus_IZR. lra.
Qed.
(** 45 degrees: four steps of 22.5 degrees, 512 bins. *)
Lemma xC57_quarter : odf_step (PI / 4) = Ok (PI / 8) /\ List.length (odf_grid (PI / 8)) = 512%nat.
Proof.
  pose proof PI_RGT_0. assert (C : odf_count (PI / 4) = 4%nat) by (apply count_of; [lra|]; replace (PI / (PI / 4)) with 4 by (field; lra); cbn [INR]; lra).
  assert (E : odf_bin_step (PI / 4) = PI / 8) by (unfold odf_bin_step; rewrite C; cbn [INR]; field).
  rewrite step_ok, E by lra. split; auto. rewrite <- E. rewrite grid_length; [now rewrite C|lra|rewrite C; cbn [INR]; lra].
Qed.
(** 72 degrees requested: bins 90 degrees apart. *)
Lemma xC57_separation : misorientation (quat_matrix (grid_quat (bin_centre (odf_bin_step (2 * PI / 5)) 0 0 0)))
  (quat_matrix (grid_quat (bin_centre (odf_bin_step (2 * PI / 5)) 1 0 0))) = PI / 2.
Proof.
  pose proof PI_RGT_0. assert (C : odf_count (2 * PI / 5) = 2%nat) by (apply count_of; [lra|]; replace (PI / (2 * PI / 5)) with (5/2) by (field; lra); cbn [INR]; lra).
  destruct (pC57_separation_refuted (2 * PI / 5) 0 0 0) as [E _]; [lra|]. rewrite E, C. cbn [INR]. field.
Qed.
Fixpoint first_pos (p : list R) : nat := match p with [] => 0%nat | v :: r => if Rltb 0 v then 0%nat else S (first_pos r) end.
Definition first_gen : generator := Gen (fun _ => first_pos) (fun _ _ => 1/3).
Lemma first_pos_spec p : 0 < sum_list p -> 0 < nth (first_pos p) p 0.
Proof.
  induction p as [|v r IH]; [rewrite sum_list_nil; lra|]. rewrite sum_list_cons. intros H. cbn [first_pos]. destruct (Rltb 0 v) eqn:E; [apply Rltb_true in E; auto|]. apply Rltb_false in E. cbn [nth]. apply IH. lra.
Qed.
Lemma xC58_fair : fair first_gen.
Proof. split; [|intros; cbn; lra]. intros i p _ H. apply first_pos_spec. lra. Qed.
Lemma xC58_sampled : exists ms, sample_odf first_gen (fun _ _ => / (PI * PI)) (PI / 4) [V3 0 0 0; V3 1 2 3] = Ok ms.
Proof. apply pC57_uniform_accepted; pose proof PI_RGT_0; [lra|]. rewrite (count_of _ 4); [cbn [INR]; lra|lra|]. replace (PI / (PI / 4)) with 4 by (field; lra). cbn [INR]. lra. Qed.
