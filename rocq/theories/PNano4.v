(** * Nano rendering: size and shape of the discs (C72). *)
From Verif Require Import Vec Spec MMotion MLaue MMesh MScattering MStrain MBeam MPolycrystal SPolycrystal MDetector SDetector.
From Verif Require Import MRender SRender SNano PLaue PScattering PBeam PDetector PDetector2 PDetector3 PDetector4 PRender PRender2 PRender2b PRenderEx PRender3 PKernel PKernel2 PKernel3 PMacro PNano PNanoEx PNano2 PNano3.
From Coq Require Import Permutation FunctionalExtensionality.
Open Scope R_scope.
Local Notation len := List.length.

Lemma whole_radius d x : (x <= 2 \/ (exists n, 4 * x = IZR n) \/ 32 <= x) -> exists n, (1 <= n)%Z /\ airy_radius d (Fin x) = Ok (IZR n).
Proof.
  intros H. assert (B : forall R, airy_radius d (Fin x) = Ok R -> 8 <= R) by (intros R HR; now apply radius_bounds in HR).
  assert (exists n, airy_radius d (Fin x) = Ok (IZR n)) as [n Hn].
  { destruct (Rle_dec x 2) as [L|L]; [destruct (small_radius d) as (n & _ & Hn); exists n; now apply Hn|].
    destruct (Rle_dec x 32) as [M|M].
    - assert (exists n, 4 * x = IZR n) as [n E] by (destruct H as [H|[H|H]]; [lra|auto|exists 128%Z; lra]).
      unfold airy_radius. rewrite Rmax_left by lra. rewrite E. destruct (loop_int (d_sigma d) (d_threshold d / 2) 6 n) as (m & -> & _).
      { apply lt_IZR. lra. }
      exists (if Rlt_dec 128 (IZR m) then 128 else m)%Z. destruct (Rlt_dec 128 (IZR m)); reflexivity.
    - exists 128%Z. unfold airy_radius. rewrite Rmax_left by lra. cbn [airy_radius_loop]. destruct (Rle_dec (4 * x) 128); [lra|]. destruct (Rlt_dec 128 (4 * x)); [reflexivity|lra]. }
  exists n. split; auto. apply B in Hn. apply le_IZR. lra.
Qed.
Lemma prof_pattern j1 x s r : 1/2 <= x -> x < 10^8 -> s <= x -> (r = 0 \/ 1 <= r) -> prof j1 x s r = airy_pattern j1 (r / x).
Proof.
  intros Hx Hx' Hs [-> |Hr].
  - rewrite prof_0 by auto. unfold airy_pattern. destruct (Req_EM_T (0 / x) 0) as [|N]; auto. exfalso. apply N. unfold Rdiv. ring.
  - unfold prof, airy_profile, airy_pattern. cbv zeta. destruct (Req_EM_T r 0); [lra|].
    assert (P : 0 < r / x) by (apply Rdiv_lt_0_compat; lra).
    destruct (Req_EM_T (r / x) 0); [lra|]. cbn [nlt]. rewrite ndiv_fin by lra. replace (Rltb x s) with false by (symmetry; apply Rltb_false; lra).
    replace (38317/10000 * r / x) with (38317/10000 * (r / x)) by (field; lra).
    destruct (Rlt_dec _ _) as [C|_]; [|reflexivity]. exfalso. rewrite Rabs_right in C by lra.
    assert (/ 10^8 <= r / x). { apply Rmult_le_reg_r with x; [lra|]. unfold Rdiv. rewrite Rmult_assoc, Rinv_l, Rmult_1_r by lra. apply Rle_trans with 1; auto.
      apply Rmult_le_reg_l with (10^8); [lra|]. rewrite <- Rmult_assoc, Rinv_r, Rmult_1_l, Rmult_1_r by lra. lra. }
    lra.
Qed.
Lemma int_radius i j : sqrt (IZR i ^ 2 + IZR j ^ 2) = 0 \/ 1 <= sqrt (IZR i ^ 2 + IZR j ^ 2).
Proof.
  replace (IZR i ^ 2 + IZR j ^ 2) with (IZR (i * i + j * j)) by (rewrite plus_IZR, !mult_IZR; ring).
  destruct (Z.eq_dec (i * i + j * j) 0) as [E|E]; [left; rewrite E; apply sqrt_0|right].
  rewrite <- sqrt_1 at 1. apply sqrt_le_1_alt. apply IZR_le. nia.
Qed.
(** A peak that is rendered on its own gets a kernel that is the Airy pattern around the middle of the
    kernel, whose first dark ring has the radius 1.1861 * width * |corner 0| / cos(incidence) / z-pixel. *)
Lemma pC72_airy_shape : forall z j1 d psf pd r, 0 < d_pz d -> List.length r = 30%nat -> pd_columns pd = column_names ++ new_columns ->
  proper_disc pd r ->
  let x := 11861/10000 * read pd r "scherrer_fwhm" * norm (d_c0 d) / cos (read pd r "incident_angle" * PI / 180) / d_pz d in
  1/2 <= x < 10^8 -> d_sigma d <= x -> (x <= 2 \/ (exists n, 4 * x = IZR n) \/ 32 <= x) ->
  exists k c, airy_kernels z j1 d psf [r] = Ok [k] /\ 0 < c /\ Nat.odd (k_n k) = true /\
    forall a b, (a < k_n k)%nat -> (b < k_n k)%nat ->
      k_at k a b = Fin (c * airy_pattern j1 (sqrt ((INR a - INR (k_n k / 2))^2 + (INR b - INR (k_n k / 2))^2) / x)).
Proof.
  intros z j1 d psf pd r Hp Hl Hc Hd x [Hx Hx'] Hs Hw.
  assert (FZ : first_zero z d r = Fin x).
  { rewrite (first_zero_val z d pd r) by auto. f_equal. unfold disc_radius, x. destruct Hd as (_ & _ & Hcos).
    replace (read pd r "incident_angle" * PI / 180) with (read pd r "incident_angle" * (PI / 180)) by (unfold Rdiv; ring). field. split; auto. lra. }
  clearbody x. destruct (whole_radius d x Hw) as (n & Hn & HR).
  unfold airy_kernels. cbn [map nmax_list fold_left]. rewrite FZ, HR. cbn [bind map]. cbv zeta. cbn [forallb].
  unfold airy_kernel. cbn [nlt fst snd fold_right map]. replace (Rltb x (1/2)) with false by (symmetry; apply Rltb_false; lra).
  destruct (grid_entries z j1 d n x ltac:(lia) ltac:(lra) Hs) as (EN & EE & ES). set (k0 := airy_grid z j1 d (IZR n) (Fin x)) in *. clearbody k0.
  set (g0 := fun a b : nat => _) in EE. set (S := disc_sum j1 x (d_sigma d) n) in *.
  assert (HS : 1 <= S) by (unfold S; apply (disc_sum_grows j1 x (d_sigma d) n (n + 1) (n + 1)); try lra; lia).
  assert (E1 : entries (knorm z k0) (fun a b => g0 a b / S)).
  { intros a b Ha Hb. cbn [knorm k_at k_n] in *. rewrite ES, (EE a b Ha Hb). apply ndiv_fin. lra. }
  set (k := knorm z k0) in *. assert (Nk : k_n k = Z.to_nat (2 * n + 1)) by exact EN. clearbody k.
  pose proof (crop_radius_range (d_threshold d) k ltac:(lia)) as R. set (c := crop_radius (d_threshold d) k) in *. clearbody c.
  assert (H2 : (k_n k / 2 = Z.to_nat n)%nat) by (rewrite Nk; symmetry; apply Nat.div_unique with 1%nat; lia).
  assert (CE : crop k c = Ker (2 * c + 1) (fun a b => k_at k (Z.to_nat n - c + a) (Z.to_nat n - c + b))).
  { unfold crop. rewrite window_eq by lia. cbn [fst snd]. rewrite H2, Nk. f_equal. lia. }
  rewrite CE. unfold pad_to. cbn [k_n]. rewrite Nat.max_0_r, Nat.ltb_irrefl.
  exists (Ker (2 * c + 1) (fun a b => k_at k (Z.to_nat n - c + a) (Z.to_nat n - c + b))), (/ S). split; [reflexivity|]. split; [apply Rinv_0_lt_compat; lra|].
  cbn [k_n k_at]. split; [apply Nat.odd_spec; exists c; lia|].
  assert (Hh : ((2 * c + 1) / 2 = c)%nat) by (symmetry; apply Nat.div_unique with 1%nat; lia). rewrite Hh.
  intros a b Ha Hb. rewrite E1 by lia. f_equal. unfold g0. rewrite prof_pattern by (auto using int_radius; lra).
  rewrite Rmult_comm. unfold Rdiv at 1. f_equal. f_equal. f_equal. f_equal. rewrite !plus_IZR, !opp_IZR, !INR_IZR_INZ.
  replace (Z.of_nat (Z.to_nat n - c + a)) with (n - Z.of_nat c + Z.of_nat a)%Z by lia. replace (Z.of_nat (Z.to_nat n - c + b)) with (n - Z.of_nat c + Z.of_nat b)%Z by lia.
  rewrite !plus_IZR, !minus_IZR. f_equal; f_equal; ring.
Qed.

(** ** The distance that enters the size *)
(** The distance from which the size of a disc is computed, for a ray from o that meets the plane of the
    detector at p (from the side the normal points to), is |corner 0| / D times the flight path |p - o|,
    D being the distance of the source from the plane of the detector. *)
Lemma pC72_distance : forall z d v o s, built d -> 0 < s ->
  dot v (plane_normal (d_c0 d) (d_c1 d) (d_c2 d)) < 0 -> in_plane (d_c0 d) (d_c1 d) (d_c2 d) (ray_at o v s) ->
  exists zd yd a D, get_intersection z d (nfin v) (nfin o) = (zd, yd, Fin a) /\ airy_dist z d (Fin a) = Fin D /\ 0 <= a < 90 /\
    0 < plane_distance d o /\ D = norm (d_c0 d) / plane_distance d o * dist (ray_at o v s) o.
Proof.
  intros z d v o s Hb Hs Hv Hp. assert (Hv' : dot v (N_of d) <> 0) by (unfold N_of; lra). pose proof (N_nonzero _ _ Hv') as HN.
  rewrite intersection_closed by auto. cbv zeta. rewrite <- (ray_plane_unique d v o s) by auto.
  destruct (Rltb s 0) eqn:E; [apply Rltb_true in E; lra|]. do 4 eexists. split; [reflexivity|].
  fold (N_of d) in Hv. set (N := N_of d) in *. pose proof (norm_pos _ HN) as PN.
  assert (Hv0 : v <> vzero) by (intros ->; apply Hv'; clear; clearbody N; vdes; vunf; ring). pose proof (norm_pos _ Hv0) as PV.
  pose proof (dot_norm_range v N Hv0 HN) as RG. set (q := - (dot v N / (norm v * norm N))) in *.
  assert (Pq : 0 < q). { unfold q. replace (- (dot v N / (norm v * norm N))) with ((- dot v N) / (norm v * norm N)) by (unfold Rdiv; ring). apply Rdiv_lt_0_compat; [lra|now apply Rmult_lt_0_compat]. }
  assert (CQ : cos (incident_of d v * (PI / 180)) = q).
  { unfold incident_of. fold N. fold q. replace (acos q * (180 / PI) * (PI / 180)) with (acos q) by (field; apply PI_neq0). apply cos_acos. unfold q in *. lra. }
  unfold airy_dist. cbn [nmul ncos]. rewrite CQ, ndiv_fin by lra. split; [reflexivity|].
  assert (AQ : 0 <= acos q < PI / 2).
  { pose proof (acos_bound q) as AB. split; [lra|]. destruct (Rlt_dec (acos q) (PI / 2)) as [|C]; auto. exfalso.
    assert (CA : cos (acos q) = q) by (apply cos_acos; unfold q in *; lra). assert (cos (acos q) <= 0) by (apply cos_le_0; pose proof PI_RGT_0; lra). lra. }
  assert (P0 := PI_RGT_0). split.
  { unfold incident_of. fold N. fold q. split.
    - apply Rmult_le_pos; [lra|]. left. apply Rdiv_lt_0_compat; lra.
    - apply Rmult_lt_reg_r with (PI / 180); [lra|]. replace (acos q * (180 / PI) * (PI / 180)) with (acos q) by (field; lra). lra. }
  assert (DP : plane_distance d o = s * norm v * q).
  { unfold plane_distance. cbv zeta. fold (N_of d). fold N. unfold in_plane in Hp. fold (N_of d) in Hp. fold N in Hp.
    assert (X : dot (vsub (d_c0 d) o) N = s * dot v N). { revert Hp. unfold ray_at. generalize (d_c0 d). clear. clearbody N. intros c. vdes; vunf. intros. lra. }
    assert (s * dot v N < 0) by nra. rewrite X, Rabs_left by auto. unfold q. field. split; lra. }
  assert (Pd : 0 < plane_distance d o) by (rewrite DP; repeat apply Rmult_lt_0_compat; auto). split; auto.
  rewrite DP. replace (dist (ray_at o v s) o) with (s * norm v).
  - change (norm (d_c0 d) / q = norm (d_c0 d) / (s * norm v * q) * (s * norm v)). clear - Pq PV Hs. clearbody q. field. repeat split; lra.
  - unfold dist, ray_at. replace (vsub (vadd o (vscale s v)) o) with (vscale s v) by (clear; veq). rewrite norm_scale, Rabs_right by lra. reflexivity.
Qed.
(** So it is the flight path only for sources whose distance from the plane equals |corner 0|; for a
    source at the origin it is never less than the flight path, and equal to it only if corner 0 is the
    foot of the perpendicular from the origin. *)
Lemma pC72_distance_from_origin : forall z d v s, built d -> 0 < s ->
  dot v (plane_normal (d_c0 d) (d_c1 d) (d_c2 d)) < 0 -> in_plane (d_c0 d) (d_c1 d) (d_c2 d) (ray_at vzero v s) ->
  exists zd yd a D, get_intersection z d (nfin v) (nfin vzero) = (zd, yd, Fin a) /\ airy_dist z d (Fin a) = Fin D /\
    norm (ray_at vzero v s) <= D /\
    (D = norm (ray_at vzero v s) <-> forall p, in_plane (d_c0 d) (d_c1 d) (d_c2 d) p -> norm (d_c0 d) <= norm p).
Proof.
  intros z d v s Hb Hs Hv Hp. destruct (pC72_distance z d v vzero s Hb Hs Hv Hp) as (zd & yd & a & D & E1 & E2 & _ & PD & ED).
  exists zd, yd, a, D. split; auto. split; auto.
  assert (HN : N_of d <> vzero) by (apply (N_nonzero _ v); unfold N_of; lra). pose proof (norm_pos _ HN) as PN.
  replace (dist (ray_at vzero v s) vzero) with (norm (ray_at vzero v s)) in ED by (unfold dist; f_equal; generalize (ray_at vzero v s); clear; intros; veq).
  assert (PR : 0 < norm (ray_at vzero v s)).
  { apply norm_pos. intros C. rewrite C in Hp. unfold plane_distance in PD. cbv zeta in PD. unfold in_plane in Hp.
    replace (dot (vsub (d_c0 d) vzero) (plane_normal (d_c0 d) (d_c1 d) (d_c2 d))) with 0 in PD by (revert Hp; generalize (d_c0 d) (plane_normal (d_c0 d) (d_c1 d) (d_c2 d)); clear; intros c n; vdes; vunf; lra).
    rewrite Rabs_R0 in PD. unfold Rdiv in PD. lra. }
  set (t := norm (ray_at vzero v s)) in *. clearbody t.
  assert (CS : forall p, in_plane (d_c0 d) (d_c1 d) (d_c2 d) p -> plane_distance d vzero <= norm p).
  { intros p Hpp. unfold plane_distance. cbv zeta. fold (N_of d). unfold in_plane in Hpp. fold (N_of d) in Hpp.
    replace (dot (vsub (d_c0 d) vzero) (N_of d)) with (dot p (N_of d)) by (revert Hpp; generalize (d_c0 d) (N_of d); clear; intros c n; vdes; vunf; lra).
    apply Rmult_le_reg_r with (norm (N_of d)); auto. unfold Rdiv. rewrite Rmult_assoc, Rinv_l, Rmult_1_r by lra. apply cauchy. }
  assert (C0 : in_plane (d_c0 d) (d_c1 d) (d_c2 d) (d_c0 d)) by (unfold in_plane; rewrite vsub_self; generalize (plane_normal (d_c0 d) (d_c1 d) (d_c2 d)); clear; intros; vdes; vunf; ring).
  pose proof (CS _ C0) as G0. split; [|split].
  - rewrite ED. apply Rmult_le_reg_r with (plane_distance d vzero); auto. replace (norm (d_c0 d) / plane_distance d vzero * t * plane_distance d vzero) with (norm (d_c0 d) * t) by (field; lra).
    rewrite Rmult_comm. apply Rmult_le_compat_r; lra.
  - intros E p Hpp. apply Rle_trans with (plane_distance d vzero); [|now apply CS]. right.
    assert (Q : norm (d_c0 d) / plane_distance d vzero * t = t) by lra.
    replace (norm (d_c0 d)) with (norm (d_c0 d) / plane_distance d vzero * t * / t * plane_distance d vzero) by (field; lra). rewrite Q. field. lra.
  - intros Hmin. rewrite ED.
    (* the foot of the perpendicular *)
    set (n := N_of d) in *. set (foot := vscale (dot (d_c0 d) n / normsq n) n).
    assert (NN : normsq n <> 0) by (intros C; apply normsq_0 in C; contradiction).
    assert (F1 : in_plane (d_c0 d) (d_c1 d) (d_c2 d) foot).
    { unfold in_plane. fold (N_of d). fold n. unfold foot. replace (dot (vsub (vscale (dot (d_c0 d) n / normsq n) n) (d_c0 d)) n) with (dot (d_c0 d) n / normsq n * normsq n - dot (d_c0 d) n) by (generalize (dot (d_c0 d) n / normsq n); generalize (d_c0 d); clear; clearbody n; intros; vdes; vunf; ring). field. auto. }
    assert (F2 : norm foot = plane_distance d vzero).
    { unfold foot, plane_distance. cbv zeta. fold (N_of d). fold n. rewrite norm_scale. replace (vsub (d_c0 d) vzero) with (d_c0 d) by (generalize (d_c0 d); clear; intros; veq).
      replace (dot (d_c0 d) n / normsq n) with (dot (d_c0 d) n * / normsq n) by reflexivity. rewrite Rabs_mult, (Rabs_right (/ normsq n)). 2: { left. apply Rinv_0_lt_compat. pose proof (normsq_nonneg n). lra. }
      rewrite <- (norm_sq n). field. lra. }
    pose proof (Hmin _ F1) as L. rewrite F2 in L. replace (norm (d_c0 d)) with (plane_distance d vzero) by lra. field. lra.
Qed.

(** ** Narrow and turned-away discs *)
Lemma kernel_narrow z j1 d psf R x : x < 1/2 -> fst (airy_kernel z j1 d psf R (Fin x)) = crop (knorm z psf) (crop_radius (d_threshold d) (knorm z psf)).
Proof. intros H. unfold airy_kernel. cbn [fst nlt]. replace (Rltb x (1/2)) with true by (symmetry; now apply Rltb_true). reflexivity. Qed.
(** When no disc reaches half a pixel, the image depends on the position, frame and strength of the
    spots alone: not on Scherrer widths, incidence angles, Bessel function, memory or order. *)
Lemma pC72_narrow_discs : forall e e' d pd pd' frames ml mi ml' mi' im im' out out', fresh pd -> fresh pd' -> volumes_ok pd -> volumes_ok pd' ->
  built d -> 0 < d_pz d -> re_z e' = re_z e -> permutes (re_argsort e) -> permutes (re_argsort e') ->
  render e d pd frames "nano" ml mi = Ok (im, out) -> render e' d pd' frames "nano" ml' mi' = Ok (im', out') ->
  (forall r, In r (pd_peaks out) -> proper_disc out r /\ disc_radius d out r < 1/2) ->
  (forall r, In r (pd_peaks out') -> proper_disc out' r /\ disc_radius d out' r < 1/2) ->
  Forall2 (same_spot out out') (pd_peaks out) (pd_peaks out') -> same_image im im'.
Proof.
  intros e e' d pd pd' frames ml mi ml' mi' im im' out out' Hf Hf' Hv Hv' Hb Pz Ez Hp Hp' H H' Hd Hd' F2.
  destruct (nano_inv _ _ _ _ _ _ _ _ H) as [Ho Hm]. destruct (nano_inv _ _ _ _ _ _ _ _ H') as [Ho' Hm']. pose proof (nframes_ge frames) as Hn.
  assert (Eimg : im = im'); [|subst; split; [repeat split|auto]].
  destruct (pd_peaks out) as [|r0 rows] eqn:Er.
  { destruct (pd_peaks out') as [|q0 q]; [|inversion F2]. unfold nano_method, render_airy in Hm, Hm'. congruence. }
  rewrite <- Er in *. assert (Hne : pd_peaks out <> []) by (rewrite Er; discriminate).
  assert (Hne' : pd_peaks out' <> []) by (intros C; rewrite C, Er in F2; inversion F2).
  destruct (psf_kernel d) as [psf|] eqn:Ek.
  2: { exfalso. unfold nano_method, render_airy in Hm. rewrite Er, Ek in Hm. discriminate. }
  assert (S1 : same_size d out) by (left; intros r Hr; destruct (Hd r Hr); lra). assert (S2 : same_size d out') by (left; intros r Hr; destruct (Hd' r Hr); lra).
  destruct (nano_image e d pd (nframes frames) out psf Hf Hv Hb Pz Hn Ho Hne Ek (fun r Hr => proj1 (Hd r Hr)) S1) as (R1 & _ & I1).
  destruct (nano_image e' d pd' (nframes frames) out' psf Hf' Hv' Hb Pz Hn Ho' Hne' Ek (fun r Hr => proj1 (Hd' r Hr)) S2) as (R2 & _ & I2).
  rewrite (I1 e eq_refl eq_refl Hp) in Hm. rewrite (I2 e' eq_refl eq_refl Hp') in Hm'. rewrite Ez in *.
  assert (im = im'); [|auto].
  match type of Hm with Ok ?a = _ => assert (A1 : im = a) by congruence end. match type of Hm' with Ok ?a = _ => assert (A2 : im' = a) by congruence end. rewrite A1, A2. clear A1 A2 Hm Hm' I1 I2.
  f_equal. f_equal. extensionality f. extensionality i. extensionality j. destruct (Nat.ltb f _); auto.
  f_equal.
  assert (G : forall l l', incl l (pd_peaks out) -> incl l' (pd_peaks out') -> Forall2 (same_spot out out') l l' ->
    map (contrib d (fun r => fst (airy_kernel (re_z e) (re_j1 e) d psf R1 (Fin (disc_radius d out r)))) f i j) l =
    map (contrib d (fun r => fst (airy_kernel (re_z e) (re_j1 e') d psf R2 (Fin (disc_radius d out' r)))) f i j) l').
  { intros l l' HI HI' HF. induction HF as [|r r' l l' Hs HF IH]; auto. cbn [map]. f_equal; [|apply IH; intros x Hx; [apply HI|apply HI']; now right].
    assert (Hr : In r (pd_peaks out)) by (apply HI; now left). assert (Hr' : In r' (pd_peaks out')) by (apply HI'; now left).
    unfold contrib. rewrite !kernel_narrow by (apply Hd || apply Hd'; auto).
    destruct Hs as (Sz & Sy & Sf & Ss). destruct (out_reads _ _ _ _ _ _ Hf Hn Ho Hr) as (A1 & A2 & A3 & A4 & A5 & _). destruct (out_reads _ _ _ _ _ _ Hf' Hn Ho' Hr') as (B1 & B2 & B3 & B4 & B5 & _).
    assert (PI1 : peak_intensity r = Fin (strength out r)).
    { destruct (projected_prow _ _ _ _ _ _ Hf Hn Ho Hr) as (k & zd & yd & it & P). destruct (volumes_out _ _ _ _ _ _ Hf Hv Ho Hr) as (v & Ev & _).
      unfold peak_intensity, strength. rewrite A4, A5. unfold fcol. rewrite (pr_i _ _ _ _ _ _ _ P), Ev. reflexivity. }
    assert (PI2 : peak_intensity r' = Fin (strength out' r')).
    { destruct (projected_prow _ _ _ _ _ _ Hf' Hn Ho' Hr') as (k & zd & yd & it & P). destruct (volumes_out _ _ _ _ _ _ Hf' Hv' Ho' Hr') as (v & Ev & _).
      unfold peak_intensity, strength. rewrite B4, B5. unfold fcol. rewrite (pr_i _ _ _ _ _ _ _ P), Ev. reflexivity. }
    rewrite PI1, PI2, Ss. unfold pos_z, pos_y. rewrite <- A1, <- A2, <- A3, <- B1, <- B2, <- B3, Sz, Sy, Sf. reflexivity. }
  apply G; auto using incl_refl.
Qed.
(** On a detector whose normal points along the rays (incidence angles above 90 degrees, see C49) no
    Airy disc is ever drawn: Scherrer broadening has no effect on the image. *)
Lemma pC72_turned_away_refuted : forall e e' d pd pd' frames ml mi ml' mi' im im' out out', fresh pd -> fresh pd' -> volumes_ok pd -> volumes_ok pd' ->
  built d -> 0 < d_pz d -> re_z e' = re_z e -> permutes (re_argsort e) -> permutes (re_argsort e') ->
  render e d pd frames "nano" ml mi = Ok (im, out) -> render e' d pd' frames "nano" ml' mi' = Ok (im', out') ->
  (forall r, In r (pd_peaks out) -> exists w a, has out r "scherrer_fwhm" w /\ 0 <= w /\ has out r "incident_angle" a /\ 90 < a <= 180) ->
  (forall r, In r (pd_peaks out') -> exists w a, has out' r "scherrer_fwhm" w /\ 0 <= w /\ has out' r "incident_angle" a /\ 90 < a <= 180) ->
  Forall2 (same_spot out out') (pd_peaks out) (pd_peaks out') -> same_image im im'.
Proof.
  intros e e' d pd pd' frames ml mi ml' mi' im im' out out' Hf Hf' Hv Hv' Hb Pz Ez Hp Hp' H H' Hd Hd' F2.
  assert (G : forall out r, (exists w a, has out r "scherrer_fwhm" w /\ 0 <= w /\ has out r "incident_angle" a /\ 90 < a <= 180) -> proper_disc out r /\ disc_radius d out r < 1/2).
  { clear - Pz. intros out r (w & a & Hw & Pw & Ha & Pa).
    assert (Ew : read out r "scherrer_fwhm" = w) by (unfold read, has in *; now rewrite Hw). assert (Ea : read out r "incident_angle" = a) by (unfold read, has in *; now rewrite Ha).
    assert (P0 := PI_RGT_0).
    assert (C : cos (a * (PI / 180)) < 0).
    { apply cos_lt_0; [apply Rmult_lt_reg_r with (180 / PI)|apply Rmult_lt_reg_r with (180 / PI)]; try (apply Rdiv_lt_0_compat; lra).
      - replace (a * (PI / 180) * (180 / PI)) with a by (field; lra). replace (PI / 2 * (180 / PI)) with 90 by (field; lra). lra.
      - replace (a * (PI / 180) * (180 / PI)) with a by (field; lra). replace (3 * (PI / 2) * (180 / PI)) with 270 by (field; lra). lra. }
    unfold proper_disc, disc_radius. rewrite Ew, Ea. split; [split; [eauto|split; [eauto|lra]]|].
    apply Rle_lt_trans with 0; [|lra]. set (c := cos _) in *.
    replace (w * (norm (d_c0 d) / c) / d_pz d * (11861 / 10000)) with (- (w * (norm (d_c0 d) * / (- c)) * / d_pz d * (11861 / 10000))) by (field; lra).
    assert (0 <= w * (norm (d_c0 d) * / (- c)) * / d_pz d * (11861 / 10000)); [|lra].
    pose proof (norm_nonneg (d_c0 d)). assert (0 < / (- c)) by (apply Rinv_0_lt_compat; lra). assert (0 < / d_pz d) by (now apply Rinv_0_lt_compat).
    repeat (apply Rmult_le_pos; try lra). }
  eapply (pC72_narrow_discs e e' d pd pd'); eauto.
Qed.

(** ** Examples *)
Lemma xC72_shape : exists (j1 : R -> R) d psf pd r, 0 < d_pz d /\ List.length r = 30%nat /\ pd_columns pd = column_names ++ new_columns /\
  proper_disc pd r /\
  let x := 11861/10000 * read pd r "scherrer_fwhm" * norm (d_c0 d) / cos (read pd r "incident_angle" * PI / 180) / d_pz d in
  x = 3 /\ 1/2 <= x < 10^8 /\ d_sigma d <= x /\ (exists n, 4 * x = IZR n) /\ psf_kernel d = Ok psf /\ j1 1 = 1.
Proof.
  destruct ex_world as (me & b & _). destruct nano_psf as (psf & Hpsf & _).
  set (out := projected_table 2 [disc_spot (1/4) 3] me b).
  exists (fun _ => 1), nano_det, psf, out, (disc_row (1/4) 3). split; [cbn; lra|]. split; [reflexivity|]. split; [reflexivity|].
  assert (E1 : read out (disc_row (1/4) 3) "incident_angle" = 0) by reflexivity.
  assert (E2 : read out (disc_row (1/4) 3) "scherrer_fwhm" = 3 / (11861/1000)) by reflexivity.
  split; [split; [|split]|].
  - eexists. reflexivity.
  - eexists. reflexivity.
  - rewrite E1, Rmult_0_l, cos_0. lra.
  - intros x. assert (Ex : x = 3).
    { unfold x. rewrite E1, E2. replace (0 * PI / 180) with 0 by (unfold Rdiv; ring). rewrite cos_0. change (d_c0 nano_det) with (V3 10 0 0). change (d_pz nano_det) with 1. rewrite (norm_sqrt_eq (V3 10 0 0) 10) by (vunf; lra). field. }
    clearbody x. subst x. change (d_sigma nano_det) with 1. split; auto. split; [lra|]. split; [lra|]. split; [exists 12%Z; lra|]. split; auto.
Qed.
(** An oblique ray: corner 0 at distance 10, flight path 10 * sqrt 2. *)
Lemma xC72_ray : exists d v o s, built d /\ 0 < s /\ dot v (plane_normal (d_c0 d) (d_c1 d) (d_c2 d)) < 0 /\
  in_plane (d_c0 d) (d_c1 d) (d_c2 d) (ray_at o v s) /\ norm (d_c0 d) = 10 /\ normsq (vsub (ray_at o v s) o) = 200.
Proof.
  exists nano_det, (V3 1 1 0), vzero, 10. split; [apply flat_built; [lra|lia]|]. split; [lra|].
  unfold nano_det, flat; cbn [d_c0 d_c1 d_c2]. change (IZR 41) with 41.
  split; [unfold plane_normal; vunf; lra|]. split; [unfold in_plane, plane_normal, ray_at; vunf; lra|]. split; [apply norm_sqrt_eq; vunf; lra|].
  unfold ray_at; vunf; lra.
Qed.
Lemma narrow_render : forall j1 free x t, 0 < x < 1/2 ->
  let e := ex_env free j1 sort_desc in exists d pd im out, d = nano_det /\ built d /\ fresh pd /\ volumes_ok pd /\
  render e d pd 2 "nano" None 1 = Ok (im, out) /\ pd_columns out = column_names ++ new_columns /\ pd_peaks out = [disc_row t x] /\
  (forall r, In r (pd_peaks out) -> proper_disc out r /\ disc_radius d out r = x).
Proof.
  intros j1 free x t Hx e. destruct ex_world as (me & b & _). destruct nano_psf as (psf & Hpsf & _).
  set (ss := [disc_spot t x]). set (out := projected_table 2 ss me b).
  assert (Ho : project false nano_det (spot_table ss me b) 2 = Ok out).
  { apply flat_project; try lra. apply Forall_cons; [|apply Forall_nil]; unfold good_spot; cbn [disc_spot s_y s_h s_sf]; change (IZR 41) with 41; repeat split; lra. }
  assert (Hv : volumes_ok (spot_table ss me b)) by (apply volumes_spot; apply Forall_cons; [|apply Forall_nil]; cbn; lra).
  assert (Hr : forall r, In r (pd_peaks out) -> proper_disc out r /\ disc_radius nano_det out r = x).
  { intros r Hr. assert (r = disc_row t x) as -> by (cbn in Hr; destruct Hr as [<-|[]]; reflexivity).
    assert (E1 : read out (disc_row t x) "incident_angle" = 0) by reflexivity.
    assert (E2 : read out (disc_row t x) "scherrer_fwhm" = x / (11861/1000)) by reflexivity.
    split; [split; [|split]|].
    - eexists. reflexivity.
    - eexists. reflexivity.
    - rewrite E1, Rmult_0_l, cos_0. lra.
    - unfold disc_radius. rewrite E1, E2, Rmult_0_l, cos_0. change (d_c0 nano_det) with (V3 10 0 0). change (d_pz nano_det) with 1. rewrite (norm_sqrt_eq (V3 10 0 0) 10) by (vunf; lra). field. }
  destruct (nano_image e nano_det (spot_table ss me b) 2 out psf (spot_fresh _ _ _) Hv) as (R & _ & Him); auto.
  { apply flat_built; [lra|lia]. }
  { cbn; lra. } { lia. } { discriminate. } { intros r Hin. now apply Hr. } { left. intros r Hin. rewrite (proj2 (Hr r Hin)). lra. }
  specialize (Him e eq_refl eq_refl sort_permutes).
  eexists nano_det, (spot_table ss me b), _, out. split; [reflexivity|]. split; [apply flat_built; [lra|lia]|]. split; [apply spot_fresh|]. split; [exact Hv|].
  split; [|split; [reflexivity|split; [reflexivity|exact Hr]]].
  unfold render. cbv zeta. change (2 <? 1)%Z with false. cbv iota. change (re_z e) with false. rewrite Ho. cbn [bind String.eqb Ascii.eqb Bool.eqb]. rewrite Him. reflexivity.
Qed.
(** Two discs of different width, different Bessel functions and memory. *)
Lemma xC72_narrow : exists e e' d pd pd' im im' out out', fresh pd /\ fresh pd' /\ volumes_ok pd /\ volumes_ok pd' /\ built d /\ 0 < d_pz d /\
  re_z e' = re_z e /\ permutes (re_argsort e) /\ permutes (re_argsort e') /\
  render e d pd 2 "nano" None 1 = Ok (im, out) /\ render e' d pd' 2 "nano" None 1 = Ok (im', out') /\
  (forall r, In r (pd_peaks out) -> proper_disc out r /\ disc_radius d out r = 1/4) /\
  (forall r, In r (pd_peaks out') -> proper_disc out' r /\ disc_radius d out' r = 1/3) /\
  Forall2 (same_spot out out') (pd_peaks out) (pd_peaks out') /\ pd_peaks out <> [] /\ re_j1 e 1 <> re_j1 e' 1 /\ re_free_nano e <> re_free_nano e'.
Proof.
  destruct (narrow_render (fun _ => 1) 0 (1/4) (1/4) ltac:(lra)) as (d & pd & im & out & Ed & Hb & Hf & Hv & H & C & P & Hr).
  destruct (narrow_render (fun _ => 2) 7 (1/3) (1/4) ltac:(lra)) as (d' & pd' & im' & out' & Ed' & Hb' & Hf' & Hv' & H' & C' & P' & Hr').
  subst d'. subst d. exists (ex_env 0 (fun _ => 1) sort_desc), (ex_env 7 (fun _ => 2) sort_desc), nano_det, pd, pd', im, im', out, out'.
  repeat (split; [assumption || (cbn; lra) || reflexivity || apply sort_permutes|]). split; [|split; [rewrite P; discriminate|cbn; split; lra]].
  rewrite P, P'. apply Forall2_cons; [|apply Forall2_nil]. unfold same_spot, strength, read, field. rewrite C, C'. repeat split; reflexivity.
Qed.
(** The plane x = -10 seen by a ray along -x: the normal points along the ray. *)
Definition back_det : detector := flat (-10) 1 41 1 (1/10) 0.
Definition back_row (t w : R) : list num := map Fin [0; 0; 1; 0; 0; 1; t; 0; 0; 0; 0; 0; 0; -1; 0; 0; 0; 20; 20; 1; 1; 1; 0; w; 0].
Lemma back_hit z : get_intersection z back_det (nfin (V3 (-1) 0 0)) (nfin (V3 0 20 20)) = (Fin 20, Fin 20, Fin 180).
Proof.
  assert (Hb : built back_det) by (apply flat_built; [lra|lia]).
  assert (EN : N_of back_det = V3 (- 41 * 41) 0 0) by (unfold N_of, plane_normal; cbn [back_det flat d_c0 d_c1 d_c2]; change (IZR 41) with 41; vext; vunf; ring).
  rewrite (intersection_closed z back_det _ _ Hb) by (rewrite EN; vunf; lra).
  assert (Es : svalue back_det (V3 (-1) 0 0) (V3 0 20 20) = 10) by (unfold svalue; rewrite EN; cbn [back_det flat d_c0]; vunf; field).
  rewrite Es. cbv zeta. replace (Rltb 10 0) with false by (symmetry; apply Rltb_false; lra).
  assert (Ep : ray_at (V3 0 20 20) (V3 (-1) 0 0) 10 = V3 (-10) 20 20) by (unfold ray_at; vext; vunf; ring).
  rewrite Ep.
  assert (D1 : norm (vsub (V3 (-10) 0 41) (V3 (-10) 0 0)) = 41) by (apply norm_sqrt_eq; vunf; lra).
  assert (D2 : norm (vsub (V3 (-10) 41 0) (V3 (-10) 0 0)) = 41) by (apply norm_sqrt_eq; vunf; lra).
  unfold zhat_of, yhat_of, dist. cbn [back_det flat d_c0 d_c1 d_c2]. change (IZR 41) with 41. rewrite !Rmult_1_r, D1, D2.
  f_equal; [f_equal|]; f_equal.
  - vunf. field.
  - vunf. field.
  - unfold incident_of. rewrite EN.
    assert (N1 : norm (V3 (- 41 * 41) 0 0) = 41 * 41) by (apply norm_sqrt_eq; vunf; lra).
    assert (N2 : norm (V3 (-1) 0 0) = 1) by (apply norm_sqrt_eq; vunf; lra).
    rewrite ?N1, ?N2. vunf.
    match goal with |- acos ?x * _ = _ => replace x with (- (1)) by field end.
    rewrite acos_opp, acos_1. field. apply PI_neq0.
Qed.
Lemma xC72_turned_away : forall w, 0 <= w -> exists e d pd im out, fresh pd /\ volumes_ok pd /\ built d /\ 0 < d_pz d /\ permutes (re_argsort e) /\
  render e d pd 2 "nano" None 1 = Ok (im, out) /\ pd_peaks out <> [] /\
  (forall r, In r (pd_peaks out) -> has out r "scherrer_fwhm" w /\ has out r "incident_angle" 180).
Proof.
  intros w Hw. destruct ex_world as (me & b & _). set (e := ex_env 0 (fun _ => 1) sort_desc).
  set (pd := ex_table [back_row (1/4) w] me b).
  assert (Hf : fresh pd) by (split; [reflexivity|cbn; repeat constructor]).
  assert (Hv : volumes_ok pd) by (intros r Hin; cbn in Hin; destruct Hin as [<-|Hin]; [exists 1; split; [reflexivity|lra]|contradiction]).
  assert (Hb : built back_det) by (apply flat_built; [lra|lia]).
  destruct (project_ok false back_det pd 2) as [out Ho]; [cbn; repeat constructor; cbn; lia|].
  assert (P : pd_columns out = column_names ++ new_columns /\ pd_peaks out = [back_row (1/4) w ++ map Fin [20; 20; 180; IZR (frame_of 2 (Fin (1/4))); 1]]).
  { pose proof Ho as Ho'. apply project_inv in Ho' as (H1 & H2 & _). rewrite H1, H2. split; [reflexivity|]. cbn [pd ex_table pd_peaks filter].
    assert (EI : get_intersection false back_det (row_nvec (back_row (1/4) w) 13) (row_nvec (back_row (1/4) w) 16) = (Fin 20, Fin 20, Fin 180)) by exact (back_hit false).
    assert (Eint : intensity back_det (back_row (1/4) w) = Fin 1).
    { unfold intensity. cbn [back_det flat d_structure d_polarization d_lorentz]. unfold ncol, back_row. cbn [nth map nmul]. cbv beta iota zeta. f_equal. ring. }
    assert (K : keepb false back_det 2 (back_row (1/4) w) = true).
    { rewrite (keepb_fresh false back_det 2 (back_row (1/4) w) _ _ _ eq_refl EI), Eint. cbn [is_finite andb].
      unfold det_contains. cbn [back_det flat d_zmax d_ymax nle nlt]. change (IZR 41) with 41.
      repeat match goal with |- context[Rleb ?a ?b] => replace (Rleb a b) with true by (symmetry; apply Rleb_true; lra) end.
      cbn [andb]. apply Rltb_true. lra. }
    rewrite K. cbn [map]. rewrite extend_eq by (cbn; lia). rewrite EI, Eint. reflexivity. }
  destruct P as [PC PP].
  assert (Hr : forall r, In r (pd_peaks out) -> has out r "scherrer_fwhm" w /\ has out r "incident_angle" 180).
  { intros r Hr. rewrite PP in Hr. destruct Hr as [<-|[]]. unfold has, field. rewrite PC. split; reflexivity. }
  assert (Hp : forall r, In r (pd_peaks out) -> proper_disc out r /\ disc_radius back_det out r < 1/2).
  { intros r Hin. destruct (Hr r Hin) as [A B]. unfold proper_disc, disc_radius.
    assert (Ew : read out r "scherrer_fwhm" = w) by (unfold read, has in *; now rewrite A). assert (Ea : read out r "incident_angle" = 180) by (unfold read, has in *; now rewrite B).
    rewrite Ew, Ea. replace (180 * (PI / 180)) with PI by field. rewrite cos_PI. change (d_pz back_det) with 1. split; [split; [eauto|split; [eauto|lra]]|].
    change (d_c0 back_det) with (V3 (-10) 0 0). rewrite (norm_sqrt_eq (V3 (-10) 0 0) 10) by (vunf; lra). replace (w * (10 / -1) / 1 * (11861 / 10000)) with (- (w * (11861/1000))) by field. nra. }
  destruct (pC46_kernel back_det) as (psf & g & Hpsf & _); [cbn; lra|cbn; lia|].
  destruct (nano_image e back_det pd 2 out psf Hf Hv) as (R & _ & Him); auto.
  { cbn; lra. } { lia. } { rewrite PP. discriminate. } { intros r Hin. now apply Hp. } { left. intros r Hin. destruct (Hp r Hin). lra. }
  specialize (Him e eq_refl eq_refl sort_permutes).
  eexists e, back_det, pd, _, out. split; [exact Hf|]. split; [exact Hv|]. split; [exact Hb|]. split; [cbn; lra|]. split; [apply sort_permutes|].
  split; [|split; [rewrite PP; discriminate|exact Hr]].
  unfold render. cbv zeta. change (2 <? 1)%Z with false. cbv iota. change (re_z e) with false. rewrite Ho. cbn [bind String.eqb Ascii.eqb Bool.eqb]. rewrite Him. reflexivity.
Qed.
