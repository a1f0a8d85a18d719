(** * Proofs about MDetector (frames, pixel grid, re-projection, incident angle). *)
From Verif Require Import Vec Spec MMotion PMotion MLaue PLaue MMesh SMesh PMesh MScattering SScattering PScattering.
From Verif Require Import MStrain SStrain PStrain MBeam SBeam PBeam MPolycrystal SPolycrystal PPolycrystal.
From Verif Require Import MDetector SDetector PDetector PDetector2 MFloat.
From Verif Require Import PPolycrystal3.
Open Scope R_scope.
Local Notation len := List.length.

(** ** C31 *)
Lemma filter_length_map {A B} (f : A -> B) p l : len (filter p (map f l)) = len (filter (fun x => p (f x)) l).
Proof. rewrite filter_map, map_length. reflexivity. Qed.
Lemma count_lt k m : forall s, len (filter (fun i => Nat.ltb i (s + k)) (seq s m)) = Nat.min k m.
Proof.
  revert k. induction m as [|m IH]; intros k s; [simpl; lia|]. cbn [seq filter].
  destruct (Nat.ltb_spec s (s + k)).
  - destruct k as [|k]; [lia|]. cbn [List.length]. replace (s + S k)%nat with (S s + k)%nat by lia. rewrite IH. lia.
  - assert (k = 0%nat) by lia. subst k. replace (s + 0)%nat with (S s + 0 - 1)%nat by lia.
    rewrite (filter_ext_in _ (fun _ => false)); [|intros a Ha; apply in_seq in Ha; apply Nat.ltb_ge; lia].
    replace (filter (fun _ : nat => false) (seq (S s) m)) with (@nil nat); [reflexivity|].
    generalize (seq (S s) m). induction l; simpl; auto.
Qed.
Lemma frame_of_closed n t : (2 <= n)%Z ->
  frame_of n (Fin t) = Z.max 0 (Z.min (ceil (t * IZR n) - 1) (n - 1)).
Proof.
  intros Hn. unfold frame_of. destruct (Z.leb_spec n 1); [lia|]. cbv zeta. unfold linspace01.
  rewrite filter_length_map.
  set (c := ceil (t * IZR n)). assert (Hc := ceil_spec (t * IZR n)). fold c in Hc.
  assert (0 < IZR n) by (apply IZR_lt; lia).
  rewrite (filter_ext_in _ (fun i => Nat.ltb i (0 + Z.to_nat c))).
  - rewrite count_lt. lia.
  - intros i Hi. cbn [nle]. replace (Z.to_nat n + 1 - 1)%nat with (Z.to_nat n) by lia.
    rewrite !INR_IZR_INZ, Z2Nat.id by lia.
    set (x := IZR (Z.of_nat i)).
    assert (Hx : x / IZR n * IZR n = x) by (unfold Rdiv; rewrite Rmult_assoc, Rinv_l; lra).
    destruct (Rleb t (x / IZR n)) eqn:E; simpl; symmetry.
    + apply Rleb_true in E. apply Nat.ltb_ge. assert (t * IZR n <= x) by nra.
      assert (IZR c - 1 < x) by lra. unfold x in H2. rewrite <- minus_IZR in H2. apply lt_IZR in H2. lia.
    + apply Rleb_false in E. apply Nat.ltb_lt. assert (x < t * IZR n) by nra.
      assert (x < IZR c) by lra. unfold x in H2. apply lt_IZR in H2. lia.
Qed.
(** Every time in [0,1] is put into its time bin, for every number of frames. *)
Lemma pC31_frame_is_time_bin : forall n t, (1 <= n)%Z -> 0 <= t <= 1 -> in_bin n t (frame_of n (Fin t)).
Proof.
  intros n t Hn Ht. destruct (Z.eq_dec n 1) as [->|Hn1].
  { unfold frame_of. simpl. unfold in_bin. split; [lia|]. split; [|lra].
    destruct Ht as [[?|?] ?]; [right; lra|left; auto]. }
  rewrite frame_of_closed by lia. assert (Pn : 0 < IZR n) by (apply IZR_lt; lia).
  pose proof (ceil_spec (t * IZR n)) as Hc. set (c := ceil (t * IZR n)) in *.
  assert (C1 : (c <= n)%Z).
  { assert (IZR c - 1 < IZR n) by nra. rewrite <- minus_IZR in H. apply lt_IZR in H. lia. }
  assert (C0 : (0 <= c)%Z). { apply le_IZR. nra. }
  rewrite Z.min_l by lia. destruct (Z.eq_dec c 0) as [E|E].
  - rewrite E in *. change (Z.max 0 (0 - 1)) with 0%Z. unfold in_bin. split; [lia|].
    assert (t = 0) by nra. subst t. split; [left; auto|]. apply Rmult_le_pos; [simpl; lra|]. left; now apply Rinv_0_lt_compat.
  - rewrite Z.max_r by lia. unfold in_bin. split; [lia|]. rewrite minus_IZR. split.
    + right. apply Rmult_lt_reg_r with (IZR n); auto. unfold Rdiv. rewrite Rmult_assoc, Rinv_l; lra.
    + apply Rmult_le_reg_r with (IZR n); auto. unfold Rdiv. rewrite Rmult_assoc, Rinv_l; lra.
Qed.
(** A time lies in at most one bin. *)
Lemma pC31_bin_unique : forall n t f f', in_bin n t f -> in_bin n t f' -> f = f'.
Proof.
  assert (A : forall n t f f', in_bin n t f -> in_bin n t f' -> (f <= f')%Z).
  { intros n t f f' (H1 & H2 & H3) (H1' & H2' & H3'). assert (Pn : 0 < IZR n) by (apply IZR_lt; lia).
    destruct H2 as [[-> ->]|H2]; [lia|]. apply Z.lt_succ_r. apply lt_IZR. rewrite succ_IZR.
    apply Rmult_lt_reg_r with (/ IZR n); [now apply Rinv_0_lt_compat|]. unfold Rdiv in *. lra. }
  intros n t f f' H H'. pose proof (A _ _ _ _ H H'). pose proof (A _ _ _ _ H' H). lia.
Qed.
Lemma pC31_monotone : forall n t t', (1 <= n)%Z -> 0 <= t -> t <= t' -> t' <= 1 ->
  (frame_of n (Fin t) <= frame_of n (Fin t'))%Z.
Proof.
  intros n t t' Hn H0 H1 H2. destruct (pC31_frame_is_time_bin n t Hn) as (A1 & A2 & A3); [lra|].
  destruct (pC31_frame_is_time_bin n t' Hn) as (B1 & B2 & B3); [lra|].
  assert (Pn : 0 < IZR n) by (apply IZR_lt; lia).
  destruct A2 as [[-> E]|A2]; [lia|]. apply Z.lt_succ_r. apply lt_IZR. rewrite succ_IZR.
  apply Rmult_lt_reg_r with (/ IZR n); [now apply Rinv_0_lt_compat|]. unfold Rdiv in *. lra.
Qed.
(** In a projected table: the frame column holds the bin of the recorded time;
    fewer than one requested frame counts as one. *)
Lemma pC31_recorded_frame : forall z d pd frames out r t, fresh pd -> project z d pd frames = Ok out ->
  In r (pd_peaks out) -> has out r "diffraction_times" t -> 0 <= t <= 1 ->
  exists f, has out r "frame" (IZR f) /\ in_bin (Z.max 1 frames) t f.
Proof.
  intros z d pd frames out r' t Hf Ho Hin Ht Ht1.
  destruct (out_row _ _ _ _ _ _ Hf Ho Hin) as (r & zd & yd & a & Hir & Hl & Hk & E & -> & Hc).
  apply (has_ncol _ _ _ 6) in Ht; [|rewrite Hc; reflexivity|rewrite app_length; lia].
  rewrite ncol_app_l in Ht by lia. exists (frame_of frames (ncol r 6)). split.
  - apply (has_col _ _ _ 28); [rewrite Hc; reflexivity|]. rewrite nth_error_app2 by lia. rewrite Hl. reflexivity.
  - rewrite Ht. destruct (Z.leb_spec frames 1).
    + replace (frame_of frames (Fin t)) with (frame_of 1 (Fin t)).
      * rewrite Z.max_l by lia. apply pC31_frame_is_time_bin; auto; lia.
      * unfold frame_of. destruct (Z.leb_spec frames 1); [|lia]. reflexivity.
    + rewrite Z.max_r by lia. apply pC31_frame_is_time_bin; auto; lia.
Qed.
Lemma xC31_bins : in_bin 4 (1/2) 1 /\ in_bin 4 (51/100) 2 /\ in_bin 4 1 3 /\ in_bin 4 0 0.
Proof. unfold in_bin. repeat split; try lia; try lra; try (right; lra); left; split; auto; lia. Qed.

(** ** C30 *)
Lemma arange_ok_inv stop step m : 0 < stop -> arange_len stop step = Ok m -> 0 < step /\ m = Z.to_nat (ceil (stop / step)).
Proof.
  intros Hs. unfold arange_len. destruct (Req_EM_T step 0); [discriminate|].
  destruct (Rltb step 0) eqn:E; destruct (Rltb 0 stop) eqn:E'; simpl; try discriminate.
  - apply Rltb_false in E'. lra.
  - apply Rltb_false in E. intros H; inversion H. split; auto. lra.
  - apply Rltb_false in E'. lra.
Qed.
(** The pixel array has ceil(length / pixel size) points along each edge. *)
Lemma pC30_grid_shape : forall d, built d -> 0 < d_zmax d -> 0 < d_ymax d ->
  0 < d_pz d /\ 0 < d_py d /\
  List.length (pixel_coordinates d) = d_nz d /\ Forall (fun row => List.length row = d_ny d) (pixel_coordinates d) /\
  INR (d_nz d) - 1 < d_zmax d / d_pz d <= INR (d_nz d) /\
  INR (d_ny d) - 1 < d_ymax d / d_py d <= INR (d_ny d).
Proof.
  intros d (c0 & c1 & c2 & np & ps & sg & th & mr & ul & up & us & H) Pz Py.
  apply make_detector_inv in H as (H0 & H1 & H2 & Hz & Hy & Hzh & Hyh & Hn & Hp & Ha & Hb & _).
  rewrite <- Hz in Ha. rewrite <- Hy in Hb.
  apply arange_ok_inv in Ha as [P1 E1]; auto. apply arange_ok_inv in Hb as [P2 E2]; auto.
  split; auto. split; auto.
  split; [unfold pixel_coordinates; now rewrite map_length, seq_length|].
  split; [apply Forall_forall; intros r Hr; unfold pixel_coordinates in Hr; apply in_map_iff in Hr as (i & <- & _);
          now rewrite map_length, seq_length|].
  assert (A : forall v p n, 0 < v -> 0 < p -> n = Z.to_nat (ceil (v / p)) -> INR n - 1 < v / p <= INR n).
  { intros v p n Hv Hpp ->. assert (0 < v / p) by (apply Rdiv_lt_0_compat; auto).
    pose proof (ceil_spec (v / p)). assert (0 < ceil (v/p))%Z by (apply lt_IZR; lra).
    rewrite INR_IZR_INZ, Z2Nat.id by lia. auto. }
  auto.
Qed.
(** The point in row i, column j is i pixels along the z edge and j along the y
    edge from corner 0 (a pixel's corner, not its centre). *)
Lemma pC30_pixel_position : forall d i j, built d -> non_collinear (d_c0 d) (d_c1 d) (d_c2 d) ->
  (i < d_nz d)%nat -> (j < d_ny d)%nat ->
  exists row, nth_error (pixel_coordinates d) i = Some row /\
    nth_error row j = Some (nfin (surface_point (d_c0 d) (d_c1 d) (d_c2 d) (INR i * d_pz d) (INR j * d_py d))).
Proof.
  intros d i j Hb HN Hi Hj. fold (N_of d) in HN. unfold pixel_coordinates.
  exists (map (pixel_coordinate d i) (seq 0 (d_ny d))). split.
  - rewrite nth_error_map, (nth_error_nth' _ 0%nat) by (now rewrite seq_length). rewrite seq_nth by auto. reflexivity.
  - rewrite nth_error_map, (nth_error_nth' _ 0%nat) by (now rewrite seq_length). rewrite seq_nth by auto. simpl.
    f_equal. unfold pixel_coordinate. destruct (detector_frame d Hb HN) as (-> & -> & _).
    rewrite !nvscale_nfin, !nvadd_nfin. f_equal. unfold surface_point, zhat_of, yhat_of.
    generalize (INR i * d_pz d) (INR j * d_py d). unfold Rdiv.
    generalize (/ dist (d_c2 d) (d_c0 d)) (/ dist (d_c1 d) (d_c0 d)) (vsub (d_c2 d) (d_c0 d)) (vsub (d_c1 d) (d_c0 d)) (d_c0 d).
    intros. veq.
Qed.
(** Exact arithmetic: asking for n_z x n_y pixels gives n_z x n_y pixels. *)
Lemma pC30_requested_pixels : forall c0 c1 c2 n nz ny sg th mr ul up us d,
  make_detector c0 c1 c2 (Some n) None sg th mr ul up us = Ok d -> asks n nz ny -> (0 < nz)%Z -> (0 < ny)%Z ->
  Z.of_nat (d_nz d) = nz /\ Z.of_nat (d_ny d) = ny /\
  d_pz d = dist c2 c0 / IZR nz /\ d_py d = dist c1 c0 / IZR ny.
Proof.
  intros c0 c1 c2 n nz ny sg th mr ul up us d H HA Hz Hy. assert (F1 : nz = first_of n) by (destruct HA; reflexivity). assert (F2 : ny = second_of n) by (destruct HA; reflexivity). subst nz ny.
  apply make_detector_inv in H as (H0 & H1 & H2 & Hzm & Hym & Hzh & Hyh & Hn & Hp & Ha & Hb & _).
  simpl in Hp. destruct (Z.eqb_spec (first_of n) 0); [lia|]. destruct (Z.eqb_spec (second_of n) 0); [lia|]. simpl in Hp.
  inversion Hp as [[E1 E2]]. rewrite <- E1 in Ha. rewrite <- E2 in Hb.
  assert (A : forall v k m, 0 <= v -> (0 < k)%Z -> arange_len v (v / IZR k) = Ok m -> Z.of_nat m = k).
  { intros v k m Hv Hk Hm. assert (0 < IZR k) by (apply IZR_lt; lia). destruct (Req_dec v 0) as [->|Hv0].
    - exfalso. unfold arange_len in Hm. unfold Rdiv in Hm. rewrite Rmult_0_l in Hm.
      destruct (Req_EM_T 0 0); [discriminate|contradiction].
    - apply arange_ok_inv in Hm as [P Hm]; [|lra]. replace (v / (v / IZR k)) with (IZR k) in Hm by (field; lra).
      rewrite (ceil_eq (IZR k) k) in Hm by lra. subst m. lia. }
  split; [|split]; auto.
  - eapply A; eauto. apply norm_nonneg.
  - eapply A; eauto. apply norm_nonneg.
Qed.
(** IEEE double precision: 49 requested rows over 512 length units become 50. *)
Lemma pC30_requested_pixels_rounding_refuted : f64_rows 512 49 = 50%Z.
Proof. vm_compute. reflexivity. Qed.
(** Argument errors: exactly one of n_pixels and pixel_size must be given. *)
Lemma pC30_one_of_two_required : forall c0 c1 c2 np ps sg th mr ul up us,
  (np = None <-> ps = None) ->
  make_detector c0 c1 c2 np ps sg th mr ul up us = Err ValueError.
Proof.
  intros. unfold make_detector, pixel_sizes. destruct np, ps; try reflexivity; exfalso; intuition discriminate.
Qed.
(** Every other refusal (sizes, counts or radius cap that torch.arange cannot take) is a
    RuntimeError; a count of zero is outside of the model. *)
Lemma pC30_other_failures_kind : forall c0 c1 c2 np ps sg th mr ul up us e,
  ~ (np = None <-> ps = None) -> (forall n nz ny, np = Some n -> asks n nz ny -> nz <> 0%Z /\ ny <> 0%Z) ->
  make_detector c0 c1 c2 np ps sg th mr ul up us = Err e -> e = RuntimeError.
Proof.
  intros c0 c1 c2 np ps sg th mr ul up us e N _ H. unfold make_detector in H.
  assert (P : forall e', pixel_sizes (norm (vsub c2 c0)) (norm (vsub c1 c0)) np ps = Err e' -> e' = RuntimeError).
  { unfold pixel_sizes. intros e' E. destruct np, ps; try (exfalso; apply N; split; intros; congruence).
    destruct (_ || _); congruence. }
  assert (A : forall a b e', arange_len a b = Err e' -> e' = RuntimeError).
  { intros a b e' E. unfold arange_len in E. destruct (Req_EM_T b 0); [congruence|]. destruct (_ && _); congruence. }
  destruct (pixel_sizes _ _ _ _) as [pp|] eqn:E1; cbn [bind] in H; [|apply P; congruence].
  destruct (arange_len (norm (vsub c2 c0)) _) as [nz|] eqn:E2; cbn [bind] in H; [|apply A in E2; congruence].
  destruct (arange_len (norm (vsub c1 c0)) _) as [ny|] eqn:E3; cbn [bind] in H; [|apply A in E3; congruence].
  destruct (mr <? 0)%Z; congruence.
Qed.
(** Zero or negative sizes and negative counts never make a detector. *)
Lemma pC30_sizes_positive : forall c0 c1 c2 ps pz py sg th mr ul up us d,
  make_detector c0 c1 c2 None (Some ps) sg th mr ul up us = Ok d -> asks ps pz py -> non_collinear c0 c1 c2 ->
  0 < pz /\ 0 < py /\ d_pz d = pz /\ d_py d = py.
Proof.
  intros c0 c1 c2 ps pz py sg th mr ul up us d H HA HN. assert (F1 : pz = first_of ps) by (destruct HA; reflexivity). assert (F2 : py = second_of ps) by (destruct HA; reflexivity). subst pz py. pose proof H as H'.
  apply make_detector_inv in H as (H0 & H1 & H2 & Hzm & Hym & Hzh & Hyh & Hn & Hp & Ha & Hb & _).
  simpl in Hp. inversion Hp as [[E1 E2]].
  assert (B : built d) by (repeat eexists; eauto).
  destruct (detector_frame d B) as (_ & _ & _ & _ & _ & P1 & P2); [unfold N_of; rewrite H0, H1, H2; auto|].
  rewrite Hzm in P1. rewrite Hym in P2.
  apply arange_ok_inv in Ha as [P _]; auto. apply arange_ok_inv in Hb as [Q _]; auto.
  repeat split; congruence.
Qed.
Lemma apart a b : a <> b -> vsub a b <> vzero.
Proof.
  intros H E. apply H. pose proof (f_equal vx E). pose proof (f_equal vy E). pose proof (f_equal vz E).
  destruct a, b. cbn in *. f_equal; lra.
Qed.
Lemma arange_iff stop step : 0 < stop -> (exists m, arange_len stop step = Ok m) <-> 0 < step.
Proof.
  intros H. split; [intros (m & E); now apply arange_ok_inv in E|]. intros P. unfold arange_len.
  destruct (Req_EM_T step 0); [lra|]. replace (Rltb step 0) with false by (symmetry; apply Rltb_false; lra). cbn. eauto.
Qed.
Lemma make_iff c0 c1 c2 np ps sg th mr ul up us pz py : c1 <> c0 -> c2 <> c0 ->
  pixel_sizes (norm (vsub c2 c0)) (norm (vsub c1 c0)) np ps = Ok (pz, py) ->
  (exists d, make_detector c0 c1 c2 np ps sg th mr ul up us = Ok d) <-> 0 < pz /\ 0 < py /\ (0 <= mr)%Z.
Proof.
  intros N1 N2 Hp. pose proof (norm_pos _ (apart _ _ N1)) as P1. pose proof (norm_pos _ (apart _ _ N2)) as P2.
  pose proof (arange_iff _ pz P2) as A2. pose proof (arange_iff _ py P1) as A1.
  unfold make_detector. cbv zeta. rewrite Hp. cbn [bind fst snd].
  destruct (arange_len _ pz) as [m2|] eqn:E2; cbn [bind].
  2: { split; [intros (d & H); discriminate|intros (H & _); apply A2 in H as (m & H); discriminate]. }
  destruct (arange_len _ py) as [m1|] eqn:E1; cbn [bind].
  2: { split; [intros (d & H); discriminate|intros (_ & H & _); apply A1 in H as (m & H); discriminate]. }
  assert (0 < pz) by (apply A2; eauto). assert (0 < py) by (apply A1; eauto).
  destruct (Z.ltb_spec mr 0).
  - split; [intros (d & H'); discriminate|lia].
  - split; [auto|eauto].
Qed.
(** With distinct corners and given pixel sizes the constructor succeeds exactly when both sizes are
    positive and the radius cap of the point spread kernel is not negative. *)
Lemma pC30_sizes_accepted_iff : forall c0 c1 c2 ps pz py sg th mr ul up us, c1 <> c0 -> c2 <> c0 -> asks ps pz py ->
  (exists d, make_detector c0 c1 c2 None (Some ps) sg th mr ul up us = Ok d) <-> 0 < pz /\ 0 < py /\ (0 <= mr)%Z.
Proof.
  intros c0 c1 c2 ps pz py sg th mr ul up us N1 N2 HA. apply make_iff; auto. now destruct HA.
Qed.
(** The same for pixel counts: exactly the positive ones are accepted (0 is outside of the model). *)
Lemma pC30_counts_accepted_iff : forall c0 c1 c2 n nz ny sg th mr ul up us, c1 <> c0 -> c2 <> c0 -> asks n nz ny -> nz <> 0%Z -> ny <> 0%Z ->
  (exists d, make_detector c0 c1 c2 (Some n) None sg th mr ul up us = Ok d) <-> (0 < nz)%Z /\ (0 < ny)%Z /\ (0 <= mr)%Z.
Proof.
  intros c0 c1 c2 n nz ny sg th mr ul up us N1 N2 HA Z1 Z2. pose proof (norm_pos _ (apart _ _ N1)) as P1. pose proof (norm_pos _ (apart _ _ N2)) as P2.
  rewrite (make_iff _ _ _ _ _ _ _ _ _ _ _ (norm (vsub c2 c0) / IZR nz) (norm (vsub c1 c0) / IZR ny)); auto.
  - assert (G : forall x k, 0 < x -> k <> 0%Z -> 0 < x / IZR k <-> (0 < k)%Z).
    { intros x k Hx Hk. split; intros H.
      - apply lt_IZR. destruct (Rtotal_order 0 (IZR k)) as [L|[L|L]]; auto.
        + apply (eq_IZR 0) in L. congruence.
        + exfalso. assert (x / IZR k < 0); [|lra]. unfold Rdiv. replace 0 with (x * 0) by ring. apply Rmult_lt_compat_l; auto.
          now apply Rinv_lt_0_compat.
      - apply Rdiv_lt_0_compat; auto. now apply IZR_lt. }
    rewrite !G by auto. tauto.
  - unfold pixel_sizes. destruct HA; cbn [first_of second_of];
    repeat match goal with |- context [Z.eqb ?a 0] => replace (Z.eqb a 0) with false by (symmetry; apply Z.eqb_neq; auto) end; reflexivity.
Qed.
Lemma xC30_refused : make_detector vzero (V3 0 1 0) (V3 0 0 1) None (Some (Single 1)) 1 0 (-1) true true true = Err RuntimeError.
Proof.
  destruct (make_detector vzero (V3 0 1 0) (V3 0 0 1) None (Some (Single 1)) 1 0 (-1) true true true) as [d|e] eqn:E.
  - assert (X : (0 <= -1)%Z) by (refine (proj2 (proj2 (proj1 (make_iff _ _ _ _ _ _ _ _ _ _ _ 1 1 _ _ _) (ex_intro _ d E)))); [intros Y; apply (f_equal vy) in Y; cbn in Y; lra|intros Y; apply (f_equal vz) in Y; cbn in Y; lra|reflexivity]). lia.
  - f_equal. eapply pC30_other_failures_kind; [| |exact E]; [intros (H & _); specialize (H eq_refl); discriminate|intros; discriminate].
Qed.
Lemma xC30_grid : exists d, built d /\ non_collinear (d_c0 d) (d_c1 d) (d_c2 d) /\ 0 < d_zmax d /\ 0 < d_ymax d /\
  (3 < d_nz d)%nat /\ (3 < d_ny d)%nat.
Proof.
  destruct (ex_built (V3 10 (-1) (-1)) (V3 10 1 (-1)) (V3 10 (-1) 1) 4 5) as (d & Hb & H0 & H1 & H2 & Hpz & Hpy & _); try lia;
    try (apply vec_neq; simpl; lra).
  exists d. split; auto.
  assert (HN : N_of d <> vzero).
  { unfold N_of, plane_normal. rewrite H0, H1, H2. apply vec_neq. left. vunf. lra. }
  split; auto. destruct (detector_frame d Hb HN) as (_ & _ & _ & Hz & Hy & Pz & Py). split; auto. split; auto.
  destruct (pC30_grid_shape d Hb Pz Py) as (_ & _ & _ & _ & A & B).
  rewrite Hz, Hpz, H2, H0 in A. rewrite Hy, Hpy, H1, H0 in B.
  rewrite H2, H0 in Hz. rewrite H1, H0 in Hy. rewrite Hz in Pz. rewrite Hy in Py.
  assert (A1 : dist (V3 10 (-1) 1) (V3 10 (-1) (-1)) / (dist (V3 10 (-1) 1) (V3 10 (-1) (-1)) / 4) = 4) by (field; lra).
  assert (B1 : dist (V3 10 1 (-1)) (V3 10 (-1) (-1)) / (dist (V3 10 1 (-1)) (V3 10 (-1) (-1)) / 5) = 5) by (field; lra).
  rewrite A1 in A. rewrite B1 in B. split; apply INR_lt; simpl; lra.
Qed.

(** ** A concrete table *)
Definition table_row (kout src : vec) (t sf lor pol vol : R) : list num :=
  map Fin [0; 0; 1; 0; 0; sf; t; 0; 0; 0; 0; 0; 0; vx kout; vy kout; vz kout; vx src; vy src; vz src; lor; pol; vol; 0; 0; 0].
Definition ex_table (rows : list (list num)) (me : mesh) (b : beam) : peaks_dict :=
  PD rows column_names (V3 1 0 0) 1 (V3 0 0 1) me ex_motion b.
Lemma table_row_vec kout src t sf lor pol vol :
  row_nvec (table_row kout src t sf lor pol vol) 13 = nfin kout /\
  row_nvec (table_row kout src t sf lor pol vol) 16 = nfin src.
Proof. split; reflexivity. Qed.
Lemma ex_fresh kout src t sf lor pol vol me b : fresh (ex_table [table_row kout src t sf lor pol vol] me b).
Proof. split; [reflexivity|]. repeat constructor. Qed.

(** A peak along the beam hits the centre of the square detector and is visible. *)
Lemma xC32_visible : exists d pd r, built d /\ rectangular (d_c0 d) (d_c1 d) (d_c2 d) /\ fresh pd /\
  In r (pd_peaks pd) /\ visible d pd r.
Proof.
  destruct (ex_built (V3 10 (-1) (-1)) (V3 10 1 (-1)) (V3 10 (-1) 1) 4 4) as (d & Hb & H0 & H1 & H2 & _ & _ & F1 & F2 & F3); try lia;
    try (apply vec_neq; simpl; lra).
  destruct big_beam as (b & _). destruct ex_mesh as (me & _).
  exists d, (ex_table [table_row (V3 1 0 0) vzero (1/2) 2 3 4 5] me b), (table_row (V3 1 0 0) vzero (1/2) 2 3 4 5).
  split; auto. split; [rewrite H0, H1, H2; unfold rectangular; vunf; lra|]. split; [apply ex_fresh|].
  split; [left; reflexivity|]. split.
  - exists (V3 10 0 0), vzero, (V3 1 0 0). split; [repeat split|]. split; [repeat split|].
    rewrite H0, H1, H2. split; [unfold plane_normal; vunf; lra|]. split.
    + exists (1/2), (1/2). repeat split; try lra. vext; vunf; lra.
    + exists 10. split; [lra|]. unfold ray_at. vext; vunf; lra.
  - exists (2 * 4 * 3). split; [|lra]. exists 2, 4, 3. unfold factor. rewrite F1, F2, F3. repeat split.
Qed.
Lemma xC29_recorded : exists d pd out r, built d /\ rectangular (d_c0 d) (d_c1 d) (d_c2 d) /\ fresh pd /\
  project false d pd 3 = Ok out /\ In r (pd_peaks out).
Proof.
  destruct xC32_visible as (d & pd & r & Hb & Hr & Hf & Hin & Hv).
  destruct (pC32_rows_are_the_visible_ones false d pd 3 Hb Hr Hf) as (out & keep & Ho & Hm & Hk & _).
  apply Hk in Hv; auto.
  assert (In r (map (firstn 25) (pd_peaks out))) by (rewrite Hm; apply filter_In; auto).
  apply in_map_iff in H as (r' & _ & H). exists d, pd, out, r'. auto.
Qed.
(** Skew corners: the corner of the detector surface itself is hit by a visible
    ray and not recorded. *)
Lemma pC29_skew_refuted : exists d pd, built d /\ non_collinear (d_c0 d) (d_c1 d) (d_c2 d) /\ fresh pd /\
  (exists r, In r (pd_peaks pd) /\ visible d pd r) /\
  forall z frames, exists out, project z d pd frames = Ok out /\ pd_peaks out = [].
Proof.
  destruct (ex_built (V3 10 0 0) (V3 10 5 0) (V3 10 (-3) 4) 4 4) as (d & Hb & H0 & H1 & H2 & _ & _ & F1 & F2 & F3); try lia;
    try (apply vec_neq; simpl; lra).
  destruct big_beam as (b & _). destruct ex_mesh as (me & _).
  pose (r := table_row (V3 1 0 0) (V3 0 (-3) 4) (1/2) 2 3 4 5).
  exists d, (ex_table [r] me b). split; auto.
  assert (HN : N_of d = V3 (-20) 0 0) by (unfold N_of, plane_normal; rewrite H0, H1, H2; vext; vunf; lra).
  split; [unfold non_collinear; fold (N_of d); rewrite HN; apply vec_neq; simpl; lra|].
  split; [apply ex_fresh|]. split.
  - exists r. split; [left; reflexivity|]. split.
    + exists (V3 10 (-3) 4), (V3 0 (-3) 4), (V3 1 0 0). split; [repeat split|]. split; [repeat split|].
      split; [fold (N_of d); rewrite HN; vunf; lra|]. rewrite H0, H1, H2. split.
      * exists 1, 0. repeat split; try lra. vext; vunf; lra.
      * exists 10. split; [lra|]. unfold ray_at. vext; vunf; lra.
    + exists (2 * 4 * 3). split; [|lra]. exists 2, 4, 3. unfold factor. rewrite F1, F2, F3. repeat split.
  - intros z frames. destruct (project_ok z d (ex_table [r] me b) frames) as [out Ho]; [repeat constructor|].
    exists out. split; auto. apply project_inv in Ho as (-> & _). cbn [pd_peaks ex_table filter].
    assert (Hs : svalue d (V3 1 0 0) (V3 0 (-3) 4) = 10) by (unfold svalue; rewrite HN, H0; vunf; field).
    destruct (get_intersection z d (row_nvec r 13) (row_nvec r 16)) as [[zd yd] a] eqn:E.
    rewrite (keepb_fresh z d frames r zd yd a) by (auto; reflexivity).
    destruct (table_row_vec (V3 1 0 0) (V3 0 (-3) 4) (1/2) 2 3 4 5) as [R1 R2]. fold r in R1, R2. rewrite R1, R2 in E.
    rewrite intersection_closed in E by (auto; rewrite HN; vunf; lra). cbv zeta in E. rewrite Hs in E.
    destruct (Rltb 10 0) eqn:E10; [apply Rltb_true in E10; lra|]. injection E as Ez Ey Ea.
    replace (det_contains d zd yd) with false; auto. symmetry. apply not_true_is_false. intros Hc.
    apply pC29_contains_iff in Hc as (x & y & -> & -> & _ & Hy). injection Ey as Ey'.
    unfold yhat_of in Ey'. rewrite H0, H1 in Ey'. unfold dist in Ey'.
    rewrite (norm_sqrt_eq (vsub (V3 10 5 0) _) 5) in Ey' by (vunf; lra). unfold ray_at in Ey'. vunf. lra.
Qed.

(** ** C33 *)
Ltac idx_norm := repeat match goal with |- context[index_of ?s ?l] =>
  let v := eval vm_compute in (index_of s l) in change (index_of s l) with v end; cbv iota.
Lemma projected_row z d pd frames out r : fresh pd -> project z d pd frames = Ok out -> In r (pd_peaks out) ->
  len r = 30%nat /\ exists i, ncol r 29 = Fin i /\ 0 < i.
Proof.
  intros Hf Ho Hin.
  destruct (out_row _ _ _ _ _ _ Hf Ho Hin) as (r0 & zd & yd & a & Hir & Hl & Hk & E & -> & Hc).
  rewrite (keepb_fresh z d frames r0 zd yd a) in Hk by auto. apply andb_true_iff in Hk as [_ Hk].
  apply andb_true_iff in Hk as [H1 H2]. destruct (intensity d r0) as [i| | |] eqn:Ei; try discriminate.
  split; [rewrite app_length, Hl; reflexivity|]. exists i. rewrite ncol_app_r by lia. rewrite Hl.
  split; [reflexivity|]. now apply Rltb_true.
Qed.
(** Projecting an already projected table onto a second detector keeps a row iff
    the first detector's coordinates fit into the second one's rectangle: neither
    the position of the second detector nor the ray matter. *)
Lemma pC33_reprojection_uses_stale_coordinates : forall z d1 d2 pd0 n1 n2 pd1 pd2, fresh pd0 ->
  project z d1 pd0 n1 = Ok pd1 -> project z d2 pd1 n2 = Ok pd2 ->
  exists keep, map (firstn 30) (pd_peaks pd2) = filter keep (pd_peaks pd1) /\
    forall r, In r (pd_peaks pd1) -> (keep r = true <->
      exists zd yd, has pd1 r "zd" zd /\ has pd1 r "yd" yd /\ 0 <= zd <= d_zmax d2 /\ 0 <= yd <= d_ymax d2).
Proof.
  intros z d1 d2 pd0 n1 n2 pd1 pd2 Hf H1 H2. apply project_inv in H2 as (Hp & _).
  exists (keepb z d2 n2). split.
  - rewrite Hp, map_map. rewrite <- (map_id (filter _ _)) at 2. apply map_ext_in. intros r Hin.
    apply filter_In in Hin as [Hin _]. destruct (projected_row _ _ _ _ _ _ Hf H1 Hin) as [Hl _].
    rewrite extend_eq by lia. destruct (get_intersection _ _ _ _) as [[? ?] ?]. now apply firstn_app_exact.
  - intros r Hin. destruct (projected_row _ _ _ _ _ _ Hf H1 Hin) as [Hl (i & Hi & Pi)].
    pose proof (project_inv _ _ _ _ _ H1) as (_ & Hc & _). destruct Hf as [Hc0 _]. rewrite Hc0 in Hc.
    unfold keepb, valid_intensity, hit_mask. rewrite extend_eq by lia. unfold add_hit.
    destruct (get_intersection _ _ _ _) as [[zd yd] a].
    rewrite !ncol_app_l by lia. rewrite Hi. cbn [is_finite nlt].
    replace (Rltb 0 i) with true by (symmetry; apply Rltb_true; auto). rewrite andb_true_r.
    rewrite pC29_contains_iff. split.
    + intros (x & y & E1 & E2 & Hx & Hy). exists x, y.
      rewrite (has_ncol pd1 r _ 25), (has_ncol pd1 r _ 26); try (rewrite Hc; reflexivity); try lia. auto.
    + intros (x & y & E1 & E2 & Hx & Hy).
      rewrite (has_ncol pd1 r _ 25) in E1; try (rewrite Hc; reflexivity); try lia.
      rewrite (has_ncol pd1 r _ 26) in E2; try (rewrite Hc; reflexivity); try lia. eauto 10.
Qed.
(** Reading any column by name in the re-projected table still gives the values of
    the first projection: the second set of names is shadowed. *)
Lemma pC33_names_shadowed : forall z d1 d2 pd0 n1 n2 pd1 pd2 r, fresh pd0 ->
  project z d1 pd0 n1 = Ok pd1 -> project z d2 pd1 n2 = Ok pd2 -> In r (pd_peaks pd2) ->
  forall s, In s ["zd"; "yd"; "incident_angle"; "frame"; "intensity_factors"]%string ->
    field pd2 r s = field pd1 (firstn 30 r) s.
Proof.
  intros z d1 d2 pd0 n1 n2 pd1 pd2 r Hf H1 H2 Hin s Hs.
  pose proof (project_inv _ _ _ _ _ H1) as (_ & Hc & _). pose proof (project_inv _ _ _ _ _ H2) as (Hp2 & Hc2 & _).
  pose proof Hf as [Hc0 _]. rewrite Hc0 in Hc. rewrite Hc in Hc2.
  rewrite Hp2 in Hin. apply in_map_iff in Hin as (r1 & <- & Hin). apply filter_In in Hin as [Hin _].
  destruct (projected_row _ _ _ _ _ _ Hf H1 Hin) as [Hl _]. rewrite extend_eq by lia.
  destruct (get_intersection _ _ _ _) as [[? ?] ?]. rewrite firstn_app_exact by auto.
  unfold field. rewrite Hc, Hc2.
  repeat (destruct Hs as [<-|Hs]; [idx_norm; rewrite nth_error_app1 by lia; reflexivity|]). destruct Hs.
Qed.
(** So a detector that no ray reaches records every peak of the first one. *)
Lemma pC33_second_detector_refuted : exists d1 d2 pd0 pd1 pd2, built d1 /\ built d2 /\ fresh pd0 /\
  rectangular (d_c0 d2) (d_c1 d2) (d_c2 d2) /\
  project false d1 pd0 1 = Ok pd1 /\ project false d2 pd1 1 = Ok pd2 /\
  (forall r p, In r (pd_peaks pd0) -> ~ peak_hits d2 pd0 r p) /\
  (forall out, project false d2 pd0 1 = Ok out -> pd_peaks out = []) /\ pd_peaks pd2 <> [].
Proof.
  destruct (ex_built (V3 10 (-1) (-1)) (V3 10 1 (-1)) (V3 10 (-1) 1) 4 4) as (d & Hb & H0 & H1 & H2 & _ & _ & F1 & F2 & F3); try lia;
    try (apply vec_neq; simpl; lra).
  destruct (ex_built (V3 (-10) (-1) (-1)) (V3 (-10) 1 (-1)) (V3 (-10) (-1) 1) 4 4) as (d' & Hb' & H0' & H1' & H2' & _); try lia;
    try (apply vec_neq; simpl; lra).
  destruct big_beam as (b & _). destruct ex_mesh as (me & _).
  pose (r := table_row (V3 1 0 0) vzero (1/2) 2 3 4 5). pose (pd := ex_table [r] me b).
  assert (Hr : rectangular (d_c0 d) (d_c1 d) (d_c2 d)) by (rewrite H0, H1, H2; unfold rectangular; vunf; lra).
  assert (Hr' : rectangular (d_c0 d') (d_c1 d') (d_c2 d')) by (rewrite H0', H1', H2'; unfold rectangular; vunf; lra).
  assert (Hf : fresh pd) by apply ex_fresh.
  destruct (pC32_rows_are_the_visible_ones false d pd 1 Hb Hr Hf) as (pd1 & keep & Ho & Hm & Hk & Hl1).
  destruct (project_ok false d' pd1 1) as [pd2 Ho2].
  { eapply Forall_impl; [|exact Hl1]. cbn. intros; lia. }
  assert (Hv : visible d pd r).
  { split.
    - exists (V3 10 0 0), vzero, (V3 1 0 0). split; [repeat split|]. split; [repeat split|].
      rewrite H0, H1, H2. split; [unfold plane_normal; vunf; lra|]. split.
      + exists (1/2), (1/2). repeat split; try lra. vext; vunf; lra.
      + exists 10. split; [lra|]. unfold ray_at. vext; vunf; lra.
    - exists (2 * 4 * 3). split; [|lra]. exists 2, 4, 3. unfold factor. rewrite F1, F2, F3. repeat split. }
  assert (Hmiss : forall r p, In r (pd_peaks pd) -> ~ peak_hits d' pd r p).
  { intros r' p [<-|[]] Hp. apply peak_hits_iff in Hp as (v & o & Ev & Eo & Hv' & Hsurf & s & Hs & Hps); [|left; reflexivity|cbn; lia].
    destruct (table_row_vec (V3 1 0 0) vzero (1/2) 2 3 4 5) as [R1 R2]. unfold r in Ev, Eo. rewrite R1 in Ev. rewrite R2 in Eo.
    apply nfin_inj in Ev, Eo. subst v o. destruct Hsurf as (x & y & _ & _ & Hp'). rewrite H0', H1', H2' in Hp'.
    rewrite Hps in Hp'. apply (f_equal vx) in Hp'. unfold ray_at in Hp'. vunf. lra. }
  exists d, d', pd, pd1, pd2. repeat (split; [assumption|]). split.
  - intros out Hout. destruct (pC32_rows_are_the_visible_ones false d' pd 1 Hb' Hr' Hf) as (o' & k' & Ho' & Hm' & Hk' & _).
    rewrite Hout in Ho'. inversion Ho'; subst o'.
    assert (E : filter k' (pd_peaks pd) = []).
    { cbn [pd ex_table pd_peaks filter]. destruct (k' r) eqn:Ek; auto. exfalso.
      apply Hk' in Ek as [[p Hp] _]; [|left; auto]. apply (Hmiss r p); auto. left; auto. }
    rewrite E in Hm'. destruct (pd_peaks out); [auto|discriminate].
  - destruct (pC33_reprojection_uses_stale_coordinates _ _ _ _ _ _ _ _ Hf Ho Ho2) as (k2 & Hm2 & Hk2).
    assert (Hin : In r (map (firstn 25) (pd_peaks pd1))).
    { rewrite Hm. apply filter_In. split; [left; auto|]. apply Hk; [left; auto|exact Hv]. }
    apply in_map_iff in Hin as (r1 & _ & Hin).
    assert (k2 r1 = true).
    { apply Hk2; auto. destruct (pC29_recorded_rows_hit false d pd 1 pd1 r1) as (zd & yd & A & B & C & D & _); auto.
      exists zd, yd. split; auto. split; auto.
      assert (HN : N_of d' <> vzero).
      { unfold N_of, plane_normal. rewrite H0', H1', H2'. apply vec_neq. left. vunf. lra. }
      destruct (detector_frame d' Hb' HN) as (_ & _ & _ & -> & -> & _).
      rewrite H0, H1, H2 in *. rewrite H0', H1', H2'. 
      replace (dist (V3 (-10) (-1) 1) (V3 (-10) (-1) (-1))) with (dist (V3 10 (-1) 1) (V3 10 (-1) (-1)))
        by (unfold dist; f_equal; vext; vunf; lra).
      replace (dist (V3 (-10) 1 (-1)) (V3 (-10) (-1) (-1))) with (dist (V3 10 1 (-1)) (V3 10 (-1) (-1)))
        by (unfold dist; f_equal; vext; vunf; lra). auto. }
    intros E. rewrite E in Hm2. simpl in Hm2.
    assert (In r1 (filter k2 (pd_peaks pd1))) by (apply filter_In; auto). rewrite <- Hm2 in H3. destruct H3.
Qed.
