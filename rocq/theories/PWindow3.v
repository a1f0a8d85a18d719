(** * Two detectors on the same pixel grid (C96): spots and pictures. *)
From Verif Require Import Vec Spec MMotion MLaue MMesh MScattering MStrain MBeam SBeam MPolycrystal SPolycrystal MDetector MClip MRender SRender SWindow.
From Verif Require Import PMotion PLaue PMesh PBeam PStrain PPolycrystal PPolycrystal2 PDetector PDetector2 PDetector3 PRender PRender2 PRender3 PEvents PEnd2 PJoin2 PFrame PFrame2 PFrame3 PFrame4 PWindow PWindow2.
From Verif Require Import SDetector.
Open Scope list_scope. Open Scope R_scope.
Local Notation len := List.length.

(** ** Spots *)
Lemma int_part_shift x n : Int_part (x - IZR n) = (Int_part x - n)%Z.
Proof. apply Int_part_eq. rewrite minus_IZR. pose proof (base_Int_part x) as (A & B). lra. Qed.
Lemma rint_shift x n : Z.even n = true \/ ~ halfway x -> rint (x - IZR n) = (rint x - n)%Z.
Proof.
  intros H. unfold rint. rewrite int_part_shift. assert (F : frac_part (x - IZR n) = frac_part x) by (unfold frac_part; rewrite int_part_shift, minus_IZR; ring).
  rewrite F. destruct (Rlt_dec (frac_part x) (1/2)) as [|N1]; [reflexivity|]. destruct (Rlt_dec (1/2) (frac_part x)) as [|N2]; [lia|].
  destruct H as [H|H].
  - rewrite Z.even_sub, H. destruct (Z.even (Int_part x)); cbn [Bool.eqb]; lia.
  - exfalso. apply H. exists (Int_part x). assert (E : frac_part x = 1/2) by lra. unfold frac_part in E. lra.
Qed.
Lemma gauss_at_shift s zc yc i j n k : gauss_at s (zc - IZR n) (yc - IZR k) (i - n) (j - k) = gauss_at s zc yc i j.
Proof. unfold gauss_at. rewrite !minus_IZR. f_equal. f_equal. f_equal. f_equal; f_equal; ring. Qed.
Lemma sum_range_shift lo m g n : sum_range (lo - n) m g = sum_range lo m (fun i => g (i - n)%Z).
Proof. rewrite !sum_range_map, !map_map. f_equal. apply map_ext. intros q. f_equal. lia. Qed.
Lemma window_shift s R zc yc n k : rint (zc - IZR n) = (rint zc - n)%Z -> rint (yc - IZR k) = (rint yc - k)%Z ->
  gauss_window_sum s R (zc - IZR n) (yc - IZR k) = gauss_window_sum s R zc yc.
Proof.
  intros E1 E2. unfold gauss_window_sum. cbv zeta. rewrite E1, E2.
  replace (rint zc - n - R)%Z with (rint zc - R - n)%Z by lia. replace (rint yc - k - R)%Z with (rint yc - R - k)%Z by lia.
  rewrite sum_range_shift. apply sum_range_ext. intros i _. rewrite sum_range_shift. apply sum_range_ext. intros j _. apply gauss_at_shift.
Qed.
Lemma spot_shift s R zc yc T i j n k : (Z.even n = true \/ ~ halfway zc) -> (Z.even k = true \/ ~ halfway yc) ->
  gauss_spot s R (zc - IZR n) (yc - IZR k) T (i - n) (j - k) = gauss_spot s R zc yc T i j.
Proof.
  intros H1 H2. pose proof (rint_shift zc n H1) as E1. pose proof (rint_shift yc k H2) as E2. unfold gauss_spot. cbv zeta.
  rewrite window_shift, gauss_at_shift, E1, E2 by auto. replace (i - n - (rint zc - n))%Z with (i - rint zc)%Z by lia. replace (j - k - (rint yc - k))%Z with (j - rint yc)%Z by lia. reflexivity.
Qed.

(** ** Pixel sizes are positive on a panel with two different corners *)
Lemma size_pos d : built d -> (d_c2 d <> d_c0 d -> 0 < d_pz d) /\ (d_c1 d <> d_c0 d -> 0 < d_py d).
Proof.
  intros (c0 & c1 & c2 & np & ps & sg & th & mr & ul & up & us & H). apply make_detector_inv in H as (-> & -> & -> & _ & _ & _ & _ & _ & _ & A1 & A2 & _).
  assert (Q : forall stop step l, 0 < stop -> arange_len stop step = Ok l -> 0 < step).
  { intros stop step l P E. unfold arange_len in E. destruct (Req_EM_T step 0); [discriminate|]. destruct (Rltb step 0) eqn:B1.
    - destruct (Rltb 0 stop) eqn:B2; [discriminate|]. apply Rltb_false in B2. lra.
    - apply Rltb_false in B1. lra. }
  split; intros N; eapply Q; eauto; now apply sub_nonzero.
Qed.

Lemma spot_pair n k d d2 out out2 r r2 i j i2 j2 : same_grid n k d d2 -> no_ties n k d out -> In r (pd_peaks out) -> same_hit n k d out out2 r r2 ->
  i = (i2 + n)%Z -> j = (j2 + k)%Z -> micro_spot d2 out2 r2 i2 j2 = micro_spot d out r i j.
Proof.
  intros G (T1 & T2) Hr (F & E1 & E2) -> ->. pose proof (size_pos d (proj1 (grid_built n k d d2 G))) as (P1 & P2).
  destruct G as (_ & _ & _ & N2 & N1 & _ & _ & Z1 & Z2 & SG & _). specialize (P1 N2). specialize (P2 N1).
  unfold micro_spot, strength, micro_radius, micro_sigma. rewrite SG, Z1, Z2, E1, E2.
  assert (EF : forall c, c <> "zd"%string -> c <> "yd"%string -> read out2 r2 c = read out r c) by (intros c A B; unfold read; now rewrite F).
  rewrite !EF by discriminate.
  replace ((read out r "zd" - IZR n * d_pz d) / d_pz d) with (read out r "zd" / d_pz d - IZR n) by (field; lra).
  replace ((read out r "yd" - IZR k * d_py d) / d_py d) with (read out r "yd" / d_py d - IZR k) by (field; lra).
  replace i2 with (i2 + n - n)%Z at 1 by lia. replace j2 with (j2 + k - k)%Z at 1 by lia.
  apply spot_shift; [destruct T1; auto|destruct T2; auto].
Qed.

(** ** Pictures *)
Lemma pair_sum (both both2 : list num -> bool) n k d d2 out out2 i j i2 j2 f : same_grid n k d d2 -> no_ties n k d out ->
  Forall2 (same_hit n k d out out2) (filter both (pd_peaks out)) (filter both2 (pd_peaks out2)) -> i = (i2 + n)%Z -> j = (j2 + k)%Z ->
  sum_list (map (fun r => micro_spot d out r i j) (filter both (rows_in_frame out f))) = sum_list (map (fun r => micro_spot d2 out2 r i2 j2) (filter both2 (rows_in_frame out2 f))).
Proof.
  intros G T F Ei Ej. unfold rows_in_frame.
  assert (C : forall (g h : list num -> bool) l, filter g (filter h l) = filter h (filter g l)).
  { intros g h l. induction l as [|a l IH]; [reflexivity|]. cbn [filter]. destruct (g a) eqn:E1, (h a) eqn:E2; cbn [filter]; rewrite ?E1, ?E2, ?IH; reflexivity. }
  rewrite !(C both), !(C both2).
  assert (I : forall r, In r (filter both (pd_peaks out)) -> In r (pd_peaks out)) by (intros r Hr; now apply filter_In in Hr).
  revert I. induction F as [|r r2 l l2 H F IH]; intros I; [reflexivity|]. cbn [filter].
  assert (E : read out2 r2 "frame" = read out r "frame") by (destruct H as (H & _); unfold read; now rewrite H by discriminate). rewrite E.
  destruct (Reqb (read out r "frame") (INR f)); cbn [map]; rewrite ?sum_list_cons, IH by (intros; apply I; now right); [|reflexivity].
  f_equal. symmetry. eapply spot_pair; eauto. apply I. now left.
Qed.
Lemma sum_split {A} (g : A -> R) (p : A -> bool) l : sum_list (map g l) = sum_list (map g (filter p l)) + sum_list (map g (filter (fun a => negb (p a)) l)).
Proof. induction l as [|a l IH]; cbn [filter map]; [rewrite sum_list_nil; lra|]. destruct (p a); cbn [negb map]; rewrite !sum_list_cons; lra. Qed.

(** C96. The pictures on both detectors: pixel by pixel they differ only by the light of the spots that are centred on one panel and
    not on the other. *)
Lemma pC96_picture : forall n k d d2 e z x p b m lo hi det pd frames ml mi im out im2 out2, same_grid n k d d2 -> reachable_pc x p ->
  fst (diffract z x p b m lo hi det) = Ok pd -> render e d pd frames "micro" ml mi = Ok (im, out) -> render e d2 pd frames "micro" ml mi = Ok (im2, out2) ->
  no_ties n k d out ->
  exists both both2,
    (forall r, In r (pd_peaks out) -> (both r = true <-> also_on n k d d2 out r)) /\
    (forall r, In r (pd_peaks out2) -> (both2 r = true <-> also_on (- n) (- k) d2 d out2 r)) /\
    forall f i j i2 j2, in_image im f i j -> in_image im2 f i2 j2 -> (Z.of_nat i = Z.of_nat i2 + n)%Z -> (Z.of_nat j = Z.of_nat j2 + k)%Z ->
    exists v v2, f_at im f i j = Fin v /\ f_at im2 f i2 j2 = Fin v2 /\
      v - sum_list (map (fun r => micro_spot d out r (Z.of_nat i) (Z.of_nat j)) (filter (fun r => negb (both r)) (rows_in_frame out f))) =
      v2 - sum_list (map (fun r => micro_spot d2 out2 r (Z.of_nat i2) (Z.of_nat j2)) (filter (fun r => negb (both2 r)) (rows_in_frame out2 f))).
Proof.
  intros n k d d2 e z x p b m lo hi det pd frames ml mi im out im2 out2 G HR D H1 H2 T.
  assert (Hf : fresh pd) by (eapply pC32_diffract_tables_fresh; exact D).
  assert (Hv : volumes_ok pd).
  { destruct (diffract z x p b m lo hi det) as [r p'] eqn:E. cbn [fst] in D. subst r. exact (volumes_ok_diffract _ _ _ _ _ _ _ _ _ _ HR E). }
  assert (O1 := proj1 (micro_inv _ _ _ _ _ _ _ _ H1)). assert (O2 := proj1 (micro_inv _ _ _ _ _ _ _ _ H2)).
  destruct (pC96_same_reflections n k d d2 z x p b m lo hi det pd _ _ out out2 G D O1 O2 (nframes_ge frames)) as (both & both2 & S1 & S2 & F).
  exists both, both2. split; [exact S1|]. split; [exact S2|]. intros f i j i2 j2 I1 I2 Ei Ej.
  rewrite (pC39_pixel_is_sum_of_spots _ _ _ _ _ _ _ _ _ _ _ Hf Hv H1 I1), (pC39_pixel_is_sum_of_spots _ _ _ _ _ _ _ _ _ _ _ Hf Hv H2 I2).
  eexists. eexists. split; [reflexivity|]. split; [reflexivity|].
  rewrite (sum_split _ both (rows_in_frame out f)), (sum_split _ both2 (rows_in_frame out2 f)).
  rewrite (pair_sum both both2 n k d d2 out out2 _ _ (Z.of_nat i2) (Z.of_nat j2) f G T F Ei Ej). ring.
Qed.
Lemma rabs_bounds x a : Rabs x <= a -> - a <= x <= a.
Proof. intros H. pose proof (Rle_abs x). pose proof (Rle_abs (- x)) as B. rewrite Rabs_Ropp in B. lra. Qed.
Lemma far_spot n k d d2 out r i j i2 j2 : same_grid n k d d2 -> well_inside d2 i2 j2 -> (Z.of_nat i = Z.of_nat i2 + n)%Z -> (Z.of_nat j = Z.of_nat j2 + k)%Z ->
  ~ also_on n k d d2 out r -> micro_spot d out r (Z.of_nat i) (Z.of_nat j) = 0.
Proof.
  intros G W Ei Ej N. destruct (Req_dec (micro_spot d out r (Z.of_nat i) (Z.of_nat j)) 0) as [|H]; [assumption|]. exfalso. apply N. clear N.
  pose proof (size_pos d (proj1 (grid_built n k d d2 G))) as (P1 & P2).
  destruct G as (_ & _ & _ & N2 & N1 & _ & _ & Z1 & Z2 & SG & _). specialize (P1 N2). specialize (P2 N1).
  unfold micro_spot in H. apply spot_local in H as (A & B). unfold well_inside in W. replace (micro_radius d2) with (micro_radius d) in W by (unfold micro_radius, micro_sigma; now rewrite SG).
  cbv zeta in W. rewrite Z1, Z2 in W. set (M := IZR (micro_radius d) + 1/2) in *. destruct W as (W1 & W2 & W3 & W4).
  rewrite Ei, plus_IZR, <- INR_IZR_INZ in A. rewrite Ej, plus_IZR, <- INR_IZR_INZ in B. apply rabs_bounds in A, B.
  set (zd := read out r "zd") in *. set (yd := read out r "yd") in *.
  assert (Ez : zd = zd / d_pz d * d_pz d) by (field; lra). assert (Ey : yd = yd / d_py d * d_py d) by (field; lra).
  unfold also_on, on_panel. fold zd yd. rewrite Ez, Ey. set (zc := zd / d_pz d) in *. set (yc := yd / d_py d) in *. clearbody zc yc.
  assert (B1 : 0 <= zc - IZR n <= INR i2 + M) by lra. assert (B2 : 0 <= yc - IZR k <= INR j2 + M) by lra.
  repeat split; try nra.
Qed.
Lemma al_back c x y u v : c = vadd (vadd c (vadd (vscale x u) (vscale y v))) (vadd (vscale (- x) u) (vscale (- y) v)). Proof. veq. Qed.
Lemma al_zero v : vscale 0 v = vzero. Proof. veq. Qed.
Lemma al_inv a v : 0 < a -> v = vscale (/ a) (vscale a v).
Proof. intros H. rewrite al_ss. replace (/ a * a) with 1 by (field; lra). veq. Qed.
Lemma ne_of_sub a b : vsub a b <> vzero -> a <> b.
Proof. intros H ->. apply H. veq. Qed.
Lemma grid_sym n k d d2 : same_grid n k d d2 -> same_grid (- n) (- k) d2 d.
Proof.
  intros G. pose proof (grid_hats n k d d2 G) as (Hz & Hy). pose proof (grid_corner n k d d2 G) as C.
  destruct G as (B & B2 & Rr & N2 & N1 & (a & b & Ha & Hb & E1 & E2) & _ & Z1 & Z2 & SG & F1 & F2 & F3).
  assert (P2 := apart _ _ N2). assert (P1 := apart _ _ N1).
  split; [exact B2|]. split; [exact B|]. split; [|split; [|split; [|split; [|split; [|auto 10]]]]].
  - unfold rectangular in *. rewrite E1, E2, dot_scale_l, dot_scale_r, Rr. ring.
  - apply ne_of_sub. rewrite E1. intros E. apply P2. rewrite (al_inv a (vsub (d_c2 d) (d_c0 d)) Ha), E. veq.
  - apply ne_of_sub. rewrite E2. intros E. apply P1. rewrite (al_inv b (vsub (d_c1 d) (d_c0 d)) Hb), E. veq.
  - exists (/ a), (/ b). split; [now apply Rinv_0_lt_compat|]. split; [now apply Rinv_0_lt_compat|]. rewrite E1, E2. split; now apply al_inv.
  - unfold surface_point. replace (vscale (IZR (- n) * d_pz d2 / dist (d_c2 d2) (d_c0 d2)) (vsub (d_c2 d2) (d_c0 d2))) with (vscale (- (IZR n * d_pz d)) (zhat_of d2)).
    2:{ unfold zhat_of. rewrite al_ss, opp_IZR, Z1. f_equal. unfold Rdiv. ring. }
    replace (vscale (IZR (- k) * d_py d2 / dist (d_c1 d2) (d_c0 d2)) (vsub (d_c1 d2) (d_c0 d2))) with (vscale (- (IZR k * d_py d)) (yhat_of d2)).
    2:{ unfold yhat_of. rewrite al_ss, opp_IZR, Z2. f_equal. unfold Rdiv. ring. }
    rewrite Hz, Hy, C. apply al_back.
Qed.
(** C96. Pixels that are farther than a spot radius from the edges of both panels have the same value. *)
Lemma pC96_interior : forall n k d d2 e z x p b m lo hi det pd frames ml mi im out im2 out2, same_grid n k d d2 -> reachable_pc x p ->
  fst (diffract z x p b m lo hi det) = Ok pd -> render e d pd frames "micro" ml mi = Ok (im, out) -> render e d2 pd frames "micro" ml mi = Ok (im2, out2) ->
  no_ties n k d out ->
  forall f i j i2 j2, in_image im f i j -> in_image im2 f i2 j2 -> (Z.of_nat i = Z.of_nat i2 + n)%Z -> (Z.of_nat j = Z.of_nat j2 + k)%Z ->
    well_inside d i j -> well_inside d2 i2 j2 -> f_at im2 f i2 j2 = f_at im f i j.
Proof.
  intros n k d d2 e z x p b m lo hi det pd frames ml mi im out im2 out2 G HR D H1 H2 T f i j i2 j2 I1 I2 Ei Ej W1 W2.
  destruct (pC96_picture n k d d2 e z x p b m lo hi det pd frames ml mi im out im2 out2 G HR D H1 H2 T) as (both & both2 & S1 & S2 & P).
  destruct (P f i j i2 j2 I1 I2 Ei Ej) as (v & v2 & E1 & E2 & E). rewrite E1, E2. f_equal.
  assert (Q : forall (g : list num -> R) l, (forall r, In r l -> g r = 0) -> sum_list (map g l) = 0).
  { intros g l. induction l as [|r l IH]; intros Hr; [reflexivity|]. cbn [map]. rewrite sum_list_cons, IH, (Hr r) by (auto using in_eq, in_cons). ring. }
  rewrite !Q in E; [lra| |].
  - intros r Hr. apply filter_In in Hr as [Hr N]. apply filter_In in Hr as [Hr _]. apply (far_spot (- n) (- k) d2 d out2 r i2 j2 i j); auto; try lia; [now apply grid_sym|].
    rewrite <- (S2 r Hr). destruct (both2 r); [discriminate|congruence].
  - intros r Hr. apply filter_In in Hr as [Hr N]. apply filter_In in Hr as [Hr _]. apply (far_spot n k d d2 out r i j i2 j2); auto.
    rewrite <- (S1 r Hr). destruct (both r); [discriminate|congruence].
Qed.
(** C96. A part of a panel never shows more light than the panel: what is missing are the spots centred outside of the part. *)
Lemma pC96_part_of_panel : forall n k d d2 e z x p b m lo hi det pd frames ml mi im out im2 out2, same_grid n k d d2 -> part_of n k d d2 -> reachable_pc x p ->
  fst (diffract z x p b m lo hi det) = Ok pd -> render e d pd frames "micro" ml mi = Ok (im, out) -> render e d2 pd frames "micro" ml mi = Ok (im2, out2) ->
  no_ties n k d out ->
  exists off, (forall r, In r (pd_peaks out) -> (off r = true <-> ~ also_on n k d d2 out r)) /\
    forall f i j i2 j2, in_image im f i j -> in_image im2 f i2 j2 -> (Z.of_nat i = Z.of_nat i2 + n)%Z -> (Z.of_nat j = Z.of_nat j2 + k)%Z ->
    exists v v2, f_at im f i j = Fin v /\ f_at im2 f i2 j2 = Fin v2 /\ v2 <= v /\
      v = v2 + sum_list (map (fun r => micro_spot d out r (Z.of_nat i) (Z.of_nat j)) (filter off (rows_in_frame out f))).
Proof.
  intros n k d d2 e z x p b m lo hi det pd frames ml mi im out im2 out2 G (Pn & Pk & Pz & Py) HR D H1 H2 T.
  destruct (pC96_picture n k d d2 e z x p b m lo hi det pd frames ml mi im out im2 out2 G HR D H1 H2 T) as (both & both2 & S1 & S2 & P).
  exists (fun r => negb (both r)). split. { intros r Hr. rewrite <- (S1 r Hr). destruct (both r); cbn; split; congruence. }
  intros f i j i2 j2 I1 I2 Ei Ej. destruct (P f i j i2 j2 I1 I2 Ei Ej) as (v & v2 & E1 & E2 & E). exists v, v2. split; [exact E1|]. split; [exact E2|].
  assert (Hf : fresh pd) by (eapply pC32_diffract_tables_fresh; exact D).
  assert (Hv : volumes_ok pd).
  { destruct (diffract z x p b m lo hi det) as [r p'] eqn:E0. cbn [fst] in D. subst r. exact (volumes_ok_diffract _ _ _ _ _ _ _ _ _ _ HR E0). }
  assert (SN : forall r, In r (pd_peaks out) -> 0 <= strength out r) by (intros r Hr; eapply (pC39_strength_nonneg e d pd); eauto).
  assert (NB : filter (fun r => negb (both2 r)) (rows_in_frame out2 f) = []).
  { assert (O2 := proj1 (micro_inv _ _ _ _ _ _ _ _ H2)).
    assert (A : forall r, In r (rows_in_frame out2 f) -> both2 r = true).
    { intros r Hr. apply filter_In in Hr as [Hr _]. apply (S2 r Hr). destruct (out_reads _ _ _ _ _ _ Hf (nframes_ge frames) O2 Hr) as (_ & R1 & R2 & _).
      destruct (out_row _ _ _ _ _ _ Hf O2 Hr) as (r0 & zd & yd & a & Hir & Hl0 & Hk & Eg & Er & Hc).
      rewrite (keepb_fresh _ _ _ _ _ _ _ Hl0 Eg) in Hk. apply andb_true_iff in Hk as [Hk _]. apply pC29_contains_iff in Hk as (x0 & y0 & -> & -> & X & Y).
      assert (Q : fcol r 25 = x0 /\ fcol r 26 = y0).
      { rewrite Er. unfold fcol, ncol. rewrite !app_nth2 by lia. rewrite Hl0. split; reflexivity. }
      destruct Q as (Q1 & Q2). pose proof (size_pos d (proj1 (grid_built n k d d2 G))) as (G1 & G2).
      destruct G as (_ & _ & _ & N2 & N1 & _ & _ & Z1 & Z2 & _). specialize (G1 N2). specialize (G2 N1). unfold also_on, on_panel. rewrite R1, R2, Q1, Q2, !opp_IZR, Z1, Z2.
      apply IZR_le in Pn, Pk. repeat split; nra. }
    revert A. generalize (rows_in_frame out2 f). intros l A. induction l as [|r l IH]; [reflexivity|]. cbn [filter]. rewrite A by now left. cbn [negb]. apply IH. intros; apply A; now right. }
  rewrite NB in E. cbn [map] in E. rewrite sum_list_nil in E.
  assert (Q : 0 <= sum_list (map (fun r => micro_spot d out r (Z.of_nat i) (Z.of_nat j)) (filter (fun r => negb (both r)) (rows_in_frame out f)))).
  { assert (A : forall r, In r (filter (fun r => negb (both r)) (rows_in_frame out f)) -> In r (pd_peaks out)) by (intros r Hr; apply filter_In in Hr as [Hr _]; now apply filter_In in Hr).
    revert A. generalize (filter (fun r => negb (both r)) (rows_in_frame out f)). intros l A. induction l as [|r l IH]; cbn [map]; [rewrite sum_list_nil; lra|]. rewrite sum_list_cons.
    apply Rplus_le_le_0_compat; [apply spot_nonneg, SN, A; now left|apply IH; intros; apply A; now right]. }
  split; lra.
Qed.
