(** * Proofs about MRender: the point-spread function (C46). *)
From Verif Require Import Vec Spec MMotion MLaue MMesh MScattering MStrain MBeam MPolycrystal SPolycrystal MDetector SDetector.
From Verif Require Import MRender SRender PLaue PScattering PBeam PDetector PDetector2 PDetector3 PDetector4 PRender PRender2 PRender2b PRenderEx PRender3 PKernel PKernel2.
From Coq Require Import Permutation.
Open Scope R_scope.
Local Notation len := List.length.

Lemma gexp_val s x : s <> 0 -> gexp s x = Fin (exp (- x / (2 * s^2))).
Proof. intros H. unfold gexp. destruct (Req_EM_T s 0); [contradiction|auto]. Qed.
Lemma psf_loop_spec s thr mr : s <> 0 -> forall fuel r, (1 <= r)%Z -> (mr - r < Z.of_nat fuel)%Z ->
  (forall c, (1 <= c < r)%Z -> thr / 2 <= exp (- (IZR c)^2 / (2 * s^2))) ->
  let q := psf_loop s thr mr r fuel in
  (r <= q)%Z /\ (forall c, (1 <= c < q)%Z -> thr / 2 <= exp (- (IZR c)^2 / (2 * s^2))) /\
  ((mr < q)%Z \/ exp (- (IZR q)^2 / (2 * s^2)) < thr / 2) /\ (q <= Z.max r (mr + 1))%Z.
Proof.
  intros Hs. induction fuel; intros r Hr Hf Hc; cbn [psf_loop]; cbv zeta.
  - repeat split; auto; try lia.
  - destruct (Z.leb_spec r mr) as [L|L]; [|repeat split; auto; lia].
    rewrite gexp_val by auto. cbn [nlt]. destruct (Rltb _ _) eqn:E.
    + apply Rltb_true in E. repeat split; auto; lia.
    + apply Rltb_false in E. destruct (IHfuel (r + 1)%Z) as (A & B & C & D); try lia.
      * intros c Hc'. destruct (Z.eq_dec c r) as [->|]; [lra|]. apply Hc. lia.
      * repeat split; auto; lia.
Qed.
(** The kernel radius is the least r >= 1 at which the Gaussian falls below half the
    threshold, or the cap when there is none up to the cap. *)
Lemma pC46_radius : forall d, d_sigma d <> 0 -> (1 <= d_max_radius d)%Z ->
  let r := psf_radius d in
  (1 <= r <= d_max_radius d)%Z /\
  (forall c, (1 <= c < r)%Z -> d_threshold d / 2 <= exp (- (IZR c)^2 / (2 * (d_sigma d)^2))) /\
  (r = d_max_radius d \/ exp (- (IZR r)^2 / (2 * (d_sigma d)^2)) < d_threshold d / 2).
Proof.
  intros d Hs Hm. cbv zeta. unfold psf_radius.
  destruct (psf_loop_spec (d_sigma d) (d_threshold d) (d_max_radius d) Hs (Z.to_nat (d_max_radius d)) 1) as (A & B & C & D); try lia.
  set (q := psf_loop _ _ _ _ _) in *. clearbody q. split; [lia|]. split; [intros; apply B; lia|].
  destruct (Z.le_gt_cases q (d_max_radius d)) as [L|L]; [|left; lia].
  rewrite Z.min_l by lia. destruct C as [C|C]; [lia|auto].
Qed.
Lemma psf_radius_nonneg d : (0 <= d_max_radius d)%Z -> (0 <= psf_radius d)%Z.
Proof.
  intros H. unfold psf_radius. apply Z.min_glb; auto.
  assert (G : forall fuel r, (0 <= r)%Z -> (0 <= psf_loop (d_sigma d) (d_threshold d) (d_max_radius d) r fuel)%Z).
  { induction fuel; intros r Hr; cbn [psf_loop]; auto. destruct (_ <=? _)%Z; auto. destruct (nlt _ _); auto. apply IHfuel. lia. }
  apply G. lia.
Qed.

Definition psf_raw (s : R) (r : Z) (a b : nat) : R := exp (- ((INR a - IZR r)^2 + (INR b - IZR r)^2) / (2 * s^2)).
Lemma entry_total_pos n g : (0 < n)%nat -> (forall a b, 0 < g a b) -> 0 < entry_total n g.
Proof.
  intros Hn Hg. unfold entry_total. destruct n; [lia|]. cbn [seq map]. rewrite sum_list_cons.
  apply Rplus_lt_le_0_compat.
  - rewrite sum_list_cons. apply Rplus_lt_le_0_compat; auto. apply sum_list_nonneg. intros x Hx. apply in_map_iff in Hx as (y & <- & _). left. auto.
  - apply sum_list_nonneg. intros x Hx. apply in_map_iff in Hx as (y & <- & _). apply sum_list_nonneg.
    intros x [<-|Hx]; [left; auto|]. apply in_map_iff in Hx as (y' & <- & _). left; auto.
Qed.
Lemma ksum_entries k g : entries k g -> ksum k = Fin (entry_total (k_n k) g).
Proof.
  intros H. unfold ksum, ksum_over, grid. rewrite (nsum_prod (fun a b => k_at k a b)). unfold entry_total. apply nsum_fin_map.
  intros a Ha. apply in_seq in Ha. apply nsum_fin_map. intros b Hb. apply in_seq in Hb. apply H; lia.
Qed.
Lemma psf_entries d : d_sigma d <> 0 -> (0 <= d_max_radius d)%Z ->
  let r := psf_radius d in let n := Z.to_nat (2 * r + 1) in
  exists k, psf_kernel d = Ok k /\ k_n k = n /\
    entries k (fun a b => psf_raw (d_sigma d) r a b / entry_total n (psf_raw (d_sigma d) r)).
Proof.
  intros Hs Hm. cbv zeta. unfold psf_kernel. pose proof (psf_radius_nonneg d Hm) as Hr.
  destruct (Z.ltb_spec (psf_radius d) 0); [lia|]. eexists. split; [reflexivity|]. unfold knorm. cbv zeta. cbn [k_n].
  split; auto. intros a b Ha Hb. cbn [k_n k_at] in *.
  rewrite (ksum_entries _ (psf_raw (d_sigma d) (psf_radius d))).
  - cbn [k_n]. rewrite gexp_val by auto. rewrite ndiv_fin; [reflexivity|].
    assert (0 < entry_total (Z.to_nat (2 * psf_radius d + 1)) (psf_raw (d_sigma d) (psf_radius d))).
    { apply entry_total_pos; [lia|]. intros. apply exp_pos. }
    lra.
  - intros a' b' _ _. cbn [k_at]. now rewrite gexp_val.
Qed.
Lemma entry_total_scal n g c : entry_total n (fun a b => c * g a b) = c * entry_total n g.
Proof. unfold entry_total. rewrite <- sum_list_map_scal. apply sum_list_ext. intros a _. now rewrite sum_list_map_scal. Qed.
Lemma built_radius d : built d -> (0 <= d_max_radius d)%Z.
Proof.
  intros (c0 & c1 & c2 & np & ps & sg & th & mr & ul & up & us & H). pose proof H as H'.
  apply make_detector_inv in H' as (_ & _ & _ & _ & _ & _ & _ & _ & _ & _ & _ & _ & _ & -> & _).
  unfold make_detector in H. destruct (pixel_sizes _ _ _ _); cbn [bind] in H; [|discriminate]. destruct (arange_len _ _) in H; cbn [bind] in H; [|discriminate].
  destruct (arange_len _ _) in H; cbn [bind] in H; [|discriminate]. destruct (Z.ltb_spec mr 0); [discriminate|auto].
Qed.
(** Every detector that could be constructed has a point spread kernel (of radius between 0 and the cap). *)
Lemma pC46_built_has_kernel : forall d, built d -> (0 <= psf_radius d <= d_max_radius d)%Z /\ exists k, psf_kernel d = Ok k.
Proof.
  intros d Hb. pose proof (built_radius d Hb) as Hm. pose proof (psf_radius_nonneg d Hm) as Hr. split; [split; auto; unfold psf_radius; apply Z.le_min_r|].
  unfold psf_kernel. destruct (Z.ltb_spec (psf_radius d) 0); [lia|eauto].
Qed.
(** For every sigma <> 0 the kernel has odd side 2 r + 1, positive entries that add up
    to 1, and is symmetric under transposition and under reversal of either axis. *)
Lemma pC46_kernel : forall d, d_sigma d <> 0 -> (0 <= d_max_radius d)%Z ->
  exists k g, psf_kernel d = Ok k /\ entries k g /\ k_n k = Z.to_nat (2 * psf_radius d + 1) /\
    (forall a b, 0 < g a b) /\ entry_total (k_n k) g = 1 /\ (forall a b, g a b = g b a) /\
    (forall a b, (a < k_n k)%nat -> g a b = g (k_n k - 1 - a)%nat b).
Proof.
  intros d Hs Hm. destruct (psf_entries d Hs Hm) as (k & Hk & Hn & He). set (r := psf_radius d) in *. set (n := Z.to_nat (2 * r + 1)) in *.
  pose proof (psf_radius_nonneg d Hm) as Hr. fold r in Hr.
  assert (HS : 0 < entry_total n (psf_raw (d_sigma d) r)) by (apply entry_total_pos; [lia|intros; apply exp_pos]).
  exists k. eexists. split; [exact Hk|]. split; [exact He|]. split; auto. split; [|split; [|split]].
  - intros a b. apply Rdiv_lt_0_compat; auto. apply exp_pos.
  - rewrite Hn. set (S := entry_total n (psf_raw (d_sigma d) r)) in *.
    replace (entry_total n (fun a b => psf_raw (d_sigma d) r a b / S)) with (entry_total n (fun a b => / S * psf_raw (d_sigma d) r a b)).
    + rewrite entry_total_scal. fold S. field. lra.
    + unfold entry_total. apply sum_list_ext. intros a _. apply sum_list_ext. intros b _. unfold Rdiv. ring.
  - intros a b. f_equal. unfold psf_raw. f_equal. f_equal. f_equal. ring.
  - rewrite Hn. intros a b Ha. f_equal. unfold psf_raw. f_equal. f_equal. f_equal.
    assert (E : INR (n - 1 - a) = 2 * IZR r - INR a).
    { rewrite !INR_IZR_INZ. rewrite <- mult_IZR, <- minus_IZR. f_equal. lia. }
    rewrite E. ring.
Qed.

(** The kernel is the Gaussian exp (-(x^2+y^2)/(2 sigma^2)) of the distance to its central
    entry, up to one positive factor. *)
Lemma pC46_gaussian : forall d, d_sigma d <> 0 -> (0 <= d_max_radius d)%Z ->
  exists k c, psf_kernel d = Ok k /\ 0 < c /\ k_n k = Z.to_nat (2 * psf_radius d + 1) /\
    forall a b, (a < k_n k)%nat -> (b < k_n k)%nat ->
      k_at k a b = Fin (c * exp (- ((INR a - IZR (psf_radius d))^2 + (INR b - IZR (psf_radius d))^2) / (2 * (d_sigma d)^2))).
Proof.
  intros d Hs Hm. destruct (psf_entries d Hs Hm) as (k & Hk & Hn & He). pose proof (psf_radius_nonneg d Hm) as Hr. 
  set (n := Z.to_nat (2 * psf_radius d + 1)) in *.
  assert (HS : 0 < entry_total n (psf_raw (d_sigma d) (psf_radius d))) by (apply entry_total_pos; [lia|intros; apply exp_pos]).
  exists k, (/ entry_total n (psf_raw (d_sigma d) (psf_radius d))). split; auto. split; [now apply Rinv_0_lt_compat|]. split; auto.
  intros a b Ha Hb. rewrite (He a b Ha Hb). unfold psf_raw. f_equal. unfold Rdiv. ring.
Qed.

(** sigma = 0: every entry is NaN, and every image rendered through the kernel is NaN. *)
Lemma nsum_nan l : In NaN l -> nsum l = NaN.
Proof.
  induction l as [|x l IH]; [intros []|]. rewrite nsum_cons. intros [->|H]; [reflexivity|]. rewrite IH by auto. now destruct x.
Qed.
Lemma pC46_zero_sigma_nan : forall d, d_sigma d = 0 -> (0 <= d_max_radius d)%Z ->
  exists k, psf_kernel d = Ok k /\ (0 < k_n k)%nat /\ forall a b, k_at k a b = NaN.
Proof.
  intros d Hs Hm. unfold psf_kernel. pose proof (psf_radius_nonneg d Hm) as Hr. set (r := psf_radius d) in *. clearbody r.
  destruct (Z.ltb_spec r 0); [lia|]. eexists. split; [reflexivity|]. unfold knorm. cbn [k_n k_at]. split; [lia|].
  set (K := Ker _ _). assert (E : ksum K = NaN).
  { apply nsum_nan. apply in_map_iff. exists (Z.to_nat r, Z.to_nat r). split.
    - cbn [fst snd K k_at]. unfold gexp. rewrite Hs. destruct (Req_EM_T 0 0); [|lra]. destruct (Req_EM_T _ 0) as [|C]; auto.
      exfalso. apply C. rewrite INR_IZR_INZ, Z2Nat.id by lia. ring.
    - unfold grid. apply in_prod; apply in_seq; cbn [K k_n]; lia. }
  intros a b. rewrite E. destruct (gexp _ _); reflexivity.
Qed.
Lemma conv_nan k h w f i j : (0 < k_n k)%nat -> (forall a b, k_at k a b = NaN) -> conv2 k h w f i j = NaN.
Proof.
  intros Hn Hk. unfold conv2. cbv zeta. apply nsum_nan. apply in_map_iff. exists (0%nat, 0%nat). split.
  - cbn [fst snd]. rewrite Hk. now destruct (padded _ _ _ _ _).
  - unfold grid. apply in_prod; apply in_seq; lia.
Qed.
(** With gaussian_sigma = 0 a nano image of a table with a visible peak is NaN in
    every pixel of every frame. *)
Lemma pC46_zero_sigma_nano_nan : forall e d pd frames ml mi im out, d_sigma d = 0 -> (0 <= d_max_radius d)%Z ->
  render e d pd frames "nano" ml mi = Ok (im, out) -> pd_peaks out <> [] ->
  forall f i j, f_at im f i j = NaN.
Proof.
  intros e d pd frames ml mi im out Hs Hm. destruct (pC46_zero_sigma_nan d Hs Hm) as (k & Hk & Hn & Hnan).
  unfold render. cbv zeta. fold (nframes frames). destruct (project _ _ _ _) as [o|]; [|discriminate]. cbn [bind String.eqb Ascii.eqb Bool.eqb].
  unfold nano_method, render_airy. intros H He. destruct (pd_peaks o) as [|r rows] eqn:E.
  { cbn [bind] in H. inversion H; subst. congruence. }
  rewrite Hk in H. cbn [bind] in H. destruct (gather _ _); [|discriminate]. cbn [bind] in H.
  destruct (airy_batches _ _ _ _); [|discriminate]. destruct (airy_loop _ _ _ _ _ _ _); [|discriminate]. cbn [bind] in H. inversion H; subst.
  intros f i j. cbn [conv3 f_at]. now apply conv_nan.
Qed.
(** ... and so is every frame of a macro image in which a peak is recorded. *)
Lemma pC46_zero_sigma_macro_nan : forall e d pd frames ml mi im out r f i j, d_sigma d = 0 -> (0 <= d_max_radius d)%Z ->
  render e d pd frames "macro" ml mi = Ok (im, out) -> fresh pd -> In r (pd_peaks out) -> read out r "frame" = INR f ->
  f_at im f i j = NaN.
Proof.
  intros e d pd frames ml mi im out r f i j Hs Hm H Hf Hr Hrf. destruct (pC46_zero_sigma_nan d Hs Hm) as (k & Hk & Hn & Hnan).
  pose proof (render_inv _ _ _ _ _ _ _ _ _ H) as Ho.
  destruct (out_reads _ _ _ _ _ _ Hf (nframes_ge frames) Ho Hr) as (E1 & _).
  destruct (projected_prow _ _ _ _ _ _ Hf (nframes_ge frames) Ho Hr) as (q & zd & yd & it & P).
  pose proof (pr_frame _ _ _ _ _ _ _ P) as Pf. pose proof (pr_frame_lt _ _ _ _ _ _ _ P) as Pl.
  assert (Hq : q = f). { rewrite E1 in Hrf. unfold fcol in Hrf. rewrite Pf in Hrf. cbn [fval] in Hrf. now apply INR_eq. }
  subst q. revert H. unfold render. cbv zeta. fold (nframes frames). rewrite Ho. cbn [bind String.eqb Ascii.eqb Bool.eqb].
  unfold macro_method, render_macro. destruct (pd_peaks out) as [|r0 rows] eqn:E; [destruct Hr|]. rewrite <- E in *. rewrite Hk. cbn [bind].
  destruct (traverse _ (combine _ _)) as [deps|]; cbn [bind]; [|discriminate].
  destruct (traverse _ (pd_peaks out)); cbn [bind]; [|discriminate]. destruct (index_put _ _); cbn [bind]; [|discriminate].
  intros H; inversion H; subst; clear H. cbn [f_at].
  match goal with |- (if existsb ?p ?l then _ else _) = _ => assert (X : existsb p l = true) end.
  { apply existsb_exists. exists r. split; auto. unfold fcol. rewrite Pf. cbn [fval].
    rewrite (ztrunc_eq (INR f) (Z.of_nat f)) by (rewrite <- ?INR_IZR_INZ; lra || lia).
    rewrite wrap_in by lia. apply Nat.eqb_eq. now rewrite Nat2Z.id. }
  rewrite X. apply conv_nan; auto.
Qed.

(** ** Convolution and totals *)
Lemma sum_swap {A B} (g : A -> B -> R) la lb :
  sum_list (map (fun a => sum_list (map (g a) lb)) la) = sum_list (map (fun b => sum_list (map (fun a => g a b) la)) lb).
Proof.
  induction la; cbn [map].
  - rewrite sum_list_nil. symmetry. transitivity (sum_list (map (fun _ : B => 0 * 0) lb)).
    + apply sum_list_ext. intros b _. rewrite ?sum_list_nil. ring.
    + rewrite (sum_list_map_scal 0 (fun _ => 0)). ring.
  - rewrite sum_list_cons, IHla, <- sum_list_plus_map. apply sum_list_ext. intros b _. now rewrite sum_list_cons.
Qed.
Definition pad_real (h w : nat) (g : nat -> nat -> R) (i j : Z) : R :=
  if ((0 <=? i) && (i <? Z.of_nat h) && (0 <=? j) && (j <? Z.of_nat w))%Z then g (Z.to_nat i) (Z.to_nat j) else 0.
Lemma conv_real k kg h w f g i j : entries k kg -> (forall i j, (i < h)%nat -> (j < w)%nat -> f i j = Fin (g i j)) ->
  conv2 k h w f i j = Fin (sum_list (map (fun a => sum_list (map (fun b =>
    pad_real h w g (Z.of_nat i + Z.of_nat a - Z.of_nat (k_n k / 2)) (Z.of_nat j + Z.of_nat b - Z.of_nat (k_n k / 2)) * kg a b)
    (seq 0 (k_n k)))) (seq 0 (k_n k)))).
Proof.
  intros Hk Hg. unfold conv2. cbv zeta. unfold grid.
  rewrite (nsum_prod (fun a b => nmul (padded h w f (Z.of_nat i + Z.of_nat a - Z.of_nat (k_n k / 2)) (Z.of_nat j + Z.of_nat b - Z.of_nat (k_n k / 2))) (k_at k a b))).
  apply nsum_fin_map. intros a Ha. apply in_seq in Ha. apply nsum_fin_map. intros b Hb. apply in_seq in Hb.
  rewrite Hk by lia. unfold padded, pad_real.
  match goal with |- context[if ?q then _ else _] => destruct q eqn:E end; [|reflexivity].
  repeat (apply andb_true_iff in E as [E ?]).
  repeat match goal with H : (_ <=? _)%Z = true |- _ => apply Z.leb_le in H | H : (_ <? _)%Z = true |- _ => apply Z.ltb_lt in H end.
  rewrite Hg by lia. reflexivity.
Qed.
Lemma sum_range_split lo n m g : sum_range lo (n + m) g = sum_range lo n g + sum_range (lo + Z.of_nat n) m g.
Proof.
  unfold sum_range. rewrite seq_app, map_app, sum_list_app. f_equal. rewrite <- (seq_offset (0 + n) m), map_map.
  apply sum_list_ext. intros k _. f_equal. lia.
Qed.
Lemma sum_range_zero lo n g : (forall i, (lo <= i < lo + Z.of_nat n)%Z -> g i = 0) -> sum_range lo n g = 0.
Proof.
  intros H. transitivity (sum_range lo n (fun _ => 0 * 0)); [|rewrite sum_range_scal; ring]. apply sum_range_ext. intros i Hi. rewrite H by auto. ring.
Qed.
Lemma sum_range_support lo n a m g : (lo <= a)%Z -> (a + Z.of_nat m <= lo + Z.of_nat n)%Z ->
  (forall i, ~ (a <= i < a + Z.of_nat m)%Z -> g i = 0) -> sum_range lo n g = sum_range a m g.
Proof.
  intros H1 H2 H0. replace n with (Z.to_nat (a - lo) + (m + Z.to_nat (lo + Z.of_nat n - (a + Z.of_nat m))))%nat by lia.
  rewrite !sum_range_split. rewrite (sum_range_zero lo) by (intros; apply H0; lia).
  replace (lo + Z.of_nat (Z.to_nat (a - lo)))%Z with a by lia.
  rewrite (sum_range_zero (a + Z.of_nat m)) by (intros; apply H0; lia). ring.
Qed.
Lemma sum_range_shift lo n s g : sum_range lo n (fun i => g (i + s)%Z) = sum_range (lo + s) n g.
Proof. unfold sum_range. apply sum_list_ext. intros k _. f_equal. lia. Qed.
(** The image seen from shifted pixels has the same total when its support stays in view. *)
Lemma shift_total h w g p s t : (forall i j, (i < h)%nat -> (j < w)%nat -> g i j <> 0 ->
    (p <= Z.of_nat i < Z.of_nat h - p)%Z /\ (p <= Z.of_nat j < Z.of_nat w - p)%Z) ->
  (- p <= s <= p)%Z -> (- p <= t <= p)%Z ->
  pixel_sum h w (fun i j => pad_real h w g (i + s) (j + t)) = pixel_sum h w (pad_real h w g).
Proof.
  intros Hs Hps Hpt. unfold pixel_sum.
  assert (Z0 : forall i j, ~ (p <= i < Z.of_nat h - p)%Z \/ ~ (p <= j < Z.of_nat w - p)%Z -> pad_real h w g i j = 0).
  { intros i j Hij. unfold pad_real. match goal with |- (if ?q then _ else _) = _ => destruct q eqn:E end; auto.
    repeat (apply andb_true_iff in E as [E ?]).
    repeat match goal with H : (_ <=? _)%Z = true |- _ => apply Z.leb_le in H | H : (_ <? _)%Z = true |- _ => apply Z.ltb_lt in H end.
    destruct (Req_dec (g (Z.to_nat i) (Z.to_nat j)) 0); auto. destruct (Hs (Z.to_nat i) (Z.to_nat j)) as [A B]; auto; lia. }
  assert (In : forall i, sum_range 0 w (fun j => pad_real h w g i (j + t)) = sum_range 0 w (pad_real h w g i)).
  { intros i. rewrite (sum_range_shift 0 w t (pad_real h w g i)).
    destruct (Z.le_gt_cases (2 * p) (Z.of_nat w)).
    - rewrite (sum_range_support (0 + t) w p (Z.to_nat (Z.of_nat w - 2 * p))) by (try lia; intros; apply Z0; lia).
      rewrite (sum_range_support 0 w p (Z.to_nat (Z.of_nat w - 2 * p))) by (try lia; intros; apply Z0; lia). reflexivity.
    - rewrite !sum_range_zero by (intros; apply Z0; lia). reflexivity. }
  rewrite (sum_range_ext 0 h _ (fun i => sum_range 0 w (pad_real h w g (i + s)))) by (intros; apply In).
  rewrite (sum_range_shift 0 h s (fun i => sum_range 0 w (pad_real h w g i))).
  assert (O0 : forall i, ~ (p <= i < Z.of_nat h - p)%Z -> sum_range 0 w (pad_real h w g i) = 0).
  { intros i Hi. apply sum_range_zero. intros. apply Z0. auto. }
  destruct (Z.le_gt_cases (2 * p) (Z.of_nat h)).
  - rewrite (sum_range_support (0 + s) h p (Z.to_nat (Z.of_nat h - 2 * p))) by (try lia; intros; apply O0; lia).
    rewrite (sum_range_support 0 h p (Z.to_nat (Z.of_nat h - 2 * p))) by (try lia; intros; apply O0; lia). reflexivity.
  - rewrite !sum_range_zero by (intros; apply O0; lia). reflexivity.
Qed.
Lemma shift_total_le h w g s t : (forall i j, 0 <= g i j) ->
  pixel_sum h w (fun i j => pad_real h w g (i + s) (j + t)) <= pixel_sum h w (pad_real h w g).
Proof.
  intros Hg. unfold pixel_sum.
  assert (P : forall i j, 0 <= pad_real h w g i j) by (intros; unfold pad_real; destruct (_ && _)%bool; auto; lra).
  assert (O : forall i j, ~ (0 <= i < Z.of_nat h)%Z \/ ~ (0 <= j < Z.of_nat w)%Z -> pad_real h w g i j = 0).
  { intros i j Hij. unfold pad_real. match goal with |- (if ?q then _ else _) = _ => destruct q eqn:E end; auto.
    repeat (apply andb_true_iff in E as [E ?]).
    repeat match goal with H : (_ <=? _)%Z = true |- _ => apply Z.leb_le in H | H : (_ <? _)%Z = true |- _ => apply Z.ltb_lt in H end. lia. }
  assert (W : forall lo n m F, (forall i, 0 <= F i) -> (forall i, ~ (0 <= i < Z.of_nat m)%Z -> F i = 0) -> sum_range lo n F <= sum_range 0 m F).
  { intros lo n m F HF H0. eapply Rle_trans; [|apply (sum_range_window lo n 0 m F HF)]. right. apply sum_range_ext. intros i _.
    destruct ((0 <=? i) && (i <? 0 + Z.of_nat m))%Z eqn:E; auto. apply H0. intros C. apply andb_false_iff in E as [E|E].
    - apply Z.leb_gt in E. lia.
    - apply Z.ltb_ge in E. lia. }
  eapply Rle_trans.
  - apply sum_range_le. intros i _. rewrite (sum_range_shift 0 w t (pad_real h w g (i + s))). apply (W (0 + t)%Z w w); auto.
  - rewrite (sum_range_shift 0 h s (fun i => sum_range 0 w (pad_real h w g i))). apply W.
    + intros i. apply sum_range_nonneg. auto.
    + intros i Hi. apply sum_range_zero. intros. apply O. auto.
Qed.
Lemma pixel_sum_nat h w (F : Z -> Z -> R) : pixel_sum h w F =
  sum_list (map (fun i => sum_list (map (fun j => F (Z.of_nat i) (Z.of_nat j)) (seq 0 w))) (seq 0 h)).
Proof. reflexivity. Qed.
Lemma conv_total k kg h w f g : entries k kg -> (forall i j, (i < h)%nat -> (j < w)%nat -> f i j = Fin (g i j)) ->
  nsum (map (fun ij => conv2 k h w f (fst ij) (snd ij)) (list_prod (seq 0 h) (seq 0 w))) =
  Fin (sum_list (map (fun a => sum_list (map (fun b => kg a b * pixel_sum h w (fun i j =>
     pad_real h w g (i + (Z.of_nat a - Z.of_nat (k_n k / 2))) (j + (Z.of_nat b - Z.of_nat (k_n k / 2))))) (seq 0 (k_n k)))) (seq 0 (k_n k)))).
Proof.
  intros Hk Hg. set (p := Z.of_nat (k_n k / 2)). set (K := seq 0 (k_n k)).
  rewrite (nsum_prod (fun i j => conv2 k h w f i j)).
  rewrite (nsum_fin_map _ (fun i => sum_list (map (fun j => sum_list (map (fun a => sum_list (map (fun b =>
     kg a b * pad_real h w g (Z.of_nat i + (Z.of_nat a - p)) (Z.of_nat j + (Z.of_nat b - p))) K)) K)) (seq 0 w)))).
  - f_equal.
    transitivity (sum_list (map (fun i => sum_list (map (fun a => sum_list (map (fun b => 
      kg a b * sum_list (map (fun j => pad_real h w g (Z.of_nat i + (Z.of_nat a - p)) (Z.of_nat j + (Z.of_nat b - p))) (seq 0 w))) K)) K)) (seq 0 h))).
    + apply sum_list_ext. intros i _. rewrite sum_swap. apply sum_list_ext. intros a _. rewrite sum_swap. apply sum_list_ext. intros b _.
      now rewrite sum_list_map_scal.
    + rewrite sum_swap. apply sum_list_ext. intros a _. rewrite sum_swap. apply sum_list_ext. intros b _. rewrite sum_list_map_scal. reflexivity.
  - intros i _. apply nsum_fin_map. intros j _. rewrite (conv_real k kg h w f g) by auto. f_equal. fold p K.
    apply sum_list_ext. intros a _. apply sum_list_ext. intros b _. rewrite Rmult_comm. do 2 f_equal; lia.
Qed.
Lemma frame_total_real im f g : (forall i j, (i < f_h im)%nat -> (j < f_w im)%nat -> f_at im f i j = Fin (g i j)) ->
  frame_total im f = Fin (pixel_sum (f_h im) (f_w im) (pad_real (f_h im) (f_w im) g)).
Proof.
  intros H. unfold frame_total. rewrite (nsum_prod (fun i j => f_at im f i j)). rewrite pixel_sum_nat. apply nsum_fin_map. intros i Hi.
  apply in_seq in Hi. apply nsum_fin_map. intros j Hj. apply in_seq in Hj. rewrite H by lia. f_equal. unfold pad_real.
  replace (_ && _)%bool with true; [now rewrite !Nat2Z.id|]. symmetry.
  repeat (apply andb_true_iff; split); try apply Z.leb_le; try apply Z.ltb_lt; lia.
Qed.
Lemma entry_total_ext n g g' : (forall a b, (a < n)%nat -> (b < n)%nat -> g a b = g' a b) -> entry_total n g = entry_total n g'.
Proof. intros H. unfold entry_total. apply sum_list_ext. intros a Ha. apply in_seq in Ha. apply sum_list_ext. intros b Hb. apply in_seq in Hb. apply H; lia. Qed.
Lemma conv3_total_inside k kg im f g : entries k kg -> Nat.odd (k_n k) = true -> entry_total (k_n k) kg = 1 ->
  (forall i j, (i < f_h im)%nat -> (j < f_w im)%nat -> f_at im f i j = Fin (g i j)) ->
  (forall i j, (i < f_h im)%nat -> (j < f_w im)%nat -> g i j <> 0 ->
     (k_n k / 2 <= i /\ i + k_n k / 2 < f_h im /\ k_n k / 2 <= j /\ j + k_n k / 2 < f_w im)%nat) ->
  frame_total (conv3 k im) f = frame_total im f.
Proof.
  intros Hk Ho Ht Hg Hs. rewrite (frame_total_real im f g Hg). unfold frame_total. cbn [conv3 f_h f_w f_at].
  rewrite (conv_total k kg _ _ _ g Hk Hg). f_equal. set (T := pixel_sum _ _ (pad_real _ _ g)).
  transitivity (entry_total (k_n k) (fun a b => T * kg a b)).
  - unfold entry_total. apply sum_list_ext. intros a Ha. apply in_seq in Ha. apply sum_list_ext. intros b Hb. apply in_seq in Hb.
    rewrite (shift_total _ _ g (Z.of_nat (k_n k / 2))).
    + unfold T. ring.
    + intros i j Hi Hj Hn. specialize (Hs i j Hi Hj Hn). lia.
    + apply Nat.odd_spec in Ho as [m Hm]. rewrite Hm in *. replace ((2 * m + 1) / 2)%nat with m in * by (apply (Nat.div_unique _ 2 m 1); lia). lia.
    + apply Nat.odd_spec in Ho as [m Hm]. rewrite Hm in *. replace ((2 * m + 1) / 2)%nat with m in * by (apply (Nat.div_unique _ 2 m 1); lia). lia.
  - rewrite entry_total_scal, Ht. ring.
Qed.
(** Convolution with the point-spread function keeps the total of a frame whose
    non-zero pixels are at least the kernel radius away from the border. *)
Lemma pC46_convolution_conserves : forall d k im f, d_sigma d <> 0 -> (0 <= d_max_radius d)%Z -> psf_kernel d = Ok k ->
  (forall i j, in_image im f i j -> is_finite (f_at im f i j) = true) -> (f < f_n im)%nat ->
  (forall i j, in_image im f i j -> f_at im f i j <> Fin 0 ->
     (psf_radius d <= Z.of_nat i /\ Z.of_nat i + psf_radius d < Z.of_nat (f_h im) /\
      psf_radius d <= Z.of_nat j /\ Z.of_nat j + psf_radius d < Z.of_nat (f_w im))%Z) ->
  has_shape (conv3 k im) (f_n im) (f_h im) (f_w im) /\ frame_total (conv3 k im) f = frame_total im f.
Proof.
  intros d k im f Hs Hm Hk Hfin Hf Hsup. split; [repeat split|].
  destruct (pC46_kernel d Hs Hm) as (k' & kg & Hk' & He & Hn & Hpos & Ht & _). rewrite Hk in Hk'. inversion Hk'; subst k'. clear Hk'.
  pose proof (psf_radius_nonneg d Hm) as Hr.
  assert (Hh : Z.of_nat (k_n k / 2) = psf_radius d).
  { rewrite Hn. rewrite Nat2Z.inj_div, Z2Nat.id by lia. change (Z.of_nat 2) with 2%Z. symmetry. apply (Z.div_unique_pos _ 2 _ 1); lia. }
  assert (G : forall i j, (i < f_h im)%nat -> (j < f_w im)%nat -> f_at im f i j = Fin (fval (f_at im f i j))).
  { intros i j Hi Hj. specialize (Hfin i j (conj Hf (conj Hi Hj))). destruct (f_at im f i j); try discriminate. reflexivity. }
  apply (conv3_total_inside k kg im f (fun i j => fval (f_at im f i j))); auto.
  - rewrite Hn. apply Nat.odd_spec. exists (Z.to_nat (psf_radius d)). lia.
  - intros i j Hi Hj Hne. assert (Hne' : f_at im f i j <> Fin 0) by (intros C; rewrite C in Hne; apply Hne; reflexivity).
    specialize (Hsup i j (conj Hf (conj Hi Hj)) Hne'). lia.
Qed.
(** Anywhere, the total of a non-negative frame does not increase. *)
Lemma pC46_convolution_loses_only : forall d k im f, d_sigma d <> 0 -> (0 <= d_max_radius d)%Z -> psf_kernel d = Ok k -> (f < f_n im)%nat ->
  (forall i j, in_image im f i j -> exists x, f_at im f i j = Fin x /\ 0 <= x) ->
  exists t t', frame_total im f = Fin t /\ frame_total (conv3 k im) f = Fin t' /\ 0 <= t' <= t.
Proof.
  intros d k im f Hs Hm Hk Hf Hnn.
  destruct (pC46_kernel d Hs Hm) as (k' & kg & Hk' & He & Hn & Hpos & Ht & _). rewrite Hk in Hk'. inversion Hk'; subst k'. clear Hk'.
  pose (g := fun i j => Rmax 0 (fval (f_at im f i j))).
  assert (G : forall i j, (i < f_h im)%nat -> (j < f_w im)%nat -> f_at im f i j = Fin (g i j)).
  { intros i j Hi Hj. destruct (Hnn i j (conj Hf (conj Hi Hj))) as (x & E & Hx). unfold g. rewrite E. cbn [fval]. now rewrite Rmax_right. }
  assert (G0 : forall i j, 0 <= g i j) by (intros; apply Rmax_l).
  eexists. eexists. split; [apply (frame_total_real im f g G)|]. split.
  - unfold frame_total. cbn [conv3 f_h f_w f_at]. apply (conv_total k kg _ _ _ g He G).
  - set (T := pixel_sum _ _ (pad_real _ _ g)).
    assert (P : forall i j, 0 <= pad_real (f_h im) (f_w im) g i j) by (intros; unfold pad_real; destruct (_ && _)%bool; auto; lra).
    split.
    + apply sum_list_nonneg. intros x Hx. apply in_map_iff in Hx as (a & <- & _). apply sum_list_nonneg. intros x Hx. apply in_map_iff in Hx as (b & <- & _).
      apply Rmult_le_pos; [left; auto|]. unfold pixel_sum. apply sum_range_nonneg. intros. apply sum_range_nonneg. intros. auto.
    + apply Rle_trans with (entry_total (k_n k) (fun a b => T * kg a b)); [|rewrite entry_total_scal, Ht; lra].
      unfold entry_total. apply sum_list_le_map. intros a _. apply sum_list_le_map. intros b _. rewrite Rmult_comm.
      apply Rmult_le_compat_r; [left; auto|]. unfold T. now apply shift_total_le.
Qed.
(** sigma 1, threshold 1/2, cap 2: a 9 x 9 image with one bright pixel. *)
Lemma xC46_delta : exists d im, built d /\ d_sigma d <> 0 /\ (1 <= d_max_radius d)%Z /\ (psf_radius d <= 4)%Z /\
  has_shape im 1 9 9 /\ frame_total im 0 = Fin 5 /\ forall i j, (f_at im 0 i j = if Nat.eqb i 4 && Nat.eqb j 4 then Fin 5 else Fin 0).
Proof.
  exists (flat 10 1 9 1 (1/2) 2), (Fr 1 9 9 (fun _ i j => if Nat.eqb i 4 && Nat.eqb j 4 then Fin 5 else Fin 0)).
  split; [apply flat_built; [lra|lia]|]. cbn [flat d_sigma d_max_radius]. split; [lra|]. split; [lia|]. split; [unfold psf_radius; cbn [flat d_max_radius]; lia|].
  split; [repeat split|]. split; [|auto]. unfold frame_total. cbn [f_h f_w f_at seq list_prod app map fst snd Nat.eqb andb].
  rewrite !nsum_cons, nsum_nil. unfold nadd. f_equal. lra.
Qed.
Lemma xC46_zero : exists d, built d /\ d_sigma d = 0 /\ (0 <= d_max_radius d)%Z.
Proof. exists (flat 10 1 9 0 (1/2) 2). split; [apply flat_built; [lra|lia]|]. cbn. split; [reflexivity|lia]. Qed.
