(** * Proofs about MRender: kernel cropping (C43), the sampled Airy kernel (C44) and the
    bilinear deposit (C45). *)
From Verif Require Import Vec Spec MMotion MLaue MMesh MScattering MStrain MBeam MPolycrystal SPolycrystal MDetector SDetector.
From Verif Require Import MRender SRender PLaue PScattering PBeam PDetector PDetector2 PDetector3 PDetector4 PRender PRender2 PRenderEx PRender3 PKernel.
From Coq Require Import Permutation.
Open Scope R_scope.
Local Notation len := List.length.

(** ** C43 *)
Lemma filter_all {A} (p : A -> bool) l : (forall x, In x l -> p x = true) -> filter p l = l.
Proof. induction l; intros H; cbn; auto. rewrite H by (left; auto). f_equal. apply IHl. intros; apply H; right; auto. Qed.
Lemma filter_none {A} (p : A -> bool) l : (forall x, In x l -> p x = false) -> filter p l = [].
Proof. induction l; intros H; cbn; auto. rewrite H by (left; auto). apply IHl. intros; apply H; right; auto. Qed.
Lemma filter_seq n lo cnt p : (lo + cnt <= n)%nat -> (forall a, (a < n)%nat -> p a = Nat.leb lo a && Nat.ltb a (lo + cnt)) ->
  filter p (seq 0 n) = seq lo cnt.
Proof.
  intros H Hp. replace n with (lo + (cnt + (n - lo - cnt)))%nat by lia. rewrite !seq_app, !filter_app.
  rewrite (filter_none p (seq 0 lo)).
  - rewrite (filter_all p (seq (0 + lo) cnt)).
    + rewrite (filter_none p (seq (0 + lo + cnt) _)); [now rewrite app_nil_r|]. intros a Ha. apply in_seq in Ha.
      rewrite Hp by lia. destruct (Nat.leb_spec lo a); auto. destruct (Nat.ltb_spec a (lo + cnt)); auto. lia.
    + intros a Ha. apply in_seq in Ha. rewrite Hp by lia. destruct (Nat.leb_spec lo a); [|lia]. destruct (Nat.ltb_spec a (lo + cnt)); auto. lia.
  - intros a Ha. apply in_seq in Ha. rewrite Hp by lia. destruct (Nat.leb_spec lo a); auto. lia.
Qed.
Lemma window_eq k c : (c <= k_n k / 2)%nat ->
  window k c = ((k_n k / 2 - c)%nat, (Nat.min (k_n k / 2 + c + 1) (k_n k) - (k_n k / 2 - c))%nat).
Proof.
  intros H. unfold window, slice. cbv zeta. pose proof (Nat.div_le_upper_bound (k_n k) 2 (k_n k) ltac:(lia) ltac:(lia)) as Hn.
  set (n := k_n k) in *. set (h := (n / 2)%nat) in *. clearbody n h.
  destruct (Z.ltb_spec (Z.of_nat h - Z.of_nat c) 0); [lia|]. destruct (Z.ltb_spec (Z.of_nat h + Z.of_nat c + 1) 0); [lia|].
  f_equal; lia.
Qed.
Lemma near_seq n c : (c <= n / 2)%nat -> (0 < n)%nat ->
  filter (near n c) (seq 0 n) = seq (n / 2 - c) (Nat.min (n / 2 + c + 1) n - (n / 2 - c)).
Proof.
  intros H Hn. pose proof (Nat.div_lt n 2 Hn ltac:(lia)) as Hh. set (h := (n / 2)%nat) in *. apply filter_seq; [lia|].
  intros a Ha. unfold near. fold h. clearbody h.
  destruct (Z.leb_spec (Z.abs (Z.of_nat a - Z.of_nat h)) (Z.of_nat c)); symmetry;
    [apply andb_true_iff; split; [apply Nat.leb_le|apply Nat.ltb_lt]; lia|].
  apply andb_false_iff. destruct (Nat.leb_spec (h - c) a); auto. right. apply Nat.ltb_ge. lia.
Qed.
Lemma sum_if_and {A} (p : A -> bool) (q : bool) (g : A -> R) l :
  sum_list (map (fun b => if q && p b then g b else 0) l) = if q then sum_list (map g (filter p l)) else 0.
Proof.
  induction l; cbn [map filter].
  - rewrite sum_list_nil. now destruct q.
  - rewrite sum_list_cons, IHl. destruct q; cbn; [|lra]. destruct (p a); cbn [map]; rewrite ?sum_list_cons; lra.
Qed.
Lemma window_sum_enclosed k g c : entries k g -> (c <= k_n k / 2)%nat -> window_sum k c = Fin (enclosed (k_n k) g c).
Proof.
  intros Hg Hc. unfold window_sum, ksum_over, grid. rewrite window_eq by auto. cbn [fst snd].
  destruct (Nat.eq_dec (k_n k) 0) as [E|E].
  { rewrite E in *. replace c with 0%nat by (cbn in Hc; lia). cbn. unfold enclosed. cbn. now rewrite sum_list_nil. }
  rewrite <- near_seq by lia. rewrite nsum_prod. unfold enclosed.
  assert (N : forall a, In a (filter (near (k_n k) c) (seq 0 (k_n k))) -> (a < k_n k)%nat).
  { intros a Ha. apply filter_In in Ha as [Ha _]. apply in_seq in Ha. lia. }
  rewrite (nsum_fin_map _ (fun a => sum_list (map (g a) (filter (near (k_n k) c) (seq 0 (k_n k)))))).
  - f_equal. rewrite sum_filter. apply sum_list_ext. intros a _. rewrite sum_if_and. reflexivity.
  - intros a Ha. apply nsum_fin_map. intros b Hb. apply Hg; auto.
Qed.
Lemma enclosed_mono n g c c' : (forall a b, (a < n)%nat -> (b < n)%nat -> 0 <= g a b) -> (c <= c')%nat -> enclosed n g c <= enclosed n g c'.
Proof.
  intros Hg Hc. unfold enclosed. apply sum_list_le_map. intros a Ha. apply in_seq in Ha. apply sum_list_le_map. intros b Hb. apply in_seq in Hb.
  assert (N : forall a, near n c a = true -> near n c' a = true).
  { intros x. unfold near. rewrite !Z.leb_le. lia. }
  specialize (Hg a b ltac:(lia) ltac:(lia)).
  destruct (near n c a && near n c b) eqn:E.
  - apply andb_true_iff in E as [E1 E2]. rewrite (N _ E1), (N _ E2). cbn. lra.
  - destruct (near n c' a && near n c' b); lra.
Qed.
Lemma crop_search_spec p lo0 hi0 : (forall c c', (lo0 <= c)%nat -> (c <= c')%nat -> (c' <= hi0)%nat -> p c = true -> p c' = true) ->
  forall fuel lo hi, (lo0 <= lo)%nat -> (lo <= hi)%nat -> (hi <= hi0)%nat -> (hi - lo <= fuel)%nat ->
  (forall c, (lo0 <= c < lo)%nat -> p c = false) -> (hi = hi0 \/ p hi = true) ->
  let r := crop_search p lo hi fuel in (lo <= r <= hi)%nat /\ (forall c, (lo0 <= c < r)%nat -> p c = false) /\ (r = hi0 \/ p r = true).
Proof.
  intros Hm. induction fuel; intros lo hi H1 H2 H3 Hf Hlo Hhi; cbn [crop_search].
  - assert (lo = hi) by lia. subst. cbv zeta. repeat split; auto.
  - destruct (Nat.ltb_spec lo hi) as [L|L].
    2: { assert (lo = hi) by lia. subst. cbv zeta. repeat split; auto. }
    cbv zeta. set (mid := ((lo + hi) / 2)%nat). assert (M : (lo <= mid < hi)%nat).
    { unfold mid. split; [apply Nat.div_le_lower_bound; lia|apply Nat.div_lt_upper_bound; lia]. }
    destruct (p mid) eqn:E.
    + destruct (IHfuel lo mid) as (A & B & C); auto; try lia. repeat split; auto; lia.
    + destruct (IHfuel (mid + 1)%nat hi) as (A & B & C); auto; try lia.
      { intros c Hc. destruct (p c) eqn:Ec; auto. rewrite (Hm c mid) in E; auto; lia. }
      repeat split; auto; lia.
Qed.
(** For every kernel with non-negative entries the search ends at the least radius
    between 1 and half the kernel size whose enclosed energy reaches 1 - threshold,
    and at half the size when there is none. *)
Lemma pC43_least_radius : forall thr k g, entries k g -> (forall a b, (a < k_n k)%nat -> (b < k_n k)%nat -> 0 <= g a b) -> (2 <= k_n k)%nat ->
  let r := crop_radius thr k in
  (1 <= r <= k_n k / 2)%nat /\
  (forall c, (1 <= c < r)%nat -> enclosed (k_n k) g c < 1 - thr) /\
  (r = (k_n k / 2)%nat \/ 1 - thr <= enclosed (k_n k) g r).
Proof.
  intros thr k g Hg H0 Hn. cbv zeta. unfold crop_radius.
  assert (Hh : (1 <= k_n k / 2)%nat) by (apply Nat.div_le_lower_bound; lia).
  set (p := fun c => nle (Fin (1 - thr)) (window_sum k c)).
  assert (Hp : forall c, (c <= k_n k / 2)%nat -> p c = Rleb (1 - thr) (enclosed (k_n k) g c)).
  { intros c Hc. unfold p. rewrite (window_sum_enclosed k g) by auto. reflexivity. }
  destruct (crop_search_spec p 1 (k_n k / 2)) with (fuel := (k_n k / 2)%nat) (lo := 1%nat) (hi := (k_n k / 2)%nat) as (A & B & C); auto; try lia.
  - intros c c' H1 H2 H3. rewrite !Hp by lia. rewrite !Rleb_true. intros H. pose proof (enclosed_mono (k_n k) g c c' H0 H2). lra.
  - set (r := crop_search _ _ _ _) in *. split; [lia|]. split.
    + intros c Hc. specialize (B c Hc). rewrite Hp in B by lia. apply Rleb_false in B. lra.
    + destruct C as [C|C]; auto. rewrite Hp in C by lia. apply Rleb_true in C. auto.
Qed.
Lemma seq_offset s n : map (fun a => (s + a)%nat) (seq 0 n) = seq s n.
Proof.
  revert s. induction n; intros s; auto. cbn [seq map]. rewrite Nat.add_0_r. f_equal. rewrite <- seq_shift, map_map.
  rewrite <- (IHn (S s)). apply map_ext. intros. lia.
Qed.
(** The cropped kernel is the window of that radius: its entries add up to the
    enclosed energy. *)
Lemma pC43_cropped_energy : forall thr k g, entries k g -> (2 <= k_n k)%nat ->
  (forall a b, (a < k_n k)%nat -> (b < k_n k)%nat -> 0 <= g a b) ->
  let c := crop_radius thr k in
  ksum (crop k c) = Fin (enclosed (k_n k) g c) /\
  (Nat.odd (k_n k) = true -> k_n (crop k c) = (2 * c + 1)%nat /\
     forall a b, k_at (crop k c) a b = k_at k (k_n k / 2 - c + a) (k_n k / 2 - c + b)).
Proof.
  intros thr k g Hg Hn H0 c. destruct (pC43_least_radius thr k g Hg H0 Hn) as (A & _). fold c in A. split.
  - rewrite <- (window_sum_enclosed k g) by (auto; lia). unfold window_sum, ksum, ksum_over, crop, grid. cbn [k_n k_at].
    set (s := fst (window k c)). set (n := snd (window k c)).
    rewrite (nsum_prod (fun a b => k_at k (s + a) (s + b))), (nsum_prod (fun a b => k_at k a b)).
    rewrite <- (seq_offset s n), map_map. apply nsum_ext. intros a _. rewrite map_map. reflexivity.
  - intros Ho. unfold crop. rewrite window_eq by lia. cbn [fst snd k_n k_at]. split; auto.
    apply Nat.odd_spec in Ho as [m Hm]. rewrite Hm in *. replace ((2 * m + 1) / 2)%nat with m in * by (apply (Nat.div_unique _ 2 m 1); lia). lia.
Qed.
(** The kernel sampled from a uniform 5 x 5 plate, threshold 1/2: radius 2. *)
Lemma xC43_plate : exists k g, entries k g /\ (2 <= k_n k)%nat /\ (forall a b, 0 <= g a b) /\
  entry_total (k_n k) g = 1 /\ enclosed (k_n k) g 1 = 9/25 /\ crop_radius (1/2) k = 2%nat.
Proof.
  exists (Ker 5 (fun _ _ => Fin (1/25))), (fun _ _ => 1/25). split; [intros a b _ _; reflexivity|]. split; [cbn; lia|].
  split; [intros; lra|]. assert (E1 : enclosed 5 (fun _ _ => 1/25) 1 = 9/25).
  { unfold enclosed. cbn. unfold sum_list. cbn. lra. }
  split; [unfold entry_total, sum_list; cbn; lra|]. split; [exact E1|].
  destruct (pC43_least_radius (1/2) (Ker 5 (fun _ _ => Fin (1/25))) (fun _ _ => 1/25)) as (A & B & C).
  { intros a b _ _; reflexivity. } { intros; lra. } { cbn; lia. }
  cbn [k_n] in *. change (5/2)%nat with 2%nat in *. set (r := crop_radius _ _) in *. clearbody r.
  destruct C as [C|C]; auto. assert (r = 1%nat \/ r = 2%nat) as [->| ->] by lia; auto. rewrite E1 in C. lra.
Qed.

(** ** C44 *)
Lemma half_ceil R : 0 <= R -> (Z.of_nat (Z.to_nat (ceil (2 * R + 1)) / 2) = ceil R)%Z /\ (0 < Z.to_nat (ceil (2 * R + 1)))%nat.
Proof.
  intros HR. pose proof (ceil_spec R) as A. pose proof (ceil_spec (2 * R + 1)) as B.
  set (c := ceil R) in *. set (n := ceil (2 * R + 1)) in *.
  assert (H0 : (0 <= c)%Z). { assert (-1 < IZR c) by lra. apply (lt_IZR (-1)) in H. lia. }
  assert (L : (2 * c <= n)%Z). { assert (IZR (2 * c - 1) < IZR n) by (rewrite minus_IZR, mult_IZR; lra). apply lt_IZR in H. lia. }
  assert (U : (n <= 2 * c + 1)%Z). { assert (IZR n < IZR (2 * c + 2)) by (rewrite plus_IZR, mult_IZR; lra). apply lt_IZR in H. lia. }
  assert (P : (1 <= n)%Z). { assert (IZR 0 < IZR n) by lra. apply lt_IZR in H. lia. }
  split; [|lia]. rewrite Nat2Z.inj_div, Z2Nat.id by lia. change (Z.of_nat 2) with 2%Z.
  assert (n = 2 * c \/ n = 2 * c + 1)%Z as [-> | ->] by lia; symmetry.
  - apply (Z.div_unique_pos _ 2 c 0); lia.
  - apply (Z.div_unique_pos _ 2 c 1); lia.
Qed.
(** The entry a rows and b columns away from the centre entry, on which the kernel is
    placed, is the profile at distance |(a + delta, b + delta)| from the peak, where
    delta = ceil(radius) - radius: the pattern is centred only for integer radii. *)
Lemma pC44_sampling_offset : forall z j1 d radius fz i j, 0 <= radius ->
  let k := airy_grid z j1 d radius fz in
  let a := IZR (Z.of_nat i - Z.of_nat (k_n k / 2)) in
  let b := IZR (Z.of_nat j - Z.of_nat (k_n k / 2)) in
  let delta := IZR (ceil radius) - radius in
  0 <= delta < 1 /\
  k_at k i j = airy_profile z j1 fz (d_sigma d) (sqrt ((a + delta)^2 + (b + delta)^2)).
Proof.
  intros z j1 d R fz i j HR. cbv zeta. unfold airy_grid. cbn [k_n k_at]. destruct (half_ceil R HR) as [-> _].
  pose proof (ceil_spec R). split; [lra|]. f_equal. f_equal. rewrite !minus_IZR, <- !INR_IZR_INZ. ring.
Qed.
(** For an integer radius the kernel is symmetric about its centre entry. *)
Lemma pC44_integer_radius_symmetric : forall z j1 d n fz i j, (0 <= n)%Z ->
  let k := airy_grid z j1 d (IZR n) fz in
  k_n k = Z.to_nat (2 * n + 1) /\
  ((i < k_n k)%nat -> (j < k_n k)%nat ->
    k_at k i j = k_at k (k_n k - 1 - i) (k_n k - 1 - j) /\ k_at k i j = k_at k j i /\ k_at k i j = k_at k (k_n k - 1 - i) j).
Proof.
  intros z j1 d n fz i j Hn. cbv zeta. unfold airy_grid. cbn [k_n k_at].
  assert (E : ceil (2 * IZR n + 1) = (2 * n + 1)%Z) by (apply ceil_eq; rewrite plus_IZR, mult_IZR; lra).
  rewrite E. split; auto. intros Hi Hj.
  assert (M : forall x, (x < Z.to_nat (2 * n + 1))%nat -> INR (Z.to_nat (2 * n + 1) - 1 - x) = 2 * IZR n - INR x).
  { intros x Hx. rewrite !INR_IZR_INZ. rewrite <- mult_IZR, <- minus_IZR. f_equal. lia. }
  rewrite !M by auto. repeat split; f_equal; f_equal; ring.
Qed.
(** A 5-pixel-wide example: with the first zero at 2.1 pixels the radius is 8.4, and
    the entry placed on the peak position is the profile 0.6 pixels away along both
    axes, whatever the Bessel function. *)
Lemma pC44_centred_refuted : exists d fz radius, built d /\ airy_radius d (Fin fz) = Ok radius /\
  forall z j1, let k := airy_grid z j1 d radius (Fin fz) in
    k_at k (k_n k / 2) (k_n k / 2) = airy_profile z j1 (Fin fz) (d_sigma d) (sqrt (2 * (6/10)^2)).
Proof.
  exists (flat 10 1 9 1 (2/100) 2), (21/10), (84/10). split; [apply flat_built; [lra|lia]|]. split.
  - unfold airy_radius. replace (Rmax (4 * (21/10)) 8) with (84/10) by (symmetry; rewrite Rmax_left; lra).
    cbn [airy_radius_loop]. destruct (Rle_dec (84/10) 128); [|lra].
    assert (L : nlt (gexp (d_sigma (flat 10 1 9 1 (2/100) 2)) ((84/10)^2)) (Fin (d_threshold (flat 10 1 9 1 (2/100) 2) / 2)) = true).
    { cbn [flat d_sigma d_threshold]. unfold gexp. destruct (Req_EM_T 1 0); [lra|]. cbn [nlt]. apply Rltb_true.
      replace (- (84/10)^2 / (2 * 1^2)) with (- (3528/100)) by field. rewrite exp_Ropp.
      replace (2/100/2) with (/ 100) by lra. apply Rinv_lt_contravar.
      - apply Rmult_lt_0_compat; [lra|apply exp_pos].
      - apply Rlt_le_trans with (1 + 99 + 1); [lra|]. replace (3528/100) with (34 + 128/100) by lra.
        rewrite exp_plus. pose proof (exp_ineq1_le 34) as A. pose proof (exp_ineq1_le (128/100)) as B.
        assert (C : 18 * 18 <= exp 17 * exp 17) by (pose proof (exp_ineq1_le 17); apply Rmult_le_compat; lra).
        rewrite <- exp_plus in C. replace (17 + 17) with 34 in C by ring.
        assert (324 * 1 <= exp 34 * exp (128/100)) by (apply Rmult_le_compat; lra). lra. }
    rewrite L. destruct (Rlt_dec 128 (84/10)); [lra|]. reflexivity.
  - intros z j1. destruct (pC44_sampling_offset z j1 (flat 10 1 9 1 (2/100) 2) (84/10) (Fin (21/10))
      (k_n (airy_grid z j1 (flat 10 1 9 1 (2/100) 2) (84/10) (Fin (21/10))) / 2)
      (k_n (airy_grid z j1 (flat 10 1 9 1 (2/100) 2) (84/10) (Fin (21/10))) / 2) ltac:(lra)) as [_ E].
    cbv zeta. rewrite E. f_equal. f_equal. rewrite Z.sub_diag, (ceil_eq (84/10) 9) by lra. field.
Qed.

(** ** C45 *)
Lemma bilinear_inside h w f zc yc v : 0 <= zc -> zc < INR h - 1 -> 0 <= yc -> yc < INR w - 1 ->
  bilinear h w f zc yc v = 
    let z0 := Int_part zc in let y0 := Int_part yc in
    let fz := zc - IZR z0 in let fy := yc - IZR y0 in
    [ (f, z0, y0, nmul v (Fin ((1 - fz) * (1 - fy))));
      (f, z0, (y0 + 1)%Z, nmul v (Fin ((1 - fz) * fy)));
      (f, (z0 + 1)%Z, y0, nmul v (Fin (fz * (1 - fy))));
      (f, (z0 + 1)%Z, (y0 + 1)%Z, nmul v (Fin (fz * fy))) ].
Proof.
  intros H1 H2 H3 H4. unfold bilinear. cbv zeta. apply filter_all.
  assert (A : forall x n, 0 <= x -> x < INR n - 1 -> (0 <= Int_part x /\ Int_part x + 1 < Z.of_nat n)%Z).
  { intros x n Ha Hb. destruct (base_Int_part x) as [B C]. split.
    - assert (IZR (-1) < IZR (Int_part x)) by lra. apply lt_IZR in H. lia.
    - assert (IZR (Int_part x + 1) < IZR (Z.of_nat n)) by (rewrite plus_IZR, <- INR_IZR_INZ; lra). now apply lt_IZR. }
  destruct (A _ _ H1 H2). destruct (A _ _ H3 H4).
  intros dp [<-|[<-|[<-|[<-|[]]]]]; repeat (apply andb_true_iff; split); try apply Z.leb_le; try apply Z.ltb_lt; lia.
Qed.
(** Inside the image a value v deposited at the continuous position (zc, yc) is split
    over at most four pixels less than one pixel away; the parts have non-negative
    weights, add up to v, and their centre of mass is exactly (zc, yc). *)
Lemma pC45_bilinear_conserves : forall h w f zc yc v, 0 <= zc -> zc < INR h - 1 -> 0 <= yc -> yc < INR w - 1 ->
  let ds := bilinear h w f zc yc (Fin v) in
  nsum (map dep_val ds) = Fin v /\
  nsum (map (fun dp => nmul (Fin (IZR (dep_row dp))) (dep_val dp)) ds) = Fin (zc * v) /\
  nsum (map (fun dp => nmul (Fin (IZR (dep_col dp))) (dep_val dp)) ds) = Fin (yc * v) /\
  Forall (fun dp => dep_frame dp = f /\ Rabs (IZR (dep_row dp) - zc) <= 1 /\ Rabs (IZR (dep_col dp) - yc) <= 1 /\
    exists q, dep_val dp = Fin (v * q) /\ 0 <= q <= 1) ds.
Proof.
  intros h w f zc yc v H1 H2 H3 H4. cbv zeta. rewrite bilinear_inside by auto. cbv zeta.
  destruct (base_Int_part zc) as [A B]. destruct (base_Int_part yc) as [C D].
  set (z0 := Int_part zc) in *. set (y0 := Int_part yc) in *. clearbody z0 y0.
  cbn [map dep_val dep_row dep_col dep_frame fst snd nmul]. rewrite !nsum_cons, nsum_nil. unfold nadd.
  rewrite !plus_IZR. repeat split; try (f_equal; ring).
  assert (P : forall x y, 0 <= x <= 1 -> 0 <= y <= 1 -> 0 <= x * y <= 1) by (intros; nra).
  assert (Q : 0 <= zc - IZR z0 <= 1) by lra. assert (S : 0 <= yc - IZR y0 <= 1) by lra.
  apply Forall_forall. intros dp Hdp. cbn [In] in Hdp.
  destruct Hdp as [<-|[<-|[<-|[<-|[]]]]]; cbn [dep_row dep_col dep_frame dep_val fst snd]; rewrite ?plus_IZR;
    (split; [reflexivity|]; split; [apply Rabs_le; lra|]; split; [apply Rabs_le; lra|]; eexists; split; [reflexivity|apply P; lra]).
Qed.
(** Anywhere, border included, nothing is gained: the parts that are kept add up to
    between 0 and v. *)
Lemma pC45_border_loses_only : forall h w f zc yc v, 0 <= v ->
  exists t, nsum (map dep_val (bilinear h w f zc yc (Fin v))) = Fin t /\ 0 <= t <= v.
Proof.
  intros h w f zc yc v Hv. unfold bilinear. cbv zeta.
  destruct (base_Int_part zc) as [A B]. destruct (base_Int_part yc) as [C D].
  set (z0 := Int_part zc) in *. set (y0 := Int_part yc) in *. clearbody z0 y0.
  set (fz := zc - IZR z0). set (fy := yc - IZR y0). assert (0 <= fz <= 1) by (unfold fz; lra). assert (0 <= fy <= 1) by (unfold fy; lra). clearbody fz fy.
  cbn [nmul].
  assert (P1 : 0 <= v * ((1 - fz) * (1 - fy))) by (repeat apply Rmult_le_pos; lra).
  assert (P2 : 0 <= v * ((1 - fz) * fy)) by (repeat apply Rmult_le_pos; lra).
  assert (P3 : 0 <= v * (fz * (1 - fy))) by (repeat apply Rmult_le_pos; lra).
  assert (P4 : 0 <= v * (fz * fy)) by (repeat apply Rmult_le_pos; lra).
  assert (S : v * ((1 - fz) * (1 - fy)) + v * ((1 - fz) * fy) + v * (fz * (1 - fy)) + v * (fz * fy) = v) by ring.
  set (p1 := v * ((1 - fz) * (1 - fy))) in *. set (p2 := v * ((1 - fz) * fy)) in *. set (p3 := v * (fz * (1 - fy))) in *. set (p4 := v * (fz * fy)) in *.
  clearbody p1 p2 p3 p4. rewrite nsum_filter. cbn [map fst snd dep_val]. rewrite !nsum_cons, nsum_nil.
  repeat match goal with |- context[if ?q then _ else _] => destruct q end; unfold nadd; eexists; split; try reflexivity; lra.
Qed.
(** One kernel placed well inside the image: the deposits add up to the kernel's sum. *)
Lemma pC45_kernel_total : forall h w f zc yc k g, entries k g ->
  INR (k_n k / 2) <= zc -> zc + INR (k_n k) - INR (k_n k / 2) < INR h -> INR (k_n k / 2) <= yc -> yc + INR (k_n k) - INR (k_n k / 2) < INR w ->
  nsum (map dep_val (kernel_deposits h w f zc yc k)) = Fin (entry_total (k_n k) g).
Proof.
  intros h w f zc yc k g Hg H1 H2 H3 H4. unfold kernel_deposits. cbv zeta.
  rewrite concat_map, nsum_concat, !map_map. unfold grid.
  rewrite (nsum_prod (fun a b => nsum (map dep_val (bilinear h w f (zc + (INR a - INR (k_n k / 2))) (yc + (INR b - INR (k_n k / 2))) (k_at k a b))))).
  unfold entry_total. apply nsum_fin_map. intros a Ha. apply in_seq in Ha. apply nsum_fin_map. intros b Hb. apply in_seq in Hb.
  rewrite Hg by lia.
  assert (B : forall x, (x < k_n k)%nat -> 0 <= INR x <= INR (k_n k) - 1).
  { intros x Hx. split; [apply pos_INR|]. apply (le_INR (S x)) in Hx. rewrite S_INR in Hx. lra. }
  pose proof (B a ltac:(lia)). pose proof (B b ltac:(lia)).
  apply (pC45_bilinear_conserves h w f); lra.
Qed.
Lemma xC45_inside : 0 <= 3/2 /\ 3/2 < INR 4 - 1 /\
  exists k g, entries k g /\ entry_total (k_n k) g = 1 /\ INR (k_n k / 2) <= 5/2 /\ 5/2 + INR (k_n k) - INR (k_n k / 2) < INR 9.
Proof.
  split; [lra|]. split; [simpl; lra|]. exists (Ker 3 (fun _ _ => Fin (1/9))), (fun _ _ => 1/9). split; [intros a b _ _; reflexivity|].
  split; [unfold entry_total, sum_list; cbn; lra|]. cbn [k_n]. change (3/2)%nat with 1%nat. simpl. lra.
Qed.
