(** * Properties of the helpers of utils.py (C66, C67, C68, C75). *)
From Verif Require Import Vec MDetector MUtils SUtils PDetector PRender PKernel2 PKernel3.
From Coq Require Import String.
Open Scope R_scope.
Local Notation len := List.length.

(** ** np.argmin *)
Lemma argmin_from_spec : forall l best at_ i, (at_ < i)%nat ->
  exists v, (argmin_from best at_ i l = at_ /\ v = best \/ exists k, nth_error l k = Some v /\ argmin_from best at_ i l = (i + k)%nat /\ v < best /\ forall k' y, (k' < k)%nat -> nth_error l k' = Some y -> v < y) /\
  v <= best /\ forall y, In y l -> v <= y.
Proof.
  induction l as [|x l IH]; intros best at_ i Hi; cbn [argmin_from].
  - exists best. split; [left; auto|]. split; [lra|intros y []].
  - destruct (Rlt_dec x best) as [L|L].
    + destruct (IH x i (S i) ltac:(lia)) as (v & [[E ->]|(k & K1 & K2 & K3 & K4)] & B & C).
      * exists x. split; [right; exists 0%nat; cbn; repeat split; auto; [lia|intros; lia]|]. split; [lra|]. intros y [<-|Hy]; [lra|auto].
      * exists v. split; [right; exists (S k); cbn; repeat split; auto; [lia|lra|]|].
        -- intros [|k'] y Hk Hy; cbn in Hy; [inversion Hy; subst; lra|]. apply (K4 k'); auto; lia.
        -- split; [lra|]. intros y [<-|Hy]; [lra|auto].
    + destruct (IH best at_ (S i) ltac:(lia)) as (v & [[E ->]|(k & K1 & K2 & K3 & K4)] & B & C).
      * exists best. split; [left; auto|]. split; [lra|]. intros y [<-|Hy]; [lra|auto].
      * exists v. split; [right; exists (S k); cbn; repeat split; auto; [lia|]|].
        -- intros [|k'] y Hk Hy; cbn in Hy; [inversion Hy; subst; lra|]. apply (K4 k'); auto; lia.
        -- split; [lra|]. intros y [<-|Hy]; [lra|auto].
Qed.
Lemma argmin_spec l : l <> [] -> exists v, nth_error l (argmin l) = Some v /\ (forall y, In y l -> v <= y) /\
  forall k y, (k < argmin l)%nat -> nth_error l k = Some y -> v < y.
Proof.
  destruct l as [|x l]; [contradiction|]. intros _. cbn [argmin].
  destruct (argmin_from_spec l x 0%nat 1%nat ltac:(lia)) as (v & [[E ->]|(k & K1 & K2 & K3 & K4)] & B & C).
  - rewrite E. exists x. split; auto. split; [intros y [<-|Hy]; [lra|auto]|]. intros; lia.
  - rewrite K2. exists v. split; auto. split; [intros y [<-|Hy]; [lra|auto]|].
    intros [|k'] y Hk Hy; cbn in Hy; [inversion Hy; subst; lra|]. apply (K4 k'); auto; lia.
Qed.
Lemma argmin_unique l q v : nth_error l q = Some v -> (forall y, In y l -> v <= y) -> (forall k y, (k < q)%nat -> nth_error l k = Some y -> v < y) -> argmin l = q.
Proof.
  intros H1 H2 H3. assert (l <> []) by (intros ->; destruct q; discriminate). destruct (argmin_spec l H) as (u & U1 & U2 & U3).
  destruct (Nat.lt_trichotomy (argmin l) q) as [L|[E|L]]; auto; exfalso.
  - pose proof (H3 _ _ L U1). pose proof (U2 v (nth_error_In _ _ H1)). lra.
  - pose proof (U3 _ _ L H1). pose proof (H2 u (nth_error_In _ _ U1)). lra.
Qed.
(** ** Diffractogram *)
Lemma bins_length m n bs : len (dg_bins m n bs) = ring_count m n bs.
Proof. unfold dg_bins. now rewrite map_length, seq_length. Qed.
Lemma ring_count_pos m n bs : 0 < bs -> (1 <= ring_count m n bs)%nat.
Proof.
  intros H. unfold ring_count. assert (0 < INR (Nat.max m n + 1) / bs). { apply Rdiv_lt_0_compat; auto. apply lt_0_INR. lia. }
  pose proof (ceil_spec (INR (Nat.max m n + 1) / bs)). assert (0 < ceil (INR (Nat.max m n + 1) / bs))%Z by (apply lt_IZR; lra). lia.
Qed.
Lemma pixel_bin_ring m n bs cz cy i j : 0 < bs -> pixel_bin (dg_bins m n bs) cz cy i j = ring_index (ring_count m n bs) bs (pixel_radius cz cy i j).
Proof.
  intros Hb. unfold pixel_bin. cbv zeta. fold (pixel_radius cz cy i j). set (r := pixel_radius cz cy i j).
  assert (Hr : 0 <= r) by apply sqrt_pos. pose proof (ring_count_pos m n bs Hb) as HL. unfold dg_bins. fold (ring_count m n bs). set (L := ring_count m n bs) in *.
  unfold ring_index. set (c := ceil (r / bs - 1/2)). pose proof (ceil_spec (r / bs - 1/2)) as Hc. fold c in Hc.
  set (p := r / bs) in *. assert (Ep : r = p * bs) by (unfold p; field; lra). assert (Hp : 0 <= p) by (unfold p; apply Rmult_le_pos; auto; left; apply Rinv_0_lt_compat; lra).
  assert (C0 : (0 <= c)%Z) by (apply Z.lt_pred_le; apply lt_IZR; rewrite <- Z.sub_1_r, minus_IZR; lra).
  clearbody c p r. set (q := Nat.min (L - 1) (Z.to_nat c)).
  assert (A : forall k, Rabs (INR k * bs - r) = bs * Rabs (INR k - p)).
  { intros k. replace (INR k * bs - r) with (bs * (INR k - p)) by (rewrite Ep; ring). rewrite Rabs_mult, (Rabs_right bs) by lra. reflexivity. }
  assert (Q : forall k, (k < L)%nat -> Rabs (INR q - p) <= Rabs (INR k - p) /\ ((k < q)%nat -> Rabs (INR q - p) < Rabs (INR k - p))).
  { intros k Hk. destruct (Nat.le_gt_cases (Z.to_nat c) (L - 1)) as [H|H].
    - assert (Eq : INR q = IZR c) by (unfold q; rewrite Nat.min_r by lia; rewrite INR_IZR_INZ, Z2Nat.id by lia; reflexivity). rewrite Eq.
      assert (E1 : Rabs (IZR c - p) <= 1/2) by (apply Rabs_le; lra).
      destruct (Nat.lt_trichotomy k q) as [K|[K|K]].
      + assert (INR k + 1 <= IZR c) by (rewrite <- Eq, <- S_INR; apply le_INR; lia). rewrite (Rabs_left (INR k - p)) by lra. assert (Rabs (IZR c - p) < - (INR k - p)); [|lra]. apply Rabs_def1; lra.
      + subst k. rewrite Eq. split; [lra|lia].
      + assert (IZR c + 1 <= INR k) by (rewrite <- Eq, <- S_INR; apply le_INR; lia). split; [|lia]. rewrite (Rabs_right (INR k - p)) by lra. lra.
    - assert (Eq : q = (L - 1)%nat) by (unfold q; lia).
      assert (E1 : INR q + 1 <= IZR c). { rewrite <- S_INR, INR_IZR_INZ. apply IZR_le. lia. }
      assert (Kq : INR k <= INR q) by (apply le_INR; lia).
      rewrite (Rabs_left (INR q - p)), (Rabs_left (INR k - p)) by lra. split; [lra|]. intros K. apply lt_INR in K. lra. }
  rewrite map_map. apply argmin_unique with (v := Rabs (INR q * bs - r)).
  - apply map_nth_error with (f := fun x => Rabs (INR x * bs - r)). rewrite nth_error_nth' with (d := 0%nat) by (rewrite seq_length; lia). f_equal. apply seq_nth. lia.
  - intros y Hy. apply in_map_iff in Hy as (k & <- & Hk). apply in_seq in Hk. rewrite !A. apply Rmult_le_compat_l; [lra|]. apply Q. lia.
  - intros k y Hk Hy. assert (k < L)%nat by lia. rewrite nth_error_map in Hy. rewrite nth_error_nth' with (d := 0%nat) in Hy by (rewrite seq_length; lia). rewrite seq_nth in Hy by lia. inversion Hy.
    cbn [Nat.add]. rewrite !A. apply Rmult_lt_compat_l; auto. now apply Q.
Qed.
Lemma add_at_length k v l : len (add_at k v l) = len l.
Proof. revert k. induction l as [|x l IH]; intros [|k]; cbn; auto. Qed.
Lemma add_at_nth k v l i : (i < len l)%nat -> nth i (add_at k v l) 0 = nth i l 0 + (if Nat.eqb k i then v else 0).
Proof.
  revert k i. induction l as [|x l IH]; intros k i Hi; [cbn in Hi; lia|]. destruct k as [|k], i as [|i]; cbn in *; try ring. apply IH. lia.
Qed.
Lemma hist_spec im cz cy bins : forall k, (k < len bins)%nat ->
  nth k (dg_histogram im cz cy bins) 0 = image_sum im (fun i j => Nat.eqb (pixel_bin bins cz cy i j) k).
Proof.
  intros k Hk. unfold dg_histogram, image_sum. set (px := list_prod _ _).
  assert (G : forall l h, (k < len h)%nat -> nth k (fold_left (fun h ij => add_at (pixel_bin bins cz cy (fst ij) (snd ij)) (im_px im (fst ij) (snd ij)) h) l h) 0 =
     nth k h 0 + sum_list (map (fun ij => if Nat.eqb (pixel_bin bins cz cy (fst ij) (snd ij)) k then im_px im (fst ij) (snd ij) else 0) l)).
  { induction l as [|ij l IH]; intros h Hh; cbn [fold_left map]; [rewrite sum_list_nil; ring|]. rewrite IH by (now rewrite add_at_length). rewrite add_at_nth, sum_list_cons by auto. ring. }
  rewrite G by (now rewrite repeat_length). rewrite nth_repeat. ring.
Qed.
Lemma hist_length im cz cy bins : len (dg_histogram im cz cy bins) = len bins.
Proof.
  unfold dg_histogram. rewrite <- (repeat_length 0 (len bins)) at 2. generalize (repeat 0 (len bins)). induction (list_prod _ _) as [|ij l IH]; intros h; cbn [fold_left]; auto. now rewrite IH, add_at_length.
Qed.
(** The scan stops behind the last non-zero bin. *)
Lemma clip_scan_spec h : forall k clip, (clip = k \/ clip = S k) ->
  (clip_scan h k clip <= clip)%nat /\ forall i, (clip_scan h k clip <= i < clip)%nat -> nth i h 0 = 0.
Proof.
  induction k as [|k IH]; intros clip Hk; cbn [clip_scan]; [split; [lia|intros; lia]|].
  destruct (Req_EM_T (nth (S k) h 0) 0) as [E|E]; [|split; [lia|intros; lia]].
  destruct (IH (S k)) as [A B]; [now right|]. split; [lia|]. intros i Hi. destruct (Nat.eq_dec i (S k)) as [->|]; auto. apply B; lia.
Qed.
Lemma sum_nth (h : list R) : sum_list h = sum_list (map (fun k => nth k h 0) (seq 0 (len h))).
Proof.
  induction h as [|x h IH]; cbn [List.length seq map]; [reflexivity|]. rewrite !sum_list_cons. f_equal. rewrite IH, <- seq_shift, map_map. reflexivity.
Qed.
Lemma firstn_nth {A} (l : list A) n k d : (k < n)%nat -> nth k (firstn n l) d = nth k l d.
Proof. revert n k. induction l as [|x l IH]; intros [|n] [|k] H; cbn; auto; try lia. apply IH. lia. Qed.
Lemma image_sum_split im (bin : nat -> nat -> nat) L : (forall i j, (bin i j < L)%nat) ->
  sum_list (map (fun k => image_sum im (fun i j => Nat.eqb (bin i j) k)) (seq 0 L)) = image_total im.
Proof.
  intros H. unfold image_total, image_sum. set (px := list_prod _ _).
  rewrite (PKernel3.sum_swap (fun k ij => if Nat.eqb (bin (fst ij) (snd ij)) k then im_px im (fst ij) (snd ij) else 0)). apply sum_list_ext. intros [i j] _. cbn [fst snd].
  specialize (H i j). set (b := bin i j) in *. clearbody b. set (v := im_px im i j).
  assert (G : forall n s, (s <= b < s + n)%nat -> sum_list (map (fun a => if Nat.eqb b a then v else 0) (seq s n)) = v).
  { induction n; intros s Hs; [lia|]. cbn [seq map]. rewrite sum_list_cons. destruct (Nat.eqb_spec b s) as [->|N].
    - rewrite (sum_list_ext _ (fun _ => 0 * 0)); [rewrite (sum_list_map_scal 0 (fun _ => 0)); ring|]. intros a Ha. apply in_seq in Ha. destruct (Nat.eqb_spec s a); [lia|ring].
    - rewrite IHn by lia. ring. }
  apply G. lia.
Qed.
(** Entry k of the result belongs to the ring centre k * binsize and holds the sum of the
    pixels whose ring is k; at most all rings but the last are returned. *)
Lemma pC66_entries : forall im cz cy binsize bins h, diffractogram im cz cy binsize = Ok (bins, h) ->
  let count := ring_count (im_m im) (im_n im) binsize in
  0 < binsize /\ List.length bins = List.length h /\ (List.length h <= count - 1)%nat /\
  forall k, (k < List.length h)%nat -> nth k bins 0 = INR k * binsize /\ nth k h 0 = ring_total im cz cy binsize k.
Proof.
  intros im cz cy bs bins h H. unfold diffractogram in H. destruct (Rle_dec bs 0) as [|Hb]; [discriminate|]. assert (Hb' : 0 < bs) by lra. clear Hb. cbv zeta in *.
  inversion H; subst bins h; clear H. rewrite hist_length, bins_length. set (clip := Nat.min _ _). assert (Hc : (clip <= ring_count (im_m im) (im_n im) bs - 1)%nat) by (unfold clip; lia).
  pose proof (ring_count_pos (im_m im) (im_n im) bs Hb') as HL. clearbody clip.
  assert (E1 : len (firstn clip (dg_bins (im_m im) (im_n im) bs)) = clip) by (rewrite firstn_length, bins_length; lia).
  assert (E2 : len (firstn clip (dg_histogram im cz cy (dg_bins (im_m im) (im_n im) bs))) = clip) by (rewrite firstn_length, hist_length, bins_length; lia).
  rewrite E1, E2. split; auto. split; auto. split; auto. intros k Hk. rewrite !firstn_nth by auto. split.
  - unfold dg_bins. rewrite (nth_indep _ 0 (INR 0 * bs)) by (rewrite map_length, seq_length; fold (ring_count (im_m im) (im_n im) bs); lia). rewrite (map_nth (fun k => INR k * bs)), seq_nth by (fold (ring_count (im_m im) (im_n im) bs); lia). reflexivity.
  - rewrite hist_spec by (rewrite bins_length; lia). unfold ring_total, image_sum. apply sum_list_ext. intros ij _. now rewrite pixel_bin_ring.
Qed.
(** The returned histogram holds the whole image except the last ring. *)
Lemma pC66_total : forall im cz cy binsize bins h, diffractogram im cz cy binsize = Ok (bins, h) ->
  sum_list h = image_total im - ring_total im cz cy binsize (ring_count (im_m im) (im_n im) binsize - 1).
Proof.
  intros im cz cy bs bins h H. unfold diffractogram in H. destruct (Rle_dec bs 0) as [|Hb]; [discriminate|]. assert (Hb' : 0 < bs) by lra. clear Hb. cbv zeta in *.
  assert (E2 : h = snd (bins, h)) by reflexivity. apply (f_equal (fun r => match r with Ok x => x | Err _ => (bins, h) end)) in H. cbv beta iota in H. rewrite <- H in E2. cbn [snd] in E2. clear H bins. rewrite E2. clear E2 h. rewrite hist_length, bins_length in *. set (L := ring_count (im_m im) (im_n im) bs) in *.
  pose proof (ring_count_pos (im_m im) (im_n im) bs Hb') as HL. fold L in HL. set (H := dg_histogram im cz cy (dg_bins (im_m im) (im_n im) bs)) in *.
  assert (LH : len H = L) by (unfold H; now rewrite hist_length, bins_length).
  destruct (clip_scan_spec H (L - 1) (L - 1)) as [A B]; [now left|]. set (r := clip_scan H (L - 1) (L - 1)) in *.
  set (clip := Nat.min (r + im_m im / 10) (L - 1)) in *. assert (C : (r <= clip <= L - 1)%nat) by (unfold clip; split; [apply Nat.min_glb; lia|lia]). clearbody clip.
  assert (T : sum_list H = image_total im).
  { rewrite sum_nth, LH. rewrite <- (image_sum_split im (fun i j => pixel_bin (dg_bins (im_m im) (im_n im) bs) cz cy i j) L).
    - apply sum_list_ext. intros k Hk. apply in_seq in Hk. unfold H. rewrite hist_spec by (rewrite bins_length; fold L; lia). reflexivity.
    - intros i j. rewrite pixel_bin_ring by auto. unfold ring_index. fold L. lia. }
  assert (R : ring_total im cz cy bs (L - 1) = nth (L - 1) H 0).
  { unfold H. rewrite hist_spec by (rewrite bins_length; fold L; lia). unfold ring_total, image_sum. apply sum_list_ext. intros ij _. fold L. unfold L. now rewrite pixel_bin_ring. }
  rewrite R, <- T. rewrite (sum_nth H), LH. rewrite sum_nth. rewrite firstn_length, LH. replace (Nat.min clip L) with clip by lia.
  assert (ES : seq 0 L = (seq 0 clip ++ seq (0 + clip) (L - 1 - clip) ++ seq (0 + clip + (L - 1 - clip)) 1)%list).
  { rewrite <- seq_app, <- seq_app. f_equal. lia. }
  rewrite ES, !map_app, !sum_list_app. cbn [seq map]. rewrite sum_list_cons, sum_list_nil.
  rewrite (sum_list_ext (fun k => nth k H 0) (fun _ => 0 * 0) (seq (0 + clip) (L - 1 - clip))).
  - rewrite (sum_list_map_scal 0 (fun _ => 0)). replace (0 + clip + (L - 1 - clip))%nat with (L - 1)%nat by lia.
    rewrite (sum_list_ext (fun k => nth k (firstn clip H) 0) (fun k => nth k H 0)); [ring|]. intros k Hk. apply in_seq in Hk. apply firstn_nth. lia.
  - intros k Hk. apply in_seq in Hk. rewrite B by lia. ring.
Qed.
(** Integration is linear up to the dropped ring, and total intensity is lost: a 4 x 4 image
    with all its intensity in the corner opposite to the centre gives an empty diffractogram. *)
Lemma pC66_conserved_refuted : exists im cz cy binsize bins h, diffractogram im cz cy binsize = Ok (bins, h) /\
  image_total im = 1 /\ sum_list h = 0.
Proof.
  set (im := Img 4 4 (fun i j => if (Nat.eqb i 3 && Nat.eqb j 3)%bool then 1 else 0)).
  assert (exists bins h, diffractogram im 0 0 1 = Ok (bins, h)) as (bins & h & E).
  { unfold diffractogram. destruct (Rle_dec 1 0); [lra|]. eexists. eexists. reflexivity. }
  exists im, 0, 0, 1, bins, h. split; auto.
  assert (T : image_total im = 1). { unfold image_total, image_sum. cbn. unfold sum_list. cbn. lra. }
  split; auto. rewrite (pC66_total _ _ _ _ _ _ E), T.
  assert (RC : ring_count 4 4 1 = 5%nat). { unfold ring_count. replace (INR (Nat.max 4 4 + 1) / 1) with (IZR 5) by (cbn; lra). rewrite (ceil_eq (IZR 5) 5) by lra. reflexivity. }
  assert (RT : ring_total im 0 0 1 (ring_count (im_m im) (im_n im) 1 - 1) = 1); [|lra].
  change (im_m im) with 4%nat. change (im_n im) with 4%nat. rewrite RC. cbn [Nat.sub].
  unfold ring_total. change (im_m im) with 4%nat. change (im_n im) with 4%nat. rewrite RC.
  assert (RI : Nat.eqb (ring_index 5 1 (pixel_radius 0 0 3 3)) 4 = true).
  { unfold ring_index, pixel_radius. apply Nat.eqb_eq.
    assert (S : 4 < sqrt ((INR 3 - 0) ^ 2 + (INR 3 - 0) ^ 2)). { replace ((INR 3 - 0) ^ 2 + (INR 3 - 0) ^ 2) with 18 by (cbn; lra). rewrite <- (sqrt_pow2 4) by lra. apply sqrt_lt_1; lra. }
    set (q := sqrt _) in *. pose proof (ceil_spec (q / 1 - 1/2)) as C. assert (3 < ceil (q / 1 - 1 / 2))%Z by (apply lt_IZR; lra). lia. }
  unfold image_sum. set (keep := fun i j : nat => Nat.eqb (ring_index 5 1 (pixel_radius 0 0 i j)) 4).
  rewrite (sum_list_ext _ (fun ij => if (Nat.eqb (fst ij) 3 && Nat.eqb (snd ij) 3)%bool then 1 else 0)).
  - cbn. unfold sum_list. cbn. lra.
  - intros [i j] _. cbn [fst snd im im_px]. destruct (Nat.eqb_spec i 3) as [->|]; cbn [andb]; [|match goal with |- (if ?b then _ else _) = _ => destruct b end; reflexivity].
    destruct (Nat.eqb_spec j 3) as [->|]; [|match goal with |- (if ?b then _ else _) = _ => destruct b end; reflexivity]. cbn [Nat.eqb andb]. now rewrite RI.
Qed.
(** When nothing falls in the last ring the total is conserved; e.g. the same image seen from
    its centre. *)
Lemma xC66_conserved : exists im cz cy binsize bins h, diffractogram im cz cy binsize = Ok (bins, h) /\ image_total im = 1 /\ sum_list h = 1.
Proof.
  set (im := Img 1 1 (fun _ _ => 1)).
  assert (exists bins h, diffractogram im 0 0 1 = Ok (bins, h)) as (bins & h & E).
  { unfold diffractogram. destruct (Rle_dec 1 0); [lra|]. eexists. eexists. reflexivity. }
  exists im, 0, 0, 1, bins, h. split; auto.
  assert (T : image_total im = 1). { unfold image_total, image_sum. cbn. unfold sum_list. cbn. lra. }
  split; auto. rewrite (pC66_total _ _ _ _ _ _ E), T.
  assert (RC : ring_count 1 1 1 = 2%nat). { unfold ring_count. replace (INR (Nat.max 1 1 + 1) / 1) with (IZR 2) by (cbn; lra). rewrite (ceil_eq (IZR 2) 2) by lra. reflexivity. }
  change (im_m im) with 1%nat. change (im_n im) with 1%nat. unfold ring_total. change (im_m im) with 1%nat. change (im_n im) with 1%nat. rewrite RC.
  unfold image_sum. cbn [im im_m im_n seq list_prod map app fst snd im_px Nat.sub].
  replace (Nat.eqb (ring_index 2 1 (pixel_radius 0 0 0 0)) 1) with false; [rewrite sum_list_cons, sum_list_nil; ring|].
  symmetry. apply Nat.eqb_neq. unfold ring_index, pixel_radius. replace ((INR 0 - 0) ^ 2 + (INR 0 - 0) ^ 2) with 0 by (cbn; ring). rewrite sqrt_0.
  rewrite (ceil_eq (0 / 1 - 1 / 2) 0) by lra. cbn. lia.
Qed.

(** ** Intervals *)
(** Membership is true exactly when some interval contains the value, bounds included. *)
Lemma pC68_closed : forall x intervals, contained_by_intervals (Fin x) (map (fun ab => (Fin (fst ab), Fin (snd ab))) intervals) = true <->
  exists a b, In (a, b) intervals /\ a <= x <= b.
Proof.
  intros x l. induction l as [|[a b] l IH]; cbn [map contained_by_intervals fst snd nle].
  - split; [discriminate|intros (a & b & [] & _)].
  - destruct (Rleb a x) eqn:E1; cbn [andb]; [destruct (Rleb x b) eqn:E2|]; rewrite ?Rleb_true, ?Rleb_false in *.
    + split; auto. intros _. exists a, b. split; [now left|lra].
    + rewrite IH. split; intros (u & v & Hin & Hv); exists u, v; [split; auto; now right|]. destruct Hin as [Hin|Hin]; auto. inversion Hin; subst; lra.
    + rewrite IH. split; intros (u & v & Hin & Hv); exists u, v; [split; auto; now right|]. destruct Hin as [Hin|Hin]; auto. inversion Hin; subst; lra.
Qed.
Lemma pC68_nan : forall intervals, contained_by_intervals NaN intervals = false.
Proof. intros l. induction l as [|[a b] l IH]; cbn [contained_by_intervals fst snd]; auto. replace (nle a NaN) with false by (destruct a; reflexivity). exact IH. Qed.
(** The order of the intervals does not matter. *)
Lemma pC68_order : forall x l m, contained_by_intervals x (l ++ m) = (contained_by_intervals x l || contained_by_intervals x m)%bool.
Proof. intros x l m. induction l as [|b l IH]; cbn [app contained_by_intervals]; auto. destruct (_ && _)%bool; auto. Qed.
Lemma xC68_both_sides : contained_by_intervals (Fin 1) [(Fin 0, Fin (1/2)); (Fin 1, Fin 2)] = true /\ contained_by_intervals (Fin 3) [(Fin 0, Fin (1/2)); (Fin 1, Fin 2)] = false.
Proof.
  split.
  - apply (pC68_closed 1 [(0, 1/2); (1, 2)]). exists 1, 2. cbn. split; auto. lra.
  - destruct (contained_by_intervals _ _) eqn:E; auto. apply (pC68_closed 3 [(0, 1/2); (1, 2)]) in E as (a & b & Hin & H). cbn in Hin. destruct Hin as [Hin|[Hin|[]]]; inversion Hin; subst; lra.
Qed.

(** ** Logging *)
Lemma set_in d st n : In n xfab_loggers -> set_xfab_logging d st n = d.
Proof. intros H. unfold set_xfab_logging. replace (existsb _ _) with true; auto. symmetry. apply existsb_exists. exists n. split; auto. apply String.eqb_refl. Qed.
Lemma set_out d st n : ~ In n xfab_loggers -> set_xfab_logging d st n = st n.
Proof.
  intros H. unfold set_xfab_logging. destruct (existsb _ _) eqn:E; auto. apply existsb_exists in E as (m & Hm & E). apply String.eqb_eq in E. subst. contradiction.
Qed.
Lemma run_others c : forall st, same_others (final c st) st.
Proof.
  unfold final. induction c as [|n c IH| |v b IHb c IHc]; intros st m Hm; cbn [run]; auto.
  - specialize (IH st m Hm). destruct (run c st) as [[t st'] r]. exact IH.
  - specialize (IHb (enter v st) m Hm). destruct (run b (enter v st)) as [[t st1] r]. cbn [fst snd] in IHb.
    assert (X : leave v st1 m = st m). { unfold leave, enter in *. destruct v; rewrite ?set_out in *; auto. }
    destruct r; [exact X|]. specialize (IHc (leave v st1) m Hm). destruct (run c (leave v st1)) as [[t' st'] r']. cbn [fst snd] in *. congruence.
Qed.
(** Loggers of other packages are never touched. *)
Lemma pC67_other_loggers : forall c st, same_others (final c st) st.
Proof. exact run_others. Qed.
(** Code that runs directly inside a verbose block is reported: the first message of every
    xfab module is printed, whatever the state before. *)
Lemma pC67_active_inside : forall st body next logger, In logger xfab_loggers ->
  exists rest, messages (With true (Log logger body) next) st = (logger, true) :: rest.
Proof.
  intros st body next n Hn. unfold messages. cbn [run]. destruct (run body (enter true st)) as [[t st1] r]. cbn [enter]. rewrite (set_in false st n Hn). cbn [negb].
  destruct r; [eexists; reflexivity|]. destruct (run next _) as [[t' st'] r']. eexists. reflexivity.
Qed.
(** After a verbose block all xfab loggers are off, even when the body raised, and an
    exception is passed on. *)
Lemma pC67_off_afterwards : forall st body, xfab_disabled (final (With true body Done) st) /\
  raises (With true body Done) st = raises body (enter true st).
Proof.
  intros st body. unfold final, raises. cbn [run]. destruct (run body (enter true st)) as [[t st1] r]. destruct r; cbn [fst snd]; split; auto; intros n Hn; now apply set_in.
Qed.
(** A block that is not verbose changes nothing. *)
Lemma pC67_not_verbose : forall st body next, raises body st = false ->
  messages (With false body next) st = messages body st ++ messages next (final body st) /\
  final (With false body next) st = final next (final body st).
Proof.
  intros st body next. unfold raises, messages, final. cbn [run enter leave]. destruct (run body st) as [[t st1] r]. cbn [fst snd]. intros ->.
  destruct (run next st1) as [[t' st'] r']. auto.
Qed.
(** A nested verbose block silences the rest of the enclosing verbose block. *)
Lemma pC67_nested_silences : forall st body logger, In logger xfab_loggers -> raises body (enter true (enter true st)) = false ->
  messages (With true (With true body (Log logger Done)) Done) st = messages body (enter true (enter true st)) ++ [(logger, false)].
Proof.
  intros st body n Hn H. unfold raises, messages in *. cbn [run]. destruct (run body _) as [[t st1] r]. cbn [fst snd] in *. subst r. cbn [run]. unfold leave at 1. rewrite (set_in true st1 n Hn).
  cbn [run fst snd negb]. now rewrite app_nil_r.
Qed.
Lemma free_run c : verbose_free c = true -> forall st, final c st = st /\ forall n, In n xfab_loggers -> xfab_disabled st -> ~ In (n, true) (messages c st).
Proof.
  unfold final, messages. induction c as [|m c IH| |v b IHb c IHc]; cbn [verbose_free run]; intros H st.
  - split; auto.
  - destruct (IH H st) as [A B]. destruct (run c st) as [[t st'] r]. cbn [fst snd] in *. split; auto. intros n Hn Hd [E|E]; [|now apply (B n Hn Hd)]. inversion E; subst. rewrite (Hd n Hn) in *. discriminate.
  - split; auto.
  - apply andb_true_iff in H as [H Hc]. apply andb_true_iff in H as [Hv Hb]. destruct v; [discriminate|]. cbn [enter leave].
    destruct (IHb Hb st) as [A B]. destruct (run b st) as [[t st1] r]. cbn [fst snd] in *. subst st1. destruct r; [split; auto|].
    destruct (IHc Hc st) as [A' B']. destruct (run c st) as [[t' st'] r']. cbn [fst snd] in *. split; auto. intros n Hn Hd E. apply in_app_or in E as [E|E]; [now apply (B n Hn Hd)|now apply (B' n Hn Hd)].
Qed.
(** By default nothing is printed: without a verbose block no xfab message is ever printed. *)
Lemma pC67_default_silent : forall st c logger, verbose_free c = true -> In logger xfab_loggers -> ~ In (logger, true) (messages c (after_import st)).
Proof. intros st c n H Hn. apply (free_run c H (after_import st)); auto. intros m Hm. now apply set_in. Qed.
Lemma xC67_nested : In "xfab.tools"%string xfab_loggers /\ raises (Log "xfab.tools" Done) (fun _ => false) = false /\ verbose_free (With false (Log "xfab.tools" Done) Raise) = true.
Proof. repeat split; auto. now left. Qed.

(** ** Circumscribed sphere (C75) *)
Lemma combo_dot u p0 : forall ps x, dot u (combo p0 ps x) = sum_list (map (fun rx => fst rx * snd rx) (combine (map (fun q => dot u (vsub p0 q)) ps) x)).
Proof.
  unfold combo. induction ps as [|q ps IH]; intros x; cbn [map combine fold_right].
  - rewrite sum_list_nil. vunf. ring.
  - destruct x as [|a x]; cbn [map combine fold_right]; [rewrite sum_list_nil; vunf; ring|]. rewrite sum_list_cons. cbn [fst snd].
    rewrite <- IH. set (w := fold_right _ _ _). clearbody w. vdes. vunf. ring.
Qed.
Lemma combo_span p0 : forall ps x, List.length x = List.length ps -> in_span p0 ps (vadd p0 (combo p0 ps x)).
Proof.
  intros ps x Hx. exists (map Ropp x). split; [now rewrite map_length|]. f_equal. unfold combo. clear Hx. revert x.
  induction ps as [|q ps IH]; intros x; [reflexivity|]. destruct x as [|a x]; [reflexivity|]. cbn [map combine fold_right fst snd]. rewrite IH.
  set (w := fold_right _ _ _). clearbody w. veq.
Qed.
Lemma span_orth p0 ps u c c' : in_span p0 ps c -> in_span p0 ps c' -> (forall p, In p ps -> dot u (vsub p p0) = 0) -> dot u (vsub c c') = 0.
Proof.
  intros (w & _ & ->) (w' & _ & ->) H.
  assert (G : forall ps w, (forall p, In p ps -> dot u (vsub p p0) = 0) -> dot u (fold_right vadd vzero (map (fun pw => vscale (snd pw) (vsub (fst pw) p0)) (combine ps w))) = 0).
  { clear. induction ps as [|q ps IH]; intros w H; cbn [map combine fold_right]; [vunf; ring|]. destruct w as [|a w]; cbn [map combine fold_right]; [vunf; ring|].
    cbn [fst snd]. pose proof (H q (or_introl eq_refl)) as Hq. pose proof (IH w (fun p Hp => H p (or_intror Hp))) as Hw. set (y := fold_right _ _ _) in *. clearbody y.
    replace (dot u (vadd (vscale a (vsub q p0)) y)) with (a * dot u (vsub q p0) + dot u y) by (vdes; vunf; ring). rewrite Hq, Hw. ring. }
  pose proof (G ps w H) as A. pose proof (G ps w' H) as B. set (y := fold_right _ _ (map _ (combine ps w))) in *. set (z := fold_right _ _ (map _ (combine ps w'))) in *. clearbody y z.
  replace (dot u (vsub (vadd p0 y) (vadd p0 z))) with (dot u y - dot u z) by (vdes; vunf; ring). lra.
Qed.
Lemma dist_eq_dot c p p0 : dist c p = dist c p0 <-> 2 * dot (vsub p0 p) c = dot p0 p0 - dot p p.
Proof.
  unfold dist. rewrite norm_eq_normsq. assert (E : normsq (vsub c p) - normsq (vsub c p0) = dot p p - dot p0 p0 + 2 * dot (vsub p0 p) c) by (vdes; vunf; ring).
  split; intros H; lra.
Qed.
Lemma circum_solution p0 ps x : solves (circum_matrix p0 ps) (circum_rhs p0 ps) x -> forall p, In p ps -> dist (vadd p0 (combo p0 ps x)) p = dist (vadd p0 (combo p0 ps x)) p0.
Proof.
  intros [_ H] p Hp. apply dist_eq_dot.
  assert (E : sum_list (map (fun rx => fst rx * snd rx) (combine (map (fun q => dot (vscale 2 (vsub p0 p)) (vsub p0 q)) ps) x)) = dot p0 p0 - dot p p - dot (vscale 2 (vsub p0 p)) p0).
  { unfold circum_matrix, circum_rhs in H. rewrite map_map in H.
    pose proof (proj1 map_ext_in_iff H p Hp) as E; exact E. }
  rewrite <- combo_dot in E. set (y := combo p0 ps x) in *. clearbody y. revert E. clear. vdes. vunf. intros. lra.
Qed.
(** Whatever linear solver is used, as long as its answers solve the system: the returned
    point is at the same distance from all the points and lies in their affine span. *)
Lemma pC75_equidistant : forall solve p0 ps c, (forall A b x, solve A b = Ok x -> solves A b x) ->
  circum_centroid solve p0 ps = Ok c -> in_span p0 ps c /\ forall p, In p ps -> dist c p = dist c p0.
Proof.
  intros solve p0 ps c Hs H. unfold circum_centroid in H. destruct (solve _ _) as [x|e] eqn:E; cbn [bind] in H; [|discriminate]. apply Hs in E. inversion H; subst c. split.
  - apply combo_span. destruct E as [E _]. unfold circum_matrix in E. now rewrite map_length in E.
  - now apply circum_solution.
Qed.
(** It is the only such point, so the choice of solver does not matter. *)
Lemma pC75_unique : forall solve p0 ps c c', (forall A b x, solve A b = Ok x -> solves A b x) ->
  circum_centroid solve p0 ps = Ok c -> in_span p0 ps c' -> (forall p, In p ps -> dist c' p = dist c' p0) -> c' = c.
Proof.
  intros solve p0 ps c c' Hs H S' D'. destruct (pC75_equidistant solve p0 ps c Hs H) as [S D].
  assert (Z : dot (vsub c' c) (vsub c' c) = 0).
  { apply (span_orth p0 ps); auto. intros p Hp. specialize (D p Hp). specialize (D' p Hp). apply dist_eq_dot in D, D'. revert D D'. clear. vdes. vunf. intros. lra. }
  change (normsq (vsub c' c) = 0) in Z. apply normsq_0 in Z. revert Z. clear. destruct c as [a b d], c' as [a' b' d']. vunf. unfold vzero. intros Z. injection Z as A B C.
  f_equal; lra.
Qed.
(** Points in general position: four corners of a cube; the centre is (1/2,1/2,1/2). *)
Lemma xC75_cube : exists solve, (forall A b x, solve A b = Ok x -> solves A b x) /\
  circum_centroid solve (V3 0 0 0) [V3 1 0 0; V3 0 1 0; V3 0 0 1] = Ok (V3 (1/2) (1/2) (1/2)).
Proof.
  set (A0 := circum_matrix (V3 0 0 0) [V3 1 0 0; V3 0 1 0; V3 0 0 1]). set (b0 := circum_rhs (V3 0 0 0) [V3 1 0 0; V3 0 1 0; V3 0 0 1]).
  assert (S : solves A0 b0 [Ropp (1/2); Ropp (1/2); Ropp (1/2)]).
  { split; [reflexivity|]. unfold A0, b0, circum_matrix, circum_rhs. cbn [map combine fst snd]. unfold sum_list. cbn [fold_right]. vunf. repeat (apply f_equal2; [lra|]). reflexivity. }
  exists (fun A b => if list_eq_dec (list_eq_dec Req_EM_T) A A0 then if list_eq_dec Req_EM_T b b0 then Ok [Ropp (1/2); Ropp (1/2); Ropp (1/2)] else Err ValueError else Err ValueError).
  split.
  - intros A b x H. destruct (list_eq_dec (list_eq_dec Req_EM_T) A A0) as [->|]; [|discriminate]. destruct (list_eq_dec Req_EM_T b b0) as [->|]; [|discriminate]. inversion H; subst x. exact S.
  - unfold circum_centroid. fold A0 b0. destruct (list_eq_dec (list_eq_dec Req_EM_T) A0 A0) as [_|N]; [|destruct N; auto]. destruct (list_eq_dec Req_EM_T b0 b0) as [_|N]; [|destruct N; auto].
    cbn [bind]. f_equal. unfold combo. cbn [map combine fold_right fst snd]. veq; lra.
Qed.
