(** * Proofs about MRender: image algebra and the Gaussian ('micro') method. *)
From Verif Require Import Vec Spec MMotion PMotion MLaue PLaue MMesh SMesh PMesh MScattering SScattering PScattering.
From Verif Require Import MStrain SStrain PStrain MBeam SBeam PBeam MPolycrystal SPolycrystal PPolycrystal.
From Verif Require Import MDetector SDetector PDetector PDetector2 PDetector3 PDetector4 PPolycrystal3 MClip MRender SRender.
From Coq Require Import FunctionalExtensionality Permutation.
Open Scope R_scope.
Local Notation len := List.length.

(** ** Sums of extended numbers form a commutative monoid *)
Lemma nadd_comm a b : nadd a b = nadd b a.
Proof. destruct a, b; simpl; auto. f_equal. ring. Qed.
Lemma nadd_assoc a b c : nadd a (nadd b c) = nadd (nadd a b) c.
Proof. destruct a, b, c; simpl; auto. f_equal. ring. Qed.
Lemma nadd_0_l a : nadd (Fin 0) a = a.
Proof. destruct a; simpl; auto. f_equal. ring. Qed.
Lemma nadd_0_r a : nadd a (Fin 0) = a.
Proof. rewrite nadd_comm. apply nadd_0_l. Qed.
Arguments nsum : simpl never.
Arguments nadd : simpl never.
Lemma nsum_nil : nsum [] = Fin 0. Proof. reflexivity. Qed.
Lemma nsum_cons a l : nsum (a :: l) = nadd a (nsum l). Proof. reflexivity. Qed.
Lemma nsum_app a b : nsum (a ++ b) = nadd (nsum a) (nsum b).
Proof. induction a; cbn [app]; [now rewrite nsum_nil, nadd_0_l|]. now rewrite !nsum_cons, IHa, nadd_assoc. Qed.
Lemma nsum_perm a b : Permutation a b -> nsum a = nsum b.
Proof.
  induction 1; rewrite ?nsum_cons; auto; try congruence.
  rewrite !nadd_assoc. f_equal. apply nadd_comm.
Qed.
Lemma nsum_fin l : nsum (map Fin l) = Fin (sum_list l).
Proof. induction l; cbn [map]; auto. now rewrite nsum_cons, IHl. Qed.
Lemma nsum_fin_map {A} (g : A -> num) (h : A -> R) l : (forall x, In x l -> g x = Fin (h x)) ->
  nsum (map g l) = Fin (sum_list (map h l)).
Proof.
  induction l as [|x l IH]; intros H; auto. cbn [map]. rewrite nsum_cons, sum_list_cons, (H x (or_introl eq_refl)), IH.
  - reflexivity.
  - intros; apply H; right; auto.
Qed.
Lemma nsum_concat l : nsum (List.concat l) = nsum (map nsum l).
Proof. induction l; cbn [map List.concat]; auto. now rewrite nsum_app, IHl, nsum_cons. Qed.
Lemma nsum_add {A} (g h : A -> num) l : nsum (map (fun x => nadd (g x) (h x)) l) = nadd (nsum (map g l)) (nsum (map h l)).
Proof.
  induction l; cbn [map]; rewrite ?nsum_nil, ?nsum_cons; [now rewrite nadd_0_l|]. rewrite IHl, !nadd_assoc. f_equal.
  rewrite <- !nadd_assoc. f_equal. apply nadd_comm.
Qed.
Lemma nsum_zero {A} (g : A -> num) l : (forall x, In x l -> g x = Fin 0) -> nsum (map g l) = Fin 0.
Proof. induction l; intros H; cbn [map]; auto. rewrite nsum_cons, H by (left; auto). rewrite IHl, nadd_0_l; auto. intros; apply H; right; auto. Qed.
Lemma nsum_ext {A} (g h : A -> num) l : (forall x, In x l -> g x = h x) -> nsum (map g l) = nsum (map h l).
Proof. intros H. f_equal. apply map_ext_in. auto. Qed.
Lemma nsum_filter {A} (p : A -> bool) (g : A -> num) l :
  nsum (map g (filter p l)) = nsum (map (fun x => if p x then g x else Fin 0) l).
Proof. induction l; cbn [map filter]; auto. rewrite nsum_cons. destruct (p a); cbn [map]; rewrite ?nsum_cons, IHl; auto. now rewrite nadd_0_l. Qed.
(** Exchange of two finite sums. *)
Lemma nsum_swap {A B} (g : A -> B -> num) la lb :
  nsum (map (fun a => nsum (map (g a) lb)) la) = nsum (map (fun b => nsum (map (fun a => g a b) la)) lb).
Proof.
  induction la; cbn [map].
  - symmetry. apply nsum_zero. auto.
  - rewrite nsum_cons, IHla, <- nsum_add. reflexivity.
Qed.
Lemma nsum_prod {A B} (g : A -> B -> num) la lb :
  nsum (map (fun ab => g (fst ab) (snd ab)) (list_prod la lb)) = nsum (map (fun a => nsum (map (g a) lb)) la).
Proof.
  induction la; cbn [map list_prod]; auto. rewrite map_app, nsum_app, nsum_cons, IHla, map_map. reflexivity.
Qed.
(** A sum over a range with a single non-zero term. *)
Lemma nsum_single (x : nat) (v : num) n : forall s, (s <= x < s + n)%nat ->
  nsum (map (fun k => if Nat.eqb k x then v else Fin 0) (seq s n)) = v.
Proof.
  induction n; intros s H; [lia|]. cbn [seq map]. rewrite nsum_cons. destruct (Nat.eqb_spec s x).
  - rewrite nsum_zero, nadd_0_r; auto. intros k Hk. apply in_seq in Hk. destruct (Nat.eqb_spec k x); auto; lia.
  - rewrite nadd_0_l. apply IHn. lia.
Qed.

(** ** index_put *)
Lemma wrap_in n i : (0 <= i < Z.of_nat n)%Z -> wrap n i = Some (Z.to_nat i).
Proof. intros H. unfold wrap. replace ((0 <=? i) && (i <? Z.of_nat n))%Z with true; auto. symmetry. apply andb_true_iff. split; [apply Z.leb_le|apply Z.ltb_lt]; lia. Qed.
Lemma wrap_lt n i k : wrap n i = Some k -> (k < n)%nat.
Proof.
  unfold wrap. destruct ((0 <=? i) && (i <? Z.of_nat n))%Z eqn:E.
  - intros H; inversion H; subst. apply andb_true_iff in E as [E1 E2]. apply Z.leb_le in E1. apply Z.ltb_lt in E2. lia.
  - destruct ((- Z.of_nat n <=? i) && (i <? 0))%Z eqn:F; [|discriminate]. intros H; inversion H; subst.
    apply andb_true_iff in F as [E1 E2]. apply Z.leb_le in E1. apply Z.ltb_lt in E2. lia.
Qed.
Lemma traverse_app {A B} (f : A -> result B) l m :
  traverse f (l ++ m) = let* a := traverse f l in let* b := traverse f m in Ok (a ++ b).
Proof.
  induction l; simpl.
  - destruct (traverse f m); auto.
  - destruct (f a); simpl; auto. rewrite IHl. destruct (traverse f l); simpl; auto.
    destruct (traverse f m); auto.
Qed.
Lemma index_put_nil im : index_put im [] = Ok im.
Proof.
  unfold index_put. simpl. destruct im as [n h w at_]; simpl. f_equal. f_equal.
  extensionality f. extensionality i. extensionality j. apply nadd_0_r.
Qed.
Lemma index_put_app im a b : index_put im (a ++ b) = let* im' := index_put im a in index_put im' b.
Proof.
  unfold index_put. rewrite traverse_app. destruct (traverse _ a) as [pa|]; simpl; auto.
  destruct (traverse _ b) as [pb|]; simpl; auto. f_equal. f_equal.
  extensionality f. extensionality i. extensionality j. rewrite filter_app, map_app, nsum_app. apply nadd_assoc.
Qed.
Lemma index_put_shape im ds im' : index_put im ds = Ok im' -> has_shape im' (f_n im) (f_h im) (f_w im).
Proof. unfold index_put. destruct (traverse _ ds); simpl; [|discriminate]. intros H; inversion H; subst. repeat split. Qed.
Lemma g_loop_flat d bs : forall im, g_loop d im bs = index_put im (List.concat (map (g_deposits d) (List.concat bs))).
Proof.
  induction bs as [|b bs IH]; intros im; simpl; [now rewrite index_put_nil|].
  rewrite map_app, concat_app, index_put_app. destruct (index_put im _) as [im'|]; simpl; auto.
Qed.

(** ** Batches *)
Lemma skipn_skipn' {A} (a b : nat) (l : list A) : skipn a (skipn b l) = skipn (b + a) l.
Proof. revert l. induction b; intros l; simpl; auto. destruct l; simpl; auto. now destruct a. Qed.
Lemma batches_concat {A} (bs : nat) (l : list A) : (0 < bs)%nat -> List.concat (batches bs l) = l.
Proof.
  intros Hb. unfold batches.
  assert (G : forall n k, (len l <= (k + n) * bs)%nat ->
    List.concat (map (fun k => firstn (Nat.min (k * bs + bs) (len l) - k * bs) (skipn (k * bs) l)) (seq k n)) = skipn (k * bs) l).
  { induction n; intros k H; cbn [seq map List.concat].
    - symmetry. apply skipn_all2. lia.
    - rewrite IHn by lia. replace (skipn (S k * bs) l) with (skipn bs (skipn (k * bs) l)).
      2: { rewrite skipn_skipn'. f_equal. lia. }
      destruct (Nat.le_ge_cases (k * bs + bs) (len l)) as [L|L].
      + rewrite Nat.min_l by lia. replace (k * bs + bs - k * bs)%nat with bs by lia. apply firstn_skipn.
      + rewrite Nat.min_r by lia. rewrite (skipn_all2 (n := bs)) by (rewrite skipn_length; lia).
        rewrite app_nil_r. apply firstn_all2. rewrite skipn_length. lia. }
  rewrite G.
  - reflexivity.
  - pose proof (Nat.div_mod (len l + bs - 1) bs). pose proof (Nat.mod_upper_bound (len l + bs - 1) bs). nia.
Qed.

(** ** C38 *)
(** The micro image does not depend on how the peaks are batched. *)
Lemma pC38_batch_size_irrelevant : forall d bs bs' rows n, (0 < bs)%nat -> (0 < bs')%nat ->
  render_gauss d bs rows n = render_gauss d bs' rows n.
Proof. intros d bs bs' rows n H H'. unfold render_gauss. rewrite !g_loop_flat, !batches_concat; auto. Qed.
Lemma batch_size_range free : (10000 <= Z.of_nat (g_batch_size free) <= 200000)%Z.
Proof. unfold g_batch_size. cbv zeta. destruct (0 <? _)%Z; rewrite Z2Nat.id; lia. Qed.
(** The batch size is between 10000 and 200000 peaks for every memory figure. *)
Lemma pC38_batch_size_range : forall free, (10000 <= Z.of_nat (g_batch_size free) <= 200000)%Z.
Proof. apply batch_size_range. Qed.
Lemma ztrunc_eq x n : (0 <= n)%Z -> IZR n <= x < IZR n + 1 -> ztrunc x = n.
Proof.
  intros Hn H. unfold ztrunc. apply IZR_le in Hn. simpl in Hn. destruct (Rlt_dec x 0); [lra|]. now apply Int_part_eq.
Qed.
(** Since the figure is in gigabytes but used as bytes, the advertised adaptation to
    the free memory never happens below 1000 GB. *)
Lemma pC38_batch_size_never_adapts : forall free, free < 1000 -> Z.of_nat (g_batch_size free) = 50000%Z.
Proof.
  intros free H. unfold g_batch_size. cbv zeta.
  replace (ztrunc _) with 0%Z; [reflexivity|]. symmetry. apply ztrunc_eq; [lia|]. destruct (Rlt_dec 0 free); lra.
Qed.
Lemma micro_flat e d rows n : micro_method e d rows n =
  index_put (zeros3 n (d_nz d) (d_ny d)) (List.concat (map (g_deposits d) rows)).
Proof.
  unfold micro_method, render_gauss. rewrite g_loop_flat, batches_concat; auto.
  pose proof (batch_size_range (re_free_micro e)). lia.
Qed.
(** Through the public call: free memory and every other external input of the
    renderers are irrelevant for method "micro". *)
Lemma pC38_memory_irrelevant : forall e e' d pd frames ml mi, re_z e = re_z e' ->
  render e d pd frames "micro" ml mi = render e' d pd frames "micro" ml mi.
Proof.
  intros e e' d pd frames ml mi Hz. unfold render. cbv zeta. rewrite Hz.
  destruct (project _ _ _ _) as [out|]; simpl; auto. now rewrite !micro_flat.
Qed.

(** ** Closed form of deposits that are all in range *)
Definition dep_in (n h w : nat) (dp : deposit) : Prop :=
  let '(f, i, j, _) := dp in (0 <= f < Z.of_nat n)%Z /\ (0 <= i < Z.of_nat h)%Z /\ (0 <= j < Z.of_nat w)%Z.
Definition hit (f i j : nat) (dp : deposit) : bool :=
  let '(f', i', j', _) := dp in (Z.eqb (Z.of_nat f) f' && Z.eqb (Z.of_nat i) i' && Z.eqb (Z.of_nat j) j')%bool.
Lemma eqb_to_nat k z : (0 <= z)%Z -> Nat.eqb k (Z.to_nat z) = Z.eqb (Z.of_nat k) z.
Proof. intros H. destruct (Nat.eqb_spec k (Z.to_nat z)), (Z.eqb_spec (Z.of_nat k) z); auto; lia. Qed.
Lemma index_put_in im ds : Forall (dep_in (f_n im) (f_h im) (f_w im)) ds ->
  index_put im ds = Ok (Fr (f_n im) (f_h im) (f_w im)
    (fun f i j => nadd (f_at im f i j) (nsum (map (fun dp => if hit f i j dp then snd dp else Fin 0) ds)))).
Proof.
  intros H.
  assert (T : traverse (place (f_n im) (f_h im) (f_w im)) ds =
    Ok (map (fun dp => let '(f, i, j, v) := dp in (Z.to_nat f, Z.to_nat i, Z.to_nat j, v)) ds)).
  { induction ds as [|[[[f i] j] v] ds IH]; cbn [traverse map]; auto. inversion H as [|? ? H0 HF]; subst. destruct H0 as (H1 & H2 & H3).
    unfold place at 1. rewrite !wrap_in by lia. cbn [bind]. rewrite IH by auto. reflexivity. }
  unfold index_put. rewrite T. cbn [bind]. f_equal. f_equal. extensionality f. extensionality i. extensionality j.
  f_equal. rewrite nsum_filter, map_map. apply nsum_ext. intros [[[f' i'] j'] v] Hin.
  rewrite Forall_forall in H. destruct (H _ Hin) as [H1 [H2 H3]]. unfold at_pixel, hit. rewrite !eqb_to_nat by lia. reflexivity.
Qed.
Lemma zeros_shape n h w : f_n (zeros3 n h w) = n /\ f_h (zeros3 n h w) = h /\ f_w (zeros3 n h w) = w.
Proof. repeat split. Qed.
Lemma index_put_zeros n h w ds : Forall (dep_in n h w) ds ->
  index_put (zeros3 n h w) ds = Ok (Fr n h w
    (fun f i j => nsum (map (fun dp => if hit f i j dp then snd dp else Fin 0) ds))).
Proof.
  intros H. rewrite index_put_in by exact H. cbn [zeros3 f_n f_h f_w f_at]. f_equal. f_equal.
  extensionality f. extensionality i. extensionality j. apply nadd_0_l.
Qed.

(** Total of a frame after deposits that are all in range. *)
Definition in_frame (f : nat) (dp : deposit) : bool := let '(f', _, _, _) := dp in Z.eqb (Z.of_nat f) f'.
Lemma hit_total n h w f dp : dep_in n h w dp ->
  nsum (map (fun ij => if hit f (fst ij) (snd ij) dp then snd dp else Fin 0) (list_prod (seq 0 h) (seq 0 w)))
  = if in_frame f dp then snd dp else Fin 0.
Proof.
  destruct dp as [[[f' i'] j'] v]. intros (Hf & Hi & Hj). unfold hit, in_frame. cbn [snd].
  rewrite (nsum_prod (fun i j => if (Z.eqb (Z.of_nat f) f' && Z.eqb (Z.of_nat i) i' && Z.eqb (Z.of_nat j) j')%bool then v else Fin 0)).
  destruct (Z.eqb_spec (Z.of_nat f) f') as [E|E]; cbn [andb].
  - etransitivity; [|apply (nsum_single (Z.to_nat i') v h 0); lia]. apply nsum_ext. intros i _.
    rewrite eqb_to_nat by lia. destruct (Z.eqb_spec (Z.of_nat i) i'); cbn [andb].
    + etransitivity; [|apply (nsum_single (Z.to_nat j') v w 0); lia]. apply nsum_ext. intros j _.
      rewrite eqb_to_nat by lia. reflexivity.
    + apply nsum_zero. auto.
  - apply nsum_zero. intros i _. apply nsum_zero. auto.
Qed.
Lemma frame_total_put n h w ds f :
  Forall (dep_in n h w) ds ->
  frame_total (Fr n h w (fun f i j => nsum (map (fun dp => if hit f i j dp then snd dp else Fin 0) ds))) f
  = nsum (map (fun dp => if in_frame f dp then snd dp else Fin 0) ds).
Proof.
  intros H. unfold frame_total. cbn [f_h f_w f_at].
  rewrite (nsum_swap (fun ij dp => if hit f (fst ij) (snd ij) dp then snd dp else Fin 0)).
  apply nsum_ext. intros dp Hin. rewrite Forall_forall in H. apply (hit_total n h w). auto.
Qed.

(** ** Rows of projected tables *)
Lemma frame_of_range n t : (1 <= n)%Z -> (0 <= frame_of n t < n)%Z.
Proof. intros H. unfold frame_of. destruct (n <=? 1)%Z; lia. Qed.
Record prow (d : detector) (n : nat) (r : list num) (k : nat) (zd yd i : R) : Prop := {
  pr_len : len r = 30%nat; pr_frame : ncol r 28 = Fin (INR k); pr_frame_lt : (k < n)%nat;
  pr_z : ncol r 25 = Fin zd; pr_y : ncol r 26 = Fin yd; pr_zr : 0 <= zd <= d_zmax d; pr_yr : 0 <= yd <= d_ymax d;
  pr_i : ncol r 29 = Fin i; pr_ipos : 0 < i }.
Lemma projected_prow z d pd frames out r : fresh pd -> (1 <= frames)%Z -> project z d pd frames = Ok out ->
  In r (pd_peaks out) -> exists k zd yd i, prow d (Z.to_nat frames) r k zd yd i.
Proof.
  intros Hf Hn Ho Hin. destruct (projected_row _ _ _ _ _ _ Hf Ho Hin) as (Hl & i & Hi & Hip).
  destruct (out_row _ _ _ _ _ _ Hf Ho Hin) as (r0 & zd & yd & a & Hir & Hl0 & Hk & E & Er & Hc).
  rewrite (keepb_fresh z d frames r0 zd yd a) in Hk by auto. apply andb_true_iff in Hk as [Hk _].
  pose proof (frame_of_range frames (ncol r0 6) Hn) as Hr.
  destruct zd as [zd| | |], yd as [yd| | |]; unfold det_contains in Hk; try (repeat rewrite andb_false_r in Hk; discriminate);
    try (cbn in Hk; repeat rewrite andb_false_r in Hk; discriminate).
  cbn [nle] in Hk. repeat (apply andb_true_iff in Hk as [Hk ?]).
  rewrite Rleb_true in *.
  exists (Z.to_nat (frame_of frames (ncol r0 6))), zd, yd, i. subst r. constructor; auto; try lia;
    rewrite ?ncol_app_r, ?Hl0 by lia; try reflexivity.
  cbn. rewrite INR_IZR_INZ, Z2Nat.id by lia. reflexivity.
Qed.
Lemma out_columns z d pd frames out : fresh pd -> project z d pd frames = Ok out ->
  pd_columns out = column_names ++ new_columns.
Proof. intros [Hc _] H. apply project_inv in H. rewrite <- Hc. tauto. Qed.
Lemma read_col pd r s j : index_of s (pd_columns pd) = Some j -> (j < len r)%nat -> read pd r s = fcol r j.
Proof. intros H Hj. unfold read, field. rewrite H, nth_error_ncol by auto. reflexivity. Qed.
Lemma volumes_out z d pd frames out r : fresh pd -> volumes_ok pd -> project z d pd frames = Ok out ->
  In r (pd_peaks out) -> exists v, ncol r 21 = Fin v /\ 0 <= v.
Proof.
  intros Hf Hv Ho Hin.
  destruct (out_row _ _ _ _ _ _ Hf Ho Hin) as (r0 & zd & yd & a & Hir & Hl0 & Hk & E & -> & Hc).
  destruct (Hv _ Hir) as (v & H & H0). exists v. split; auto. rewrite ncol_app_l by lia.
  destruct Hf as [Hf _]. apply (has_ncol pd r0 "volumes" 21 v); [rewrite Hf; reflexivity|lia|exact H].
Qed.

(** ** The Gaussian spot *)
Lemma sum_list_ext {A} (g h : A -> R) l : (forall x, In x l -> g x = h x) -> sum_list (map g l) = sum_list (map h l).
Proof. intros H. f_equal. apply map_ext_in. auto. Qed.
Lemma sum_list_prod {A B} (g : A -> B -> R) la lb :
  sum_list (map (fun ab => g (fst ab) (snd ab)) (list_prod la lb)) = sum_list (map (fun a => sum_list (map (g a) lb)) la).
Proof. induction la; cbn [map list_prod]; auto. rewrite map_app, sum_list_app, sum_list_cons, IHla, map_map. reflexivity. Qed.
Lemma g_radius_ge d : (3 <= g_radius d)%Z.
Proof. unfold g_radius. lia. Qed.
Lemma g_weight_at d r o : g_weight d r o =
  gauss_at (g_sigma d) (pos_z d r) (pos_y d r) (rint (pos_z d r) + fst o) (rint (pos_y d r) + snd o).
Proof. reflexivity. Qed.
Lemma window_sum_eq d r : sum_list (map (g_weight d r) (g_offsets d)) =
  gauss_window_sum (g_sigma d) (g_radius d) (pos_z d r) (pos_y d r).
Proof.
  unfold g_offsets, grid, gauss_window_sum, sum_range. cbv zeta.
  etransitivity; [|etransitivity; [apply (sum_list_prod (fun a b => g_weight d r (a, b)))|]].
  - apply sum_list_ext. intros [a b] _. reflexivity.
  - unfold zrange. rewrite map_map. apply sum_list_ext. intros a _. rewrite map_map. apply sum_list_ext. intros b _.
    rewrite g_weight_at. cbn [fst snd]. f_equal; lia.
Qed.
Lemma gauss_at_pos s a b i j : 0 < gauss_at s a b i j. Proof. apply exp_pos. Qed.
Lemma window_sum_pos s R a b : 0 <= gauss_window_sum s R a b.
Proof.
  unfold gauss_window_sum, sum_range. apply sum_list_nonneg. intros x Hx. apply in_map_iff in Hx as (k & <- & _).
  apply sum_list_nonneg. intros y Hy. apply in_map_iff in Hy as (k' & <- & _). left. apply gauss_at_pos.
Qed.
Lemma nsum_zrange (x lo : Z) (v : num) n :
  nsum (map (fun k => if Z.eqb k x then v else Fin 0) (zrange lo n)) =
  if ((lo <=? x) && (x <? lo + Z.of_nat n))%Z then v else Fin 0.
Proof.
  unfold zrange. rewrite map_map.
  destruct ((lo <=? x) && (x <? lo + Z.of_nat n))%Z eqn:E.
  - apply andb_true_iff in E as [E1 E2]. apply Z.leb_le in E1. apply Z.ltb_lt in E2.
    etransitivity; [|apply (nsum_single (Z.to_nat (x - lo)) v n 0); lia]. apply nsum_ext. intros k _.
    destruct (Z.eqb_spec (lo + Z.of_nat k) x), (Nat.eqb_spec k (Z.to_nat (x - lo))); auto; lia.
  - apply nsum_zero. intros k Hk. apply in_seq in Hk. destruct (Z.eqb_spec (lo + Z.of_nat k) x); auto.
    apply andb_false_iff in E as [E|E]; [apply Z.leb_gt in E|apply Z.ltb_ge in E]; lia.
Qed.

Section Row.
  Variables (d : detector) (n : nat) (r : list num) (k : nat) (zd yd it v : R).
  Hypothesis Hr : prow d n r k zd yd it.
  Hypothesis Hv : ncol r 21 = Fin v.
  Lemma row_frame : ztrunc (fcol r 28) = Z.of_nat k.
  Proof.
    unfold fcol. rewrite (pr_frame _ _ _ _ _ _ _ Hr). simpl. apply ztrunc_eq; [lia|]. rewrite <- INR_IZR_INZ. lra.
  Qed.
  Lemma row_strength : peak_intensity r = Fin (it * v).
  Proof. unfold peak_intensity. rewrite Hv, (pr_i _ _ _ _ _ _ _ Hr). reflexivity. Qed.
  Lemma row_dep_in : Forall (dep_in n (d_nz d) (d_ny d)) (g_deposits d r).
  Proof.
    apply Forall_forall. intros [[[f i] j] w] Hin. unfold g_deposits in Hin. apply filter_In in Hin as [Hin Hf].
    apply andb_true_iff in Hf as [Hf _]. repeat (apply andb_true_iff in Hf as [Hf ?]).
    rewrite Z.leb_le, Z.ltb_lt in *. apply in_map_iff in Hin as (o & E & _). inversion E; subst.
    rewrite row_frame. pose proof (pr_frame_lt _ _ _ _ _ _ _ Hr). unfold dep_in. lia.
  Qed.
  Lemma row_pixel f i j : (i < d_nz d)%nat -> (j < d_ny d)%nat ->
    nsum (map (fun dp => if hit f i j dp then snd dp else Fin 0) (g_deposits d r)) =
    Fin (if Nat.eqb f k then gauss_spot (g_sigma d) (g_radius d) (pos_z d r) (pos_y d r) (it * v) (Z.of_nat i) (Z.of_nat j) else 0).
  Proof.
    intros Hi Hj. unfold g_deposits. cbv zeta. rewrite window_sum_eq, row_strength, row_frame.
    set (S := gauss_window_sum _ _ _ _). rewrite nsum_filter, map_map.
    set (rz := rint (pos_z d r)). set (ry := rint (pos_y d r)).
    set (val := gauss_at (g_sigma d) (pos_z d r) (pos_y d r) (Z.of_nat i) (Z.of_nat j) / (S + / 10^12) * (it * v)).
    unfold g_offsets, grid.
    rewrite (nsum_ext _ (fun o => if ((Nat.eqb f k && Rltb (/ 10^6) val) && Z.eqb (snd o) (Z.of_nat j - ry)%Z)%bool
        then (if Z.eqb (fst o) (Z.of_nat i - rz)%Z then Fin val else Fin 0) else Fin 0)).
    2: { intros [oz oy] _. cbn [fst snd]. unfold hit. cbn [snd].
      replace (Z.eqb (Z.of_nat f) (Z.of_nat k)) with (Nat.eqb f k).
      2: { destruct (Nat.eqb_spec f k), (Z.eqb_spec (Z.of_nat f) (Z.of_nat k)); auto; lia. }
      destruct (Nat.eqb f k); cbn [andb]; [|destruct (_ && _)%bool; auto].
      replace (Z.eqb (Z.of_nat i) (rz + oz)) with (Z.eqb oz (Z.of_nat i - rz)).
      2: { destruct (Z.eqb_spec oz (Z.of_nat i - rz)), (Z.eqb_spec (Z.of_nat i) (rz + oz)); auto; lia. }
      replace (Z.eqb (Z.of_nat j) (ry + oy)) with (Z.eqb oy (Z.of_nat j - ry)).
      2: { destruct (Z.eqb_spec oy (Z.of_nat j - ry)), (Z.eqb_spec (Z.of_nat j) (ry + oy)); auto; lia. }
      destruct (Z.eqb_spec oz (Z.of_nat i - rz)) as [Ez|Ez]; cbn [andb].
      2: { destruct (Rltb _ val && _)%bool; destruct (_ && _)%bool; auto. }
      destruct (Z.eqb_spec oy (Z.of_nat j - ry)) as [Ey|Ey]; cbn [andb].
      2: { rewrite andb_false_r. destruct (_ && _)%bool; auto. }
      rewrite andb_true_r. subst oz oy.
      replace (rz + (Z.of_nat i - rz))%Z with (Z.of_nat i) by lia. replace (ry + (Z.of_nat j - ry))%Z with (Z.of_nat j) by lia.
      replace (0 <=? Z.of_nat i)%Z with true by (symmetry; apply Z.leb_le; lia).
      replace (0 <=? Z.of_nat j)%Z with true by (symmetry; apply Z.leb_le; lia).
      replace (Z.of_nat i <? Z.of_nat (d_nz d))%Z with true by (symmetry; apply Z.ltb_lt; lia).
      replace (Z.of_nat j <? Z.of_nat (d_ny d))%Z with true by (symmetry; apply Z.ltb_lt; lia).
      cbn [andb]. replace (g_weight d r (Z.of_nat i - rz, Z.of_nat j - ry)%Z) with
        (gauss_at (g_sigma d) (pos_z d r) (pos_y d r) (Z.of_nat i) (Z.of_nat j)).
      2: { rewrite g_weight_at. cbn [fst snd]. fold rz ry. f_equal; lia. }
      reflexivity. }
    rewrite (nsum_prod (fun a b => if ((Nat.eqb f k && Rltb (/ 10^6) val) && Z.eqb b (Z.of_nat j - ry)%Z)%bool
        then (if Z.eqb a (Z.of_nat i - rz)%Z then Fin val else Fin 0) else Fin 0)).
    set (zr := zrange _ _). set (c := (Nat.eqb f k && Rltb (/ 10^6) val)%bool).
    rewrite (nsum_ext _ (fun a => if Z.eqb a (Z.of_nat i - rz)%Z then
       (if (c && ((- g_radius d <=? Z.of_nat j - ry) && (Z.of_nat j - ry <? - g_radius d + Z.of_nat (Z.to_nat (2 * g_radius d + 1))))%Z)%bool then Fin val else Fin 0) else Fin 0)).
    2: { intros a _. destruct (Z.eqb a (Z.of_nat i - rz)%Z).
      - destruct c; cbn [andb].
        + unfold zr. rewrite (nsum_zrange (Z.of_nat j - ry) (- g_radius d) (Fin val)). reflexivity.
        + apply nsum_zero. auto.
      - apply nsum_zero. intros b _. match goal with |- (if ?q then _ else _) = _ => destruct q end; reflexivity. }
    unfold zr. rewrite nsum_zrange. pose proof (g_radius_ge d) as HR.
    assert (Q : forall x, ((- g_radius d <=? x) && (x <? - g_radius d + Z.of_nat (Z.to_nat (2 * g_radius d + 1))))%Z = (Z.abs x <=? g_radius d)%Z).
    { intros x. destruct (Z.leb_spec (- g_radius d) x), (Z.ltb_spec x (- g_radius d + Z.of_nat (Z.to_nat (2 * g_radius d + 1)))), (Z.leb_spec (Z.abs x) (g_radius d)); cbn [andb]; auto; lia. }
    rewrite !Q. unfold gauss_spot. cbv zeta. fold S rz ry val. unfold c.
    destruct (Nat.eqb f k); cbn [andb]; [|destruct (_ <=? _)%Z; auto].
    destruct (Z.abs (Z.of_nat i - rz) <=? g_radius d)%Z; cbn [andb]; auto.
    destruct (Z.abs (Z.of_nat j - ry) <=? g_radius d)%Z; cbn [andb]; rewrite ?andb_true_r, ?andb_false_r; auto.
    destruct (Rltb (/ 10^6) val); auto.
  Qed.
  Lemma row_total : exists x, nsum (map (fun dp => if in_frame k dp then snd dp else Fin 0) (g_deposits d r)) = Fin x /\
    (0 <= it * v -> 0 <= x <= it * v).
  Proof.
    set (S := gauss_window_sum (g_sigma d) (g_radius d) (pos_z d r) (pos_y d r)).
    assert (HS : 0 <= S) by apply window_sum_pos.
    set (val := fun o => g_weight d r o / (S + / 10^12) * (it * v)).
    exists (sum_list (map (fun o => if
       (let i := (rint (pos_z d r) + fst o)%Z in let j := (rint (pos_y d r) + snd o)%Z in
        ((0 <=? i) && (i <? Z.of_nat (d_nz d)) && (0 <=? j) && (j <? Z.of_nat (d_ny d)))%Z && Rltb (/ 10^6) (val o))%bool
       then val o else 0) (g_offsets d))).
    split.
    - unfold g_deposits. cbv zeta. rewrite window_sum_eq, row_strength, row_frame. fold S.
      rewrite nsum_filter, map_map. apply nsum_fin_map. intros o _. unfold in_frame. cbn [snd].
      rewrite Z.eqb_refl. cbn [nlt nmul]. fold (val o). match goal with |- (if ?a then _ else _) = Fin (if ?b then _ else _) => change b with a; destruct a end; reflexivity.
    - intros Hp. assert (Hd : 0 < S + / 10^12). { assert (0 < / 10^12) by (apply Rinv_0_lt_compat; apply pow_lt; lra). lra. }
      assert (Hval : forall o, 0 <= val o).
      { intros o. unfold val, Rdiv. apply Rmult_le_pos; auto. apply Rmult_le_pos; [left; apply exp_pos|]. left. now apply Rinv_0_lt_compat. }
      split.
      + apply sum_list_nonneg. intros x Hx. apply in_map_iff in Hx as (o & <- & _). destruct (_ && _)%bool; [apply Hval|lra].
      + apply Rle_trans with (sum_list (map (fun o => (it * v / (S + / 10^12)) * g_weight d r o) (g_offsets d))).
        * apply sum_list_le_map. intros o _. replace (it * v / (S + / 10^12) * g_weight d r o) with (val o).
          2: { unfold val, Rdiv. ring. } destruct (_ && _)%bool; [lra|apply Hval].
        * rewrite sum_list_map_scal, window_sum_eq. fold S.
          assert (0 < / 10^12) by (apply Rinv_0_lt_compat; apply pow_lt; lra).
          unfold Rdiv. rewrite Rmult_assoc. rewrite <- (Rmult_1_r (it * v)) at 2.
          apply Rmult_le_compat_l; auto. apply Rmult_le_reg_l with (S + / 10^12); auto.
          rewrite <- Rmult_assoc, Rinv_r, Rmult_1_l, Rmult_1_r by lra. lra.
  Qed.
End Row.
