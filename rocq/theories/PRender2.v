(** * Proofs about MRender: properties of the Gaussian ('micro') method. *)
From Verif Require Import Vec Spec MMotion PMotion MLaue PLaue MMesh SMesh PMesh MScattering SScattering PScattering.
From Verif Require Import MStrain SStrain PStrain MBeam SBeam PBeam MPolycrystal SPolycrystal PPolycrystal.
From Verif Require Import MDetector SDetector PDetector PDetector2 PDetector3 PDetector4 PPolycrystal3 MClip MRender SRender PRender.
From Coq Require Import FunctionalExtensionality Permutation.
Open Scope R_scope.
Local Notation len := List.length.

(** ** Sums *)
Lemma sum_incl_le {A} (g : A -> R) : (forall x, 0 <= g x) -> forall l m, NoDup l -> incl l m ->
  sum_list (map g l) <= sum_list (map g m).
Proof.
  intros Hg. induction l as [|x l IH]; intros m Hd Hi; cbn [map].
  - rewrite sum_list_nil. apply sum_list_nonneg. intros y Hy. apply in_map_iff in Hy as (z & <- & _). auto.
  - inversion Hd; subst. destruct (in_split x m (Hi x (or_introl eq_refl))) as (m1 & m2 & ->).
    assert (sum_list (map g l) <= sum_list (map g (m1 ++ m2))).
    { apply IH; auto. intros y Hy. assert (In y (m1 ++ x :: m2)) by (apply Hi; right; auto).
      apply in_app_or in H as [H|[H|H]]; apply in_or_app; subst; auto. contradiction. }
    rewrite map_app, sum_list_app in *. cbn [map]. rewrite !sum_list_cons. lra.
Qed.
Lemma NoDup_zrange lo n : NoDup (map (fun k => (lo + Z.of_nat k)%Z) (seq 0 n)).
Proof. apply FinFun.Injective_map_NoDup; [|apply seq_NoDup]. intros a b H. lia. Qed.
Lemma sum_range_map lo n g : sum_range lo n g = sum_list (map g (map (fun k => (lo + Z.of_nat k)%Z) (seq 0 n))).
Proof. unfold sum_range. now rewrite map_map. Qed.
Lemma sum_range_ext lo n g h : (forall i, (lo <= i < lo + Z.of_nat n)%Z -> g i = h i) -> sum_range lo n g = sum_range lo n h.
Proof. intros H. apply sum_list_ext. intros k Hk. apply in_seq in Hk. apply H. lia. Qed.
Lemma sum_range_le lo n g h : (forall i, (lo <= i < lo + Z.of_nat n)%Z -> g i <= h i) -> sum_range lo n g <= sum_range lo n h.
Proof. intros H. apply sum_list_le_map. intros k Hk. apply in_seq in Hk. apply H. lia. Qed.
Lemma sum_range_nonneg lo n g : (forall i, (lo <= i < lo + Z.of_nat n)%Z -> 0 <= g i) -> 0 <= sum_range lo n g.
Proof. intros H. apply sum_list_nonneg. intros x Hx. apply in_map_iff in Hx as (k & <- & Hk). apply in_seq in Hk. apply H. lia. Qed.
Lemma sum_range_scal c lo n g : sum_range lo n (fun i => c * g i) = c * sum_range lo n g.
Proof. apply sum_list_map_scal. Qed.
(** A non-negative summand that vanishes outside of [a, a+m). *)
Lemma sum_range_window lo n a m g : (forall i, 0 <= g i) ->
  sum_range lo n (fun i => if ((a <=? i) && (i <? a + Z.of_nat m))%Z then g i else 0) <= sum_range a m g.
Proof.
  intros Hg. rewrite !sum_range_map.
  set (L := map _ (seq 0 n)). set (M := map _ (seq 0 m)).
  apply Rle_trans with (sum_list (map g (filter (fun i => ((a <=? i) && (i <? a + Z.of_nat m))%Z) L))).
  - clearbody L. induction L as [|x L IH]; cbn [map filter]; [lra|]. rewrite sum_list_cons.
    destruct (_ && _)%bool; cbn [map]; rewrite ?sum_list_cons; lra.
  - apply sum_incl_le; auto.
    + apply NoDup_filter. apply NoDup_zrange.
    + intros i Hi. apply filter_In in Hi as [_ Hi]. apply andb_true_iff in Hi as [H1 H2].
      apply Z.leb_le in H1. apply Z.ltb_lt in H2. apply in_map_iff. exists (Z.to_nat (i - a)). split; [lia|]. apply in_seq. lia.
Qed.
Lemma sum_range_single lo n g i : (forall k, 0 <= g k) -> (lo <= i < lo + Z.of_nat n)%Z -> g i <= sum_range lo n g.
Proof.
  intros Hg Hi. rewrite sum_range_map. apply Rle_trans with (sum_list (map g [i])).
  - cbn. rewrite sum_list_cons, sum_list_nil. lra.
  - apply sum_incl_le; auto; [repeat constructor; auto|]. intros x [<-|[]]. apply in_map_iff.
    exists (Z.to_nat (i - lo)). split; [lia|]. apply in_seq. lia.
Qed.

(** ** The spot itself *)
Lemma in_window_iff r i R : (0 <= R)%Z ->
  (Z.abs (i - r) <=? R)%Z = ((r - R <=? i) && (i <? r - R + Z.of_nat (Z.to_nat (2 * R + 1))))%Z.
Proof.
  intros HR. destruct (Z.leb_spec (Z.abs (i - r)) R), (Z.leb_spec (r - R) i), (Z.ltb_spec i (r - R + Z.of_nat (Z.to_nat (2 * R + 1)))); cbn [andb]; auto; lia.
Qed.
Lemma eps12 : 0 < / 10^12. Proof. apply Rinv_0_lt_compat, pow_lt. lra. Qed.
Lemma gauss_le_window s R zc yc i j : (0 <= R)%Z -> (Z.abs (i - rint zc) <= R)%Z -> (Z.abs (j - rint yc) <= R)%Z ->
  gauss_at s zc yc i j <= gauss_window_sum s R zc yc.
Proof.
  intros HR Hi Hj. unfold gauss_window_sum. cbv zeta.
  eapply Rle_trans; [|apply (sum_range_single _ _ _ i)].
  - apply (sum_range_single _ _ (fun j => gauss_at s zc yc i j) j); [intros; left; apply gauss_at_pos|lia].
  - intros k. apply sum_range_nonneg. intros; left; apply gauss_at_pos.
  - lia.
Qed.
Lemma spot_nonneg s R zc yc T i j : 0 <= T -> 0 <= gauss_spot s R zc yc T i j.
Proof.
  intros HT. unfold gauss_spot. cbv zeta. destruct (_ && Rltb _ _)%bool; [|lra].
  pose proof (window_sum_pos s R zc yc). pose proof eps12.
  apply Rmult_le_pos; auto. unfold Rdiv. apply Rmult_le_pos; [left; apply gauss_at_pos|]. left. apply Rinv_0_lt_compat. lra.
Qed.
Lemma spot_local s R zc yc T i j : gauss_spot s R zc yc T i j <> 0 ->
  Rabs (IZR i - zc) <= IZR R + 1/2 /\ Rabs (IZR j - yc) <= IZR R + 1/2.
Proof.
  unfold gauss_spot. cbv zeta. destruct (_ && Rltb _ _)%bool eqn:E; [|lra]. intros _.
  apply andb_true_iff in E as [E _]. apply andb_true_iff in E as [E1 E2]. apply Z.leb_le in E1, E2.
  assert (A : forall k x, (Z.abs (k - rint x) <= R)%Z -> Rabs (IZR k - x) <= IZR R + 1/2).
  { intros k x H. pose proof (rint_err x) as B. apply IZR_le in H. rewrite abs_IZR, minus_IZR in H.
    replace (IZR k - x) with ((IZR k - IZR (rint x)) + (IZR (rint x) - x)) by ring.
    eapply Rle_trans; [apply Rabs_triang|]. lra. }
  split; apply A; auto.
Qed.
Lemma spot_sum s R zc yc T h w : (0 <= R)%Z -> 0 <= T -> pixel_sum h w (gauss_spot s R zc yc T) <= T.
Proof.
  intros HR HT. set (S := gauss_window_sum s R zc yc). pose proof (window_sum_pos s R zc yc) as HS. fold S in HS.
  pose proof eps12 as H12. set (c := T / (S + / 10^12)).
  assert (Hc : 0 <= c) by (unfold c, Rdiv; apply Rmult_le_pos; auto; left; apply Rinv_0_lt_compat; lra).
  set (n := Z.to_nat (2 * R + 1)).
  apply Rle_trans with (c * S).
  - apply Rle_trans with (sum_range 0 h (fun i => if ((rint zc - R <=? i) && (i <? rint zc - R + Z.of_nat n))%Z
       then c * sum_range (rint yc - R) n (gauss_at s zc yc i) else 0)).
    + unfold pixel_sum. apply sum_range_le. intros i _. unfold n at 1. rewrite <- (in_window_iff (rint zc) i R HR).
      destruct (Z.abs (i - rint zc) <=? R)%Z eqn:E.
      * rewrite <- sum_range_scal.
        eapply Rle_trans; [|apply (sum_range_window 0 w (rint yc - R) n (fun j => c * gauss_at s zc yc i j))].
        2: { intros j. apply Rmult_le_pos; auto. left; apply gauss_at_pos. }
        apply sum_range_le. intros j _. unfold n. rewrite <- (in_window_iff (rint yc) j R HR). unfold gauss_spot. cbv zeta. rewrite E. fold S.
        replace (gauss_at s zc yc i j / (S + / 10^12) * T) with (c * gauss_at s zc yc i j) by (unfold c, Rdiv; ring).
        assert (0 <= c * gauss_at s zc yc i j) by (apply Rmult_le_pos; auto; left; apply gauss_at_pos).
        destruct (Z.abs (j - rint yc) <=? R)%Z; cbn [andb]; [|lra]. destruct (Rltb _ _); lra.
      * right. transitivity (sum_range 0 w (fun _ => 0 * 0)).
        2: { rewrite sum_range_scal. ring. }
        apply sum_range_ext. intros j _. unfold gauss_spot. cbv zeta. rewrite E. cbn [andb]. ring.
    + eapply Rle_trans; [apply (sum_range_window 0 h (rint zc - R) n (fun i => c * sum_range (rint yc - R) n (gauss_at s zc yc i)))|].
      * intros i. apply Rmult_le_pos; auto. apply sum_range_nonneg. intros; left; apply gauss_at_pos.
      * rewrite sum_range_scal. right. reflexivity.
  - unfold c, Rdiv. rewrite Rmult_assoc. rewrite <- (Rmult_1_r T) at 2. apply Rmult_le_compat_l; auto.
    apply Rmult_le_reg_l with (S + / 10^12); [lra|]. rewrite <- Rmult_assoc, Rinv_r, Rmult_1_l, Rmult_1_r by lra. lra.
Qed.
Lemma spot_weak s R zc yc T i j : (0 <= R)%Z -> T <= / 10^6 -> gauss_spot s R zc yc T i j = 0.
Proof.
  intros HR HT. unfold gauss_spot. cbv zeta. destruct (_ && Rltb _ _)%bool eqn:E; auto. exfalso.
  apply andb_true_iff in E as [E E3]. apply andb_true_iff in E as [E1 E2]. apply Z.leb_le in E1, E2. apply Rltb_true in E3.
  pose proof (gauss_le_window s R zc yc i j HR E1 E2) as H. pose proof (gauss_at_pos s zc yc i j) as H0. pose proof eps12.
  set (S := gauss_window_sum s R zc yc) in *. set (g := gauss_at s zc yc i j) in *.
  assert (H6 : 0 < / 10^6) by (apply Rinv_0_lt_compat, pow_lt; lra).
  assert (Hd : 0 < S + / 10^12) by lra.
  assert (F : g / (S + / 10^12) <= 1) by (apply Rmult_le_reg_r with (S + / 10^12); auto; unfold Rdiv; rewrite Rmult_assoc, Rinv_l by lra; lra).
  assert (F0 : 0 < g / (S + / 10^12)) by (apply Rdiv_lt_0_compat; auto).
  destruct (Rle_dec 0 T).
  - assert (g / (S + / 10^12) * T <= 1 * T) by (apply Rmult_le_compat_r; auto). lra.
  - assert (g / (S + / 10^12) * T <= g / (S + / 10^12) * 0) by (apply Rmult_le_compat_l; lra). lra.
Qed.

(** ** The micro method through the public call *)
Definition nframes (frames : Z) : Z := if (frames <? 1)%Z then 1%Z else frames.
Lemma nframes_ge frames : (1 <= nframes frames)%Z.
Proof. unfold nframes. destruct (Z.ltb_spec frames 1); lia. Qed.
Lemma micro_inv e d pd frames ml mi im out : render e d pd frames "micro" ml mi = Ok (im, out) ->
  project (re_z e) d pd (nframes frames) = Ok out /\
  index_put (zeros3 (Z.to_nat (nframes frames)) (d_nz d) (d_ny d)) (List.concat (map (g_deposits d) (pd_peaks out))) = Ok im.
Proof.
  unfold render. cbv zeta. fold (nframes frames). destruct (project _ _ _ _) as [o|]; [|discriminate]. cbn [bind].
  cbn [String.eqb Ascii.eqb Bool.eqb]. rewrite micro_flat.
  destruct (index_put _ _) eqn:E; [|discriminate]. cbn [bind]. intros H; inversion H; subst; auto.
Qed.
Lemma micro_deps_in z d pd frames out : fresh pd -> (1 <= frames)%Z -> project z d pd frames = Ok out ->
  Forall (dep_in (Z.to_nat frames) (d_nz d) (d_ny d)) (List.concat (map (g_deposits d) (pd_peaks out))).
Proof.
  intros Hf Hn Ho. apply Forall_forall. intros dp Hin. apply in_concat in Hin as (l & Hl & Hin).
  apply in_map_iff in Hl as (r & <- & Hr). destruct (projected_prow _ _ _ _ _ _ Hf Hn Ho Hr) as (k & zd & yd & i & P).
  pose proof (row_dep_in _ _ _ _ _ _ _ P) as Q. rewrite Forall_forall in Q. auto.
Qed.
Lemma nsum_concat_map {A} (g : deposit -> num) (D : A -> list deposit) l :
  nsum (map g (List.concat (map D l))) = nsum (map (fun r => nsum (map g (D r))) l).
Proof. rewrite concat_map, nsum_concat, !map_map. reflexivity. Qed.
Lemma INR_eqb a b : Reqb (INR a) (INR b) = Nat.eqb b a.
Proof.
  destruct (Nat.eqb_spec b a) as [E|E]; [subst; now apply Reqb_true|]. apply Reqb_false. intros C. apply INR_eq in C. auto.
Qed.
Lemma sum_filter {A} (p : A -> bool) (g : A -> R) l : sum_list (map g (filter p l)) = sum_list (map (fun x => if p x then g x else 0) l).
Proof. induction l; cbn [map filter]; auto. rewrite sum_list_cons. destruct (p a); cbn [map]; rewrite ?sum_list_cons, IHl; lra. Qed.
Lemma out_reads z d pd frames out r : fresh pd -> (1 <= frames)%Z -> project z d pd frames = Ok out -> In r (pd_peaks out) ->
  read out r "frame" = fcol r 28 /\ read out r "zd" = fcol r 25 /\ read out r "yd" = fcol r 26 /\
  read out r "intensity_factors" = fcol r 29 /\ read out r "volumes" = fcol r 21 /\
  read out r "incident_angle" = fcol r 27 /\ read out r "scherrer_fwhm" = fcol r 23.
Proof.
  intros Hf Hn Ho Hin. pose proof (out_columns _ _ _ _ _ Hf Ho) as Hc.
  destruct (projected_prow _ _ _ _ _ _ Hf Hn Ho Hin) as (k & zd & yd & i & P). pose proof (pr_len _ _ _ _ _ _ _ P) as Hl.
  repeat split; apply read_col; try lia; rewrite Hc; reflexivity.
Qed.

(** Every pixel of the rendered image is the sum of the spots of the peaks recorded
    for that frame: a peak contributes to its own frame only. *)
Lemma pC39_pixel_is_sum_of_spots : forall e d pd frames ml mi im out f i j, fresh pd -> volumes_ok pd ->
  render e d pd frames "micro" ml mi = Ok (im, out) -> in_image im f i j ->
  f_at im f i j = Fin (sum_list (map (fun r => micro_spot d out r (Z.of_nat i) (Z.of_nat j)) (rows_in_frame out f))).
Proof.
  intros e d pd frames ml mi im out f i j Hf Hv H Hin. apply micro_inv in H as [Ho Hp].
  pose proof (nframes_ge frames) as Hn. rewrite index_put_zeros in Hp by (eapply micro_deps_in; eauto).
  inversion Hp; subst im; clear Hp. destruct Hin as (_ & Hi & Hj). cbn [f_n f_h f_w f_at] in *.
  rewrite nsum_concat_map. unfold rows_in_frame. rewrite sum_filter. apply nsum_fin_map. intros r Hr.
  destruct (projected_prow _ _ _ _ _ _ Hf Hn Ho Hr) as (k & zd & yd & it & P).
  destruct (volumes_out _ _ _ _ _ _ Hf Hv Ho Hr) as (v & Hvv & _).
  rewrite (row_pixel _ _ _ _ _ _ _ _ P Hvv) by auto.
  destruct (out_reads _ _ _ _ _ _ Hf Hn Ho Hr) as (E1 & E2 & E3 & E4 & E5 & _).
  rewrite E1. unfold micro_spot, strength. rewrite E2, E3, E4, E5. unfold fcol at 1. rewrite (pr_frame _ _ _ _ _ _ _ P).
  cbn [fval]. rewrite INR_eqb. unfold fcol at 3 4. rewrite Hvv, (pr_i _ _ _ _ _ _ _ P). reflexivity.
Qed.
(** A spot is non-negative, vanishes further than the kernel radius + 1/2 pixel away
    from the peak position, and its pixels add up to at most the peak's strength. *)
Lemma pC39_spot_bounds : forall d pd r, 0 <= strength pd r ->
  (forall i j, 0 <= micro_spot d pd r i j) /\
  (forall i j, micro_spot d pd r i j <> 0 ->
     Rabs (IZR i - read pd r "zd" / d_pz d) <= IZR (micro_radius d) + 1/2 /\
     Rabs (IZR j - read pd r "yd" / d_py d) <= IZR (micro_radius d) + 1/2) /\
  (forall h w, pixel_sum h w (micro_spot d pd r) <= strength pd r).
Proof.
  intros d pd r Hs. repeat split.
  - intros. now apply spot_nonneg.
  - apply spot_local in H. tauto.
  - apply spot_local in H. tauto.
  - intros. apply spot_sum; auto. unfold micro_radius. lia.
Qed.
Lemma strength_nonneg z d pd frames out r : fresh pd -> volumes_ok pd -> (1 <= frames)%Z ->
  project z d pd frames = Ok out -> In r (pd_peaks out) -> 0 <= strength out r.
Proof.
  intros Hf Hv Hn Ho Hr. destruct (projected_prow _ _ _ _ _ _ Hf Hn Ho Hr) as (k & zd & yd & it & P).
  destruct (volumes_out _ _ _ _ _ _ Hf Hv Ho Hr) as (v & Hvv & Hv0).
  destruct (out_reads _ _ _ _ _ _ Hf Hn Ho Hr) as (_ & _ & _ & E4 & E5 & _). unfold strength. rewrite E4, E5.
  unfold fcol. rewrite Hvv, (pr_i _ _ _ _ _ _ _ P). cbn. pose proof (pr_ipos _ _ _ _ _ _ _ P).
  apply Rmult_le_pos; lra.
Qed.
(** The peaks of a rendered table have non-negative strength. *)
Lemma pC39_strength_nonneg : forall e d pd frames ml mi im out r, fresh pd -> volumes_ok pd ->
  render e d pd frames "micro" ml mi = Ok (im, out) -> In r (pd_peaks out) -> 0 <= strength out r.
Proof.
  intros e d pd frames ml mi im out r Hf Hv H Hin. apply micro_inv in H as [Ho _].
  eapply strength_nonneg; eauto. apply nframes_ge.
Qed.
Lemma pixel_sum_nsum h w g :
  nsum (map (fun ij => Fin (g (Z.of_nat (fst ij)) (Z.of_nat (snd ij)))) (list_prod (seq 0 h) (seq 0 w))) = Fin (pixel_sum h w g).
Proof.
  rewrite (nsum_prod (fun i j => Fin (g (Z.of_nat i) (Z.of_nat j)))). unfold pixel_sum, sum_range.
  apply nsum_fin_map. intros i _. apply nsum_fin_map. intros j _. reflexivity.
Qed.
Lemma pixel_sum_list {A} h w (g : A -> Z -> Z -> R) l :
  pixel_sum h w (fun i j => sum_list (map (fun r => g r i j) l)) = sum_list (map (fun r => pixel_sum h w (g r)) l).
Proof.
  induction l; cbn [map].
  - rewrite sum_list_nil. unfold pixel_sum.
    transitivity (sum_range 0 h (fun _ => 0 * 0)); [|rewrite sum_range_scal; ring]. apply sum_range_ext. intros.
    transitivity (sum_range 0 w (fun _ => 0 * 0)); [|rewrite sum_range_scal; ring]. apply sum_range_ext. intros. ring_simplify. reflexivity.
  - rewrite sum_list_cons, <- IHl. unfold pixel_sum, sum_range. rewrite <- sum_list_plus_map.
    apply sum_list_ext. intros i _. rewrite <- sum_list_plus_map. apply sum_list_ext. intros j _. now rewrite sum_list_cons.
Qed.
(** The total of a rendered frame is at most the summed strength of its peaks. *)
Lemma pC39_frame_total_bounded : forall e d pd frames ml mi im out f, fresh pd -> volumes_ok pd ->
  render e d pd frames "micro" ml mi = Ok (im, out) -> (f < f_n im)%nat ->
  exists t, frame_total im f = Fin t /\ 0 <= t <= sum_list (map (strength out) (rows_in_frame out f)).
Proof.
  intros e d pd frames ml mi im out f Hf Hv H Hlt.
  pose proof (pC39_pixel_is_sum_of_spots e d pd frames ml mi im out f) as HP.
  exists (pixel_sum (f_h im) (f_w im) (fun i j => sum_list (map (fun r => micro_spot d out r i j) (rows_in_frame out f)))).
  split.
  - unfold frame_total. rewrite <- pixel_sum_nsum. apply nsum_ext. intros [i j] Hij. apply in_prod_iff in Hij as [Hi Hj].
    apply in_seq in Hi, Hj. cbn [fst snd]. apply HP; auto. repeat split; auto; lia.
  - assert (HS : forall r, In r (rows_in_frame out f) -> 0 <= strength out r).
    { intros r Hr. apply filter_In in Hr as [Hr _]. eapply pC39_strength_nonneg; eauto. }
    rewrite (pixel_sum_list _ _ (fun r i j => micro_spot d out r i j)). split.
    + apply sum_list_nonneg. intros x Hx. apply in_map_iff in Hx as (r & <- & Hr). unfold pixel_sum.
      apply sum_range_nonneg. intros. apply sum_range_nonneg. intros. apply pC39_spot_bounds. auto.
    + apply sum_list_le_map. intros r Hr. apply pC39_spot_bounds. auto.
Qed.

(** ** Superposition and order *)
Lemma project_with z d pd rows frames : (forall out, project z d (with_peaks pd rows) frames = Ok out ->
  pd_peaks out = map (extend z d frames) (filter (keepb z d frames) rows)).
Proof. intros out H. apply project_inv in H as [H _]. exact H. Qed.
(** Rendering the union of two peak lists gives the sum of the two images. *)
Lemma pC39_superposition : forall e d pd rowsA rowsB frames ml mi im imA imB out outA outB, fresh (with_peaks pd (rowsA ++ rowsB)) ->
  render e d (with_peaks pd (rowsA ++ rowsB)) frames "micro" ml mi = Ok (im, out) ->
  render e d (with_peaks pd rowsA) frames "micro" ml mi = Ok (imA, outA) ->
  render e d (with_peaks pd rowsB) frames "micro" ml mi = Ok (imB, outB) ->
  same_image im (add3 imA imB).
Proof.
  intros e d pd A B frames ml mi im imA imB out outA outB Hf H HA HB. pose proof (nframes_ge frames) as Hn.
  assert (FA : fresh (with_peaks pd A) /\ fresh (with_peaks pd B)).
  { destruct Hf as [Hc Hl]. cbn in *. apply Forall_app in Hl as [HlA HlB]. split; split; auto. }
  destruct FA as [FA FB]. apply micro_inv in H as [Ho Hp]. apply micro_inv in HA as [HoA HpA]. apply micro_inv in HB as [HoB HpB].
  rewrite index_put_zeros in Hp by (eapply micro_deps_in; [exact Hf|exact Hn|exact Ho]).
  rewrite index_put_zeros in HpA by (eapply micro_deps_in; [exact FA|exact Hn|exact HoA]).
  rewrite index_put_zeros in HpB by (eapply micro_deps_in; [exact FB|exact Hn|exact HoB]).
  rewrite (project_with _ _ _ _ _ _ Ho) in Hp. rewrite (project_with _ _ _ _ _ _ HoA) in HpA. rewrite (project_with _ _ _ _ _ _ HoB) in HpB.
  inversion Hp; inversion HpA; inversion HpB; subst. split; [repeat split|]. intros f i j _. cbn [add3 f_at].
  rewrite filter_app, !map_app, concat_app, map_app, nsum_app. reflexivity.
Qed.
(** The order of the peaks is irrelevant. *)
Lemma pC39_order_irrelevant : forall e d pd rowsA rowsB frames ml mi imA imB outA outB, Permutation rowsA rowsB ->
  fresh (with_peaks pd rowsA) ->
  render e d (with_peaks pd rowsA) frames "micro" ml mi = Ok (imA, outA) ->
  render e d (with_peaks pd rowsB) frames "micro" ml mi = Ok (imB, outB) ->
  same_image imA imB.
Proof.
  intros e d pd A B frames ml mi imA imB outA outB HP FA HA HB. pose proof (nframes_ge frames) as Hn.
  assert (FB : fresh (with_peaks pd B)).
  { destruct FA as [Hc Hl]. cbn in *. split; auto. cbn. rewrite Forall_forall in *. intros x Hx. apply Hl. eapply Permutation_in; [|eauto]. now symmetry. }
  apply micro_inv in HA as [HoA HpA]. apply micro_inv in HB as [HoB HpB].
  rewrite index_put_zeros in HpA by (eapply micro_deps_in; [exact FA|exact Hn|exact HoA]).
  rewrite index_put_zeros in HpB by (eapply micro_deps_in; [exact FB|exact Hn|exact HoB]).
  rewrite (project_with _ _ _ _ _ _ HoA) in HpA. rewrite (project_with _ _ _ _ _ _ HoB) in HpB.
  inversion HpA; inversion HpB; subst. split; [repeat split|]. intros f i j _. cbn [f_at].
  rewrite !nsum_concat_map. apply nsum_perm. apply Permutation_map. apply Permutation_map.
  clear - HP. induction HP; cbn [filter]; auto.
  - destruct (keepb _ _ _ x); auto.
  - destruct (keepb _ _ _ x), (keepb _ _ _ y); auto. constructor.
  - etransitivity; eauto.
Qed.
(** Every table produced by diffract can be rendered. *)
Lemma pC39_micro_never_fails : forall e d pd frames ml mi, fresh pd ->
  exists im out, render e d pd frames "micro" ml mi = Ok (im, out).
Proof.
  intros e d pd frames ml mi Hf. pose proof (nframes_ge frames) as Hn.
  destruct (project_ok (re_z e) d pd (nframes frames)) as [out Ho].
  { destruct Hf as [_ Hl]. eapply Forall_impl; [|exact Hl]. cbn. intros; lia. }
  unfold render. cbv zeta. fold (nframes frames). rewrite Ho. cbn [bind]. cbn [String.eqb Ascii.eqb Bool.eqb].
  rewrite micro_flat, index_put_zeros by (eapply micro_deps_in; eauto). cbn [bind]. eauto.
Qed.

(** ** C40 *)
(** When every peak's strength is at most 1e-6, nothing is rendered at all. *)
Lemma pC40_weak_peaks_vanish : forall e d pd frames ml mi im out, fresh pd -> volumes_ok pd ->
  render e d pd frames "micro" ml mi = Ok (im, out) ->
  (forall r, In r (pd_peaks out) -> strength out r <= / 10^6) -> blank im.
Proof.
  intros e d pd frames ml mi im out Hf Hv H Hw f i j Hin.
  rewrite (pC39_pixel_is_sum_of_spots _ _ _ _ _ _ _ _ _ _ _ Hf Hv H Hin). f_equal.
  transitivity (sum_list (map (fun _ : list num => 0 * 0) (rows_in_frame out f))).
  - apply sum_list_ext. intros r Hr. apply filter_In in Hr as [Hr _]. unfold micro_spot. rewrite spot_weak; auto; [ring|].
    unfold micro_radius. lia.
  - rewrite (sum_list_map_scal 0 (fun _ => 0)). ring.
Qed.
