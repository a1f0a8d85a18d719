(** * Proofs: half-space rows, the LP repair step, the sampling of the motion (C23, C25, C27). *)
From Verif Require Import Vec Spec MMotion PMotion MLaue PLaue MMesh SMesh PMesh MScattering MBeam MBeam2 SBeam SBeam2 PBeam.
From Coq Require Import Sorted.
Open Scope R_scope.
Local Notation len := List.length.

(** ** Sorted, distinct rows *)
Lemma row_lt_before h k : row_lt (hs_row h) (hs_row k) = true <-> row_before h k.
Proof.
  unfold hs_row, row_before. cbn [row_lt].
  repeat match goal with |- context [Rlt_dec ?a ?b] => destruct (Rlt_dec a b) end; split; intros H; try discriminate; try reflexivity; try (exfalso; lra); try lra.
Qed.
Lemma row_before_trans h k l : row_before h k -> row_before k l -> row_before h l.
Proof. unfold row_before. intros; lra. Qed.
Lemma insert_sorted h l : StronglySorted row_before l -> StronglySorted row_before (insert_unique h l).
Proof.
  intros H. induction H as [|k l Hl IH Hk]; cbn [insert_unique]; [repeat constructor|].
  destruct (row_lt (hs_row h) (hs_row k)) eqn:E1.
  - constructor; [constructor; auto|]. apply row_lt_before in E1. constructor; auto.
    eapply Forall_impl; [|exact Hk]. intros a Ha. eapply row_before_trans; eauto.
  - destruct (row_lt (hs_row k) (hs_row h)) eqn:E2; [|constructor; auto].
    constructor; auto. apply Forall_forall. intros a Ha. apply insert_unique_In in Ha as [->|Ha]; [now apply row_lt_before|].
    rewrite Forall_forall in Hk. auto.
Qed.
Lemma clean_sorted l : StronglySorted row_before (clean_halfspaces l).
Proof. unfold clean_halfspaces, unique_rows. induction (map hs_round l) as [|h hs IH]; cbn [fold_right]; [constructor|now apply insert_sorted]. Qed.
Lemma sorted_nth {A} (R : A -> A -> Prop) l : StronglySorted R l -> forall i j a b, (i < j)%nat -> nth_error l i = Some a -> nth_error l j = Some b -> R a b.
Proof.
  intros H. induction H as [|x l Hl IH Hx]; intros i j a b Hij Ha Hb; [destruct i; discriminate|].
  destruct j as [|j]; [lia|]. cbn in Hb. destruct i as [|i]; cbn in Ha.
  - inversion Ha; subst. rewrite Forall_forall in Hx. apply Hx. eapply nth_error_In; eauto.
  - eapply (IH i j); eauto. lia.
Qed.
(** C23: the rows of a beam's half-space table are distinct and in increasing order. *)
Lemma pC23_rows_sorted : forall q vs dir wl pol b i j h k,
  make_beam q vs dir wl pol = Ok b -> (i < j)%nat ->
  nth_error (b_halfspaces b) i = Some h -> nth_error (b_halfspaces b) j = Some k -> row_before h k.
Proof.
  intros q vs dir wl pol b i j h k H Hij Hi Hj. unfold make_beam, beam_vertex_state in H. destruct (Req_EM_T wl 0) as [|Nwl]; [discriminate|].
  cbv zeta in H. destruct (qh_nvert q vs) as [nv|]; cbn [bind] in H; [|discriminate]. destruct (assert_ _) as [u|]; cbn [bind] in H; [|discriminate].
  destruct (qh_eqs_QJ q vs) as [eqs|]; cbn [bind] in H; [|discriminate].
  destruct (Req_EM_T (norm dir) 0); [discriminate|]. destruct (Req_EM_T (norm pol) 0); [discriminate|]. destruct (assert_ _) as [u'|]; cbn [bind] in H; [|discriminate].
  apply (f_equal (fun r => match r with Ok b0 => b_halfspaces b0 | Err _ => [] end)) in H. cbn in H. rewrite <- H in Hi, Hj.
  eapply sorted_nth; eauto. apply clean_sorted.
Qed.

(** ** The LP repair step *)
Lemma gram_mv A v : mv (gram A) v = fold_right (fun h s => vadd (vscale (dot (hs_n h) v) (hs_n h)) s) vzero A.
Proof. induction A as [|h A IH]; cbn [gram fold_right]; [veq|]. fold (gram A). rewrite mv_madd, IH. f_equal. veq. Qed.
Lemma gram_quadratic A v : dot v (mv (gram A) v) = sum_list (map (fun h => (dot (hs_n h) v)^2) A).
Proof.
  rewrite gram_mv. induction A as [|h A IH]; cbn [map fold_right]; [vunf; unfold sum_list; cbn; ring|].
  unfold sum_list in *; cbn [fold_right map]. rewrite <- IH. generalize (fold_right (fun h s => vadd (vscale (dot (hs_n h) v) (hs_n h)) s) vzero A). intros u. destruct h; vdes; vunf; cbn [hs_n]; ring.
Qed.
Lemma sumsq_zero {A} (f : A -> R) l : sum_list (map (fun h => (f h)^2) l) = 0 -> forall h, In h l -> f h = 0.
Proof.
  assert (P : forall l, 0 <= sum_list (map (fun h => (f h)^2) l)).
  { induction l0 as [|a l0 IH]; unfold sum_list in *; cbn [map fold_right]; [lra|]. pose proof (pow2_ge_0 (f a)). lra. }
  induction l as [|a l IH]; [intros _ ? []|]. pose proof (P l) as Q. unfold sum_list in *; cbn [map fold_right]. intros E.
  pose proof (pow2_ge_0 (f a)). assert (f a ^ 2 = 0) by lra. intros h [<-|Hh]; [nra|]. apply IH; auto. lra.
Qed.
Lemma gram_rhs_of A d : (forall h, In h A -> dot (hs_n h) d = - / 10^5) -> gram_rhs A = mv (gram A) d.
Proof.
  intros H. rewrite gram_mv. unfold gram_rhs. induction A as [|h A IH]; cbn [fold_right]; auto.
  rewrite IH by (intros; apply H; now right). rewrite (H h) by now left. reflexivity.
Qed.
Lemma solve_step_spec A d dx : (forall h, In h A -> dot (hs_n h) d = - / 10^5) -> solve_step A = Ok dx ->
  forall h, In h A -> dot (hs_n h) dx = - / 10^5.
Proof.
  intros Hd. unfold solve_step. destruct (Req_EM_T _ 0) as [|N]; [discriminate|]. intros E h Hh.
  assert (E' : dx = solve3 (gram A) (gram_rhs A)) by congruence. pose proof (solve3_spec (gram A) (gram_rhs A) N) as S. rewrite <- E' in S.
  rewrite (gram_rhs_of A d Hd) in S.
  assert (Z : dot (vsub dx d) (mv (gram A) (vsub dx d)) = 0).
  { replace (mv (gram A) (vsub dx d)) with (vsub (mv (gram A) dx) (mv (gram A) d)) by (generalize (gram A); intros; veq). rewrite S, vsub_self. vdes; vunf; ring. }
  rewrite gram_quadratic in Z. pose proof (sumsq_zero (fun h => dot (hs_n h) (vsub dx d)) A Z h Hh) as Q. cbv beta in Q.
  rewrite <- (Hd h Hh). revert Q. generalize (hs_n h). intros n. vdes; vunf. lra.
Qed.
Lemma select_in hs slack x : lp_answer hs x slack -> forall h, In h (select_zero_slack hs slack) <-> (In h hs /\ tight x h).
Proof.
  intros (L & H) h. unfold select_zero_slack. rewrite in_map_iff. split.
  - intros ((h' & s) & <- & Hin). apply filter_In in Hin as [Hin Ht]. cbn [fst snd] in *. apply Reqb_true in Ht. subst s.
    split; [now apply in_combine_l in Hin|]. apply In_nth_error in Hin as (i & Hi).
    assert (nth_error hs i = Some h' /\ nth_error slack i = Some 0) as [A B].
    { clear - Hi. revert slack i Hi. induction hs as [|a hs IH]; intros [|b sl] [|i] Hi; cbn in *; try discriminate; [split; congruence|exact (IH sl i Hi)]. }
    destruct (H i h' 0 A B) as [_ E]. unfold tight. lra.
  - intros [Hin Ht]. apply In_nth_error in Hin as (i & Hi). assert (exists s, nth_error slack i = Some s) as (s & Hs).
    { destruct (nth_error slack i) eqn:E; eauto. apply nth_error_None in E. assert (i < len hs)%nat by (apply nth_error_Some; congruence). lia. }
    destruct (H i h s Hi Hs) as [_ E]. unfold tight in Ht. assert (Hs0 : s = 0) by lra. rewrite Hs0 in Hs. clear E Hs0. exists (h, 0). split; auto. apply filter_In. split; [|cbn; now apply Reqb_true].
    clear - Hi Hs. revert slack i Hi Hs. induction hs as [|a hs IH]; intros [|b sl] [|i] Hi Hs; cbn [combine nth_error In] in *; try discriminate; [left; inversion Hi; inversion Hs; auto|right; eauto].
Qed.
Lemma tight_slack hs slack x : lp_answer hs x slack -> (existsb (fun s => Reqb s 0) slack = true <-> exists h, In h hs /\ tight x h).
Proof.
  intros H. split.
  - intros E. apply existsb_exists in E as (s & Hs & Es). apply Reqb_true in Es. subst s. destruct H as (L & H). apply In_nth_error in Hs as (i & Hi).
    assert (exists h, nth_error hs i = Some h) as (h & Hh). { destruct (nth_error hs i) eqn:E; eauto. apply nth_error_None in E. assert (i < len slack)%nat by (apply nth_error_Some; congruence). lia. }
    exists h. split; [eapply nth_error_In; eauto|]. destruct (H i h 0 Hh Hi). unfold tight. lra.
  - intros (h & Hh & Ht). pose proof (proj2 (select_in hs slack x H h) (conj Hh Ht)) as Q. unfold select_zero_slack in Q. apply in_map_iff in Q as ((h' & s) & _ & Q).
    apply filter_In in Q as [Q1 Q2]. apply existsb_exists. exists s. split; [now apply in_combine_r in Q1|exact Q2].
Qed.
(** C25: when some constraints are tight at the LP point, the step returned by the least-squares
    solve moves exactly 1e-5 into each of them (when any step can), and the moved point is
    returned if the other constraints leave room for it. *)
Lemma pC25_vertex_repair : forall lp hs x slack d r,
  lp hs = Some (x, slack) -> lp_answer hs x slack -> (forall h, In h hs -> unit (hs_n h)) ->
  (exists h, In h hs /\ tight x h) ->
  (forall h, In h hs -> tight x h -> dot (hs_n h) d = - / 10^5) ->
  find_feasible lp solve_step hs = Ok r ->
  exists dx, (forall h, In h hs -> tight x h -> dot (hs_n h) (vadd x dx) + hs_d h = - / 10^5) /\
    ((forall h, In h hs -> ~ tight x h -> dot (hs_n h) x + hs_d h < - (norm dx + / 10^8)) -> r = Some (vadd x dx)).
Proof.
  intros lp hs x slack d r Hlp HA HU HT Hd H. unfold find_feasible in H. rewrite Hlp in H. rewrite (proj2 (tight_slack _ _ _ HA) HT) in H.
  destruct (solve_step _) as [dx|] eqn:ES; cbn [bind] in H; [|discriminate].
  assert (Hdx : forall h, In h hs -> tight x h -> dot (hs_n h) dx = - / 10^5).
  { intros h Hh Ht. apply (solve_step_spec _ d dx) with (h := h) in ES; auto; [|now apply (select_in _ _ _ HA)]. intros k Hk. apply (select_in _ _ _ HA) in Hk as []. auto. }
  assert (Ev : forall h, dot (hs_n h) (vadd x dx) = dot (hs_n h) x + dot (hs_n h) dx) by (intros [n o]; cbn [hs_n]; vdes; vunf; ring).
  exists dx. split; [intros h Hh Ht; rewrite Ev, Hdx by auto; unfold tight in Ht; lra|].
  intros Hroom. assert (F : forallb (fun h => Rltb (hs_val h (vadd x dx)) (- / 10^8)) hs = true).
  { apply forallb_forall. intros h Hh. apply Rltb_true. unfold hs_val. rewrite Ev. destruct (Req_EM_T (dot (hs_n h) x + hs_d h) 0) as [Ht|Ht].
    - rewrite Hdx by auto. lra.
    - specialize (Hroom h Hh Ht). pose proof (cauchy (hs_n h) dx) as C. rewrite (HU h Hh), Rmult_1_l in C. pose proof (Rle_abs (dot (hs_n h) dx)). lra. }
  rewrite F in H. congruence.
Qed.
(** C25 finding: if all tight constraints contain a common direction - in particular if one or two
    are tight - the least-squares matrix is singular and the call raises LinAlgError. *)
Lemma pC25_edge_raises : forall lp hs x slack u,
  lp hs = Some (x, slack) -> lp_answer hs x slack ->
  (exists h, In h hs /\ tight x h) -> u <> vzero -> (forall h, In h hs -> tight x h -> dot (hs_n h) u = 0) ->
  find_feasible lp solve_step hs = Err LinAlgError.
Proof.
  intros lp hs x slack u Hlp HA HT Hu Hd. unfold find_feasible. rewrite Hlp. rewrite (proj2 (tight_slack _ _ _ HA) HT).
  assert (D : det (gram (select_zero_slack hs slack)) = 0).
  { destruct (Req_EM_T (det (gram (select_zero_slack hs slack))) 0) as [|N]; auto. exfalso. apply Hu.
    assert (Z : mv (gram (select_zero_slack hs slack)) u = vzero).
    { rewrite gram_mv. assert (Q : forall h, In h (select_zero_slack hs slack) -> dot (hs_n h) u = 0) by (intros h Hh; apply (select_in _ _ _ HA) in Hh as []; auto).
      clear - Q. induction (select_zero_slack hs slack) as [|h l IH]; cbn [fold_right]; auto. rewrite IH by (intros; apply Q; now right). rewrite Q by now left. veq. }
    generalize dependent (gram (select_zero_slack hs slack)). intros G N Z.
    assert (I : solve3 G (mv G u) = u).
    { unfold solve3. clear - N. revert N. vdes. vunf. intros N. f_equal; field; auto. }
    rewrite <- I, Z. unfold solve3. vdes; vunf. f_equal; ring. }
  unfold solve_step. destruct (Req_EM_T _ 0); [reflexivity|contradiction].
Qed.

(** ** Sampling of the motion *)
Lemma rmin_le l m : rmin l = Some m -> (forall r, In r l -> m <= r) /\ In m l.
Proof.
  revert m. induction l as [|x l IH]; intros m; cbn [rmin]; [discriminate|]. destruct (rmin l) as [m'|] eqn:E.
  - intros H. assert (Hm : m = Rmin x m') by congruence. destruct (IH m' eq_refl) as [A B]. subst m. split.
    + intros r [<-|Hr]; [apply Rmin_l|]. eapply Rle_trans; [apply Rmin_r|auto].
    + unfold Rmin. destruct (Rle_dec x m'); [left|right]; auto.
  - intros H. assert (Hm : m = x) by congruence. subst m. destruct l as [|y l]; [|cbn in E; destruct (rmin l); discriminate].
    split; [intros r [<-|[]]; lra|now left].
Qed.
Lemma trunc_floor x : 0 <= x -> INR (trunc_nat x) <= x < INR (trunc_nat x) + 1.
Proof.
  intros H. unfold trunc_nat. destruct (base_Int_part x) as [H1 H2]. assert (0 <= Int_part x)%Z.
  { apply Z.lt_succ_r, lt_IZR. rewrite succ_IZR. lra. }
  rewrite INR_IZR_INZ, Z2Nat.id by auto. lra.
Qed.
Lemma n_samples_bound radii m n : n_samples radii m = Ok n -> exists r N, rmin radii = Some r /\ n = S N /\ (2 <= N)%nat /\
  Rabs (vx (m_trans m) / (r / 2)) < INR N + 1 /\ Rabs (vy (m_trans m) / (r / 2)) < INR N + 1 /\ Rabs (vz (m_trans m) / (r / 2)) < INR N + 1 /\
  m_angle m * (180 / PI) < INR N + 1.
Proof.
  intros H. pose proof (n_samples_ge _ _ _ H) as G. unfold n_samples in H. destruct (rmin radii) as [r|]; [|discriminate]. exists r, (n - 1)%nat.
  split; auto. split; [lia|]. split; [lia|]. cbv zeta in H.
  set (X := Rabs (vx (m_trans m) / (r / 2))) in *. set (Y := Rabs (vy (m_trans m) / (r / 2))) in *. set (Z := Rabs (vz (m_trans m) / (r / 2))) in *. set (W := m_angle m * (180 / PI)) in *.
  set (M := Rmax (Rmax X (Rmax Y Z)) (Rmax W 2)) in *.
  assert (HX : X <= M) by (eapply Rle_trans; [apply (Rmax_l X)|apply Rmax_l]).
  assert (HY : Y <= M) by (eapply Rle_trans; [apply (Rmax_l Y Z)|eapply Rle_trans; [apply (Rmax_r X)|apply Rmax_l]]).
  assert (HZ : Z <= M) by (eapply Rle_trans; [apply (Rmax_r Y Z)|eapply Rle_trans; [apply (Rmax_r X)|apply Rmax_l]]).
  assert (HW : W <= M) by (eapply Rle_trans; [apply (Rmax_l W 2)|apply Rmax_r]).
  assert (H2 : 2 <= M) by (eapply Rle_trans; [apply (Rmax_r W 2)|apply Rmax_r]).
  assert (En : n = trunc_nat (M + 1)) by congruence. pose proof (trunc_floor (M + 1) ltac:(lra)) as T. rewrite <- En in T.
  rewrite minus_INR by lia. cbn [INR]. repeat split; lra.
Qed.
Lemma linspace_step n k t t' : nth_error (linspace01 (S n)) k = Some t -> nth_error (linspace01 (S n)) (S k) = Some t' -> t' - t = / INR n.
Proof.
  intros H1 H2. assert (L : (S k < S n)%nat).
  { assert (Q : nth_error (linspace01 (S n)) (S k) <> None) by congruence. apply nth_error_Some in Q. rewrite linspace_length in Q. exact Q. }
  rewrite (nth_error_nth' _ 0) in H1 by (rewrite linspace_length; lia). rewrite (nth_error_nth' _ 0) in H2 by (rewrite linspace_length; lia).
  rewrite linspace_nth in H1, H2 by lia. replace (S n - 1)%nat with n in * by lia.
  assert (t = INR k / INR n) by congruence. assert (t' = INR (S k) / INR n) by congruence. subst. rewrite S_INR. field.
  apply not_0_INR. lia.
Qed.
(** C27: between two sampled times no coordinate of the translation grows by 3/4 of any radius,
    and the rotation by 1.5 degrees. *)
Lemma pC27_step_bound : forall q vs m centres radii mask ts r k t t',
  candidate_spheres q vs m centres radii = Ok (mask, ts) -> List.length centres = List.length radii ->
  (forall r, In r radii -> 0 < r) -> In r radii -> nth_error ts k = Some t -> nth_error ts (S k) = Some t' ->
  Rabs (vx (m_trans m)) * (t' - t) < 3/4 * r /\ Rabs (vy (m_trans m)) * (t' - t) < 3/4 * r /\ Rabs (vz (m_trans m)) * (t' - t) < 3/4 * r /\
  m_angle m * (t' - t) < 3/2 * (PI / 180).
Proof.
  intros q vs m centres radii mask ts r k t t' H HL Hpos Hr Ht Ht'. destruct (candidate_inv _ _ _ _ _ _ _ H HL) as (inv & n & _ & Hn & -> & _).
  apply n_samples_bound in Hn as (r0 & N & Er & -> & HN & X & Y & Z & W). destruct (rmin_le _ _ Er) as [Hle Hin]. specialize (Hle r Hr). specialize (Hpos r0 Hin).
  rewrite (linspace_step N k t t' Ht Ht'). assert (N2 : 2 <= INR N) by (change 2 with (INR 2); now apply le_INR).
  assert (IN : 0 < / INR N) by (apply Rinv_0_lt_compat; lra). assert (E1 : INR N * / INR N = 1) by (apply Rinv_r; lra).
  assert (B : forall c, Rabs (c / (r0 / 2)) < INR N + 1 -> Rabs c * / INR N < 3/4 * r).
  { intros c Hc. assert (A : Rabs c = Rabs (c / (r0 / 2)) * (r0 / 2)).
    { rewrite <- (Rabs_right (r0 / 2)) at 2 by lra. rewrite <- Rabs_mult. f_equal. field. lra. }
    rewrite A. apply Rlt_le_trans with ((INR N + 1) * (r0 / 2) * / INR N); [apply Rmult_lt_compat_r; auto; apply Rmult_lt_compat_r; lra|].
    assert (/ INR N <= 1/2). { apply Rmult_le_reg_l with (INR N); [lra|]. rewrite E1. lra. }
    replace ((INR N + 1) * (r0 / 2) * / INR N) with (r0 / 2 * (INR N * / INR N + / INR N)) by ring. rewrite E1. nra. }
  repeat split; auto. pose proof PI_RGT_0 as HP.
  assert (A : m_angle m = m_angle m * (180 / PI) * (PI / 180)) by (field; lra). rewrite A.
  apply Rlt_le_trans with ((INR N + 1) * (PI / 180) * / INR N); [apply Rmult_lt_compat_r; auto; apply Rmult_lt_compat_r; lra|].
  assert (/ INR N <= 1/2). { apply Rmult_le_reg_l with (INR N); [lra|]. rewrite E1. lra. }
  replace ((INR N + 1) * (PI / 180) * / INR N) with (PI / 180 * (INR N * / INR N + / INR N)) by ring. rewrite E1. nra.
Qed.
(** C27 finding: the docstring's bounds (half a radius, one degree) do not hold. *)
Lemma pC27_documented_step_refuted : exists m mask ts t t',
  make_motion (V3 0 0 1) (5/2 * (PI / 180)) (V3 (145/100) 0 0) vzero = Ok m /\
  candidate_spheres cube_qhull cube_pts m [vzero] [1] = Ok (mask, ts) /\
  nth_error ts 0 = Some t /\ nth_error ts 1 = Some t' /\
  1 / 2 < vx (m_trans m) * (t' - t) /\ PI / 180 < m_angle m * (t' - t).
Proof.
  pose proof PI_RGT_0 as HP. assert (Wm : 0 < 5/2 * (PI / 180) < PI) by lra.
  pose proof (make_motion_unit (V3 0 0 1) _ (V3 (145/100) 0 0) vzero unit_ez Wm) as Hm.
  set (m := Motion (V3 0 0 1) (5/2 * (PI / 180)) (V3 (145/100) 0 0) vzero) in *.
  pose proof (inverse_ok _ _ _ _ _ Hm) as Hi. set (inv := Motion _ _ _ _) in Hi.
  assert (Hn : n_samples [1] m = Ok 3%nat).
  { unfold n_samples. cbn [rmin]. cbv zeta. cbn [m m_trans m_angle vx vy vz]. f_equal.
    replace (145 / 100 / (1 / 2)) with (29/10) by field. replace (0 / (1 / 2)) with 0 by field. rewrite Rabs_R0, (Rabs_right (29/10)) by lra.
    replace (5 / 2 * (PI / 180) * (180 / PI)) with (5/2) by (field; lra).
    rewrite (Rmax_left 0 0), (Rmax_left (29/10) 0), (Rmax_left (5/2) 2), (Rmax_left (29/10) (5/2)) by lra.
    pose proof (trunc_floor (29/10 + 1) ltac:(lra)) as T. set (k := trunc_nat (29/10+1)) in *.
    assert (A : (k < 4)%nat) by (apply INR_lt; cbn [INR]; lra). assert (B : (2 < k)%nat) by (apply INR_lt; cbn [INR]; lra). lia. }
  assert (Tr : exists mask, traverse (candidate_row cube_qhull cube_pts inv [vzero] [1]) (linspace01 3) = Ok mask).
  { apply traverse_ok. intros x Hx. unfold candidate_row. cbn [cube_qhull qh_eqs bind]. eauto. }
  destruct Tr as (mask & Tr).
  exists m, mask, (linspace01 3), 0, (1/2). split; auto. split.
  { unfold candidate_spheres. rewrite Hi. cbn [bind]. rewrite Hn. cbn [bind length repeat Nat.eqb negb]. rewrite Tr. reflexivity. }
  unfold linspace01. cbn [seq map nth_error Nat.sub INR]. split; [f_equal; field|]. split; [f_equal; field|]. cbn [m m_trans m_angle vx]. split; lra.
Qed.
(** The cube -1<x,y,z<1: an LP answer at the corner (1,1,1), and one in the middle of an edge. *)
Definition cube_corner_lp : lp_solver := fun _ => Some (V3 1 1 1, [0; 2; 0; 2; 0; 2]).
Definition cube_edge_lp : lp_solver := fun _ => Some (V3 1 1 0, [0; 2; 0; 2; 1; 1]).
Lemma cube_answers : lp_answer cube_hs (V3 1 1 1) [0; 2; 0; 2; 0; 2] /\ lp_answer cube_hs (V3 1 1 0) [0; 2; 0; 2; 1; 1].
Proof.
  split; (split; [reflexivity|]); intros i h s H1 H2; do 6 (destruct i as [|i]; [cbn in H1, H2; inversion H1; inversion H2; subst; unfold dot; cbn [vx vy vz hs_n hs_d]; lra|]); destruct i; discriminate.
Qed.
Lemma xC25_repair : exists d, lp_answer cube_hs (V3 1 1 1) [0; 2; 0; 2; 0; 2] /\
  (forall h, In h cube_hs -> unit (hs_n h)) /\ (exists h, In h cube_hs /\ tight (V3 1 1 1) h) /\
  (forall h, In h cube_hs -> tight (V3 1 1 1) h -> dot (hs_n h) d = - / 10^5) /\
  exists p, find_feasible cube_corner_lp solve_step cube_hs = Ok (Some p).
Proof.
  exists (V3 (- / 10^5) (- / 10^5) (- / 10^5)). split; [apply cube_answers|].
  assert (U : forall h, In h cube_hs -> unit (hs_n h)).
  { intros h [<-|[<-|[<-|[<-|[<-|[<-|[]]]]]]]; unfold unit; apply norm_unit; unfold normsq, dot; cbn [vx vy vz hs_n]; ring. }
  assert (T : exists h, In h cube_hs /\ tight (V3 1 1 1) h).
  { exists (HS (V3 1 0 0) (-1)). split; [now left|]. unfold tight, dot; cbn [vx vy vz hs_n hs_d]; ring. }
  assert (D : forall h, In h cube_hs -> tight (V3 1 1 1) h -> dot (hs_n h) (V3 (- / 10^5) (- / 10^5) (- / 10^5)) = - / 10^5).
  { unfold tight. intros h [<-|[<-|[<-|[<-|[<-|[<-|[]]]]]]]; unfold dot; cbn [vx vy vz hs_n hs_d]; lra. }
  split; auto. split; auto. split; auto.
  assert (S : select_zero_slack cube_hs [0; 2; 0; 2; 0; 2] = [HS (V3 1 0 0) (-1); HS (V3 0 1 0) (-1); HS (V3 0 0 1) (-1)]).
  { unfold select_zero_slack, cube_hs. cbn [combine filter snd map fst].
    assert (E0 : Reqb 0 0 = true) by now apply Reqb_true. assert (E2 : Reqb 2 0 = false) by (destruct (Reqb 2 0) eqn:E; auto; apply Reqb_true in E; lra).
    rewrite E0, E2. reflexivity. }
  assert (G : gram [HS (V3 1 0 0) (-1); HS (V3 0 1 0) (-1); HS (V3 0 0 1) (-1)] = mI) by (unfold gram, mI, mzero, madd, vadd, vscale, vzero; cbn [fold_right hs_n vx vy vz r1 r2 r3]; f_equal; f_equal; ring).
  assert (Fe : exists dx, find_feasible cube_corner_lp solve_step cube_hs = (if forallb (fun h => Rltb (hs_val h (vadd (V3 1 1 1) dx)) (- / 10^8)) cube_hs then Ok (Some (vadd (V3 1 1 1) dx)) else Ok None) /\ dx = V3 (- / 10^5) (- / 10^5) (- / 10^5)).
  { exists (solve3 mI (gram_rhs [HS (V3 1 0 0) (-1); HS (V3 0 1 0) (-1); HS (V3 0 0 1) (-1)])). split.
    - unfold find_feasible, cube_corner_lp. rewrite (proj2 (tight_slack _ _ _ (proj1 cube_answers)) T). rewrite S. unfold solve_step at 1. rewrite G.
      destruct (Req_EM_T (det mI) 0) as [E|]; [exfalso; revert E; vunf; lra|]. reflexivity.
    - unfold solve3, gram_rhs. cbn [fold_right hs_n]. vext; vunf; field. }
  destruct Fe as (dx & Fe & ->). rewrite Fe.
  assert (F : forallb (fun h => Rltb (hs_val h (vadd (V3 1 1 1) (V3 (- / 10^5) (- / 10^5) (- / 10^5)))) (- / 10^8)) cube_hs = true).
  { apply forallb_forall. intros h Hh. apply Rltb_true. unfold hs_val. destruct Hh as [<-|[<-|[<-|[<-|[<-|[<-|[]]]]]]]; unfold dot, vadd; cbn [vx vy vz hs_n hs_d]; lra. }
  rewrite F. eauto.
Qed.
Lemma xC25_edge : exists u, lp_answer cube_hs (V3 1 1 0) [0; 2; 0; 2; 1; 1] /\ (exists h, In h cube_hs /\ tight (V3 1 1 0) h) /\ u <> vzero /\
  (forall h, In h cube_hs -> tight (V3 1 1 0) h -> dot (hs_n h) u = 0) /\ find_feasible cube_edge_lp solve_step cube_hs = Err LinAlgError.
Proof.
  exists (V3 0 0 1). split; [apply cube_answers|].
  assert (T : exists h, In h cube_hs /\ tight (V3 1 1 0) h).
  { exists (HS (V3 1 0 0) (-1)). split; [now left|]. unfold tight, dot; cbn [vx vy vz hs_n hs_d]; ring. }
  assert (N : V3 0 0 1 <> vzero) by (intros E; apply (f_equal vz) in E; cbn in E; lra).
  assert (D : forall h, In h cube_hs -> tight (V3 1 1 0) h -> dot (hs_n h) (V3 0 0 1) = 0).
  { unfold tight. intros h [<-|[<-|[<-|[<-|[<-|[<-|[]]]]]]]; unfold dot; cbn [vx vy vz hs_n hs_d]; lra. }
  split; auto. split; auto. split; auto. eapply pC25_edge_raises; eauto; [reflexivity|apply cube_answers].
Qed.
