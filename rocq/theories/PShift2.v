(** * Displacing the sample (C104): the spots on a detector. *)
From Verif Require Import Vec Spec MMotion MLaue MMesh MScattering MStrain MBeam SBeam MPolycrystal SPolycrystal MDetector MClip MRender SRender SFrame SAperture.
From Verif Require Import PMotion PLaue PMesh PBeam PStrain PPolycrystal PPolycrystal2 PPolycrystal3 PDetector PDetector2 PEvents PJoin PJoin2 PFrame PFrame2 PFrame3 PFrame4 PAperture PPass2 PShift.
From Verif Require Import SShift SDetector.
Open Scope list_scope. Open Scope R_scope.
Local Notation len := List.length.

Lemma same_ncol (pd pd2 : peaks_dict) r r2 c k : pd_columns pd = column_names -> pd_columns pd2 = column_names -> len r = 25%nat -> len r2 = 25%nat ->
  index_of c column_names = Some k -> (k < 25)%nat -> field pd2 r2 c = field pd r c -> ncol r2 k = ncol r k.
Proof.
  intros C C2 L L2 Hk Lk. unfold field. rewrite C, C2, Hk. rewrite !nth_error_ncol by lia. congruence.
Qed.
Lemma row_nvec_eq r r2 k : ncol r2 k = ncol r k -> ncol r2 (k+1) = ncol r (k+1) -> ncol r2 (k+2) = ncol r (k+2) -> row_nvec r2 k = row_nvec r k.
Proof. intros A B C. unfold row_nvec. now rewrite A, B, C. Qed.
Lemma dot_shift (N u k : vec) a : dot (vadd u (vscale a k)) N = 0 -> dot u N = - (a * dot k N).
Proof. intros H. vdes. revert H. vunf. lra. Qed.
Lemma dot_sub_add (c o u N : vec) : dot (vsub c (vadd o u)) N = dot (vsub c o) N - dot u N.
Proof. vdes. vunf. ring. Qed.
Lemma svalue_shift d k o u a : dot k (N_of d) <> 0 -> dot (vadd u (vscale a k)) (N_of d) = 0 -> svalue d k (vadd o u) = svalue d k o + a.
Proof. intros Hk H. apply dot_shift in H. unfold svalue. rewrite dot_sub_add, H. field. exact Hk. Qed.
Lemma seen_shift z d k o u a sz sy zd yd b : built d -> rectangular (d_c0 d) (d_c1 d) (d_c2 d) -> dot k (N_of d) <> 0 ->
  vadd u (vscale a k) = vadd (vscale sz (zhat_of d)) (vscale sy (yhat_of d)) -> 0 <= svalue d k (vadd o u) ->
  get_intersection z d (nfin k) (nfin o) = (Fin zd, Fin yd, b) -> get_intersection z d (nfin k) (nfin (vadd o u)) = (Fin (zd + sz), Fin (yd + sy), b).
Proof.
  intros Hb Hr Hk E P. pose proof (N_nonzero d k Hk) as HN. destruct (frame_orthonormal d HN Hr) as (Z & Y & ZY).
  rewrite !intersection_closed by auto. cbv zeta. unfold Rltb. destruct (Rlt_dec (svalue d k (vadd o u)) 0); [lra|].
  destruct (Rlt_dec (svalue d k o) 0); [discriminate|]. intros H. injection H as H1 H2 H3. subst b.
  assert (QN : dot (vadd (vscale sz (zhat_of d)) (vscale sy (yhat_of d))) (N_of d) = 0).
  { unfold zhat_of, yhat_of, N_of, plane_normal. generalize (/ dist (d_c2 d) (d_c0 d)) (/ dist (d_c1 d) (d_c0 d)) (vsub (d_c2 d) (d_c0 d)) (vsub (d_c1 d) (d_c0 d)). intros. vdes. vunf. ring. }
  assert (S : svalue d k (vadd o u) = svalue d k o + a).
  { rewrite <- E in QN. now apply svalue_shift. }
  assert (R : vsub (ray_at (vadd o u) k (svalue d k (vadd o u))) (d_c0 d) = vadd (vsub (ray_at o k (svalue d k o)) (d_c0 d)) (vadd u (vscale a k))).
  { rewrite S. unfold ray_at. generalize (svalue d k o) (d_c0 d). intros. clear. veq. }
  rewrite R, E. clear R S QN E P.
  apply norm_unit in Z, Y. unfold normsq in Z, Y.
  assert (D : forall p q n, dot (vadd p q) n = dot p n + dot q n) by (clear; intros; vdes; vunf; ring).
  rewrite !D, !dot_scale_l, Z, Y, (dot_comm (yhat_of d)), ZY, H1, H2. do 2 f_equal; [f_equal|]; f_equal; ring.
Qed.
Lemma hits_svalue d k o p : hits (d_c0 d) (d_c1 d) (d_c2 d) o k p -> dot k (N_of d) <> 0 /\ 0 <= svalue d k o.
Proof.
  intros (H1 & H2 & (s & Hs & ->)). split; [exact H1|].
  assert (IP : in_plane (d_c0 d) (d_c1 d) (d_c2 d) (ray_at o k s)).
  { destruct H2 as (a & b & _ & _ & ->). unfold in_plane, plane_normal. generalize (d_c0 d) (d_c1 d) (d_c2 d). intros. clear. vdes. vunf. ring. }
  apply ray_plane_unique in IP; [|exact H1]. now rewrite <- IP.
Qed.
Lemma ncol25 r l k : (25 <= k)%nat -> len r = 25%nat -> ncol (r ++ l) k = ncol l (k - 25).
Proof. intros H L. unfold ncol. rewrite app_nth2 by lia. now rewrite L. Qed.
(** C104. On any detector, a spot whose displaced source is in the (second) beam and still hits the detector is found in the second
    projected table: everything but the source point, the number and the place on the detector is the same (incident angle, frame
    and intensity factor included), and the place is shifted by the displacement seen along the diffracted ray. *)
Lemma pC104_spots : forall z z' x v p p2 b b2 m m2 w lo hi pd pd2 d frames out out2 r t k src q,
  moved_sample mI v p p2 -> same_xrays b b2 -> same_turning m m2 -> displacement m m2 v w ->
  fst (diffract z x p b m lo hi None) = Ok pd -> fst (diffract z x p2 b2 m2 lo hi None) = Ok pd2 ->
  built d -> rectangular (d_c0 d) (d_c1 d) (d_c2 d) ->
  project z' d pd frames = Ok out -> project z' d pd2 frames = Ok out2 ->
  In r (pd_peaks out) -> has out r "diffraction_times" t -> has_vec out r "K_out_x" "K_out_y" "K_out_z" k -> source_of out r src ->
  strictly_inside (b_halfspaces b2) (vadd src (w t)) -> hits (d_c0 d) (d_c1 d) (d_c2 d) (vadd src (w t)) k q ->
  exists r2, In r2 (pd_peaks out2) /\
    (forall c, ~ In c ("zd" :: "yd" :: place_columns)%string -> field out2 r2 c = field out r c) /\
    source_of out2 r2 (vadd src (w t)) /\
    forall zd yd sz sy, has out r "zd" zd -> has out r "yd" yd -> seen_as d k (w t) sz sy -> has out2 r2 "zd" (zd + sz) /\ has out2 r2 "yd" (yd + sy).
Proof.
  intros z z' x v p p2 b b2 m m2 w lo hi pd pd2 d frames out out2 r t k src q P X T D D1 D2 Hb Hr P1 P2 Hin Ht Hk Hs HI HH.
  pose proof (pC32_diffract_tables_fresh _ _ _ _ _ _ _ _ _ D1) as F1. pose proof (pC32_diffract_tables_fresh _ _ _ _ _ _ _ _ _ D2) as F2.
  destruct (pC104_same_reflections z x v p p2 b b2 m m2 w lo hi pd pd2 P X T D D1 D2) as (kp & kp2 & K & K2 & F).
  destruct (out_row _ _ _ _ _ _ F1 P1 Hin) as (r0 & zd0 & yd0 & a0 & Hin0 & L0 & Kb & I0 & Er & Co). subst r.
  destruct F1 as (C1 & _). destruct F2 as (C2 & L2). rewrite Forall_forall in L2.
  set (ex := [zd0; yd0; a0; Fin (IZR (frame_of frames (ncol r0 6))); intensity d r0]) in *.
  assert (RF : forall c j, index_of c column_names = Some j -> (j < 25)%nat -> field out (r0 ++ ex) c = field pd r0 c).
  { intros c j Hj Lj. unfold field. rewrite Co, C1, (index_of_app _ _ _ _ Hj), Hj. now rewrite nth_error_app1 by lia. }
  assert (Rt : has pd r0 "diffraction_times" t) by (unfold has; rewrite <- (RF _ 6%nat) by (reflexivity || lia); exact Ht).
  assert (Rk : has_vec pd r0 "K_out_x" "K_out_y" "K_out_z" k).
  { destruct Hk as (A & B & C). unfold has_vec, has. rewrite <- (RF _ 13%nat), <- (RF _ 14%nat), <- (RF _ 15%nat) by (reflexivity || lia). auto. }
  assert (Rs : source_of pd r0 src).
  { destruct Hs as (A & B & C). unfold source_of, has_vec, has. rewrite <- (RF _ 16%nat), <- (RF _ 17%nat), <- (RF _ 18%nat) by (reflexivity || lia). auto. }
  assert (HK : kp r0 = true) by (apply K; [auto|]; exists t, src; auto).
  destruct (Forall2_in_l _ _ _ r0 F) as (r20 & Hin20 & (SF & t' & s' & Ht' & Hs' & Hs2)); [now apply filter_In|].
  apply filter_In in Hin20 as (Hin20 & _). specialize (L2 r20 Hin20).
  assert (t' = t) by (unfold has in *; congruence). subst t'.
  assert (s' = src).
  { destruct Hs' as (A & B & C), Rs as (A' & B' & C'). unfold has in *. apply vec_ext; congruence. } subst s'.
  assert (SN : forall c j, index_of c column_names = Some j -> (j < 25)%nat -> ~ In c place_columns -> ncol r20 j = ncol r0 j).
  { intros c j Hj Lj Nc. eapply (same_ncol pd pd2); eauto. }
  assert (NN : forall (l : list string) c, (if in_dec String.string_dec c l then true else false) = false -> ~ In c l) by (intros l c; destruct (in_dec _ _ _); [discriminate|auto]).
  assert (E13 : row_nvec r20 13 = row_nvec r0 13).
  { apply row_nvec_eq; [apply (SN "K_out_x"%string)|apply (SN "K_out_y"%string)|apply (SN "K_out_z"%string)]; try reflexivity; try lia; apply NN; reflexivity. }
  assert (E6 : ncol r20 6 = ncol r0 6) by (apply (SN "diffraction_times"%string); try reflexivity; try lia; apply NN; reflexivity).
  assert (EI : intensity d r20 = intensity d r0).
  { unfold intensity. rewrite (SN "structure_factors"%string 5%nat), (SN "lorentz_factors"%string 19%nat), (SN "polarization_factors"%string 20%nat); try reflexivity; try lia; apply NN; reflexivity. }
  assert (VK : row_nvec r0 13 = nfin k).
  { destruct Rk as (A & B & C). apply (has_ncol pd r0 _ 13) in A; [|rewrite C1; reflexivity|lia]. apply (has_ncol pd r0 _ 14) in B; [|rewrite C1; reflexivity|lia]. apply (has_ncol pd r0 _ 15) in C; [|rewrite C1; reflexivity|lia].
    unfold row_nvec. cbn [Nat.add]. rewrite A, B, C. reflexivity. }
  assert (VS : forall (g : peaks_dict) y u, pd_columns g = column_names -> len y = 25%nat -> source_of g y u -> row_nvec y 16 = nfin u).
  { intros g y u Cg Ly (A & B & C). apply (has_ncol g y _ 16) in A; [|rewrite Cg; reflexivity|lia]. apply (has_ncol g y _ 17) in B; [|rewrite Cg; reflexivity|lia]. apply (has_ncol g y _ 18) in C; [|rewrite Cg; reflexivity|lia].
    unfold row_nvec. cbn [Nat.add]. rewrite A, B, C. reflexivity. }
  pose proof (VS pd r0 src C1 L0 Rs) as VS0. pose proof (VS pd2 r20 _ C2 L2 Hs2) as VS2.
  destruct (get_intersection z' d (row_nvec r20 13) (row_nvec r20 16)) as [[zd2 yd2] a2] eqn:I2.
  assert (DC : det_contains d zd2 yd2 = true) by (apply (hit_iff _ _ _ _ _ _ _ Hb Hr I2); exists k, (vadd src (w t)), q; rewrite E13; auto).
  destruct (hits_svalue d k _ q HH) as (KN & SV).
  assert (EA : a2 = a0).
  { rewrite E13, VK, VS2, intersection_closed in I2 by auto. cbv zeta in I2. rewrite VK, VS0, intersection_closed in I0 by auto. cbv zeta in I0.
    destruct (Rltb _ _) in I2; destruct (Rltb _ _) in I0; congruence. }
  assert (KB2 : keepb z' d frames r20 = true).
  { rewrite (keepb_fresh z' d frames r20 zd2 yd2 a2) by auto. rewrite (keepb_fresh z' d frames r0 zd0 yd0 a0) in Kb by auto.
    apply andb_true_iff in Kb as (_ & Kb). rewrite DC, EI, Kb. reflexivity. }
  apply project_inv in P2 as (Pk & Co2 & _). rewrite C2 in Co2.
  exists (extend z' d frames r20). split.
  { rewrite Pk. apply in_map. now apply filter_In. }
  rewrite extend_eq by lia. rewrite I2, E6, EI, EA. set (ex2 := [zd2; yd2; a0; Fin (IZR (frame_of frames (ncol r0 6))); intensity d r0]).
  assert (RF2 : forall c j, index_of c column_names = Some j -> (j < 25)%nat -> field out2 (r20 ++ ex2) c = field pd2 r20 c).
  { intros c j Hj Lj. unfold field. rewrite Co2, C2, (index_of_app _ _ _ _ Hj), Hj. now rewrite nth_error_app1 by lia. }
  assert (NX : forall (y e : list num) j, len y = 25%nat -> nth_error (y ++ e) (25 + j) = nth_error e j) by (intros y e j Ly; rewrite nth_error_app2 by lia; f_equal; lia).
  split; [|split].
  - intros c Nc. destruct (index_of c column_names) as [j|] eqn:Ej.
    + pose proof (index_of_nth _ _ _ Ej) as Hj. pose proof (nth_error_lt' _ _ _ Hj) as Lj. change (len column_names) with 25%nat in Lj.
      rewrite (RF c j), (RF2 c j) by auto. apply SF. intros Hc. apply Nc. now right; right.
    + unfold field. rewrite Co, Co2. destruct (index_of c (column_names ++ new_columns)) as [j|] eqn:Ej2; [|reflexivity].
      pose proof (index_of_nth _ _ _ Ej2) as Hj. pose proof (nth_error_lt' _ _ _ Hj) as Lj. change (len (column_names ++ new_columns)) with 30%nat in Lj.
      destruct (lt_dec j 25) as [Hl|Hl].
      { exfalso. rewrite nth_error_app1 in Hj by (change (len column_names) with 25%nat; lia). apply nth_error_In in Hj. 
        clear - Hj Ej. induction column_names as [|a l IH]; [destruct Hj|]. cbn [index_of] in Ej. destruct (String.eqb_spec c a) as [->|N]; [discriminate|].
        destruct Hj as [Hj|Hj]; [congruence|]. destruct (index_of c l); [discriminate|]. now apply IH. }
      replace j with (25 + (j - 25))%nat in * by lia. rewrite !NX by auto. change 25%nat with (len column_names + 0)%nat in Hj at 1.
      assert (j - 25 <> 0 /\ j - 25 <> 1)%nat as (N0 & N1).
      { split; intros E; rewrite E in Hj; cbn in Hj; injection Hj as <-; apply Nc; cbn; tauto. }
      unfold ex, ex2. destruct (j - 25)%nat as [|[|i]]; [congruence|congruence|reflexivity].
  - destruct Hs2 as (A & B & C). unfold source_of, has_vec, has. rewrite (RF2 _ 16%nat), (RF2 _ 17%nat), (RF2 _ 18%nat) by (reflexivity || lia). auto.
  - intros zd yd sz sy Hz Hy (a & Ea).
    assert (IZ : index_of "zd" (column_names ++ new_columns) = Some (25 + 0)%nat) by reflexivity.
    assert (IY : index_of "yd" (column_names ++ new_columns) = Some (25 + 1)%nat) by reflexivity.
    assert (zd0 = Fin zd) by (unfold has, field in Hz; rewrite Co, IZ, NX in Hz by auto; cbn in Hz; congruence). subst zd0.
    assert (yd0 = Fin yd) by (unfold has, field in Hy; rewrite Co, IY, NX in Hy by auto; cbn in Hy; congruence). subst yd0.
    rewrite VK, VS0 in I0. pose proof (seen_shift z' d k src (w t) a sz sy zd yd a0 Hb Hr KN Ea SV I0) as I3.
    rewrite E13, VK, VS2, I3 in I2. assert (zd2 = Fin (zd + sz) /\ yd2 = Fin (yd + sy)) as (-> & ->) by (split; congruence).
    unfold has, field. rewrite Co2, IZ, IY, !NX by auto. split; reflexivity.
Qed.
