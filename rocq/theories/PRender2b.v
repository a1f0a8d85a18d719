(** * C38-C40: witnesses and the failure of linearity. *)
From Verif Require Import Vec Spec MMotion MLaue MMesh MStrain MBeam MPolycrystal SPolycrystal MDetector SDetector.
From Verif Require Import MRender SRender PLaue PBeam PDetector PDetector2 PDetector3 PDetector4 PRender PRender2 PRenderEx.
Open Scope R_scope.

Lemma gauss_le_1 s zc yc i j : gauss_at s zc yc i j <= 1.
Proof.
  unfold gauss_at. rewrite <- exp_0. destruct (Req_dec s 0) as [->|Hs].
  - replace (2 * 0 ^ 2) with 0 by ring. unfold Rdiv. rewrite Rinv_0, Rmult_0_r. lra.
  - assert (H2 : 0 < s^2) by (simpl; rewrite Rmult_1_r; destruct (Rdichotomy _ _ Hs); nra).
    set (q := - ((IZR i - zc) ^ 2 + (IZR j - yc) ^ 2) / (2 * s ^ 2)).
    assert (Hq : q <= 0).
    { unfold q, Rdiv. pose proof (pow2_ge_0 (IZR i - zc)). pose proof (pow2_ge_0 (IZR j - yc)).
      apply Rmult_le_reg_r with (2 * s ^ 2); [lra|]. rewrite Rmult_assoc, Rinv_l by lra. lra. }
    destruct Hq as [Hq|Hq]; [left; apply exp_increasing; exact Hq|rewrite Hq; lra].
Qed.
Lemma sum_range_const_le lo n g c : (forall i, g i <= c) -> sum_range lo n g <= INR n * c.
Proof.
  intros H. unfold sum_range. rewrite <- (seq_length n 0) at 2. generalize (seq 0 n). intros l. induction l; cbn [map List.length].
  - rewrite sum_list_nil. simpl. lra.
  - rewrite sum_list_cons, S_INR. specialize (H (lo + Z.of_nat a)%Z). lra.
Qed.
Lemma window_sum_le s R zc yc : gauss_window_sum s R zc yc <= INR (Z.to_nat (2*R+1)) * INR (Z.to_nat (2*R+1)).
Proof.
  unfold gauss_window_sum. cbv zeta. apply sum_range_const_le. intros i.
  replace (INR (Z.to_nat (2*R+1))) with (INR (Z.to_nat (2*R+1)) * 1) by ring. apply sum_range_const_le. intros. apply gauss_le_1.
Qed.
Lemma sqrt_049 : sqrt ((7/10)^2 + 0^2) = 7/10.
Proof. replace ((7/10)^2 + 0^2) with ((7/10)^2) by ring. apply sqrt_pow2. lra. Qed.
Lemma radius_3 : forall d, d_sigma d = 0 -> micro_radius d = 3%Z.
Proof. intros d H. unfold micro_radius, micro_sigma. rewrite H, sqrt_049. rewrite (ztrunc_eq (3 * (7/10)) 2) by (lia || lra). reflexivity. Qed.

(** One peak of strength T at the centre of a 9 x 9 detector. *)
Definition one_spot (T : R) : list spot := [Spot 4 4 (1/2) T 1 0].
Lemma one_spot_good T : 0 < T -> Forall (good_spot (IZR 9 * 1)) (one_spot T).
Proof. intros. repeat constructor; cbn; lra. Qed.

Lemma scaled_spot c T me b : scale_structure_factors c (spot_table (one_spot T) me b) = spot_table (one_spot (c * T)) me b.
Proof. reflexivity. Qed.

Lemma rint_4 : rint (4 / 1) = 4%Z.
Proof.
  pose proof (rint_err (4/1)) as H. replace (4/1) with 4 in * by lra.
  assert (A : IZR 3 < IZR (rint 4) < IZR 5) by (unfold Rabs in H; destruct (Rcase_abs _); lra).
  destruct A as [A B]. apply lt_IZR in A, B. lia.
Qed.

(** Scaling the structure factors does not scale the image: one peak of strength 1 is
    rendered, the same peak scaled by 1e-6 leaves a blank image. *)
Lemma pC40_not_linear_refuted : exists e d pd c im im' out out', built d /\ fresh pd /\ volumes_ok pd /\ 0 < c /\
  render e d pd 1 "micro" None 1 = Ok (im, out) /\ ~ blank im /\
  render e d (scale_structure_factors c pd) 1 "micro" None 1 = Ok (im', out') /\ blank im'.
Proof.
  destruct ex_world as (me & b & _).
  pose (e := ex_env 0 (fun _ => 0) (fun l => seq 0 (List.length l))).
  pose (d := flat 10 1 9 0 (2/100) 2).
  exists e, d, (spot_table (one_spot 1) me b), (/ 10^6). rewrite scaled_spot.
  assert (H6 : 0 < / 10^6) by (apply Rinv_0_lt_compat, pow_lt; lra).
  destruct (pC39_micro_never_fails e d (spot_table (one_spot 1) me b) 1 None 1 (spot_fresh _ _ _)) as (im & out & H).
  destruct (pC39_micro_never_fails e d (spot_table (one_spot (/10^6 * 1)) me b) 1 None 1 (spot_fresh _ _ _)) as (im' & out' & H').
  exists im, im', out, out'.
  assert (V : forall T, volumes_ok (spot_table (one_spot T) me b)) by (intros; apply volumes_spot; repeat constructor; cbn; lra).
  assert (P : forall T, 0 < T -> project (re_z e) d (spot_table (one_spot T) me b) 1 = Ok (projected_table 1 (one_spot T) me b)).
  { intros T HT. apply flat_project; try lra. now apply one_spot_good. }
  split; [apply flat_built; [lra|lia]|]. split; [apply spot_fresh|]. split; auto. split; auto. split; auto. split; [|split; auto].
  - assert (Hi : in_image im 0 4 4).
    { pose proof (micro_inv _ _ _ _ _ _ _ _ H) as [_ Hp]. apply index_put_shape in Hp as (A & B & C).
      cbn in A, B, C. unfold in_image. rewrite A, B, C. repeat split; lia. }
    intros Hb. specialize (Hb _ _ _ Hi). rewrite (pC39_pixel_is_sum_of_spots _ _ _ _ _ _ _ _ _ _ _ (spot_fresh _ _ _) (V 1) H Hi) in Hb.
    apply micro_inv in H as [Ho _]. change (nframes 1) with 1%Z in Ho. rewrite P in Ho by lra. inversion Ho; subst out; clear Ho.
    inversion Hb as [Hb']. clear Hb. revert Hb'.
    assert (E : rows_in_frame (projected_table 1 (one_spot 1) me b) 0 = [spot_out 1 (Spot 4 4 (1/2) 1 1 0)]).
    { unfold rows_in_frame. cbn [projected_table pd_peaks one_spot map filter].
      replace (Reqb _ _) with true; [reflexivity|]. symmetry. apply Reqb_true. reflexivity. }
    rewrite E. cbn [map]. rewrite sum_list_cons, sum_list_nil. unfold micro_spot, gauss_spot. cbv zeta.
    change (read (projected_table 1 (one_spot 1) me b) (spot_out 1 (Spot 4 4 (1/2) 1 1 0)) "zd") with 4.
    change (read (projected_table 1 (one_spot 1) me b) (spot_out 1 (Spot 4 4 (1/2) 1 1 0)) "yd") with 4.
    change (strength (projected_table 1 (one_spot 1) me b) (spot_out 1 (Spot 4 4 (1/2) 1 1 0))) with (1 * 1).
    rewrite radius_3 by reflexivity. change (d_pz d) with 1. change (d_py d) with 1. rewrite rint_4.
    change (Z.of_nat 4) with 4%Z. rewrite Z.sub_diag. cbn [Z.abs Z.leb Z.compare andb].
    pose proof (window_sum_le (micro_sigma d) 3 (4/1) (4/1)) as HW. pose proof (window_sum_pos (micro_sigma d) 3 (4/1) (4/1)) as HP.
    set (W := gauss_window_sum _ _ _ _) in *. clearbody W.
    replace (INR (Z.to_nat (2*3+1))) with 7 in HW by (simpl; lra).
    replace (gauss_at (micro_sigma d) (4/1) (4/1) 4 4) with 1.
    2: { unfold gauss_at. replace (- ((4 - 4/1)^2 + (4-4/1)^2) / (2 * micro_sigma d ^ 2)) with 0; [now rewrite exp_0|]. unfold Rdiv.
         rewrite Rinv_1. ring. }
    assert (E12 : 0 < / 10^12 < 1) by (split; [apply eps12|rewrite <- Rinv_1; apply Rinv_lt_contravar; lra]).
    assert (B1 : / 50 < / (W + / 10^12)) by (apply Rinv_lt_contravar; [apply Rmult_lt_0_compat; lra|lra]).
    assert (B2 : / 10^6 < / 50) by (apply Rinv_lt_contravar; lra).
    replace (Rltb _ _) with true; [|symmetry; apply Rltb_true; lra].
    lra.
  - eapply pC40_weak_peaks_vanish; [| |exact H'|]; auto; [apply spot_fresh|].
    apply micro_inv in H' as [Ho _]. change (nframes 1) with 1%Z in Ho. rewrite P in Ho by lra. inversion Ho; subst out'; clear Ho.
    intros r Hr. cbn in Hr. destruct Hr as [<-|[]].
    change (strength _ _) with (/ 10^6 * 1 * 1). lra.
Qed.
Definition two_spots : list spot := [Spot 4 4 (1/4) 1 1 0; Spot 2 3 (3/4) 5 2 0].
Lemma two_spots_good : Forall (good_spot (IZR 9 * 1)) two_spots.
Proof. repeat constructor; cbn; lra. Qed.
Lemma frame_quarter : frame_of 2 (Fin (1/4)) = 0%Z.
Proof. rewrite frame_of_closed by lia. rewrite (ceil_eq (1/4*2) 1) by lra. reflexivity. Qed.
Lemma frame_three_quarter : frame_of 2 (Fin (3/4)) = 1%Z.
Proof. rewrite frame_of_closed by lia. rewrite (ceil_eq (3/4*2) 2) by lra. reflexivity. Qed.
(** A table with a peak in each of two frames. *)
Lemma xC39_two_frames : exists e d pd im out, built d /\ fresh pd /\ volumes_ok pd /\
  render e d pd 2 "micro" None 1 = Ok (im, out) /\ has_shape im 2 9 9 /\
  List.length (rows_in_frame out 0) = 1%nat /\ List.length (rows_in_frame out 1) = 1%nat.
Proof.
  destruct ex_world as (me & b & _). pose (e := ex_env 0 (fun _ => 0) (fun l => seq 0 (List.length l))).
  pose (d := flat 10 1 9 0 (2/100) 2). exists e, d, (spot_table two_spots me b).
  destruct (pC39_micro_never_fails e d (spot_table two_spots me b) 2 None 1 (spot_fresh _ _ _)) as (im & out & H).
  exists im, out. split; [apply flat_built; [lra|lia]|]. split; [apply spot_fresh|].
  split; [apply volumes_spot; repeat constructor; cbn; lra|]. split; auto.
  apply micro_inv in H as [Ho Hp]. change (nframes 2) with 2%Z in *. split; [apply index_put_shape in Hp; exact Hp|].
  unfold d in Ho. rewrite flat_project in Ho by (try lra; apply two_spots_good). inversion Ho; subst out.
  assert (A : forall f, List.length (rows_in_frame (projected_table 2 two_spots me b) f) =
     ((if Reqb 0 (INR f) then 1 else 0) + (if Reqb 1 (INR f) then 1 else 0))%nat).
  { intros f. unfold rows_in_frame. cbn [projected_table pd_peaks two_spots map filter].
    change (read _ (spot_out 2 (Spot 4 4 (1/4) 1 1 0)) "frame") with (IZR (frame_of 2 (Fin (1/4)))).
    change (read _ (spot_out 2 (Spot 2 3 (3/4) 5 2 0)) "frame") with (IZR (frame_of 2 (Fin (3/4)))).
    rewrite frame_quarter, frame_three_quarter. destruct (Reqb 0 (INR f)), (Reqb 1 (INR f)); reflexivity. }
  rewrite !A. simpl INR.
  replace (Reqb 0 0) with true by (symmetry; now apply Reqb_true). replace (Reqb 1 1) with true by (symmetry; now apply Reqb_true).
  replace (Reqb 1 0) with false by (symmetry; apply Reqb_false; lra). replace (Reqb 0 1) with false by (symmetry; apply Reqb_false; lra).
  auto.
Qed.
(** Two machines with different free memory use different batch sizes. *)
Lemma xC38_machines : Z.of_nat (g_batch_size 0) = 50000%Z /\ Z.of_nat (g_batch_size 1000) = 10000%Z /\
  exists e e' : render_env, re_z e = re_z e' /\ re_free_micro e = 0 /\ re_free_micro e' = 1000.
Proof.
  split; [apply pC38_batch_size_never_adapts; lra|]. split.
  - unfold g_batch_size. cbv zeta. destruct (Rlt_dec 0 1000); [|lra]. rewrite (ztrunc_eq _ 1) by (lia || lra). reflexivity.
  - exists (ex_env 0 (fun x => x) (fun l => seq 0 (List.length l))), (ex_env 1000 (fun x => x) (fun l => seq 0 (List.length l))). auto.
Qed.
(** Weak peaks exist. *)
Lemma xC40_weak : exists e d pd im out r, built d /\ fresh pd /\ volumes_ok pd /\
  render e d pd 1 "micro" None 1 = Ok (im, out) /\ In r (pd_peaks out) /\ 0 < strength out r /\
  (forall r, In r (pd_peaks out) -> strength out r <= / 10^6).
Proof.
  destruct ex_world as (me & b & _). pose (e := ex_env 0 (fun _ => 0) (fun l => seq 0 (List.length l))).
  pose (d := flat 10 1 9 0 (2/100) 2). exists e, d, (spot_table (one_spot (/ 10^6)) me b).
  destruct (pC39_micro_never_fails e d (spot_table (one_spot (/ 10^6)) me b) 1 None 1 (spot_fresh _ _ _)) as (im & out & H).
  exists im, out, (spot_out 1 (Spot 4 4 (1/2) (/ 10^6) 1 0)). split; [apply flat_built; [lra|lia]|]. split; [apply spot_fresh|].
  split; [apply volumes_spot; repeat constructor; cbn; lra|]. split; auto.
  apply micro_inv in H as [Ho _]. change (nframes 1) with 1%Z in Ho. assert (H6 : 0 < / 10^6) by (apply Rinv_0_lt_compat, pow_lt; lra).
  unfold d in Ho. rewrite flat_project in Ho by (try lra; now apply one_spot_good). inversion Ho; subst out.
  split; [left; reflexivity|]. change (strength _ (spot_out 1 (Spot 4 4 (1/2) (/ 10^6) 1 0))) with (/ 10^6 * 1). split; [lra|].
  intros r [<-|[]]. change (strength _ _) with (/ 10^6 * 1). lra.
Qed.
