(** * Two detectors on the same pixel grid (C96): construction, the rounding exception, an example. *)
From Verif Require Import Vec Spec MMotion MLaue MMesh MScattering MStrain MBeam SBeam MPolycrystal SPolycrystal MDetector MClip MRender SRender SWindow.
From Verif Require Import PMotion PLaue PMesh PBeam PStrain PPolycrystal PPolycrystal2 PPolycrystal3 PDetector PDetector2 PDetector3 PRender PRender2 PRender3 PEvents PEnd2 PJoin2 PFrame PFrame2 PFrame3 PFrame4 PNumber4 PWindow PWindow2 PWindow3.
From Verif Require Import SDetector.
Open Scope list_scope. Open Scope R_scope.

Lemma al_edge c x x2 y u v : vsub (vadd c (vadd (vscale x2 u) (vscale y v))) (vadd c (vadd (vscale x u) (vscale y v))) = vscale (x2 - x) u. Proof. veq. Qed.
Lemma al_edge' c x y2 y u v : vsub (vadd c (vadd (vscale x u) (vscale y2 v))) (vadd c (vadd (vscale x u) (vscale y v))) = vscale (y2 - y) v. Proof. veq. Qed.
(** C96. A detector whose three corners are taken from the surface of a rectangular one, corner 0 at a pixel corner, and that is
    constructed with the same explicit pixel size, is on the same grid. *)
Lemma pC96_built : forall c0 c1 c2 ps sg th mr ul up us d th2 mr2 d2 n k zb yb,
  make_detector c0 c1 c2 None (Some ps) sg th mr ul up us = Ok d -> rectangular c0 c1 c2 -> c2 <> c0 -> c1 <> c0 ->
  IZR n * d_pz d < zb -> IZR k * d_py d < yb ->
  make_detector (surface_point c0 c1 c2 (IZR n * d_pz d) (IZR k * d_py d)) (surface_point c0 c1 c2 (IZR n * d_pz d) yb)
    (surface_point c0 c1 c2 zb (IZR k * d_py d)) None (Some ps) sg th2 mr2 ul up us = Ok d2 -> same_grid n k d d2.
Proof.
  intros c0 c1 c2 ps sg th mr ul up us d th2 mr2 d2 n k zb yb H Rr N2 N1 Hz Hy H2.
  assert (B : built d) by (do 11 eexists; exact H). assert (B2 : built d2) by (do 11 eexists; exact H2).
  set (A := IZR n * d_pz d) in *. set (A' := IZR k * d_py d) in *.
  assert (S : d_pz d = first_of ps /\ d_py d = second_of ps /\ d_pz d2 = first_of ps /\ d_py d2 = second_of ps).
  { apply make_detector_inv in H as (_ & _ & _ & _ & _ & _ & _ & _ & E & _). apply make_detector_inv in H2 as (_ & _ & _ & _ & _ & _ & _ & _ & E2 & _).
    cbn [pixel_sizes] in E, E2. apply ok_inj in E. apply ok_inj in E2. repeat split; congruence. }
  destruct S as (S1 & S2 & S3 & S4).
  assert (FL : d_sigma d2 = d_sigma d /\ d_lorentz d2 = d_lorentz d /\ d_polarization d2 = d_polarization d /\ d_structure d2 = d_structure d).
  { apply make_detector_inv in H. apply make_detector_inv in H2. decompose [and] H. decompose [and] H2. repeat split; congruence. }
  apply make_detector_inv in H as (C0 & C1 & C2 & _). apply make_detector_inv in H2 as (D0 & D1 & D2 & _).
  pose proof (sub_nonzero _ _ N2) as P2. pose proof (sub_nonzero _ _ N1) as P1. fold (dist c2 c0) in P2. fold (dist c1 c0) in P1.
  unfold same_grid. rewrite C0, C1, C2, D0, D1, D2. split; [exact B|]. split; [exact B2|]. split; [exact Rr|]. split; [exact N2|]. split; [exact N1|].
  split; [|split; [reflexivity|split; [congruence|split; [congruence|tauto] ] ] ].
  exists ((zb - A) / dist c2 c0), ((yb - A') / dist c1 c0). split; [apply Rdiv_lt_0_compat; lra|]. split; [apply Rdiv_lt_0_compat; lra|].
  unfold surface_point. rewrite al_edge, al_edge'. split; f_equal; field; lra.
Qed.

(** C96. The exception is real: on every detector, a strong spot exactly halfway between two pixel rows is drawn on different pixels
    when the panel is displaced by one pixel: rounding to the nearest even index moves its window by two pixels or by none. *)
Lemma pC96_odd_offset_refuted : forall d, exists zc yc T i j n, 0 < T /\ halfway zc /\
  gauss_spot (micro_sigma d) (micro_radius d) (zc - IZR n) yc T (i - n) j <> gauss_spot (micro_sigma d) (micro_radius d) zc yc T i j.
Proof.
  intros d. set (s := micro_sigma d). set (R := micro_radius d).
  assert (HR : (3 <= R)%Z) by (unfold R, micro_radius; lia).
  (* zc = 1/2: window rows -R..R; zc - (-1) = 3/2: window rows 2-R..2+R, i.e. 1-R..R+1 in the old numbering *)
  assert (I0 : rint (1/2) = 0%Z).
  { assert (E : Int_part (1/2) = 0%Z) by (apply Int_part_eq; lra). unfold rint. cbv zeta. unfold frac_part. rewrite E. destruct (Rlt_dec _ _); [lra|]. destruct (Rlt_dec _ _); [lra|]. reflexivity. }
  assert (I1 : rint (1/2 - IZR (-1)) = 2%Z).
  { assert (E : Int_part (1/2 - IZR (-1)) = 1%Z) by (apply Int_part_eq; lra). unfold rint. cbv zeta. unfold frac_part. rewrite E. destruct (Rlt_dec _ _); [lra|]. destruct (Rlt_dec _ _); [lra|]. reflexivity. }
  assert (Z0 : rint 0 = 0%Z).
  { assert (E : Int_part 0 = 0%Z) by (apply Int_part_eq; lra). unfold rint. cbv zeta. unfold frac_part. rewrite E. destruct (Rlt_dec _ _) as [|N]; [reflexivity|]. exfalso. apply N. lra. }
  set (i := (R + 1)%Z). set (v := gauss_at s (1/2 - IZR (-1)) 0 (i - -1) 0 / (gauss_window_sum s R (1/2 - IZR (-1)) 0 + / 10^12)).
  assert (V : 0 < v).
  { unfold v. pose proof (window_sum_pos s R (1/2 - IZR (-1)) 0). pose proof eps12. apply Rdiv_lt_0_compat; [apply gauss_at_pos|lra]. }
  exists (1/2), 0, (/ v), i, 0%Z, (-1)%Z. split; [now apply Rinv_0_lt_compat|]. split; [exists 0%Z; lra|].
  unfold gauss_spot. cbv zeta. rewrite I0, I1, Z0. fold v. 
  replace (Z.abs (i - -1 - 2) <=? R)%Z with true by (symmetry; apply Z.leb_le; unfold i; lia).
  replace (Z.abs (i - 0) <=? R)%Z with false by (symmetry; apply Z.leb_gt; unfold i; lia).
  replace (Z.abs (0 - 0) <=? R)%Z with true by (symmetry; apply Z.leb_le; lia). cbn [andb].
  replace (v * / v) with 1 by (field; lra). destruct (Rltb (/ 10 ^ 6) 1) eqn:E; [lra|]. apply Rltb_false in E. lra.
Qed.

(** ** Non-vacuity *)
(** A 10 x 10 panel and the 7 x 7 part of it that starts at pixel (2, 2), both exposed to the same non-empty table. *)
Lemma xC96_part : exists e d d2 z x p b m lo hi pd im out im2 out2,
  same_grid 2 2 d d2 /\ part_of 2 2 d d2 /\ reachable_pc x p /\ fst (diffract z x p b m lo hi None) = Ok pd /\ pd_peaks pd <> [] /\
  render e d pd 1 "micro" None 1 = Ok (im, out) /\ render e d2 pd 1 "micro" None 1 = Ok (im2, out2) /\ no_ties 2 2 d out /\
  d_nz d = 10%nat /\ d_nz d2 = 7%nat /\ d_ny d2 = 7%nat.
Proof.
  destruct big_beam as (b & Hb & Hk & Hin). destruct (ex_pc two_planes) as (me & p & H1 & H2 & H3 & H4 & H5 & H6 & H7 & H8 & H9 & H10).
  pose proof (ex_outcome two_planes me p b Hk H3 H4 H5 H6 H7 H8) as O.
  destruct (diffract false (ex_xtal two_planes) p b ex_motion 0 1 None) as [r p'] eqn:D. destruct O as (_ & O & Oph).
  destruct O as (pd & ->). { cbn [map two_planes list_sum fold_right]. now rewrite refl_pos, refl_neg. }
  assert (NE : pd_peaks pd <> []).
  { assert (Ic : nth_error (me_espherecentroids (pc_mesh_lab p)) 0 = Some (V3 7 1 (9/4))) by (rewrite H8, H9; reflexivity).
    assert (Hin' : forall v, -10 < vx v < 10 -> -10 < vy v < 10 -> -10 < vz v < 10 -> strictly_inside (b_halfspaces b) v) by (intros v Q1 Q2 Q3; apply Hin; apply Rabs_def1; lra).
    exact (ex_rows p b p' pd Hk Hin' H3 H4 H6 H7 Ic D Oph). }
  assert (D0 : fst (diffract false (ex_xtal two_planes) p b ex_motion 0 1 None) = Ok pd) by now rewrite D.
  set (c0 := V3 0 10 0). set (c1 := V3 10 10 0). set (c2 := V3 0 10 10).
  assert (E1 : norm (vsub c2 c0) = 10) by (apply norm_sqrt_eq; unfold c2, c0; vunf; [lra|ring]).
  assert (E2 : norm (vsub c1 c0) = 10) by (apply norm_sqrt_eq; unfold c1, c0; vunf; [lra|ring]).
  assert (A : forall q, (1 <= q)%Z -> arange_len (IZR q) 1 = Ok (Z.to_nat q)).
  { intros q Hq. unfold arange_len. destruct (Req_EM_T 1 0); [lra|]. replace (Rltb 1 0) with false by (symmetry; apply Rltb_false; lra).
    cbn [andb]. f_equal. rewrite (ceil_eq (IZR q / 1) q); [reflexivity|]. unfold Rdiv. rewrite Rinv_1, Rmult_1_r. lra. }
  assert (M : exists d, make_detector c0 c1 c2 None (Some (Single 1)) 1 (1/10) 5 false false true = Ok d /\ d_pz d = 1 /\ d_py d = 1 /\ d_nz d = 10%nat /\ d_zmax d = 10 /\ d_ymax d = 10).
  { unfold make_detector. cbv zeta. rewrite E1, E2. cbn [pixel_sizes bind first_of second_of fst snd]. rewrite (A 10%Z) by lia. cbn [bind]. eexists. split; [reflexivity|]. cbn. repeat split. }
  destruct M as (d & Hd & Pz & Py & Nz & Zm & Ym).
  assert (SP : forall zd yd, surface_point c0 c1 c2 zd yd = V3 yd 10 zd).
  { intros zd yd. unfold surface_point, dist. rewrite E1, E2. unfold c0, c1, c2. vunf. cbn. f_equal; field. }
  assert (F1 : norm (vsub (V3 2 10 9) (V3 2 10 2)) = 7) by (apply norm_sqrt_eq; vunf; [lra|ring]).
  assert (F2 : norm (vsub (V3 9 10 2) (V3 2 10 2)) = 7) by (apply norm_sqrt_eq; vunf; [lra|ring]).
  assert (M : exists d2, make_detector (V3 2 10 2) (V3 9 10 2) (V3 2 10 9) None (Some (Single 1)) 1 (1/10) 5 false false true = Ok d2 /\ d_nz d2 = 7%nat /\ d_ny d2 = 7%nat /\ d_zmax d2 = 7 /\ d_ymax d2 = 7).
  { unfold make_detector. cbv zeta. rewrite F1, F2. cbn [pixel_sizes bind first_of second_of fst snd]. rewrite (A 7%Z) by lia. cbn [bind]. eexists. split; [reflexivity|]. cbn. repeat split. }
  destruct M as (d2 & Hd2 & Nz2 & Ny2 & Zm2 & Ym2).
  assert (G : same_grid 2 2 d d2).
  { apply (pC96_built c0 c1 c2 (Single 1) 1 (1/10) 5%Z false false true d (1/10) 5%Z d2 2 2 9 9 Hd).
    - unfold rectangular, c0, c1, c2. vunf. cbn. ring.
    - intros E. apply (f_equal vz) in E. cbn in E. lra.
    - intros E. apply (f_equal vx) in E. cbn in E. lra.
    - rewrite Pz. lra.
    - rewrite Py. lra.
    - rewrite !SP, Pz, Py, !Rmult_1_r. exact Hd2. }
  set (e := REnv false 1 1 (fun _ => 0) (fun _ => []) big_qhull (fun _ => None) (fun _ => Err ValueError) (fun _ _ => Err ValueError) (fun _ _ _ => [])).
  assert (Hf : fresh pd) by (eapply pC32_diffract_tables_fresh; exact D0).
  destruct (pC39_micro_never_fails e d pd 1%Z None 1 Hf) as (im & out & HI).
  destruct (pC39_micro_never_fails e d2 pd 1%Z None 1 Hf) as (im2 & out2 & HI2).
  exists e, d, d2, false, (ex_xtal two_planes), p, b, ex_motion, 0, 1, pd, im, out, im2, out2.
  split; [exact G|]. split; [unfold part_of; rewrite Pz, Py, Zm, Ym, Zm2, Ym2; repeat split; lra || lia|]. split; [exact H3|]. split; [exact D0|]. split; [exact NE|].
  split; [exact HI|]. split; [exact HI2|]. split; [split; left; reflexivity|]. auto.
Qed.
