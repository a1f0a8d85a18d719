(** * Concrete thickness profiles: a tetrahedron fully, and one partly, on the detector (C73, C79). *)
From Verif Require Import Vec Spec MMotion MLaue MMesh MStrain MBeam SBeam MPolycrystal SPolycrystal MDetector SDetector MClip SClip.
From Verif Require Import MRender SRender SMacro SProfile PLaue PBeam PScattering PPolycrystal3 PDetector PDetector2 PDetector3 PDetector4 PClip PRender PRender2 PRender2b PRenderEx PRender3 PKernel2 PKernel3 PMacro PMacroEx PProfile.
Open Scope R_scope.
Local Notation len := List.length.

(** A tetrahedron of volume 18 standing on the plane x = 0, shifted by s along y. *)
Definition py_corners (s : R) : list vec := [V3 0 (6 + s) 6; V3 0 (6 + s) 0; V3 0 s 6; V3 3 (15/4 + s) (15/4)].
Definition py_faces (s : R) : list halfspace :=
  [HS (V3 (-1) 0 0) 0; HS (V3 (3/5) (4/5) 0) (- (24 + 4 * s) / 5); HS (V3 (3/5) 0 (4/5)) (- (24/5)); HS (V3 (1/3) (- (2/3)) (- (2/3))) ((12 + 2 * s) / 3)].
Definition py_hull (s : R) : hull := Hull (py_corners s) (py_faces s) 18.
Definition py_top (s y h : R) : R := Rmin (Rmin ((24 - 4 * (y - s)) / 3) ((24 - 4 * h) / 3)) (2 * (y - s) + 2 * h - 12).
Definition py_T (s : R) (i j : Z) : R := cut_off (py_top s (IZR j) (IZR i)).
Lemma py_unit s : unit_normals (py_faces s).
Proof. intros h Hh. cbn in Hh. destruct Hh as [<-|[<-|[<-|[<-|[]]]]]; cbn [hs_n]; apply norm_sqrt_eq; vunf; lra. Qed.
Lemma py_parallel s h : In h (py_faces s) -> dot (hs_n h) (V3 1 0 0) <> 0.
Proof. intros Hh. cbn in Hh. destruct Hh as [<-|[<-|[<-|[<-|[]]]]]; intros C; revert C; cbn [hs_n]; vunf; lra. Qed.
Lemma py_length s y h : exists L, length_inside (py_faces s) (V3 10 y h) (V3 1 0 0) L /\ cut_off (py_top s y h) = cut_off L.
Proof.
  assert (Q : forall t, in_halfspaces (py_faces s) (on_line (V3 10 y h) (V3 1 0 0) t) <-> -10 <= t <= -10 + py_top s y h).
  { intros t. unfold on_line, py_top. split.
    - intros H. pose proof (H _ (or_introl eq_refl)) as A. pose proof (H _ (or_intror (or_introl eq_refl))) as B.
      pose proof (H _ (or_intror (or_intror (or_introl eq_refl)))) as C. pose proof (H _ (or_intror (or_intror (or_intror (or_introl eq_refl))))) as D.
      revert A B C D. clear. cbn [hs_n hs_d]. vunf. intros A B C D. split; [lra|].
      assert (10 + t <= Rmin (Rmin ((24 - 4 * (y - s)) / 3) ((24 - 4 * h) / 3)) (2 * (y - s) + 2 * h - 12)); [|lra].
      apply Rmin_glb; [apply Rmin_glb|]; lra.
    - intros [A B] f Hf. pose proof (Rmin_l (Rmin ((24 - 4 * (y - s)) / 3) ((24 - 4 * h) / 3)) (2 * (y - s) + 2 * h - 12)) as M1.
      pose proof (Rmin_r (Rmin ((24 - 4 * (y - s)) / 3) ((24 - 4 * h) / 3)) (2 * (y - s) + 2 * h - 12)) as M2.
      pose proof (Rmin_l ((24 - 4 * (y - s)) / 3) ((24 - 4 * h) / 3)) as M3. pose proof (Rmin_r ((24 - 4 * (y - s)) / 3) ((24 - 4 * h) / 3)) as M4.
      cbn in Hf. destruct Hf as [<-|[<-|[<-|[<-|[]]]]]; cbn [hs_n hs_d]; vunf; lra. }
  destruct (Rle_dec 0 (py_top s y h)) as [P|P].
  - exists (py_top s y h). split; auto. left. exists (-10), (-10 + py_top s y h). split; [exact Q|]. split; lra.
  - exists 0. split.
    + right. split; auto. intros t Ht. apply Q in Ht. lra.
    + assert (0 < / 10^12) by (apply Rinv_0_lt_compat; lra). unfold cut_off. destruct (Rlt_dec _ _), (Rlt_dec _ _); lra.
Qed.
Lemma py_inside s b : -20 <= s <= 20 -> (forall p, Rabs (vx p) < 50 -> Rabs (vy p) < 50 -> Rabs (vz p) < 50 -> strictly_inside (b_halfspaces b) p) ->
  forall q lp lsq, beam_intersect q lp lsq (b_halfspaces b) (py_corners s) = Ok WholeBody.
Proof.
  intros Hs Hin q lp lsq. unfold beam_intersect.
  assert (F : forallb (fun b => b) (beam_contains_batch (b_halfspaces b) (py_corners s)) = true).
  { unfold beam_contains_batch, py_corners. cbn [map forallb]. 
    repeat (apply andb_true_iff; split); try reflexivity; apply pC23_contains_strict, Hin; vunf; unfold Rabs; destruct (Rcase_abs _); lra. }
  now rewrite F.
Qed.
Lemma flat_corner D p N sg th mr i j : 0 < p -> pixel_corner (flat D p N sg th mr) i j = V3 D (IZR j * p) (IZR i * p).
Proof.
  intros Hp. unfold pixel_corner, surface_point. cbn [flat d_c0 d_c1 d_c2 d_pz d_py]. pose proof (IZR_pos_pos N) as HN. set (L := IZR (Zpos N) * p).
  assert (HL : 0 < L) by (apply Rmult_lt_0_compat; auto).
  assert (D1 : dist (V3 D 0 L) (V3 D 0 0) = L) by (unfold dist; apply norm_sqrt_eq; vunf; [lra|ring]).
  assert (D2 : dist (V3 D L 0) (V3 D 0 0) = L) by (unfold dist; apply norm_sqrt_eq; vunf; [lra|ring]).
  rewrite D1, D2. vext; vunf; try field; lra.
Qed.
Definition py_box0 := Box 0 7 0 7.
Definition py_box3 := Box 0 7 0 4.
(** The tetrahedron at shift 0 covers 7 x 7 pixels; at shift -3, 7 x 4 pixels and half of it
    misses the detector. *)
Lemma py_render s B : (s = 0 /\ B = py_box0) \/ (s = -3 /\ B = py_box3) ->
  exists d pd, built d /\ fresh pd /\ 0 < d_zmax d /\ 0 < d_ymax d /\ non_collinear (d_c0 d) (d_c1 d) (d_c2 d) /\ d_sigma d <> 0 /\ d_max_radius d = 0%Z /\ 
  d_c0 d = V3 10 0 0 /\ d_c1 d = V3 10 9 0 /\ d_c2 d = V3 10 0 9 /\ d_pz d = 1 /\ d_py d = 1 /\ d_nz d = 9%nat /\ d_ny d = 9%nat /\
  forall e, re_hull e (py_corners s) WholeBody = Ok (py_hull s) ->
  exists im out r, render e d pd 1 "macro" None 1 = Ok (im, out) /\ pd_peaks out = [r] /\ read out r "frame" = INR 0 /\ read out r "intensity_factors" = 1 /\
    kout_of out r = V3 1 0 0 /\ element_corners out r (py_corners s) /\
    profiled e d out r 18 B (py_T s) /\ lit_part e out r (py_hull s) /\ footprint e d out r (py_hull s) (bx_r0 B) (bx_r1 B) (bx_c0 B) (bx_c1 B) /\
    some_ray_hits e d out 0 r (py_hull s) (bx_r0 B) (bx_r1 B) (bx_c0 B) (bx_c1 B).
Proof.
  intros HsB. assert (Hs : -20 <= s <= 20) by (destruct HsB as [[-> _]|[-> _]]; lra).
  destruct big_beam as (b & _ & _ & Hin).
  destruct (tet_world (V3 0 (6 + s) 6) (V3 0 (6 + s) 0) (V3 0 s 6) (V3 3 (15/4 + s) (15/4))) as (me & _ & Hc & He).
  { unfold tet_A. cbn [q0 q1 q2 q3]. vunf. intros C. ring_simplify in C. lra. }
  set (d := flat 10 1 9 1 (2/100) 0). set (pd := spot_table (lone 1 4 18) me b). set (out := projected_table 1 (lone 1 4 18) me b). set (r := spot_out 1 (Spot 1 4 0 1 18 0)).
  exists d, pd. assert (Hb : built d) by (apply flat_built; [lra|lia]). split; [exact Hb|].
  assert (Hf : fresh pd) by apply spot_fresh. split; [exact Hf|]. split; [cbn; lra|]. split; [cbn; lra|].
  assert (HN : non_collinear (d_c0 d) (d_c1 d) (d_c2 d)).
  { unfold non_collinear, plane_normal. cbn [d flat d_c0 d_c1 d_c2]. intros C. apply (f_equal vx) in C. revert C. vunf. lra. }
  split; [exact HN|]. split; [cbn; lra|]. split; [reflexivity|]. 
  split; [cbn; vext; vunf; lra|]. split; [cbn; vext; vunf; lra|]. split; [cbn; vext; vunf; lra|]. split; [reflexivity|]. split; [reflexivity|]. split; [reflexivity|]. split; [reflexivity|].
  intros e Hh.
  pose proof (py_inside s b Hs Hin (re_qhull e) (re_lp e) (re_lsq e)) as HB.
  assert (HL : lit_part e out r (py_hull s)) by (apply (lone_lit me b 1 4 18 1 (py_corners s)); auto).
  assert (HF : footprint e d out r (py_hull s) (bx_r0 B) (bx_r1 B) (bx_c0 B) (bx_c1 B)).
  { unfold footprint. change (kout_of out r) with (V3 1 0 0). unfold projected_box. cbn [py_hull h_corners py_corners map]. unfold d.
    rewrite !flat_hit_from by lra. cbv zeta. cbn [map fst snd]. unfold range_of. cbn [filter nonnan fold_left]. unfold nmin2, nmax2. cbn [nlt].
    repeat (match goal with |- context[nlt (Fin ?x) (Fin ?y)] => change (nlt (Fin x) (Fin y)) with (Rltb x y) end || (progress (rlt; cbv iota))).
    destruct HsB as [[-> ->]|[-> ->]];
    (cbn [flat d_zmax d_ymax d_pz d_py]; unfold clip_axis, nmax2, nmin2; cbn [fst snd nlt]; rlt; cbv iota; rlt; cbv iota; unfold axis_box; cbn [fst snd]).
    - rewrite (ztrunc_eq (0/1) 0), (ztrunc_eq (6/1) 6), (ztrunc_eq (9 * 1 / 1) 9) by (lia || lra). rewrite ?(ztrunc_eq ((6 + 0) / 1) 6), ?(ztrunc_eq (0/1) 0) by (lia || lra). reflexivity.
    - rewrite (ztrunc_eq (0/1) 0), (ztrunc_eq (6/1) 6), (ztrunc_eq (9 * 1 / 1) 9) by (lia || lra). rewrite ?(ztrunc_eq ((6 + -3) / 1) 3), ?(ztrunc_eq (0/1) 0) by (lia || lra). reflexivity. }
  assert (ED : ray_dir out r = V3 1 0 0).
  { unfold ray_dir. change (kout_of out r) with (V3 1 0 0). rewrite (norm_sqrt_eq (V3 1 0 0) 1) by (vunf; lra). unfold vdiv. cbn. vext; cbn; lra. }
  assert (HT : forall i j, exists L, length_inside (py_faces s) (pixel_corner d i j) (ray_dir out r) L /\ py_T s i j = cut_off L).
  { intros i j. rewrite ED. unfold d. rewrite flat_corner by lra. rewrite !Rmult_1_r. apply py_length. }
  assert (HP : exists i j, box_has B (Z.of_nat i) (Z.of_nat j) = true /\ 0 < py_T s (Z.of_nat i) (Z.of_nat j)).
  { assert (P8 : / 10^12 < 8/3) by (apply Rlt_trans with 1; [rewrite <- Rinv_1; apply Rinv_lt_contravar; lra|lra]).
    destruct HsB as [[-> ->]|[-> ->]].
    - exists 4%nat, 4%nat. split; [reflexivity|]. unfold py_T, py_top. change (IZR (Z.of_nat 4)) with 4.
      replace (Rmin (Rmin ((24 - 4 * (4 - 0)) / 3) ((24 - 4 * 4) / 3)) (2 * (4 - 0) + 2 * 4 - 12)) with (8/3).
      + unfold cut_off. destruct (Rlt_dec _ _); lra.
      + rewrite (Rmin_left ((24 - 4 * (4 - 0)) / 3)) by lra. rewrite Rmin_left by lra. lra.
    - exists 4%nat, 1%nat. split; [reflexivity|]. unfold py_T, py_top. change (IZR (Z.of_nat 4)) with 4. change (IZR (Z.of_nat 1)) with 1.
      replace (Rmin (Rmin ((24 - 4 * (1 - -3)) / 3) ((24 - 4 * 4) / 3)) (2 * (1 - -3) + 2 * 4 - 12)) with (8/3).
      + unfold cut_off. destruct (Rlt_dec _ _); lra.
      + rewrite (Rmin_left ((24 - 4 * (1 - -3)) / 3)) by lra. rewrite Rmin_left by lra. lra. }
  assert (H4 : (4 < (bx_r1 B - bx_r0 B) * (bx_c1 B - bx_c0 B))%Z) by (destruct HsB as [[_ ->]|[_ ->]]; cbn; lia).
  pose proof (lone_macro_ok me b 1 4 18 1 9 1 (2/100) 0 e (py_hull s) _ _ _ _ ltac:(lra) ltac:(lia) ltac:(lra) ltac:(lra) HL HF) as HR.
  unfold project_hull in HR at 1. cbv zeta in HR.
  destruct (Z.eqb_spec ((bx_r1 B - bx_r0 B) * (bx_c1 B - bx_c0 B)) 1); [lia|]. destruct (Z.leb_spec ((bx_r1 B - bx_r0 B) * (bx_c1 B - bx_c0 B)) 4); [lia|].
  destruct HR as (im & HR). exists im, out, r. split; [exact HR|]. split; [reflexivity|]. split; [reflexivity|]. split; [reflexivity|]. split; [reflexivity|].
  assert (EC : element_corners out r (py_corners s)).
  { destruct HL as (vs & it & EC & _). revert EC. intros (el & t & A1 & A2 & A3). exists (0,1,2,3)%nat, (Tet (V3 0 (6 + s) 6) (V3 0 (6 + s) 0) (V3 0 s 6) (V3 3 (15/4 + s) (15/4))).
    unfold out. cbn [projected_table pd_mesh pd_motion]. rewrite He, Hc.
    change (read _ _ "grain_index") with 0. change (read _ _ "diffraction_times") with 0.
    split; [now rewrite (ztrunc_eq 0 0) by (lia || lra)|]. split; [reflexivity|]. cbn [tet_list map q0 q1 q2 q3]. now rewrite !move_start. }
  split; [exact EC|]. split; [|split; [exact HL|split; [exact HF|]]].
  - exists (py_hull s). split; [exact HL|]. split; [reflexivity|]. split; [exact HF|]. split; [exact H4|]. split; [apply py_unit|].
    split; [rewrite ED; apply py_parallel|]. split; [intros; apply HT|]. destruct HP as (i & j & A & C). eauto.
  - destruct HP as (i & j & A & C). exists (pixel_corner d (Z.of_nat i) (Z.of_nat j)). split.
    + unfold ray_points. cbv zeta. destruct (Z.leb_spec ((bx_r1 B - bx_r0 B) * (bx_c1 B - bx_c0 B)) 4); [lia|]. exists i, j. split.
      * unfold box_has in A. apply andb_true_iff in A as [A B4]. apply andb_true_iff in A as [A B3]. apply andb_true_iff in A as [B1 B2].
        apply Z.leb_le in B1, B3. apply Z.ltb_lt in B2, B4. split; lia.
      * now apply pixel_corner_coordinate.
    + destruct (HT (Z.of_nat i) (Z.of_nat j)) as (L & HLn & EL). rewrite ED in *. change (h_eqs (py_hull s)) with (py_faces s). rewrite (pC48_hull_length _ _ _ L (py_unit s) (py_parallel s) HLn).
      rewrite EL in C. unfold cut_off in C. unfold Rltb. destruct (Rlt_dec _ _); lra.
Qed.
Lemma xC79_profile : exists d pd, built d /\ fresh pd /\ 0 < d_zmax d /\ 0 < d_ymax d /\ non_collinear (d_c0 d) (d_c1 d) (d_c2 d) /\ d_sigma d <> 0 /\ d_max_radius d = 0%Z /\
  forall e, re_hull e (py_corners 0) WholeBody = Ok (py_hull 0) ->
  exists im out r, render e d pd 1 "macro" None 1 = Ok (im, out) /\ pd_peaks out = [r] /\ read out r "frame" = INR 0 /\
    profiled e d out r 18 py_box0 (py_T 0) /\ f_at im 0 4 4 = Fin (18 * ((8/3) / box_sum py_box0 (py_T 0))).
Proof.
  destruct (py_render 0 py_box0 (or_introl (conj eq_refl eq_refl))) as (d & pd & Hb & Hf & Pz & Py & HN & Hs & Hm & _ & _ & _ & Ez & Ey & Nz & Ny & HR).
  exists d, pd. repeat (split; [assumption|]). intros e Hh. destruct (HR e Hh) as (im & out & r & H & Ho & Hfr & HI & _ & _ & HP & _).
  exists im, out, r. repeat (split; [assumption|]).
  rewrite (pC79_unblurred e d pd 1 None 1 im out 0 (fun _ => 18) (fun _ => py_box0) (fun _ => py_T 0)); auto; try lia.
  - rewrite Ho. cbn [numbered List.length seq combine map fst snd]. rewrite sum_list_cons, sum_list_nil. 
    replace (Reqb (read out r "frame") (INR 0)) with true by (symmetry; now apply Reqb_true).
    unfold thickness_share. change (box_has py_box0 (Z.of_nat 4) (Z.of_nat 4)) with true. cbv iota. rewrite HI, Ez, Ey.
    replace (py_T 0 (Z.of_nat 4) (Z.of_nat 4)) with (8/3); [f_equal; ring|].
    unfold py_T, py_top. change (IZR (Z.of_nat 4)) with 4. rewrite (Rmin_left ((24 - 4 * (4 - 0)) / 3)) by lra. rewrite Rmin_left by lra.
    assert (P8 : / 10^12 < 8/3) by (apply Rlt_trans with 1; [rewrite <- Rinv_1; apply Rinv_lt_contravar; lra|lra]).
    unfold cut_off. destruct (Rlt_dec _ _); lra.
  - exists r. split; auto. rewrite Ho. now left.
  - intros k r' Hr' _. rewrite Ho in Hr'. destruct k as [|k]; [|destruct k; discriminate]. cbn in Hr'. inversion Hr'; subst r'. exact HP.
Qed.
(** Half of the tetrahedron misses the detector, yet the frame holds intensity times the whole
    lit volume times the pixel area. *)
Lemma pC73_visible_share_refuted : exists d pd, built d /\ fresh pd /\ d_sigma d <> 0 /\ d_max_radius d = 0%Z /\
  forall e, re_hull e (py_corners (-3)) WholeBody = Ok (py_hull (-3)) ->
  exists im out r, render e d pd 1 "macro" None 1 = Ok (im, out) /\ pd_peaks out = [r] /\ element_corners out r (py_corners (-3)) /\
    frame_total im 0 = Fin (read out r "intensity_factors" * 18 * (d_pz d * d_py d)) /\ read out r "intensity_factors" = 1 /\
    (exists c, In c (py_corners (-3)) /\ (forall p, ~ hits (d_c0 d) (d_c1 d) (d_c2 d) c (kout_of out r) p)) /\
    (exists c p, In c (py_corners (-3)) /\ hits (d_c0 d) (d_c1 d) (d_c2 d) c (kout_of out r) p).
Proof.
  destruct (py_render (-3) py_box3 (or_intror (conj eq_refl eq_refl))) as (d & pd & Hb & Hf & Pz & Py & HN & Hs & Hm & C0 & C1 & C2 & Ez & Ey & Nz & Ny & HR).
  exists d, pd. repeat (split; [assumption|]). intros e Hh. destruct (HR e Hh) as (im & out & r & H & Ho & Hfr & HI & HK & EC & HP & HL & HF & HS).
  exists im, out, r. repeat (split; [assumption|]). split; [|split; [exact HI|split]].
  - rewrite (pC73_full_weight e d pd 1 None 1 im out 0 (fun _ => 18)); auto.
    + rewrite Ho. cbn [numbered List.length seq combine map fst snd]. rewrite sum_list_cons, sum_list_nil. 
      replace (Reqb (read out r "frame") (INR 0)) with true by (symmetry; now apply Reqb_true). f_equal. ring.
    + exists r. split; auto. rewrite Ho. now left.
    + intros k r' Hr' _. rewrite Ho in Hr'. destruct k as [|k]; [|destruct k; discriminate]. cbn in Hr'. inversion Hr'; subst r'.
      exists (py_hull (-3)), (bx_r0 py_box3), (bx_r1 py_box3), (bx_c0 py_box3), (bx_c1 py_box3). split; [exact HL|]. split; [reflexivity|]. split; [exact HF|].
      split; [cbn; lia|]. split; [cbn; lia|]. right. exact HS.
  - exists (V3 0 (-3) 6). split; [cbn; tauto|]. rewrite C0, C1, C2, HK. intros p (_ & (a & b & Ha & Hb' & E1) & s & Hs' & E2). rewrite E2 in E1.
    apply (f_equal vy) in E1. revert E1. unfold ray_at. vunf. nra.
  - exists (V3 0 (6 + -3) 6), (V3 10 (6 + -3) 6). split; [cbn; tauto|]. rewrite C0, C1, C2, HK. split; [|split].
    + unfold plane_normal. vunf. lra.
    + exists (2/3), (1/3). split; [lra|]. split; [lra|]. vext; vunf; lra.
    + exists 10. split; [lra|]. unfold ray_at. vext; vunf; lra.
Qed.
