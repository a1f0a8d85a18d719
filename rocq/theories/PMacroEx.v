(** * A concrete element rendered by macro: pixel-area factor and sample-driven borders (C47, C71). *)
From Verif Require Import Vec Spec MMotion MLaue MMesh MStrain MBeam SBeam MPolycrystal SPolycrystal MDetector SDetector MClip SClip.
From Verif Require Import MRender SRender SMacro PLaue PBeam PScattering PPolycrystal3 PDetector PDetector2 PDetector3 PDetector4 PClip PRender PRender2 PRender2b PRenderEx PRender3 PKernel2 PKernel3 PMacro.
Open Scope R_scope.
Local Notation len := List.length.

Lemma flat_hit_from z D p N sg th mr x y h : x < D -> 0 < p ->
  get_intersection z (flat D p N sg th mr) (nfin (V3 1 0 0)) (nfin (V3 x y h)) = (Fin h, Fin y, Fin 0).
Proof.
  intros HD Hp. change (get_intersection z (flat D p N sg th mr)) with (get_intersection z (flat D p N sg th 0)). set (d := flat D p N sg th 0). pose proof (IZR_pos_pos N) as HN. set (L := IZR (Zpos N) * p).
  assert (HL : 0 < L) by (apply Rmult_lt_0_compat; auto).
  assert (EN : N_of d = V3 (- L * L) 0 0) by (unfold N_of, plane_normal; cbn [d flat d_c0 d_c1 d_c2]; fold L; vext; vunf; ring).
  assert (HLL : 0 < L * L) by (apply Rmult_lt_0_compat; auto).
  assert (Hb : built d) by (apply flat_built; [auto|lia]).
  rewrite (intersection_closed z d _ _ Hb) by (rewrite EN; vunf; lra).
  assert (Es : svalue d (V3 1 0 0) (V3 x y h) = D - x).
  { unfold svalue. rewrite EN. cbn [d flat d_c0]. vunf. field. lra. }
  rewrite Es. cbv zeta. replace (Rltb (D - x) 0) with false by (symmetry; apply Rltb_false; lra).
  assert (Ep : ray_at (V3 x y h) (V3 1 0 0) (D - x) = V3 D y h) by (unfold ray_at; vext; vunf; ring).
  rewrite Ep.
  assert (D1 : norm (vsub (V3 D 0 L) (V3 D 0 0)) = L) by (apply norm_sqrt_eq; vunf; [lra|ring]).
  assert (D2 : norm (vsub (V3 D L 0) (V3 D 0 0)) = L) by (apply norm_sqrt_eq; vunf; [lra|ring]).
  unfold zhat_of, yhat_of, dist. cbn [d flat d_c0 d_c1 d_c2]. fold L. rewrite D1, D2.
  f_equal; [f_equal|]; f_equal.
  - vunf. field. lra.
  - vunf. field. lra.
  - unfold incident_of. rewrite EN.
    assert (N1 : norm (V3 (- L * L) 0 0) = L * L) by (apply norm_sqrt_eq; vunf; [lra|ring]).
    assert (N2 : norm (V3 1 0 0) = 1) by (apply norm_sqrt_eq; vunf; lra).
    rewrite ?N1, ?N2. vunf.
    match goal with |- acos ?x * _ = _ => replace x with 1 by (field; lra) end.
    rewrite acos_1. lra.
Qed.
(** The example element shifted by (0, a, b). *)
Definition shifted_corners (a b : R) : list vec := map (fun v => vadd v (V3 0 a b)) ex_coord.
Lemma shifted_world a b : exists me, (exists me0, build_mesh ex_coord ex_enod = Ok me0 /\ me = mesh_translate me0 (V3 0 a b)) /\
  me_coord me = shifted_corners a b /\ me_enod me = ex_enod.
Proof.
  destruct ex_mesh as (me & Hb & _ & _ & He). exists (mesh_translate me (V3 0 a b)). split; [eauto|]. split; [|exact He].
  cbn [mesh_translate me_coord]. unfold shifted_corners. f_equal.
  unfold build_mesh in Hb. destruct (traverse _ _) as [ts|]; [|discriminate]. cbn [bind] in Hb.
  revert Hb. destruct (traverse _ _) as [ss|]; [|discriminate]. cbn [bind]. intros Hb. inversion Hb. reflexivity.
Qed.
Lemma move_start v : move_at ex_motion 0 v = v.
Proof. unfold move_at. rewrite rot_at_0. cbn [m_trans ex_motion m_origin]. vext; vunf; lra. Qed.
Lemma ztrunc_range x n : (0 <= n)%Z -> IZR n <= x < IZR n + 1 -> ztrunc x = n.
Proof. apply ztrunc_eq. Qed.
Ltac rlt := repeat match goal with |- context[Rltb ?x ?y] =>
  first [replace (Rltb x y) with true by (symmetry; apply Rltb_true; lra) | replace (Rltb x y) with false by (symmetry; apply Rltb_false; lra)] end.
Lemma shifted_box z D p N sg th mr a b lz hz ly hy : 7 < D -> 0 < p -> let L := IZR (Zpos N) * p in
  lz = Rmax 0 (b + 1) -> hz = Rmin (b + 7) L -> lz <= hz -> ly = Rmax 0 (a + 2) -> hy = Rmin (a + 6) L -> ly <= hy ->
  projected_box z (flat D p N sg th mr) (shifted_corners a b) (V3 1 0 0) =
  Some (fst (axis_box (lz, hz) L p), snd (axis_box (lz, hz) L p), fst (axis_box (ly, hy) L p), snd (axis_box (ly, hy) L p)).
Proof.
  intros HD Hp L Elz Ehz Hz Ely Ehy Hy. unfold projected_box, shifted_corners, ex_coord. cbn [map].
  assert (V : forall x y h, vadd (V3 x y h) (V3 0 a b) = V3 x (a + y) (b + h)) by (intros; vext; vunf; ring).
  rewrite !V, !flat_hit_from by lra. cbv zeta. cbn [map fst snd range_of filter nonnan fold_left].
  unfold range_of. cbn [filter nonnan fold_left]. unfold nmin2, nmax2. cbn [nlt].
  repeat (match goal with |- context[nlt (Fin ?x) (Fin ?y)] => change (nlt (Fin x) (Fin y)) with (Rltb x y) end || (progress (rlt; cbv iota))).
  cbn [nlt] in *.
  assert (CA : forall lo hi l h, l = Rmax 0 lo -> h = Rmin hi L -> l <= h -> clip_axis (Fin lo, Fin hi) L = Some (l, h)).
  { intros lo hi l h -> -> Hlh. unfold clip_axis, nmax2, nmin2. cbn [fst snd nlt].
    assert (E1 : (if Rltb lo 0 then Fin 0 else Fin lo) = Fin (Rmax 0 lo)).
    { destruct (Rltb lo 0) eqn:E; [apply Rltb_true in E; rewrite Rmax_left by lra; auto|apply Rltb_false in E; rewrite Rmax_right by lra; auto]. }
    assert (E2 : (if Rltb L hi then Fin L else Fin hi) = Fin (Rmin hi L)).
    { destruct (Rltb L hi) eqn:E; [apply Rltb_true in E; rewrite Rmin_right by lra; auto|apply Rltb_false in E; rewrite Rmin_left by lra; auto]. }
    rewrite E1, E2. replace (Rltb (Rmin hi L) (Rmax 0 lo)) with false by (symmetry; apply Rltb_false; lra). reflexivity. }
  cbn [flat d_zmax d_ymax d_pz d_py]. fold L.
  rewrite (CA (b + 1) (b + 7) lz hz), (CA (a + 2) (a + 6) ly hy) by auto.
  destruct (axis_box (lz, hz) L p), (axis_box (ly, hy) L p). reflexivity.
Qed.
Lemma big_contains a c : Rabs a <= 30 -> Rabs c <= 30 -> forall b, (forall p, Rabs (vx p) < 50 -> Rabs (vy p) < 50 -> Rabs (vz p) < 50 -> strictly_inside (b_halfspaces b) p) ->
  forall q lp lsq, beam_intersect q lp lsq (b_halfspaces b) (shifted_corners a c) = Ok WholeBody.
Proof.
  intros Ha Hc b Hin q lp lsq. unfold beam_intersect.
  assert (F : forallb (fun b => b) (beam_contains_batch (b_halfspaces b) (shifted_corners a c)) = true).
  { unfold beam_contains_batch, shifted_corners, ex_coord. cbn [map forallb]. unfold Rabs in Ha, Hc. destruct (Rcase_abs a), (Rcase_abs c);
    repeat (apply andb_true_iff; split); try reflexivity; apply pC23_contains_strict, Hin; vunf; unfold Rabs; destruct (Rcase_abs _); lra. }
  now rewrite F.
Qed.
(** A table with one peak of the shifted element, diffracting along x. *)
Definition lone (y h vol : R) : list spot := [Spot y h 0 1 vol 0].
Lemma lone_corners me b y h vol a c frames : me_coord me = shifted_corners a c -> me_enod me = ex_enod ->
  element_corners (projected_table frames (lone y h vol) me b) (spot_out frames (Spot y h 0 1 vol 0)) (shifted_corners a c).
Proof.
  intros Hc He. exists (0,1,2,3)%nat. unfold shifted_corners, ex_coord. cbn [map]. eexists. cbn [projected_table pd_mesh pd_motion]. rewrite He, Hc.
  change (read _ _ "grain_index") with 0. change (read _ _ "diffraction_times") with 0.
  split; [now rewrite (ztrunc_eq 0 0) by (lia || lra)|]. split; [reflexivity|]. cbn [tet_list map]. now rewrite !move_start.
Qed.
Lemma frame_zero : frame_of 1 (Fin 0) = 0%Z. Proof. reflexivity. Qed.
(** Two methods, one peak, one element of volume 2 well inside a pixel of size 8: the
    micro image holds at most intensity times volume, the macro image 64 times that. *)
Lemma pC47_same_total_refuted : exists d pd vs eqs, built d /\ fresh pd /\ volumes_ok pd /\
  forall e, re_hull e vs WholeBody = Ok (Hull vs eqs 2) ->
  exists im im' out r, render e d pd 1 "micro" None 1 = Ok (im, out) /\ render e d pd 1 "macro" None 1 = Ok (im', out) /\
    pd_peaks out = [r] /\ read out r "volumes" = 2 /\
    (exists t, frame_total im 0 = Fin t /\ 0 <= t <= read out r "intensity_factors" * 2) /\
    frame_total im' 0 = Fin (64 * (read out r "intensity_factors" * 2)) /\ 0 < read out r "intensity_factors".
Proof.
  destruct big_beam as (b & _ & _ & Hin). destruct (shifted_world 8 8) as (me & _ & Hc & He).
  set (d := flat 10 8 3 1 (2/100) 1). set (pd := spot_table (lone 12 12 2) me b). set (out := projected_table 1 (lone 12 12 2) me b).
  set (r := spot_out 1 (Spot 12 12 0 1 2 0)).
  exists d, pd, (shifted_corners 8 8), []. assert (Hb : built d) by (apply flat_built; [lra|lia]). split; [exact Hb|].
  assert (Hf : fresh pd) by apply spot_fresh. split; [exact Hf|].
  assert (Hv : volumes_ok pd) by (apply volumes_spot; repeat constructor; cbn; lra). split; [exact Hv|].
  intros e Hh.
  assert (Ho : project (re_z e) d pd 1 = Ok out) by (apply flat_project; try lra; repeat constructor; cbn; lra).
  destruct (pC39_micro_never_fails e d pd 1 None 1 Hf) as (im & o1 & H1).
  assert (o1 = out) by (apply render_inv in H1; change (nframes 1) with 1%Z in H1; rewrite Ho in H1; now inversion H1). subst o1.
  assert (Hrows : pd_peaks out = [r]) by reflexivity.
  assert (HI : read out r "intensity_factors" = 1) by reflexivity.
  assert (Hm : (0 <= d_max_radius d)%Z) by (cbn; lia). assert (Hs : d_sigma d <> 0) by (cbn; lra).
  destruct (pC46_kernel d Hs Hm) as (psf & kg & Hk & _).
  assert (Hrad : psf_radius d = 1%Z) by (destruct (pC46_radius d Hs) as [A _]; [cbn; lia|cbn [d flat d_max_radius] in A; lia]).
  pose proof (lone_corners me b 12 12 2 8 8 1 Hc He) as EC. fold out r in EC.
  pose proof (big_contains 8 8 ltac:(rewrite Rabs_right; lra) ltac:(rewrite Rabs_right; lra) b Hin (re_qhull e) (re_lp e) (re_lsq e)) as HB.
  set (hl := Hull (shifted_corners 8 8) [] 2) in *.
  assert (HL : lit_part e out r hl) by (exists (shifted_corners 8 8), WholeBody; repeat split; auto; discriminate).
  assert (HFP : footprint e d out r hl 1 2 1 2).
  { unfold footprint. cbn [hl h_corners]. change (kout_of out r) with (V3 1 0 0).
    unfold d. rewrite (shifted_box (re_z e) 10 8 3 1 (2/100) 1 8 8 9 15 10 14); try lra; try (rewrite Rmax_right; lra); try (rewrite Rmin_left; lra).
    unfold axis_box. cbn [fst snd]. rewrite (ztrunc_eq (9/8) 1), (ztrunc_eq (15/8) 1), (ztrunc_eq (10/8) 1), (ztrunc_eq (14/8) 1), (ztrunc_eq (3 * 8 / 8) 3) by (lia || lra).
    reflexivity. }
  assert (HP : macro_deposits e d b me ex_motion 0 r = Ok (box_deposits d 0 1 1 1 1 1 (fun _ _ => Fin 2))).
  { destruct EC as (el & t & A1 & A2 & A3). unfold macro_deposits. change (fcol r 0) with (read out r "grain_index"). change me with (pd_mesh out).
    rewrite A1, A2. cbn [bind]. change (fcol r 6) with (read out r "diffraction_times"). change ex_motion with (pd_motion out). rewrite <- A3, HB.
    cbn [bind]. rewrite Hh. cbn [bind]. change (fvec r 13) with (kout_of out r). rewrite HFP. unfold project_hull. cbn [bind].
    change ((2 - 1) * (2 - 1) =? 1)%Z with true. cbv iota. cbn [bind hl h_volume].
    change (ncol r 29) with (Fin 1). unfold box_deposits. change (fcol r 28) with 0. rewrite (ztrunc_eq 0 0) by (lia || lra). reflexivity. }
  assert (exists im', render e d pd 1 "macro" None 1 = Ok (im', out)) as (im' & H2).
  { unfold render. cbv zeta. cbn [Z.ltb Z.compare Pos.compare Pos.compare_cont]. rewrite Ho. cbn [bind String.eqb Ascii.eqb Bool.eqb].
    unfold macro_method, render_macro. rewrite Hrows. rewrite Hk. cbn [bind List.length seq combine traverse fst snd].
    change (pd_beam out) with b. change (pd_mesh out) with me. change (pd_motion out) with ex_motion. rewrite HP. cbn [bind].
    change (fcol r 28) with 0. rewrite (ztrunc_eq 0 0) by (lia || lra).
    change (wrap (Z.to_nat 1) 0) with (Some 0%nat). cbn [bind].
    rewrite index_put_zeros; [cbn [bind]; eauto|]. cbn [List.concat]. rewrite app_nil_r. unfold box_deposits. cbn [seq list_prod map app].
    constructor; [|constructor]. unfold dep_in. cbn [d flat d_nz d_ny fst snd]. change (Pos.to_nat 3) with 3%nat. lia. }
  exists im, im', out, r. split; auto. split; auto. split; auto. split; [reflexivity|]. split.
  - destruct (pC39_frame_total_bounded e d pd 1 None 1 im out 0 Hf Hv H1) as (t & Et & Ht0 & Ht).
    { apply micro_inv in H1 as [_ Hp]. apply index_put_shape in Hp as (A & _). cbn in A. rewrite A. lia. }
    exists t. split; auto. split; auto. eapply Rle_trans; [exact Ht|]. unfold rows_in_frame. rewrite Hrows. cbn [filter].
    replace (Reqb (read out r "frame") (INR 0)) with true by (symmetry; apply Reqb_true; reflexivity). cbn [map].
    rewrite sum_list_cons, sum_list_nil. change (strength out r) with (1 * 2). rewrite HI. lra.
  - rewrite HI. split; [|lra].
    rewrite (pC47_macro_frame_total e d pd 1 None 1 im' out 0 (fun _ => 2) Hf Hb); auto; try (cbn; lra).
    + rewrite Hrows. cbn [numbered List.length seq combine map fst snd]. rewrite sum_list_cons, sum_list_nil.
      replace (Reqb (read out r "frame") (INR 0)) with true by (symmetry; apply Reqb_true; reflexivity). rewrite HI. cbn [d flat d_pz d_py]. f_equal. lra.
    + exists r. split; [rewrite Hrows; now left|reflexivity].
    + intros k r' Hr' _. rewrite Hrows in Hr'. destruct k as [|k]; [|destruct k; discriminate]. cbn in Hr'. inversion Hr'; subst r'.
      exists hl, 1%Z, 2%Z, 1%Z, 2%Z. split; auto. split; auto. split; auto. split; [|left; reflexivity].
      unfold away_from_border. rewrite Hrad. cbn [d flat d_nz d_ny]. change (Pos.to_nat 3) with 3%nat. lia.
Qed.

Lemma tet_world A B C D : det (tet_A (Tet A B C D)) <> 0 -> exists me, build_mesh [A; B; C; D] ex_enod = Ok me /\ me_coord me = [A; B; C; D] /\ me_enod me = ex_enod.
Proof.
  intros Hd. unfold build_mesh, ex_enod. cbn [traverse gather_tet nth_error bind].
  assert (exists s, bounding_sphere (Tet A B C D) = Ok s) as (s & ->).
  { unfold bounding_sphere. destruct (split_pair _ _) as [[f1 f2] [o1 o2]]. destruct (seg_sphere f1 f2). cbv zeta. destruct (tri_sphere _ _ _).
    unfold tet_sphere. destruct (Req_EM_T _ 0); [contradiction|]. cbn [bind].
    repeat match goal with |- context[if ?q then _ else _] => destruct q end; eauto. }
  cbn [bind]. eexists. split; [reflexivity|]. split; reflexivity.
Qed.
(** A thin tetrahedron whose projection runs diagonally between the pixel positions. *)
Definition sl_A := V3 0 (5/4) (3/4).
Definition sl_B := V3 0 (19/4) (17/4).
Definition sl_C := V3 1 (25/8) (19/8).
Definition sl_D := V3 1 (23/8) (21/8).
(** Its four faces: outward normals (not normalised) and offsets. *)
Definition sl_faces : list halfspace :=
  [HS (V3 (-1) 4 (-4)) (-2); HS (V3 (-1) (-4) 4) 2; HS (V3 (7/2) (-1) (-1)) 2; HS (V3 (7/2) 1 1) (-9)].
Definition normalise_face (h : halfspace) : halfspace := HS (vdiv (hs_n h) (norm (hs_n h))) (hs_d h / norm (hs_n h)).
Definition sl_hull : hull := Hull [sl_A; sl_B; sl_C; sl_D] (map normalise_face sl_faces) (7/24).
Lemma face_side h x : hs_n h <> vzero -> let h' := normalise_face h in
  dot (hs_n h') (vsub x (vscale (- hs_d h') (hs_n h'))) = hs_val h x / norm (hs_n h).
Proof.
  intros Hn. cbv zeta. unfold normalise_face, hs_val, vdiv. cbn [hs_n hs_d]. pose proof (norm_pos _ Hn) as P.
  pose proof (norm_sq (hs_n h)) as Q. set (n := norm (hs_n h)) in *. clearbody n. destruct (hs_n h) as [a b c]. destruct x as [x y w].
  unfold normsq in Q. vunf. revert Q. vunf. intros Q. 
  assert (E : a * a + b * b + c * c = n ^ 2) by (rewrite <- ?Q; lra).
  transitivity ((a * x + b * y + c * w) / n + hs_d h / n * ((a * a + b * b + c * c) / n ^ 2)); [field; lra|]. rewrite E. field. lra.
Qed.
Lemma sl_nonzero h : In h sl_faces -> hs_n h <> vzero.
Proof. intros H C. cbn [In sl_faces] in H. destruct H as [<-|[<-|[<-|[<-|[]]]]]; apply (f_equal vx) in C; cbn in C; lra. Qed.
Lemma sl_body x : in_body (hull_planes (h_eqs sl_hull)) x -> forall h, In h sl_faces -> hs_val h x <= 0.
Proof.
  intros H h Hh. specialize (H (vscale (- hs_d (normalise_face h)) (hs_n (normalise_face h)), hs_n (normalise_face h))).
  cbn [fst snd] in H. rewrite face_side in H by now apply sl_nonzero.
  assert (P : 0 < norm (hs_n h)) by (apply norm_pos; now apply sl_nonzero).
  assert (Q : hs_val h x / norm (hs_n h) <= 0).
  { apply H. unfold hull_planes, sl_hull. cbn [h_eqs]. apply in_map_iff. exists (normalise_face h). split; auto. now apply in_map. }
  apply (Rmult_le_compat_r (norm (hs_n h))) in Q; [|lra]. unfold Rdiv in Q. rewrite Rmult_assoc, Rinv_l in Q by lra. lra.
Qed.
Lemma sl_parallel pl : In pl (hull_planes (h_eqs sl_hull)) -> ~ parallel_to (V3 1 0 0) pl.
Proof.
  unfold hull_planes, sl_hull. cbn [h_eqs]. rewrite map_map. intros H. apply in_map_iff in H as (h & <- & Hh). unfold parallel_to. cbn [snd normalise_face hs_n].
  assert (P : 0 < norm (hs_n h)) by (apply norm_pos; now apply sl_nonzero). intros C.
  assert (E : vx (hs_n h) = 0).
  { revert C. destruct (hs_n h) as [a b c]. set (n := norm _) in *. clearbody n. unfold vdiv. vunf. intros C. apply (Rmult_eq_compat_r n) in C. field_simplify in C; lra. }
  cbn [In sl_faces] in Hh. destruct Hh as [<-|[<-|[<-|[<-|[]]]]]; cbn in E; lra.
Qed.
Lemma sl_missed x i j : clip_length (V3 x (IZR j) (IZR i)) (V3 1 0 0) (hull_planes (h_eqs sl_hull)) = 0.
Proof.
  apply pC48_miss_is_zero; [apply sl_parallel|]. intros t H. pose proof (sl_body _ H) as Q. clear H.
  pose proof (Q _ (or_introl eq_refl)) as Q1. pose proof (Q _ (or_intror (or_introl eq_refl))) as Q2.
  pose proof (Q _ (or_intror (or_intror (or_introl eq_refl)))) as Q3. pose proof (Q _ (or_intror (or_intror (or_intror (or_introl eq_refl))))) as Q4.
  unfold hs_val, on_line in *. cbn [hs_n hs_d] in *. revert Q1 Q2 Q3 Q4. vunf. intros Q1 Q2 Q3 Q4.
  assert (A : IZR 0 < IZR (j - i)) by (rewrite minus_IZR; lra). assert (B : IZR (j - i) < IZR 1) by (rewrite minus_IZR; lra).
  apply lt_IZR in A, B. lia.
Qed.
Lemma lone_lit me b y h vol frames vs e hl : me_coord me = vs -> me_enod me = ex_enod -> len vs = 4%nat ->
  beam_intersect (re_qhull e) (re_lp e) (re_lsq e) (b_halfspaces b) vs = Ok WholeBody -> re_hull e vs WholeBody = Ok hl ->
  lit_part e (projected_table frames (lone y h vol) me b) (spot_out frames (Spot y h 0 1 vol 0)) hl.
Proof.
  intros Hc He Hl HB Hh. exists vs, WholeBody. split; [|split; [exact HB|split; [discriminate|exact Hh]]].
  destruct vs as [|A [|B [|C [|D [|]]]]]; try discriminate. exists (0,1,2,3)%nat, (Tet A B C D). cbn [projected_table pd_mesh pd_motion]. rewrite He, Hc.
  change (read _ _ "grain_index") with 0. change (read _ _ "diffraction_times") with 0.
  split; [now rewrite (ztrunc_eq 0 0) by (lia || lra)|]. split; [reflexivity|]. cbn [tet_list map q0 q1 q2 q3]. now rewrite !move_start.
Qed.
Lemma lone_macro_ok me b y h vol p N sg th mr e hl r0 r1 c0 c1 : 0 < p -> (0 <= mr)%Z -> 0 <= y <= IZR (Zpos N) * p -> 0 <= h <= IZR (Zpos N) * p ->
  let d := flat 10 p N sg th mr in let out := projected_table 1 (lone y h vol) me b in let r := spot_out 1 (Spot y h 0 1 vol 0) in
  lit_part e out r hl -> footprint e d out r hl r0 r1 c0 c1 ->
  match project_hull (re_z e) d hl (V3 1 0 0) (r0, r1, c0, c1) (re_sample e 0) with
  | Ok _ => exists im, render e d (spot_table (lone y h vol) me b) 1 "macro" None 1 = Ok (im, out)
  | Err err => render e d (spot_table (lone y h vol) me b) 1 "macro" None 1 = Err err
  end.
Proof.
  intros Hp Hmr Hy Hh d out r HL HF.
  assert (Hb : built d) by (apply flat_built; [lra|lia]). pose proof (IZR_pos_pos N) as HN.
  assert (HLp : 0 < IZR (Zpos N) * p) by (apply Rmult_lt_0_compat; auto).
  destruct (pC35_box_inside_complete_pixels _ _ _ _ _ _ _ _ Hb HLp HLp HF) as (Q1 & Q2 & Q3 & Q4 & _).
  assert (Ho : project (re_z e) d (spot_table (lone y h vol) me b) 1 = Ok out).
  { apply flat_project; try lra. unfold lone. apply Forall_cons; [|apply Forall_nil]. unfold good_spot. cbn [s_y s_h s_sf]. lra. }
  assert (Hk : exists psf, psf_kernel d = Ok psf).
  { unfold psf_kernel. pose proof (psf_radius_nonneg d Hmr). destruct (Z.ltb_spec (psf_radius d) 0); [lia|]. eauto. }
  destruct Hk as (psf & Hk).
  assert (HP : macro_deposits e d b me ex_motion 0 r = let* pr := project_hull (re_z e) d hl (V3 1 0 0) (r0, r1, c0, c1) (re_sample e 0) in
     Ok (box_deposits d 0 r0 c0 (Z.to_nat (r1 - r0)) (Z.to_nat (c1 - c0)) 1 pr)).
  { destruct HL as (vs & it & (el & t & A1 & A2 & A3) & HB & Hne & Hhl). unfold macro_deposits. change (fcol r 0) with (read out r "grain_index").
    change (nth_error (me_enod me) (Z.to_nat (ztrunc (read out r "grain_index"))) = Some el) in A1. rewrite A1.
    change (gather_tet (me_coord me) el = Ok t) in A2. rewrite A2. cbn [bind]. cbv zeta.
    change (vs = map (move_at ex_motion (fcol r 6)) (tet_list t)) in A3. rewrite <- A3.
    change (beam_intersect (re_qhull e) (re_lp e) (re_lsq e) (b_halfspaces b) vs = Ok it) in HB. rewrite HB. cbn [bind].
    unfold footprint in HF. change (kout_of out r) with (V3 1 0 0) in HF. change (fvec r 13) with (V3 1 0 0).
    change (ncol r 29) with (Fin 1). change (fcol r 28) with 0. rewrite (ztrunc_eq 0 0) by (lia || lra).
    destruct it; [| |contradiction]; rewrite Hhl; cbn [bind]; rewrite HF; reflexivity. }
  unfold render. cbv zeta. cbn [Z.ltb Z.compare Pos.compare Pos.compare_cont]. rewrite Ho. cbn [bind String.eqb Ascii.eqb Bool.eqb].
  unfold macro_method, render_macro. change (pd_peaks out) with [r]. cbv iota. rewrite Hk. cbn [bind List.length seq combine traverse fst snd].
  change (pd_beam out) with b. change (pd_mesh out) with me. change (pd_motion out) with ex_motion. rewrite HP.
  destruct (project_hull _ _ _ _ _ _) as [pr|err]; cbn [bind]; [|reflexivity].
  change (fcol r 28) with 0. rewrite (ztrunc_eq 0 0) by (lia || lra). change (wrap (Z.to_nat 1) 0) with (Some 0%nat). cbn [bind].
  rewrite index_put_zeros; [cbn [bind]; eauto|]. cbn [List.concat]. rewrite app_nil_r. apply Forall_forall. intros dp Hdp.
  unfold box_deposits in Hdp. apply in_map_iff in Hdp as ([a b'] & <- & Hab). apply in_prod_iff in Hab as [A B]. apply in_seq in A, B. unfold dep_in. cbn [fst snd]. lia.
Qed.
(** A real element and a real rendering in which every ray misses. *)
Lemma xC47_sliver : exists d pd, built d /\ fresh pd /\ 0 < d_zmax d /\ 0 < d_ymax d /\ (0 <= d_max_radius d)%Z /\
  forall e, re_hull e [sl_A; sl_B; sl_C; sl_D] WholeBody = Ok sl_hull ->
  exists im out r, render e d pd 1 "macro" None 1 = Ok (im, out) /\ pd_peaks out = [r] /\ read out r "frame" = INR 0 /\
    lit_part e out r sl_hull /\ footprint e d out r sl_hull 0 5 1 5 /\ ((5 - 0) * (5 - 1))%Z <> 1%Z /\
    ~ some_ray_hits e d out 0 r sl_hull 0 5 1 5 /\ f_at im 0 2 2 = NaN.
Proof.
  destruct big_beam as (b & _ & _ & Hin).
  destruct (tet_world sl_A sl_B sl_C sl_D) as (me & _ & Hc & He).
  { unfold tet_A, sl_A, sl_B, sl_C, sl_D. cbn [q0 q1 q2 q3]. vunf. lra. }
  set (d := flat 10 1 9 1 (2/100) 1). set (pd := spot_table (lone 3 3 (7/24)) me b).
  exists d, pd. assert (Hb : built d) by (apply flat_built; [lra|lia]). split; [exact Hb|].
  assert (Hf : fresh pd) by apply spot_fresh. split; [exact Hf|]. split; [cbn; lra|]. split; [cbn; lra|]. split; [cbn; lia|].
  intros e Hh. set (out := projected_table 1 (lone 3 3 (7/24)) me b). set (r := spot_out 1 (Spot 3 3 0 1 (7/24) 0)).
  assert (HB : beam_intersect (re_qhull e) (re_lp e) (re_lsq e) (b_halfspaces b) [sl_A; sl_B; sl_C; sl_D] = Ok WholeBody).
  { unfold beam_intersect. assert (F : forallb (fun b => b) (beam_contains_batch (b_halfspaces b) [sl_A; sl_B; sl_C; sl_D]) = true).
    { unfold beam_contains_batch, sl_A, sl_B, sl_C, sl_D. cbn [map forallb]. repeat (apply andb_true_iff; split); try reflexivity; apply pC23_contains_strict, Hin; vunf; unfold Rabs; destruct (Rcase_abs _); lra. }
    now rewrite F. }
  assert (HL : lit_part e out r sl_hull) by (apply (lone_lit me b 3 3 (7/24) 1 [sl_A; sl_B; sl_C; sl_D]); auto).
  assert (HF : footprint e d out r sl_hull 0 5 1 5).
  { unfold footprint. change (kout_of out r) with (V3 1 0 0). unfold projected_box. cbn [sl_hull h_corners map]. unfold sl_A, sl_B, sl_C, sl_D, d.
    rewrite !flat_hit_from by lra. cbv zeta. cbn [map fst snd]. unfold range_of. cbn [filter nonnan fold_left]. unfold nmin2, nmax2. cbn [nlt].
    repeat (match goal with |- context[nlt (Fin ?x) (Fin ?y)] => change (nlt (Fin x) (Fin y)) with (Rltb x y) end || (progress (rlt; cbv iota))).
    cbn [flat d_zmax d_ymax d_pz d_py]. unfold clip_axis, nmax2, nmin2. cbn [fst snd nlt]. rlt. cbv iota. rlt. cbv iota. unfold axis_box. cbn [fst snd].
    rewrite (ztrunc_eq (3/4/1) 0), (ztrunc_eq (17/4/1) 4), (ztrunc_eq (5/4/1) 1), (ztrunc_eq (19/4/1) 4), (ztrunc_eq (9 * 1 / 1) 9) by (lia || lra). reflexivity. }
  assert (HN : ~ some_ray_hits e d out 0 r sl_hull 0 5 1 5).
  { intros (p & Hp & Hpos). unfold ray_points in Hp. cbv zeta in Hp. change ((5 - 0) * (5 - 1) <=? 4)%Z with false in Hp. cbv iota in Hp.
    destruct Hp as (i & j & _ & Hp).
    assert (E : p = V3 10 (IZR (Z.of_nat j)) (IZR (Z.of_nat i))).
    { unfold pixel_coordinate in Hp. cbn [d flat d_c0 d_pz d_py d_zdhat d_ydhat] in Hp. rewrite !nvscale_nfin, !nvadd_nfin in Hp.
      assert (Q : forall u v, nfin u = nfin v -> u = v) by (intros [] []; unfold nfin; cbn; intros Q; inversion Q; reflexivity).
      apply Q in Hp. subst p. rewrite <- !INR_IZR_INZ. vext; vunf; ring. }
    subst p. assert (ED : ray_dir out r = V3 1 0 0).
    { unfold ray_dir. change (kout_of out r) with (V3 1 0 0). rewrite (norm_sqrt_eq (V3 1 0 0) 1) by (vunf; lra). unfold vdiv. cbn. vext; cbn; lra. }
    rewrite ED, sl_missed in Hpos. lra. }
  pose proof (lone_macro_ok me b 3 3 (7/24) 1 9 1 (2/100) 1 e sl_hull 0 5 1 5 ltac:(lra) ltac:(lia) ltac:(lra) ltac:(lra) HL HF) as HR.
  change (project_hull (re_z e) (flat 10 1 9 1 (2/100) 1) sl_hull (V3 1 0 0) (0, 5, 1, 5)%Z (re_sample e 0)) with
    (@Ok box_matrix (project_detector_driven (re_z e) (flat 10 1 9 1 (2/100) 1) sl_hull (vdiv (V3 1 0 0) (norm (V3 1 0 0))) 0 1 5 4)) in HR. cbv iota in HR.
  destruct HR as (im & HR). exists im, out, r. split; [exact HR|]. split; [reflexivity|]. split; [reflexivity|]. split; [exact HL|]. split; [exact HF|].
  split; [lia|]. split; [exact HN|].
  apply (pC47_missed_sliver_nan e d pd 1 None 1 im out 0 r 0 sl_hull 0 5 1 5 2 2 Hf Hb); auto; try (cbn; lra); try (cbn; lia). split; lia.
Qed.
