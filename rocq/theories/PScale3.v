(** * All lengths multiplied by s: building the enlarged parts (C94). *)
From Verif Require Import Vec Spec MMotion MLaue MMesh MScattering MStrain MBeam SBeam MPolycrystal SPolycrystal MDetector MClip MRender SRender SNano SScale.
From Verif Require Import PMotion PLaue PMesh PBeam PStrain PPolycrystal PPolycrystal2 PDetector PDetector2 PDetector3 PRender PRender2 PRender3 PEvents PEnd2 PFrame PFrame2 PFrame3 PFrame4 PScale PScale2.
From Verif Require Import SDetector.
Open Scope list_scope. Open Scope R_scope.

Lemma seg_alg s p q : vscale (/2) (vadd (vscale s p) (vscale s q)) = vscale s (vscale (/2) (vadd p q)). Proof. veq. Qed.
Lemma mean4_scale s a b c d : mean4 (vscale s a) (vscale s b) (vscale s c) (vscale s d) = vscale s (mean4 a b c d). Proof. unfold mean4. veq. Qed.
Lemma vol_scale s a b c d : signed_vol6 (vscale s a) (vscale s b) (vscale s c) (vscale s d) = s ^ 3 * signed_vol6 a b c d.
Proof. unfold signed_vol6. rewrite !vscale_sub. generalize (vsub b a) (vsub c a) (vsub d a). intros. vdes; vunf; ring. Qed.
Lemma cross_l s t a b : cross (vscale s a) (vscale t b) = vscale (s * t) (cross a b). Proof. veq. Qed.
Lemma tri_alg k x y (u v : vec) : vscale k (vadd (vscale x u) (vscale y v)) = vadd (vscale (k * x) u) (vscale (k * y) v). Proof. veq. Qed.
Lemma sq_scale s v : normsq (vscale s v) = s * s * normsq v. Proof. unfold normsq. rewrite dot_scale_l, dot_scale_r. ring. Qed.

Section Scale3.
Variable s : R.
Hypothesis Hs : 0 < s.
Definition sp (q : vec * R) : vec * R := (vscale s (fst q), s * snd q).
Lemma dist_sc x y : dist (vscale s x) (vscale s y) = s * dist x y. Proof. unfold dist. now apply dist_scale. Qed.
Lemma seg_sc p q : seg_sphere (vscale s p) (vscale s q) = sp (seg_sphere p q).
Proof. unfold seg_sphere, sp. cbv zeta. cbn [fst snd]. rewrite seg_alg, dist_scale by auto. f_equal. ring. Qed.
Lemma tri_sc p q r : tri_sphere (vscale s p) (vscale s q) (vscale s r) = sp (tri_sphere p q r).
Proof.
  unfold tri_sphere, sp. cbv zeta. cbn [fst snd]. rewrite !vscale_sub. generalize (vsub q p) (vsub r p). intros u v.
  rewrite !cross_l, !norm_pos_scale by nra. rewrite !vscale_vscale.
  set (n := norm (cross u v)). set (U := norm u). set (W := norm v). generalize (cross (cross u v) u) (cross (cross v u) v). intros X Y.
  assert (E : vscale (/ (2 * (s * s * n) ^ 2)) (vadd (vscale ((s * W) ^ 2 * (s * s * s)) X) (vscale ((s * U) ^ 2 * (s * s * s)) Y)) =
    vscale s (vscale (/ (2 * n ^ 2)) (vadd (vscale (W ^ 2) X) (vscale (U ^ 2) Y)))).
  { rewrite vscale_vscale, !tri_alg. replace (2 * (s * s * n) ^ 2) with (s ^ 4 * (2 * n ^ 2)) by ring. rewrite (Rinv_mult (s ^ 4)).
    generalize (/ (2 * n ^ 2)). intros i. f_equal; f_equal; field; lra. }
  rewrite E, vscale_add, norm_pos_scale by auto. f_equal. ring.
Qed.
Lemma tet_sc t : tet_sphere (tet_map (vscale s) t) = rmap sp (tet_sphere t).
Proof.
  assert (H3 : 0 < s ^ 3) by (now apply pow_lt).
  assert (Hd : det (tet_A (tet_map (vscale s) t)) = s ^ 3 * det (tet_A t)).
  { rewrite !det_tet_A. simpl. rewrite vol_scale. ring. }
  destruct (Req_EM_T (det (tet_A t)) 0) as [E|E].
  - unfold tet_sphere. rewrite Hd, E. destruct (Req_EM_T (s ^ 3 * 0) 0) as [_|N]; [|exfalso; apply N; ring]. destruct (Req_EM_T 0 0); [reflexivity|lra].
  - destruct (tet_sphere_ok t E) as (c & Hc & ->).
    assert (E2 : det (tet_A (tet_map (vscale s) t)) <> 0) by (rewrite Hd; intros F; apply Rmult_integral in F as [F|F]; lra).
    destruct (tet_sphere_ok (tet_map (vscale s) t)) as (c' & Hc' & ->); [exact E2|].
    assert (c' = vscale s c) as ->.
    { apply (equidistant_unique (tet_map (vscale s) t)); [exact E2|auto|].
      destruct Hc as (E1 & E3 & E4). unfold equidistant. cbn [tet_map q0 q1 q2 q3]. rewrite !vscale_sub, !sq_scale, E1, E3, E4. auto. }
    cbn [rmap]. unfold sp. cbn [fst snd tet_map q0]. unfold dist. rewrite dist_scale by auto. do 2 f_equal. ring.
Qed.
Lemma rltb_sc a b : (if Rlt_dec (s * a) (s * b) then true else false) = (if Rlt_dec a b then true else false).
Proof. destruct (Rlt_dec (s * a) (s * b)), (Rlt_dec a b); auto; nra. Qed.
Lemma argmax_from_sc l : forall i k x, argmax_from i k (s * x) (map (Rmult s) l) = argmax_from i k x l.
Proof.
  induction l as [|y l IH]; intros i k x; [reflexivity|]. cbn [map argmax_from].
  destruct (Rlt_dec (s * x) (s * y)), (Rlt_dec x y); try (exfalso; nra); apply IH.
Qed.
Lemma argmax_sc l : argmax (map (Rmult s) l) = argmax l.
Proof. destruct l as [|x l]; [reflexivity|]. cbn [map argmax]. apply argmax_from_sc. Qed.
Lemma leb_sc a b : Rleb (s * a - s * b) 0 = Rleb (a - b) 0.
Proof. destruct (Rleb (a - b) 0) eqn:E; [apply Rleb_true in E; apply Rleb_true|apply Rleb_false in E; apply Rleb_false]; nra. Qed.
Lemma bounding_sc t : bounding_sphere (tet_map (vscale s) t) = rmap sp (bounding_sphere t).
Proof.
  unfold bounding_sphere.
  assert (Es : tet_sides (tet_map (vscale s) t) = map (Rmult s) (tet_sides t)).
  { unfold tet_sides, tet_map; cbn [q0 q1 q2 q3 map]. rewrite !dist_sc by auto. reflexivity. }
  rewrite Es, argmax_sc.
  assert (Ep : split_pair (tet_map (vscale s) t) (argmax (tet_sides t)) =
    let '((f1, f2), (o1, o2)) := split_pair t (argmax (tet_sides t)) in
    ((vscale s f1, vscale s f2), (vscale s o1, vscale s o2))).
  { destruct (argmax (tet_sides t)) as [|[|[|[|[|]]]]]; reflexivity. }
  rewrite Ep. destruct (split_pair t (argmax (tet_sides t))) as [[f1 f2] [o1 o2]].
  rewrite seg_sc by auto. destruct (seg_sphere f1 f2) as [c1 rad1]. unfold sp at 1. cbn [fst snd]. cbv zeta.
  rewrite !dist_sc. pose proof (argmax_sc [dist o1 c1; dist o2 c1]) as AE. cbn [map] in AE. rewrite AE. clear AE.
  assert (Et : (if Nat.eqb (argmax [dist o1 c1; dist o2 c1]) 0 then vscale s o1 else vscale s o2) =
     vscale s (if Nat.eqb (argmax [dist o1 c1; dist o2 c1]) 0 then o1 else o2))
    by (destruct (Nat.eqb _ 0); reflexivity).
  rewrite Et. set (third := if Nat.eqb _ 0 then o1 else o2). clearbody third.
  rewrite tri_sc. destruct (tri_sphere f1 f2 third) as [c2 rad2]. unfold sp at 1. cbn [fst snd].
  replace (forallb (fun v => Rleb (dist v (vscale s c2) - s * rad2) 0) (tet_list (tet_map (vscale s) t)))
    with (forallb (fun v => Rleb (dist v c2 - rad2) 0) (tet_list t)).
  2:{ unfold tet_list, tet_map; cbn [q0 q1 q2 q3 forallb]. rewrite !dist_sc, !leb_sc. reflexivity. }
  rewrite tet_sc, !leb_sc. destruct (tet_sphere t) as [[c3 rad3]|e]; cbn [rmap bind fst snd]; [|reflexivity].
  destruct (_ && _); [reflexivity|]. destruct (forallb _ _); reflexivity.
Qed.
Lemma tet_volume_sc t : tet_volume (tet_map (vscale s) t) = s ^ 3 * tet_volume t.
Proof.
  assert (H3 : 0 < s ^ 3) by (now apply pow_lt). rewrite !tet_volume_vol. simpl. rewrite vol_scale, Rabs_mult, (Rabs_right (s ^ 3)) by lra. simpl. field.
Qed.
Lemma build_sc coord enod me : build_mesh coord enod = Ok me -> exists me2, build_mesh (map (vscale s) coord) enod = Ok me2 /\
  me_enod me2 = me_enod me /\ me_coord me2 = map (vscale s) (me_coord me) /\ me_espherecentroids me2 = map (vscale s) (me_espherecentroids me) /\
  me_centroid me2 = vscale s (me_centroid me).
Proof.
  intros H. destruct (build_mesh_inv _ _ _ H) as (ts & ss & E1 & E2 & ->). unfold build_mesh. rewrite traverse_gather_map, E1. cbn [bind].
  rewrite traverse_map, (traverse_rmap bounding_sphere (fun x => bounding_sphere (tet_map (vscale s) x)) sp) by (intros; apply bounding_sc). rewrite E2. cbn [rmap bind].
  eexists. split; [reflexivity|]. cbn [me_enod me_coord me_espherecentroids me_centroid]. split; [reflexivity|]. split; [reflexivity|]. split.
  - rewrite !map_map. reflexivity.
  - rewrite <- (mean_scale s), !map_map. f_equal. apply map_ext. intros t. apply mean4_scale.
Qed.
End Scale3.

(** ** Properties *)
(** The enlarged parts are what the constructors give for enlarged arguments. *)
Lemma pC94_built_sample : forall s x coord enod me o st phs mp p, 0 < s ->
  build_mesh coord enod = Ok me -> make_polycrystal x me o st phs mp = Ok p ->
  exists me2 p2, build_mesh (map (vscale s) coord) enod = Ok me2 /\ make_polycrystal x me2 o st phs mp = Ok p2 /\ scaled_sample s p p2.
Proof.
  intros s x coord enod me o st phs mp p Hs HB HP. destruct (build_sc s Hs coord enod me HB) as (me2 & HB2 & N1 & N2 & N3 & N4).
  destruct (build_mesh_inv _ _ _ HB) as (ts & ss & ET & ES & Eme). unfold make_polycrystal in *.
  assert (Eco : me_coord me = coord) by (rewrite Eme; reflexivity). assert (Een : me_enod me = enod) by (rewrite Eme; reflexivity).
  rewrite Eco, Een, ET in HP. cbn [bind] in HP.
  exists me2. rewrite N1, N2, Een, Eco, traverse_gather_map, ET. cbn [bind].
  destruct (instantiate_mats (List.length enod) o) as [U|] eqn:EU; [|discriminate]. cbn [bind] in *.
  destruct (instantiate_mats (List.length enod) st) as [eps|] eqn:EE; [|discriminate]. cbn [bind] in *.
  destruct (instantiate_phase (List.length enod) phs mp) as [pm|] eqn:EM; [|discriminate]. cbn [bind] in *.
  destruct (instantiate_eB x U eps phs pm (List.length enod)) as [eB|] eqn:EB; [|discriminate]. cbn [bind] in *. apply ok_inj in HP.
  eexists. split; [exact HB2|]. split; [reflexivity|]. subst p. unfold scaled_sample. cbn [pc_U pc_mesh_lab pc_volumes pc_eB pc_map pc_phases].
  repeat match goal with |- _ /\ _ => split end; auto. rewrite !map_map. apply map_ext. intros t. now apply tet_volume_sc.
Qed.
Lemma pC94_built_motion : forall s a w T o m, make_motion a w T o = Ok m ->
  exists m2, make_motion a w (vscale s T) (vscale s o) = Ok m2 /\ scaled_motion s m m2.
Proof.
  intros s a w T o m H. apply make_motion_ok_iff in H as (H1 & H2 & ->). eexists. split; [|reflexivity]. apply make_motion_ok_iff. auto.
Qed.
Lemma pC94_built_detector : forall s c0 c1 c2 np ps sg th mr ul up us, 0 < s ->
  (forall e, make_detector (vscale s c0) (vscale s c1) (vscale s c2) np (scale_sizes s ps) sg th mr ul up us = Err e <-> make_detector c0 c1 c2 np ps sg th mr ul up us = Err e) /\
  (forall d, make_detector c0 c1 c2 np ps sg th mr ul up us = Ok d -> exists d2,
     make_detector (vscale s c0) (vscale s c1) (vscale s c2) np (scale_sizes s ps) sg th mr ul up us = Ok d2 /\ scaled_detector s d d2).
Proof.
  intros s c0 c1 c2 np ps sg th mr ul up us Hs. pose proof (make_scale s Hs c0 c1 c2 np ps sg th mr ul up us) as H.
  destruct (make_detector c0 c1 c2 np ps sg th mr ul up us) as [d|e] eqn:E1, (make_detector (vscale s c0) _ _ np _ sg th mr ul up us) as [d2|e2] eqn:E2; try contradiction.
  - split; [intros e; split; discriminate|]. intros d' E. apply ok_inj in E. subst d'. exists d2. split; [reflexivity|]. do 11 eexists. split; eassumption.
  - subst e2. split; [tauto|]. intros d E. discriminate.
Qed.
Lemma pC94_built_beam : forall s q q2 vs vs2 dir wl pol b b2,
  make_beam q vs dir wl pol = Ok b -> make_beam q2 vs2 dir wl pol = Ok b2 ->
  (forall y, strictly_inside (b_halfspaces b2) (vscale s y) <-> strictly_inside (b_halfspaces b) y) -> scaled_beam s b b2.
Proof.
  intros s q q2 vs vs2 dir wl pol b b2 H H2 HS. split; [|split; [|split; [|exact HS]]]; clear HS; revert H H2; unfold make_beam;
    destruct (Req_EM_T wl 0); try discriminate; destruct (beam_vertex_state q vs) as [[[v c] h]|]; try discriminate; cbn [bind];
    destruct (beam_vertex_state q2 vs2) as [[[v2 c2] h2]|]; try (intros _ E; discriminate); cbn [bind];
    destruct (Req_EM_T (norm dir) 0); try discriminate; destruct (Req_EM_T (norm pol) 0); try discriminate;
    destruct (assert_ _); try discriminate; cbn [bind];
    intros H H2; apply ok_inj in H; apply ok_inj in H2; subst b b2; reflexivity.
Qed.
Lemma pC94_scaled_faces : forall s hs y, 0 < s -> (strictly_inside (map (scaled_halfspace s) hs) (vscale s y) <-> strictly_inside hs y).
Proof.
  intros s hs y Hs. assert (E : forall h, dot (hs_n (scaled_halfspace s h)) (vscale s y) + hs_d (scaled_halfspace s h) = s * (dot (hs_n h) y + hs_d h)).
  { intros h. unfold scaled_halfspace. cbn [hs_n hs_d]. rewrite dot_scale_r. ring. }
  unfold strictly_inside. split.
  - intros H h Hh. assert (X := H _ (in_map (scaled_halfspace s) _ _ Hh)). rewrite E in X. nra.
  - intros H h Hh. apply in_map_iff in Hh as (h0 & <- & Hh). rewrite E. specialize (H _ Hh). nra.
Qed.
(** Moving both samples keeps them alike. *)
Lemma pC94_transform : forall s p p2 m m2 t, scaled_sample s p p2 -> scaled_motion s m m2 -> scaled_sample s (transform p m t) (transform p2 m2 t).
Proof.
  intros s p p2 m m2 t (P1 & P2 & P3 & P4 & P5 & P6 & P7 & P8) M. unfold scaled_sample, transform, mesh_update.
  cbn [pc_U pc_mesh_lab pc_volumes pc_eB pc_map pc_phases me_coord me_espherecentroids me_centroid].
  assert (EA : m_axis m2 = m_axis m /\ m_angle m2 = m_angle m) by (rewrite M; auto). destruct EA as (-> & ->).
  rewrite P1, P2, P3, P5, !map_map.
  repeat match goal with |- _ /\ _ => split end; auto; try (apply map_ext; intros; now apply move_scale). now apply move_scale.
Qed.
