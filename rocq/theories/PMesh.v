(** * Proofs about the mesh model. *)
From Verif Require Import Vec Spec MMotion PMotion MLaue PLaue MMesh SMesh.

(** ** algebra *)
Lemma face_centre_sign a b c d :
  dot (vsub (mean3 a b c) (mean4 (mean3 a b c) (mean3 a b d) (mean3 a c d) (mean3 b c d)))
      (cross (vsub b a) (vsub c a)) = - (1/4) * dot (cross (vsub b a) (vsub c a)) (vsub d a).
Proof. unfold mean3, mean4. vdes. vunf. field. Qed.
Lemma triple_rot a b c : triple a b c = triple c a b.
Proof. vdes; vunf; ring. Qed.
Lemma vol_cross a b c d : dot (cross (vsub b a) (vsub c a)) (vsub d a) = signed_vol6 a b c d.
Proof. unfold signed_vol6. vdes; vunf; ring. Qed.
Lemma evolume_vol t : evolume t = signed_vol6 (q0 t) (q1 t) (q2 t) (q3 t) / 6.
Proof. unfold evolume. rewrite vol_cross. field. Qed.
Lemma tet_volume_vol t : tet_volume t = Rabs (signed_vol6 (q0 t) (q1 t) (q2 t) (q3 t)) / 6.
Proof. unfold tet_volume. rewrite det_mT. reflexivity. Qed.
Lemma det_tet_A t : det (tet_A t) = signed_vol6 (q0 t) (q1 t) (q2 t) (q3 t).
Proof. reflexivity. Qed.

Lemma dot_scale_l c a b : dot (vscale c a) b = c * dot a b.
Proof. vdes; vunf; ring. Qed.
Lemma dot_scale_r c a b : dot a (vscale c b) = c * dot a b.
Proof. vdes; vunf; ring. Qed.
Lemma dot_cross_l a b : dot (cross a b) a = 0.
Proof. vdes; vunf; ring. Qed.
Lemma dot_cross_r a b : dot (cross a b) b = 0.
Proof. vdes; vunf; ring. Qed.

(** the generic face: corners a b c, other vertex d, and any centre whose sign
    test agrees with the geometric one *)
Lemma face_outward a b c d s : signed_vol6 a b c d <> 0 ->
  s = - (1/4) * dot (cross (vsub b a) (vsub c a)) (vsub d a) ->
  let n := cross (vsub b a) (vsub c a) in
  outward_normal a b c d (vscale (if Rle_dec 0 s then 1 else -1) (vscale (/ norm n) n)).
Proof.
  intros Hv Hs n.
  assert (Hn : 0 < norm n).
  { apply norm_pos. intros E. apply Hv. rewrite <- vol_cross. fold n. rewrite E. unfold vzero, dot; simpl; ring. }
  assert (Hv' : dot n (vsub d a) <> 0) by (unfold n; rewrite vol_cross; auto).
  fold n in Hs. set (v := dot n (vsub d a)) in *.
  assert (Hi : 0 < / norm n) by (apply Rinv_0_lt_compat; auto).
  split; [|split; [|split]].
  - unfold unit. rewrite !norm_scale. rewrite (Rabs_right (/ norm n)) by lra.
    destruct (Rle_dec 0 s).
    + rewrite Rabs_R1. field. lra.
    + replace (Rabs (-1)) with 1 by (rewrite Rabs_left; lra). field. lra.
  - unfold orthogonal. rewrite !dot_scale_l. unfold n at 2. rewrite dot_cross_l. ring.
  - unfold orthogonal. rewrite !dot_scale_l. unfold n at 2. rewrite dot_cross_r. ring.
  - rewrite !dot_scale_l. fold v. destruct (Rle_dec 0 s) as [H|H].
    + assert (v < 0) by lra. nra.
    + assert (0 < v) by lra. nra.
Qed.

Lemma signed_vol6_perm1 a b c d : signed_vol6 a b d c = - signed_vol6 a b c d.
Proof. unfold signed_vol6. vdes; vunf; ring. Qed.
Lemma signed_vol6_perm2 a b c d : signed_vol6 a c d b = signed_vol6 a b c d.
Proof. unfold signed_vol6. vdes; vunf; ring. Qed.
Lemma signed_vol6_perm3 a b c d : signed_vol6 b c d a = - signed_vol6 a b c d.
Proof. unfold signed_vol6. vdes; vunf; ring. Qed.

Lemma mean4_perm1 a b c d : mean4 a b c d = mean4 b a c d.
Proof. unfold mean4. f_equal. veq. Qed.
Lemma centre_sym_013 a b c d :
  mean4 (mean3 a b c) (mean3 a b d) (mean3 a c d) (mean3 b c d) =
  mean4 (mean3 a b d) (mean3 a b c) (mean3 a d c) (mean3 b d c).
Proof. unfold mean4, mean3. veq. Qed.
Lemma centre_sym_023 a b c d :
  mean4 (mean3 a b c) (mean3 a b d) (mean3 a c d) (mean3 b c d) =
  mean4 (mean3 a c d) (mean3 a c b) (mean3 a d b) (mean3 c d b).
Proof. unfold mean4, mean3. veq. Qed.
Lemma centre_sym_123 a b c d :
  mean4 (mean3 a b c) (mean3 a b d) (mean3 a c d) (mean3 b c d) =
  mean4 (mean3 b c d) (mean3 b c a) (mean3 b d a) (mean3 c d a).
Proof. unfold mean4, mean3. veq. Qed.

Lemma enormals_outward a b c d : signed_vol6 a b c d <> 0 ->
  exists n1 n2 n3 n4, enormals (Tet a b c d) = [n1; n2; n3; n4] /\
    outward_normal a b c d n1 /\ outward_normal a b d c n2 /\
    outward_normal a c d b n3 /\ outward_normal b c d a n4.
Proof.
  intros H. unfold enormals, face_normal, tet_faces. cbv zeta. cbn [map q0 q1 q2 q3 face_center face_normal_raw].
  do 4 eexists. split; [reflexivity|].
  split; [|split; [|split]].
  - apply face_outward; [auto|apply face_centre_sign].
  - rewrite centre_sym_013. apply face_outward; [rewrite signed_vol6_perm1; lra|apply face_centre_sign].
  - rewrite centre_sym_023. apply face_outward; [rewrite signed_vol6_perm2; auto|apply face_centre_sign].
  - rewrite centre_sym_123. apply face_outward; [rewrite signed_vol6_perm3; lra|apply face_centre_sign].
Qed.

(** ** Circumspheres *)
Lemma norm_pow2 a : (norm a)^2 = normsq a.
Proof. rewrite <- norm_sq. ring. Qed.
Lemma dist_comm a b : dist a b = dist b a.
Proof. unfold dist. apply norm_eq_normsq. vdes; vunf; ring. Qed.
Lemma dist_le_sq a b r : 0 <= r -> (dist a b <= r <-> normsq (vsub a b) <= r * r).
Proof.
  intros Hr. unfold dist, norm. pose proof (normsq_nonneg (vsub a b)) as H. split; intros H1.
  - rewrite <- (sqrt_sqrt _ H). pose proof (sqrt_pos (normsq (vsub a b))). nra.
  - rewrite <- (sqrt_square r Hr). apply sqrt_le_1_alt; auto.
Qed.
Lemma slack_ge r : 0 <= r -> r <= r * slack.
Proof. unfold slack; intros; lra. Qed.

Lemma solve3_spec A b : det A <> 0 -> mv A (solve3 A b) = b.
Proof.
  intros H. unfold solve3. rewrite mv_scale.
  replace (mv A (mv (mT (M3 (cross (r2 A) (r3 A)) (cross (r3 A) (r1 A)) (cross (r1 A) (r2 A)))) b))
    with (vscale (det A) b).
  - destruct b as [x y z]. unfold vscale; simpl. f_equal; field; auto.
  - clear H. veq.
Qed.
Lemma mv_inj A x : det A <> 0 -> mv A x = vzero -> x = vzero.
Proof.
  intros H E.
  assert (vscale (det A) x = vzero) as E'.
  { transitivity (mv (mT (M3 (cross (r2 A) (r3 A)) (cross (r3 A) (r1 A)) (cross (r1 A) (r2 A)))) (mv A x)).
    - clear. veq.
    - rewrite E. clear. veq. }
  destruct x as [x y z]. unfold vscale, vzero in E'. simpl in E'. inversion E'.
  unfold vzero. f_equal; apply (Rmult_eq_reg_l (det A)); lra.
Qed.

(** the circumcentre: unique point equidistant from the four vertices *)
Definition equidistant (t : tet) (c : vec) : Prop :=
  normsq (vsub (q1 t) c) = normsq (vsub (q0 t) c) /\
  normsq (vsub (q2 t) c) = normsq (vsub (q0 t) c) /\
  normsq (vsub (q3 t) c) = normsq (vsub (q0 t) c).
Lemma equidistant_lin p q c :
  normsq (vsub q c) = normsq (vsub p c) <-> dot (vsub q p) c = (normsq q - normsq p) / 2.
Proof. vdes; vunf; split; intros; lra. Qed.
Lemma equidistant_iff t c : equidistant t c <->
  mv (tet_A t) c = vscale (1/2) (V3 (normsq (q1 t) - normsq (q0 t)) (normsq (q2 t) - normsq (q0 t))
                                   (normsq (q3 t) - normsq (q0 t))).
Proof.
  unfold equidistant. rewrite !equidistant_lin. unfold mv, tet_A; cbn [r1 r2 r3].
  unfold vscale; cbn [vx vy vz]. split.
  - intros (-> & -> & ->). f_equal; field.
  - intros H; inversion H. repeat split; lra.
Qed.
Lemma equidistant_unique t c c' : det (tet_A t) <> 0 -> equidistant t c -> equidistant t c' -> c = c'.
Proof.
  intros Hd H H'. apply equidistant_iff in H, H'.
  assert (E : vsub c c' = vzero).
  { apply (mv_inj (tet_A t)); auto. rewrite mv_sub, H, H'. apply vsub_self. }
  rewrite <- (vsub_add c c'), E. apply vadd_0_l.
Qed.
Lemma tet_sphere_ok t : det (tet_A t) <> 0 -> exists c, equidistant t c /\
  tet_sphere t = Ok (c, dist (q0 t) c * slack).
Proof.
  intros H. unfold tet_sphere. destruct (Req_EM_T (det (tet_A t)) 0); [contradiction|].
  eexists. split; [|reflexivity]. apply equidistant_iff. rewrite !norm_pow2. apply solve3_spec; auto.
Qed.

(** circumcentre of a triangle *)
Lemma tri_d_props (ab ac : vec) : normsq (cross ab ac) <> 0 ->
  let d := vscale (/ (2 * (norm (cross ab ac))^2))
             (vadd (vscale ((norm ac)^2) (cross (cross ab ac) ab)) (vscale ((norm ab)^2) (cross (cross ac ab) ac))) in
  dot d ab = normsq ab / 2 /\ dot d ac = normsq ac / 2 /\ dot d (cross ab ac) = 0.
Proof.
  intros H d. unfold d. rewrite !norm_pow2, !dot_scale_l.
  set (D := normsq (cross ab ac)) in *.
  assert (E1 : dot (vadd (vscale (normsq ac) (cross (cross ab ac) ab)) (vscale (normsq ab) (cross (cross ac ab) ac))) ab
    = D * normsq ab) by (unfold D; clear; vdes; vunf; ring).
  assert (E2 : dot (vadd (vscale (normsq ac) (cross (cross ab ac) ab)) (vscale (normsq ab) (cross (cross ac ab) ac))) ac
    = D * normsq ac) by (unfold D; clear; vdes; vunf; ring).
  assert (E3 : dot (vadd (vscale (normsq ac) (cross (cross ab ac) ab)) (vscale (normsq ab) (cross (cross ac ab) ac))) (cross ab ac)
    = 0) by (clear; vdes; vunf; ring).
  rewrite E1, E2, E3. repeat split; field; auto.
Qed.
Lemma tri_sphere_equi p q r : normsq (cross (vsub q p) (vsub r p)) <> 0 ->
  let c := fst (tri_sphere p q r) in
  normsq (vsub q c) = normsq (vsub p c) /\ normsq (vsub r c) = normsq (vsub p c) /\
  snd (tri_sphere p q r) = dist p c * slack.
Proof.
  intros H c. unfold tri_sphere in *. cbn [fst snd] in *.
  destruct (tri_d_props _ _ H) as (E1 & E2 & _).
  unfold c. set (d := vscale _ _) in *. clearbody d.
  assert (F : forall z, dot d (vsub z p) = normsq (vsub z p) / 2 ->
     normsq (vsub z (vadd p d)) = normsq (vsub p (vadd p d))).
  { clear. intros z Hz.
    replace (normsq (vsub z (vadd p d))) with (normsq (vsub z p) - 2 * dot d (vsub z p) + normsq d) by (vdes; vunf; ring).
    rewrite Hz. replace (normsq (vsub p (vadd p d))) with (normsq d) by (vdes; vunf; ring). lra. }
  repeat split; auto. f_equal. unfold dist. apply norm_eq_normsq. clear. vdes; vunf; ring.
Qed.

Lemma bounding_sphere_contains t c r : bounding_sphere t = Ok (c, r) ->
  forall p, In p (tet_list t) -> in_ball c r p.
Proof.
  unfold bounding_sphere. intros H.
  destruct (split_pair t (argmax (tet_sides t))) as [[f1 f2] [o1 o2]] eqn:Es.
  assert (Hcov : forall p, In p (tet_list t) -> p = f1 \/ p = f2 \/ p = o1 \/ p = o2).
  { clear H. unfold split_pair, tet_list in *.
    destruct (argmax (tet_sides t)) as [|[|[|[|[|]]]]]; inversion Es; subst; simpl; intros p Hp;
    intuition (subst; auto). }
  unfold seg_sphere in H. destruct (tri_sphere f1 f2 _) as [c2 rad2] eqn:E2.
  assert (Hd : det (tet_A t) <> 0).
  { intros E. unfold tet_sphere in H. destruct (Req_EM_T (det (tet_A t)) 0); [discriminate|contradiction]. }
  destruct (tet_sphere_ok t Hd) as (c3 & He & E3). rewrite E3 in H. cbn [bind] in H.
  destruct (Rleb (dist o1 _ - _) 0 && _) eqn:B1.
  - apply andb_true_iff in B1 as [B1 B1']. apply Rleb_true in B1, B1'.
    inversion H; subst c r; clear H. intros p Hp. unfold in_ball.
    destruct (Hcov p Hp) as [->|[->|[->| ->]]]; try lra.
    + rewrite dist_comm. apply slack_ge, norm_nonneg.
    + eapply Rle_trans; [|apply slack_ge, norm_nonneg].
      apply Req_le. unfold dist. apply norm_eq_normsq. clear. vdes; vunf; field.
  - destruct (forallb _ _) eqn:B2.
    + rewrite forallb_forall in B2. inversion H; subst c r; clear H. intros p Hp.
      specialize (B2 p Hp). apply Rleb_true in B2. unfold in_ball. lra.
    + inversion H; subst c r; clear H. intros p Hp. unfold in_ball.
      eapply Rle_trans; [|apply slack_ge, norm_nonneg].
      apply Req_le. destruct He as (A1 & A2 & A3). unfold dist. apply norm_eq_normsq.
      destruct Hp as [<-|[<-|[<-|[<-|[]]]]]; auto.
Qed.
Lemma bounding_sphere_err t : det (tet_A t) = 0 -> bounding_sphere t = Err LinAlgError.
Proof.
  intros H. unfold bounding_sphere.
  destruct (split_pair t (argmax (tet_sides t))) as [[f1 f2] [o1 o2]].
  destruct (seg_sphere f1 f2) as [c1 rad1]. destruct (tri_sphere f1 f2 _) as [c2 rad2].
  unfold tet_sphere. destruct (Req_EM_T (det (tet_A t)) 0); [reflexivity|contradiction].
Qed.
Lemma bounding_sphere_ok t : det (tet_A t) <> 0 -> exists cr, bounding_sphere t = Ok cr.
Proof.
  intros H. unfold bounding_sphere.
  destruct (split_pair t (argmax (tet_sides t))) as [[f1 f2] [o1 o2]].
  destruct (seg_sphere f1 f2) as [c1 rad1]. destruct (tri_sphere f1 f2 _) as [c2 rad2].
  destruct (tet_sphere_ok t H) as (c3 & _ & ->). cbn [bind].
  destruct (_ && _); [eauto|]. destruct (forallb _ _); eauto.
Qed.

(** ** Equivariance under proper rigid maps x |-> A x + b *)
Definition aff (A : mat) (b : vec) (x : vec) : vec := vadd (mv A x) b.
Lemma aff_sub A b x y : vsub (aff A b x) (aff A b y) = mv A (vsub x y).
Proof. unfold aff. rewrite mv_sub. generalize (mv A x) (mv A y). veq. Qed.
Lemma rotation_cross A x y : is_rotation A -> cross (mv A x) (mv A y) = mv A (cross x y).
Proof.
  intros (H1 & H2 & H3).
  assert (E : forall z, dot (vsub (cross (mv A x) (mv A y)) (mv A (cross x y))) (mv A z) = 0).
  { intros z. replace (dot (vsub (cross (mv A x) (mv A y)) (mv A (cross x y))) (mv A z))
      with (triple (mv A z) (mv A x) (mv A y) - dot (mv A (cross x y)) (mv A z)).
    - rewrite triple_mv, H3, rotation_dot by (repeat split; auto). clear. vdes; vunf; ring.
    - generalize (mv A x) (mv A y) (mv A z) (mv A (cross x y)). clear. intros. vdes; vunf; ring. }
  set (w := vsub _ _) in E.
  assert (E0 : w = vzero).
  { apply normsq_0. unfold normsq. specialize (E (mv (mT A) w)).
    rewrite <- mv_mm, H2, mv_I in E. exact E. }
  rewrite <- (vsub_add (cross (mv A x) (mv A y)) (mv A (cross x y))). fold w. rewrite E0. apply vadd_0_l.
Qed.

Lemma aff_dist A b x y : is_rotation A -> dist (aff A b x) (aff A b y) = dist x y.
Proof. intros H. unfold dist. rewrite aff_sub. apply rotation_norm; auto. Qed.
Lemma aff_vol A b p q r s : is_rotation A ->
  signed_vol6 (aff A b p) (aff A b q) (aff A b r) (aff A b s) = signed_vol6 p q r s.
Proof.
  intros H. unfold signed_vol6. rewrite !aff_sub, triple_mv. destruct H as (_ & _ & ->). ring.
Qed.
Lemma aff_mean4 A b p q r s : mean4 (aff A b p) (aff A b q) (aff A b r) (aff A b s) = aff A b (mean4 p q r s).
Proof.
  unfold mean4, aff. rewrite mv_scale, !mv_add. generalize (mv A p) (mv A q) (mv A r) (mv A s). clear.
  intros. vdes; vext; vunf; field.
Qed.
Lemma aff_mean3 A b p q r : mean3 (aff A b p) (aff A b q) (aff A b r) = aff A b (mean3 p q r).
Proof.
  unfold mean3, aff. rewrite mv_scale, !mv_add. generalize (mv A p) (mv A q) (mv A r). clear.
  intros. vdes; vext; vunf; field.
Qed.
Lemma aff_ecentroid A b t : ecentroid (tet_map (aff A b) t) = aff A b (ecentroid t).
Proof. apply aff_mean4. Qed.
Lemma aff_evolume A b t : is_rotation A -> evolume (tet_map (aff A b) t) = evolume t.
Proof. intros H. rewrite !evolume_vol. simpl. rewrite aff_vol; auto. Qed.
Lemma aff_tet_volume A b t : is_rotation A -> tet_volume (tet_map (aff A b) t) = tet_volume t.
Proof. intros H. rewrite !tet_volume_vol. simpl. rewrite aff_vol; auto. Qed.

Lemma aff_enormals A b t : is_rotation A -> enormals (tet_map (aff A b) t) = map (mv A) (enormals t).
Proof.
  intros H. destruct t as [a b' c d]. unfold enormals, face_normal, tet_faces, tet_map. cbv zeta.
  cbn [map q0 q1 q2 q3 face_center face_normal_raw].
  rewrite !aff_mean3, !aff_mean4, !aff_sub, !rotation_cross, !rotation_dot, !mv_scale, !rotation_norm by auto.
  reflexivity.
Qed.

Lemma aff_seg A b p q : is_rotation A ->
  seg_sphere (aff A b p) (aff A b q) = (aff A b (fst (seg_sphere p q)), snd (seg_sphere p q)).
Proof.
  intros H. unfold seg_sphere. cbn [fst snd].
  assert (E : vscale (/2) (vadd (aff A b p) (aff A b q)) = aff A b (vscale (/2) (vadd p q))).
  { unfold aff. rewrite mv_scale, mv_add. generalize (mv A p) (mv A q). clear. intros. vdes; vext; vunf; field. }
  rewrite E, aff_sub, rotation_norm by auto. reflexivity.
Qed.
Lemma aff_tri A b p q r : is_rotation A ->
  tri_sphere (aff A b p) (aff A b q) (aff A b r) = (aff A b (fst (tri_sphere p q r)), snd (tri_sphere p q r)).
Proof.
  intros H. unfold tri_sphere. cbn [fst snd]. cbv zeta.
  rewrite !aff_sub, !rotation_cross, !rotation_norm, <- !mv_scale, <- mv_add, <- mv_scale by auto.
  rewrite rotation_norm by auto. f_equal. unfold aff. rewrite mv_add.
  generalize (mv A p). intros v. generalize (mv A (vscale (/ (2 * norm (cross (vsub q p) (vsub r p)) ^ 2))
    (vadd (vscale (norm (vsub r p) ^ 2) (cross (cross (vsub q p) (vsub r p)) (vsub q p)))
       (vscale (norm (vsub q p) ^ 2) (cross (cross (vsub r p) (vsub q p)) (vsub r p)))))).
  clear. veq.
Qed.
Lemma aff_tet_sphere A b t : is_rotation A ->
  tet_sphere (tet_map (aff A b) t) =
  let* s := tet_sphere t in Ok (aff A b (fst s), snd s).
Proof.
  intros H.
  assert (Hd : det (tet_A (tet_map (aff A b) t)) = det (tet_A t)).
  { rewrite !det_tet_A. simpl. apply aff_vol; auto. }
  destruct (Req_EM_T (det (tet_A t)) 0) as [E|E].
  - unfold tet_sphere. rewrite Hd. destruct (Req_EM_T (det (tet_A t)) 0); [reflexivity|contradiction].
  - destruct (tet_sphere_ok t E) as (c & Hc & ->).
    destruct (tet_sphere_ok (tet_map (aff A b) t)) as (c' & Hc' & ->); [congruence|].
    assert (c' = aff A b c) as ->.
    { apply (equidistant_unique (tet_map (aff A b) t)); [congruence|auto|].
      destruct Hc as (E1 & E2 & E3). unfold equidistant. cbn [tet_map q0 q1 q2 q3].
      rewrite !aff_sub, !rotation_normsq by auto. auto. }
    cbn [bind fst snd tet_map q0]. rewrite aff_dist by auto. reflexivity.
Qed.
Lemma aff_bounding A b t : is_rotation A ->
  bounding_sphere (tet_map (aff A b) t) =
  let* s := bounding_sphere t in Ok (aff A b (fst s), snd s).
Proof.
  intros H. unfold bounding_sphere.
  assert (Es : tet_sides (tet_map (aff A b) t) = tet_sides t).
  { unfold tet_sides, tet_map; cbn [q0 q1 q2 q3]. rewrite !aff_dist by auto. reflexivity. }
  rewrite Es.
  assert (Ep : split_pair (tet_map (aff A b) t) (argmax (tet_sides t)) =
    let '((f1, f2), (o1, o2)) := split_pair t (argmax (tet_sides t)) in
    ((aff A b f1, aff A b f2), (aff A b o1, aff A b o2))).
  { destruct (argmax (tet_sides t)) as [|[|[|[|[|]]]]]; reflexivity. }
  rewrite Ep. destruct (split_pair t (argmax (tet_sides t))) as [[f1 f2] [o1 o2]].
  rewrite aff_seg by auto. destruct (seg_sphere f1 f2) as [c1 rad1]. cbn [fst snd]. cbv zeta.
  rewrite !aff_dist by auto.
  assert (Et : (if Nat.eqb (argmax [dist o1 c1; dist o2 c1]) 0 then aff A b o1 else aff A b o2) =
     aff A b (if Nat.eqb (argmax [dist o1 c1; dist o2 c1]) 0 then o1 else o2))
    by (destruct (Nat.eqb _ 0); reflexivity).
  rewrite Et. set (third := if Nat.eqb _ 0 then o1 else o2). clearbody third.
  rewrite aff_tri by auto. destruct (tri_sphere f1 f2 third) as [c2 rad2]. cbn [fst snd].
  replace (forallb (fun v => Rleb (dist v (aff A b c2) - rad2) 0) (tet_list (tet_map (aff A b) t)))
    with (forallb (fun v => Rleb (dist v c2 - rad2) 0) (tet_list t)).
  2:{ unfold tet_list, tet_map; cbn [q0 q1 q2 q3 forallb]. rewrite !aff_dist by auto. reflexivity. }
  rewrite aff_tet_sphere by auto. destruct (tet_sphere t) as [[c3 rad3]|e]; cbn [bind fst snd]; [|reflexivity].
  destruct (_ && _); [reflexivity|]. destruct (forallb _ _); reflexivity.
Qed.

Lemma gather_map f coord e : gather_tet (map f coord) e = let* t := gather_tet coord e in Ok (tet_map f t).
Proof.
  destruct e as [[[a b] c] d]. unfold gather_tet. rewrite !nth_error_map.
  destruct (nth_error coord a), (nth_error coord b), (nth_error coord c), (nth_error coord d); reflexivity.
Qed.
Lemma traverse_gather_map f coord enod :
  traverse (gather_tet (map f coord)) enod = let* ts := traverse (gather_tet coord) enod in Ok (map (tet_map f) ts).
Proof.
  induction enod as [|e es IH]; simpl; auto.
  rewrite gather_map, IH. destruct (gather_tet coord e); simpl; auto.
  destruct (traverse (gather_tet coord) es); reflexivity.
Qed.
Lemma traverse_bounding_map A b ts : is_rotation A ->
  traverse bounding_sphere (map (tet_map (aff A b)) ts) =
  let* ss := traverse bounding_sphere ts in Ok (map (fun s => (aff A b (fst s), snd s)) ss).
Proof.
  intros H. induction ts as [|t ts IH]; simpl; auto.
  rewrite aff_bounding, IH by auto. destruct (bounding_sphere t); simpl; auto.
  destruct (traverse bounding_sphere ts); reflexivity.
Qed.
Lemma fold_aff A b l : fold_right vadd vzero (map (aff A b) l) =
  vadd (mv A (fold_right vadd vzero l)) (vscale (INR (length l)) b).
Proof.
  induction l as [|x l IH].
  - simpl. veq.
  - cbn [map fold_right length]. rewrite IH, S_INR, mv_add. unfold aff.
    generalize (mv A x) (mv A (fold_right vadd vzero l)) (INR (length l)). clear. veq.
Qed.
Lemma mean_aff A b l : l <> [] -> mean_list (map (aff A b) l) = aff A b (mean_list l).
Proof.
  intros H. unfold mean_list. rewrite map_length, fold_aff.
  assert (INR (length l) <> 0) as Hn by (destruct l; [contradiction|apply not_0_INR; discriminate]).
  revert Hn. unfold aff. rewrite mv_scale. generalize (mv A (fold_right vadd vzero l)) (INR (length l)). clear.
  intros. vdes; vext; vunf; field; auto.
Qed.

(** the mesh moved by f = (A,b), derived quantities moved along *)
Definition moved (A : mat) (b : vec) (pts : list vec) (me : mesh) : mesh :=
  Mesh pts (map (aff A b) (me_coord me)) (me_enod me) (me_efaces me)
    (map (map (mv A)) (me_enormals me)) (map (aff A b) (me_ecentroids me)) (me_eradius me)
    (map (aff A b) (me_espherecentroids me)) (aff A b (me_centroid me)) (me_evolumes me).

Lemma build_mesh_inv coord enod me : build_mesh coord enod = Ok me ->
  exists ts ss, traverse (gather_tet coord) enod = Ok ts /\ traverse bounding_sphere ts = Ok ss /\
  me = Mesh coord coord enod (map elem_faces enod) (map enormals ts) (map ecentroid ts) (map snd ss) (map fst ss)
        (mean_list (map ecentroid ts)) (map evolume ts).
Proof.
  unfold build_mesh. destruct (traverse (gather_tet coord) enod) as [ts|] eqn:E1; [|discriminate]. cbn [bind].
  destruct (traverse bounding_sphere ts) as [ss|] eqn:E2; [|discriminate]. cbn [bind].
  intros H; inversion H. eauto.
Qed.
Lemma build_moved A b coord enod me : is_rotation A -> enod <> [] -> build_mesh coord enod = Ok me ->
  build_mesh (map (aff A b) coord) enod = Ok (moved A b (map (aff A b) coord) me).
Proof.
  intros HA Hn H. destruct (build_mesh_inv _ _ _ H) as (ts & ss & E1 & E2 & ->).
  unfold build_mesh. rewrite traverse_gather_map, E1. cbn [bind].
  rewrite traverse_bounding_map, E2 by auto. cbn [bind]. unfold moved. cbn [me_coord me_points me_enod me_efaces me_enormals me_ecentroids me_eradius me_espherecentroids me_centroid me_evolumes].
  rewrite !map_map. f_equal.
  assert (Hts : map ecentroid ts <> []).
  { intros E. apply traverse_spec in E1. destruct ts; [|discriminate]. inversion E1. subst. contradiction. }
  rewrite <- mean_aff by auto. rewrite map_map.
  assert (X1 : map (fun x => ecentroid (tet_map (aff A b) x)) ts = map (fun x => aff A b (ecentroid x)) ts)
    by (apply map_ext; intros; apply aff_ecentroid).
  rewrite X1. f_equal.
  - apply map_ext; intros; apply aff_enormals; auto.
  - apply map_ext; intros; apply aff_evolume; auto.
Qed.

(** ** Mesh-level facts *)
Lemma move_at_aff m t x : move_at m t x = aff (rod_matrix (m_axis m) (m_angle m * t))
   (vadd (vsub (m_origin m) (mv (rod_matrix (m_axis m) (m_angle m * t)) (m_origin m))) (vscale t (m_trans m))) x.
Proof.
  unfold move_at, rot_at, aff. rewrite mv_sub. generalize (mv (rod_matrix (m_axis m) (m_angle m * t)) x)
    (mv (rod_matrix (m_axis m) (m_angle m * t)) (m_origin m)). veq.
Qed.

Lemma update_moved me m t : exists b,
  mesh_update me m t = moved (rod_matrix (m_axis m) (m_angle m * t)) b (me_points me) me.
Proof.
  eexists. unfold mesh_update, moved. f_equal; try (apply map_ext; intros; apply move_at_aff).
  apply move_at_aff.
Qed.
Lemma translate_moved me v : me_points me = me_coord me ->
  mesh_translate me v = moved mI v (map (aff mI v) (me_coord me)) me.
Proof.
  intros E. unfold mesh_translate, moved. rewrite E.
  assert (X : forall p, vadd p v = aff mI v p) by (intros; unfold aff; now rewrite mv_I).
  assert (Y : map (map (mv mI)) (me_enormals me) = me_enormals me).
  { rewrite <- (map_id (me_enormals me)) at 2. apply map_ext. intros l.
    rewrite <- (map_id l) at 2. apply map_ext. apply mv_I. }
  rewrite Y. f_equal; try (apply map_ext; intros; apply X). apply X.
Qed.

Definition good (me : mesh) : Prop :=
  exists me', build_mesh (me_coord me) (me_enod me) = Ok me' /\ same_geometry me me'.
Lemma same_geometry_refl me : same_geometry me me.
Proof. repeat split. Qed.
Lemma moved_same A b pts pts' me me' : same_geometry me me' -> same_geometry (moved A b pts me) (moved A b pts' me').
Proof.
  intros (H1 & H2 & H3 & H4 & H5 & H6 & H7 & H8 & H9). unfold same_geometry, moved; cbn.
  rewrite H1, H2, H3, H4, H5, H6, H7, H8, H9. repeat split.
Qed.
Lemma moved_good A b pts me : is_rotation A -> me_enod me <> [] -> good me -> good (moved A b pts me).
Proof.
  intros HA Hn (me' & H & Hs). unfold good. cbn [moved me_coord me_enod].
  exists (moved A b (map (aff A b) (me_coord me)) me'). split; [|apply moved_same; auto].
  apply build_moved; auto.
Qed.
Definition rigid_image (c c' : list vec) : Prop := exists f, proper_rigid f /\ c' = map f c.
Lemma aff_proper A b : is_rotation A -> proper_rigid (aff A b).
Proof. intros H; split; intro; intros; [apply aff_dist|apply aff_vol]; auto. Qed.
Lemma rigid_id c : rigid_image c c.
Proof. exists (fun x => x). split; [split; intro; intros; auto|]. now rewrite map_id. Qed.
Lemma rigid_trans c c' c'' : rigid_image c c' -> rigid_image c' c'' -> rigid_image c c''.
Proof.
  intros (f & (F1 & F2) & ->) (g & (G1 & G2) & ->). exists (fun x => g (f x)). rewrite map_map. split; auto.
  split; intro; intros; [rewrite G1, F1|rewrite G2, F2]; auto.
Qed.
Lemma step_moves me o me' : exact_move o -> mesh_step me o = Ok me' ->
  exists A b, is_rotation A /\ me' = moved A b (me_points me) me.
Proof.
  intros Ho H. destruct o as [v|m t|a w]; simpl in *; [contradiction| |].
  - inversion H. destruct (update_moved me m t) as (b & ->). exists (rod_matrix (m_axis m) (m_angle m * t)), b.
    split; auto. apply rod_rotation; auto.
  - unfold mesh_rotate in H. destruct (make_motion a w vzero vzero) as [m|] eqn:E; [|discriminate]. cbn in H.
    apply make_motion_ok_iff in E as (_ & _ & ->). inversion H.
    match goal with |- context [mesh_update me ?m ?t] => destruct (update_moved me m t) as (b & ->) end.
    do 2 eexists. split; [|reflexivity]. apply rod_rotation; auto.
Qed.
Lemma run_moves ops : forall me me', Forall exact_move ops -> me_enod me <> [] -> good me ->
  mesh_run me ops = Ok me' ->
  good me' /\ me_enod me' = me_enod me /\ rigid_image (me_coord me) (me_coord me').
Proof.
  induction ops as [|o ops IH]; intros me me' Hf Hn Hg H.
  - inversion H; subst. auto using rigid_id.
  - inversion Hf; subst. cbn [mesh_run] in H. destruct (mesh_step me o) as [me1|] eqn:E; [|discriminate]. cbn [bind] in H.
    destruct (step_moves _ _ _ H2 E) as (A & b & HA & ->).
    destruct (IH (moved A b (me_points me) me) _ H3 Hn (moved_good A b _ me HA Hn Hg) H) as (X1 & X2 & X3).
    split; auto. split; auto. eapply rigid_trans; [|exact X3]. exists (aff A b).
    split; [apply aff_proper; auto|reflexivity].
Qed.
Lemma run_translations vs : forall me, me_points me = me_coord me -> me_enod me <> [] -> good me ->
  exists me', mesh_run me (map OTranslate vs) = Ok me' /\ me_points me' = me_coord me' /\ good me' /\
   me_enod me' = me_enod me /\
   me_coord me' = map (fun p => vadd p (fold_right vadd vzero vs)) (me_coord me).
Proof.
  induction vs as [|v vs IH]; intros me Hp Hn Hg.
  - exists me. repeat split; auto. rewrite <- (map_id (me_coord me)) at 1. apply map_ext. intros; symmetry; apply vadd_0_r.
  - cbn [map mesh_run mesh_step bind]. rewrite (translate_moved me v Hp).
    destruct (IH (moved mI v (map (aff mI v) (me_coord me)) me)) as (me' & X1 & X2 & X3 & X4 & X5); auto.
    { apply moved_good; auto using rotation_I. }
    exists me'. repeat split; auto. rewrite X5. cbn [moved me_coord]. rewrite map_map. apply map_ext. intros p.
    unfold aff. rewrite mv_I. cbn [fold_right]. now rewrite vadd_assoc.
Qed.
Lemma run_app me l l' : mesh_run me (l ++ l') = let* m := mesh_run me l in mesh_run m l'.
Proof.
  revert me; induction l as [|o l IH]; intros me; simpl; auto.
  destruct (mesh_step me o); simpl; auto.
Qed.
Lemma build_good coord enod me : build_mesh coord enod = Ok me ->
  good me /\ me_points me = me_coord me /\ me_enod me = enod /\ me_coord me = coord.
Proof.
  intros H. destruct (build_mesh_inv _ _ _ H) as (ts & ss & E1 & E2 & Em). subst me.
  split; [|auto]. eexists. split; [exact H|apply same_geometry_refl].
Qed.

Lemma Forall2_len {A B} (P : A -> B -> Prop) l m : Forall2 P l m -> length l = length m.
Proof. induction 1; simpl; congruence. Qed.
Lemma Forall2_nth {A B} (P : A -> B -> Prop) l m i x : Forall2 P l m -> nth_error l i = Some x ->
  exists y, nth_error m i = Some y /\ P x y.
Proof.
  intros H; revert i; induction H; intros [|i] E; simpl in *; try discriminate; eauto.
  inversion E; subst; eauto.
Qed.
Lemma corners_tet coord enod me ts i a b c d : build_mesh coord enod = Ok me ->
  traverse (gather_tet coord) enod = Ok ts -> corners me i a b c d -> nth_error ts i = Some (Tet a b c d).
Proof.
  intros H Ht (na & nb & nc & nd & E & Ea & Eb & Ec & Ed).
  destruct (build_good _ _ _ H) as (_ & _ & En & Eco). rewrite En in E. rewrite Eco in *.
  apply traverse_spec in Ht. destruct (Forall2_nth _ _ _ _ _ Ht E) as (t & Et & G).
  unfold gather_tet in G. rewrite Ea, Eb, Ec, Ed in G. inversion G; subst; auto.
Qed.
Lemma tet_nondeg ts ss i t : traverse bounding_sphere ts = Ok ss -> nth_error ts i = Some t -> det (tet_A t) <> 0.
Proof.
  intros H E. apply traverse_spec in H. destruct (Forall2_nth _ _ _ _ _ H E) as (s & _ & G).
  intros D. rewrite (bounding_sphere_err _ D) in G. discriminate.
Qed.

(** ** C50 *)
(** Whenever a mesh is built from any coordinates and connectivity, each
    element's four face normals are the outward unit normals of the four faces,
    in the order in which the faces are listed. *)
Lemma pC50_normals_outward : forall coord enod me i a b c d,
  build_mesh coord enod = Ok me -> corners me i a b c d ->
  exists n012 n013 n023 n123,
    nth_error (me_enormals me) i = Some [n012; n013; n023; n123] /\
    outward_normal a b c d n012 /\ outward_normal a b d c n013 /\
    outward_normal a c d b n023 /\ outward_normal b c d a n123.
Proof.
  intros coord enod me i a b c d H Hc.
  destruct (build_mesh_inv _ _ _ H) as (ts & ss & E1 & E2 & Em).
  pose proof (corners_tet _ _ _ _ _ _ _ _ _ H E1 Hc) as Et.
  pose proof (tet_nondeg _ _ _ _ E2 Et) as Hd. rewrite det_tet_A in Hd. cbn [q0 q1 q2 q3] in Hd.
  destruct (enormals_outward a b c d Hd) as (n1 & n2 & n3 & n4 & En & Hn).
  exists n1, n2, n3, n4. split; auto. rewrite Em. cbn [me_enormals].
  rewrite nth_error_map, Et. cbn [option_map]. now rewrite En.
Qed.

(** Outward means: every normal sees every other point of the element behind the
    face, i.e. the element is exactly the intersection of the four half-spaces'
    closure side (here: all four corners are on the non-positive side). *)
Lemma pC50_element_behind_faces : forall a b c d n p s t u,
  outward_normal a b c d n -> 0 <= s -> 0 <= t -> 0 <= u -> s + t + u <= 1 ->
  p = vadd a (vadd (vscale s (vsub b a)) (vadd (vscale t (vsub c a)) (vscale u (vsub d a)))) ->
  dot n (vsub p a) <= 0 /\ (dot n (vsub p a) = 0 <-> u = 0).
Proof.
  intros a b c d n p s t u (Hu & H1 & H2 & H3) Hs Ht Hu0 Hsum ->. unfold orthogonal in *.
  replace (dot n (vsub (vadd a (vadd (vscale s (vsub b a)) (vadd (vscale t (vsub c a)) (vscale u (vsub d a))))) a))
    with (s * dot n (vsub b a) + t * dot n (vsub c a) + u * dot n (vsub d a)).
  - rewrite H1, H2. split; [nra|]. split; intros; [nra|subst; ring].
  - generalize (vsub b a) (vsub c a) (vsub d a). clear. intros. vdes; vunf; ring.
Qed.

(** ** C51 *)
(** The bounding ball of each element of each mesh contains its four corners,
    and therefore the whole element. *)
Lemma pC51_sphere_contains_element : forall coord enod me i a b c d,
  build_mesh coord enod = Ok me -> corners me i a b c d ->
  exists ctr rad, nth_error (me_espherecentroids me) i = Some ctr /\ nth_error (me_eradius me) i = Some rad /\
    forall s t u v, 0 <= s -> 0 <= t -> 0 <= u -> 0 <= v -> s + t + u + v = 1 ->
    in_ball ctr rad (vadd (vscale s a) (vadd (vscale t b) (vadd (vscale u c) (vscale v d)))).
Proof.
  intros coord enod me i a b c d H Hc.
  destruct (build_mesh_inv _ _ _ H) as (ts & ss & E1 & E2 & Em).
  pose proof (corners_tet _ _ _ _ _ _ _ _ _ H E1 Hc) as Et.
  apply traverse_spec in E2. destruct (Forall2_nth _ _ _ _ _ E2 Et) as ([ctr rad] & Es & G).
  exists ctr, rad. rewrite Em. cbn [me_espherecentroids me_eradius]. rewrite !nth_error_map, Es. cbn [option_map fst snd].
  do 2 (split; [reflexivity|]).
  intros s t u v Hs Ht Hu Hv Hsum.
  assert (A0 : forall p, In p [a; b; c; d] -> norm (vsub p ctr) <= rad)
    by (intros p Hp; apply (bounding_sphere_contains _ _ _ G p Hp)).
  pose proof (A0 a ltac:(simpl; auto)) as Aa. pose proof (A0 b ltac:(simpl; auto)) as Ab.
  pose proof (A0 c ltac:(simpl; auto)) as Ac. pose proof (A0 d ltac:(simpl; auto)) as Ad.
  unfold in_ball, dist.
  replace (vsub (vadd (vscale s a) (vadd (vscale t b) (vadd (vscale u c) (vscale v d)))) ctr)
    with (vadd (vscale s (vsub a ctr)) (vadd (vscale t (vsub b ctr)) (vadd (vscale u (vsub c ctr)) (vscale v (vsub d ctr))))).
  2:{ assert (v = 1 - s - t - u) as -> by lra. clear. veq. }
  eapply Rle_trans; [apply norm_triangle|].
  eapply Rle_trans; [apply Rplus_le_compat_l, norm_triangle|].
  eapply Rle_trans; [apply Rplus_le_compat_l, Rplus_le_compat_l, norm_triangle|].
  rewrite !norm_scale, !Rabs_right by lra.
  assert (s * norm (vsub a ctr) <= s * rad) by (apply Rmult_le_compat_l; auto).
  assert (t * norm (vsub b ctr) <= t * rad) by (apply Rmult_le_compat_l; auto).
  assert (u * norm (vsub c ctr) <= u * rad) by (apply Rmult_le_compat_l; auto).
  assert (v * norm (vsub d ctr) <= v * rad) by (apply Rmult_le_compat_l; auto).
  replace rad with (s * rad + t * rad + u * rad + v * rad) by (rewrite <- !Rmult_plus_distr_r, Hsum; ring). lra.
Qed.

(** Mesh construction succeeds exactly on in-range connectivity with no flat
    element; a flat element makes it raise LinAlgError. *)
Lemma pC51_build_succeeds_iff : forall coord enod,
  (exists me, build_mesh coord enod = Ok me) <->
  (forall e, In e enod -> exists a b c d, gather_tet coord e = Ok (Tet a b c d) /\ signed_vol6 a b c d <> 0).
Proof.
  intros coord enod. split.
  - intros (me & H) e He. destruct (build_mesh_inv _ _ _ H) as (ts & ss & E1 & E2 & _).
    apply traverse_spec in E1, E2. destruct (Forall2_in_l _ _ _ _ E1 He) as ([a b c d] & Hin & G).
    destruct (Forall2_in_l _ _ _ _ E2 Hin) as (s & _ & G2).
    exists a, b, c, d. split; auto. intros D.
    rewrite (bounding_sphere_err (Tet a b c d) D) in G2. discriminate.
  - intros H. unfold build_mesh.
    destruct (traverse (gather_tet coord) enod) as [ts|] eqn:E1.
    + cbn [bind]. apply traverse_spec in E1.
      destruct (traverse bounding_sphere ts) as [ss|] eqn:E2; [cbn; eauto|].
      exfalso. destruct (traverse_ok bounding_sphere ts) as (ys & Ey); [|congruence].
      intros t Ht. destruct (Forall2_in_r _ _ _ _ E1 Ht) as (e0 & He & G).
      destruct (H e0 He) as (a & b & c & d & G' & D). rewrite G in G'. inversion G'; subst.
      apply bounding_sphere_ok. exact D.
    + exfalso. destruct (traverse_ok (gather_tet coord) enod) as (ys & Ey); [|congruence].
      intros e0 He. destruct (H e0 He) as (a & b & c & d & G' & D). eauto.
Qed.
Lemma pC51_flat_element_raises : forall a b c d, signed_vol6 a b c d = 0 ->
  build_mesh [a; b; c; d] [(0, 1, 2, 3)%nat] = Err LinAlgError.
Proof.
  intros a b c d D. unfold build_mesh. cbn. rewrite (bounding_sphere_err (Tet a b c d) D). reflexivity.
Qed.

(** The first two stages are (up to the 1.0001 slack) minimal; the third is not:
    for this element the reported ball is more than 1.3 times larger than the
    ball around (11/2,7/2,7/2) that contains all four corners. *)
Lemma sqrt_lt_dec x y : 0 <= x -> x < y -> sqrt x < sqrt y.
Proof. intros; apply sqrt_lt_1; lra. Qed.
Ltac rlt_no H := match goal with |- context [Rlt_dec ?a ?b] =>
  destruct (Rlt_dec a b) as [H|H] end.
Lemma dist_sqrt a b : dist a b = sqrt (normsq (vsub a b)).
Proof. reflexivity. Qed.
Definition bad_tet : tet := Tet (V3 7 6 1) (V3 3 4 1) (V3 7 3 7) (V3 2 2 3).
Lemma bad_tet_sides : tet_sides bad_tet = [sqrt 20; sqrt 45; sqrt 45; sqrt 53; sqrt 9; sqrt 42].
Proof.
  unfold tet_sides, bad_tet, dist, norm; cbn [q0 q1 q2 q3].
  repeat (f_equal; try (vunf; ring)).
Qed.
Lemma bad_tet_argmax : argmax (tet_sides bad_tet) = 3%nat.
Proof.
  rewrite bad_tet_sides. unfold argmax, argmax_from.
  assert (sqrt 20 < sqrt 45) by (apply sqrt_lt_dec; lra).
  assert (sqrt 45 < sqrt 53) by (apply sqrt_lt_dec; lra).
  assert (sqrt 9 < sqrt 53) by (apply sqrt_lt_dec; lra).
  assert (sqrt 42 < sqrt 53) by (apply sqrt_lt_dec; lra).
  destruct (Rlt_dec (sqrt 20) (sqrt 45)); [|lra].
  destruct (Rlt_dec (sqrt 45) (sqrt 45)); [lra|].
  destruct (Rlt_dec (sqrt 45) (sqrt 53)); [|lra].
  destruct (Rlt_dec (sqrt 53) (sqrt 9)); [lra|].
  destruct (Rlt_dec (sqrt 53) (sqrt 42)); [lra|]. reflexivity.
Qed.
Lemma bad_tet_sphere : bounding_sphere bad_tet = Ok (V3 7 1 (9/4), sqrt (425/16) * slack).
Proof.
  unfold bounding_sphere. rewrite bad_tet_argmax. unfold split_pair, bad_tet; cbn [q0 q1 q2 q3].
  unfold seg_sphere at 1. cbv zeta. 
  replace (vscale (/2) (vadd (V3 3 4 1) (V3 7 3 7))) with (V3 5 (7/2) 4) by (vext; vunf; field).
  replace (norm (vsub (V3 5 (7 / 2) 4) (V3 3 4 1))) with (sqrt (53/4)) by (unfold norm; f_equal; vunf; field).
  replace (dist (V3 7 6 1) (V3 5 (7 / 2) 4)) with (sqrt (77/4)) by (unfold dist, norm; f_equal; vunf; field).
  replace (dist (V3 2 2 3) (V3 5 (7 / 2) 4)) with (sqrt (49/4)) by (unfold dist, norm; f_equal; vunf; field).
  assert (L1 : sqrt (53/4) * slack < sqrt (77/4)).
  { unfold slack. apply Rsqr_incrst_0; [|pose proof (sqrt_pos (53/4)); lra|apply sqrt_pos].
    rewrite Rsqr_mult, !Rsqr_sqrt by lra. unfold Rsqr; lra. }
  replace (Rleb (sqrt (77/4) - sqrt (53/4) * slack) 0) with false by (symmetry; apply Rleb_false; lra).
  cbn [andb].
  assert (L2 : sqrt (49/4) < sqrt (77/4)) by (apply sqrt_lt_dec; lra).
  replace (argmax [sqrt (77/4); sqrt (49/4)]) with 0%nat
    by (unfold argmax, argmax_from; destruct (Rlt_dec (sqrt (77/4)) (sqrt (49/4))); [lra|reflexivity]).
  cbn [Nat.eqb].
  assert (Et : tri_sphere (V3 3 4 1) (V3 7 3 7) (V3 7 6 1) = (V3 (133/24) (47/12) (89/24), sqrt (1325/96) * slack)).
  { unfold tri_sphere. cbv zeta. rewrite !norm_pow2.
    assert (Ed : vscale (/ (2 * normsq (cross (vsub (V3 7 3 7) (V3 3 4 1)) (vsub (V3 7 6 1) (V3 3 4 1)))))
     (vadd (vscale (normsq (vsub (V3 7 6 1) (V3 3 4 1)))
       (cross (cross (vsub (V3 7 3 7) (V3 3 4 1)) (vsub (V3 7 6 1) (V3 3 4 1))) (vsub (V3 7 3 7) (V3 3 4 1))))
       (vscale (normsq (vsub (V3 7 3 7) (V3 3 4 1)))
        (cross (cross (vsub (V3 7 6 1) (V3 3 4 1)) (vsub (V3 7 3 7) (V3 3 4 1))) (vsub (V3 7 6 1) (V3 3 4 1)))))
       = V3 (61/24) (-(1/12)) (65/24)) by (vext; vunf; field).
    rewrite Ed. f_equal; [vext; vunf; field|]. f_equal. unfold norm. f_equal. vunf; field. }
  rewrite Et. unfold tet_list; cbn [q0 q1 q2 q3 forallb].
  replace (dist (V3 2 2 3) (V3 (133/24) (47/12) (89/24))) with (sqrt (535/32)) by (unfold dist, norm; f_equal; vunf; field).
  assert (L3 : sqrt (1325/96) * slack < sqrt (535/32)).
  { unfold slack. apply Rsqr_incrst_0; [|pose proof (sqrt_pos (1325/96)); lra|apply sqrt_pos].
    rewrite Rsqr_mult, !Rsqr_sqrt by lra. unfold Rsqr; lra. }
  replace (Rleb (sqrt (535/32) - sqrt (1325/96) * slack) 0) with false by (symmetry; apply Rleb_false; lra).
  rewrite !andb_false_r.
  fold bad_tet.
  assert (Hd : det (tet_A bad_tet) <> 0) by (unfold bad_tet, tet_A; cbn [q0 q1 q2 q3]; vunf; lra).
  destruct (tet_sphere_ok bad_tet Hd) as (c & Hc & E). rewrite E. cbn [bind].
  assert (c = V3 7 1 (9/4)) as ->.
  { apply (equidistant_unique bad_tet); auto. unfold equidistant, bad_tet; cbn [q0 q1 q2 q3]. repeat split; vunf; field. }
  f_equal. f_equal. f_equal. unfold dist, norm, bad_tet; cbn [q0]. f_equal. vunf; field.
Qed.
Lemma pC51_sphere_minimal_refuted : exists coord enod me a b c d ctr rad ctr' rad',
  build_mesh coord enod = Ok me /\ corners me 0 a b c d /\
  nth_error (me_espherecentroids me) 0 = Some ctr /\ nth_error (me_eradius me) 0 = Some rad /\
  (forall p, In p [a; b; c; d] -> in_ball ctr' rad' p) /\ rad > 13/10 * rad'.
Proof.
  destruct bad_tet as [a b c d] eqn:E.
  exists [a; b; c; d], [(0, 1, 2, 3)%nat].
  unfold build_mesh. cbn [traverse gather_tet nth_error bind]. rewrite <- E, bad_tet_sphere. cbn [bind].
  eexists. exists a, b, c, d. do 2 eexists. exists (V3 (11/2) (7/2) (7/2)), (sqrt (59/4)).
  split; [reflexivity|]. split.
  { exists 0%nat, 1%nat, 2%nat, 3%nat. repeat split. }
  cbn [map fst snd nth_error me_espherecentroids me_eradius].
  split; [reflexivity|]. split; [reflexivity|]. split.
  - inversion E; subst. intros p Hp. unfold in_ball, dist, norm.
    destruct Hp as [<-|[<-|[<-|[<-|[]]]]]; apply sqrt_le_1_alt; vunf; lra.
  - unfold slack. apply Rlt_gt.
    assert (13/10 * sqrt (59/4) < sqrt (425/16)); [|pose proof (sqrt_pos (425/16)); lra].
    apply Rsqr_incrst_0; [|pose proof (sqrt_pos (59/4)); lra|apply sqrt_pos].
    rewrite Rsqr_mult, !Rsqr_sqrt by lra. unfold Rsqr; lra.
Qed.

(** ** C52 *)
Lemma pC52_volume_rigid_invariant : forall f a b c d, proper_rigid f ->
  tet_volume (Tet (f a) (f b) (f c) (f d)) = tet_volume (Tet a b c d) /\
  evolume (Tet (f a) (f b) (f c) (f d)) = evolume (Tet a b c d).
Proof.
  intros f a b c d (_ & H). rewrite !tet_volume_vol, !evolume_vol. cbn [q0 q1 q2 q3]. rewrite H. auto.
Qed.
(** The volume used for intensities is the absolute value of the mesh attribute,
    and both equal a sixth of the parallelepiped volume. *)
Lemma pC52_volume_meaning : forall a b c d,
  tet_volume (Tet a b c d) = Rabs (signed_vol6 a b c d) / 6 /\
  evolume (Tet a b c d) = signed_vol6 a b c d / 6 /\
  tet_volume (Tet a b c d) = Rabs (evolume (Tet a b c d)) /\ 0 <= tet_volume (Tet a b c d) /\
  (0 < tet_volume (Tet a b c d) <-> signed_vol6 a b c d <> 0).
Proof.
  intros a b c d. rewrite tet_volume_vol, evolume_vol. cbn [q0 q1 q2 q3].
  set (v := signed_vol6 a b c d). pose proof (Rabs_pos v).
  repeat split; auto; try lra.
  - unfold Rdiv. rewrite Rabs_mult, (Rabs_right (/6)) by lra. reflexivity.
  - intros H1 E. rewrite E, Rabs_R0 in H1. lra.
  - intros H1. apply Rabs_pos_lt in H1. lra.
Qed.
(** Reordering two nodes of an element flips the sign of the mesh attribute and
    leaves the volume used for intensities alone. *)
Lemma pC52_node_order : forall a b c d,
  evolume (Tet a c b d) = - evolume (Tet a b c d) /\ tet_volume (Tet a c b d) = tet_volume (Tet a b c d) /\
  evolume (Tet b a c d) = - evolume (Tet a b c d) /\ tet_volume (Tet b a c d) = tet_volume (Tet a b c d).
Proof.
  intros a b c d. rewrite !evolume_vol, !tet_volume_vol. cbn [q0 q1 q2 q3].
  assert (E1 : signed_vol6 a c b d = - signed_vol6 a b c d) by (unfold signed_vol6; clear; vdes; vunf; ring).
  assert (E2 : signed_vol6 b a c d = - signed_vol6 a b c d) by (unfold signed_vol6; clear; vdes; vunf; ring).
  rewrite E1, E2, Rabs_Ropp. repeat split; lra.
Qed.
(** "evolumes: per element volume" is negative for left-handed node orders. *)
Lemma pC52_evolumes_nonneg_refuted : exists coord enod me v,
  build_mesh coord enod = Ok me /\ nth_error (me_evolumes me) 0 = Some v /\ v < 0.
Proof.
  set (a := V3 0 0 0). set (b := V3 1 0 0). set (c := V3 0 1 0). set (d := V3 0 0 1).
  assert (Hv : signed_vol6 a c b d = -1) by (unfold signed_vol6, a, b, c, d; vunf; ring).
  destruct (bounding_sphere_ok (Tet a c b d)) as (s & Es).
  { rewrite det_tet_A. cbn [q0 q1 q2 q3]. lra. }
  exists [a; c; b; d], [(0, 1, 2, 3)%nat]. unfold build_mesh. cbn [traverse gather_tet nth_error bind].
  rewrite Es. cbn [bind]. do 2 eexists. split; [reflexivity|]. cbn [me_evolumes map nth_error].
  split; [reflexivity|]. rewrite evolume_vol. cbn [q0 q1 q2 q3]. lra.
Qed.

(** ** C53 *)
(** Any number of translations followed by any number of updates and rotations
    (about exactly unit axes) leaves every public attribute equal to what a mesh
    freshly built from the current coordinates would have, and the current
    coordinates are a rigid image of the original ones. *)
Lemma pC53_history_consistent : forall coord enod me vs ops me',
  enod <> [] -> build_mesh coord enod = Ok me -> Forall exact_move ops ->
  mesh_run me (map OTranslate vs ++ ops) = Ok me' ->
  (exists fresh, build_mesh (me_coord me') enod = Ok fresh /\ same_geometry me' fresh) /\
  me_enod me' = enod /\
  exists f, proper_rigid f /\ me_coord me' = map f coord.
Proof.
  intros coord enod me vs ops me' Hn Hb Hf H.
  destruct (build_good _ _ _ Hb) as (Hg & Hp & En & Ec).
  rewrite run_app in H.
  destruct (run_translations vs me Hp) as (me1 & E1 & P1 & G1 & N1 & C1); [congruence|auto|].
  rewrite E1 in H. cbn [bind] in H.
  destruct (run_moves ops me1 me' Hf) as (G2 & N2 & R2); auto; [congruence|].
  destruct G2 as (fresh & Bf & Sf). rewrite N2, N1, En in Bf.
  split; [exists fresh; auto|]. split; [congruence|].
  eapply rigid_trans; [|exact R2].
  exists (aff mI (fold_right vadd vzero vs)). split; [apply aff_proper, rotation_I|].
  rewrite C1, Ec. apply map_ext. intros; unfold aff; now rewrite mv_I.
Qed.
(** A mesh that was updated and then translated has lost the update: its
    coordinates are the original coordinates plus the translation vector, for
    every motion, time and vector, while normals and centroids were moved. *)
Lemma pC53_update_then_translate : forall coord enod me m t v me',
  build_mesh coord enod = Ok me -> mesh_run me [OUpdate m t; OTranslate v] = Ok me' ->
  me_coord me' = map (fun p => vadd p v) coord /\
  me_enormals me' = map (map (rot_at m t)) (me_enormals me) /\
  me_ecentroids me' = map (fun p => vadd (move_at m t p) v) (me_ecentroids me).
Proof.
  intros coord enod me m t v me' Hb H. destruct (build_mesh_inv _ _ _ Hb) as (ts & ss & _ & _ & ->).
  cbn in H. inversion H. cbn. rewrite !map_map. auto.
Qed.
Lemma pC53_any_history_refuted : exists coord enod me ops me' x,
  build_mesh coord enod = Ok me /\ mesh_run me ops = Ok me' /\
  Forall (fun o => match o with OUpdate m _ => unit (m_axis m) | ORotate a _ => unit a | OTranslate _ => True end) ops /\
  corners me' 0 (V3 0 0 0) (V3 1 0 0) (V3 0 1 0) (V3 0 0 1) /\
  nth_error (me_ecentroids me') 0 = Some x /\ x <> ecentroid (Tet (V3 0 0 0) (V3 1 0 0) (V3 0 1 0) (V3 0 0 1)).
Proof.
  set (a := V3 0 0 0). set (b := V3 1 0 0). set (c := V3 0 1 0). set (d := V3 0 0 1).
  destruct (bounding_sphere_ok (Tet a b c d)) as (s & Es).
  { rewrite det_tet_A. cbn [q0 q1 q2 q3]. unfold signed_vol6, a, b, c, d. vunf. lra. }
  exists [a; b; c; d], [(0, 1, 2, 3)%nat]. unfold build_mesh. cbn [traverse gather_tet nth_error bind].
  rewrite Es. cbn [bind]. eexists.
  exists [ORotate (V3 0 0 1) (PI/2); OTranslate (V3 0 0 0)]. do 2 eexists. split; [reflexivity|].
  split.
  { cbn [mesh_run mesh_step]. unfold mesh_rotate. rewrite make_motion_unit; [|apply unit_ez|pose proof PI_RGT_0; lra].
    cbn [bind]. reflexivity. }
  split; [repeat constructor; apply unit_ez|]. split.
  { exists 0%nat, 1%nat, 2%nat, 3%nat. cbn. unfold a, b, c, d, vadd; cbn. repeat split; repeat f_equal; ring. }
  cbn [mesh_translate mesh_update me_ecentroids map nth_error]. split; [reflexivity|].
  intros E. apply (f_equal vx) in E. revert E.
  unfold move_at, rot_at. cbn [m_axis m_angle m_origin m_trans]. rewrite Rmult_1_r.
  unfold rod_matrix, rod_K2, rod_K, ecentroid, mean4, a, b, c, d. rewrite sin_PI2, cos_PI2. cbn [q0 q1 q2 q3].
  vunf. lra.
Qed.
(** Loading a saved mesh rebuilds it from the saved coordinates (mesh.py:300-320;
    the xdmf file itself is trusted to return what was written): after a
    translate-then-move history the loaded mesh has the same public attributes. *)
Lemma pC53_rebuild_equals_incremental : forall coord enod me m t fresh,
  enod <> [] -> build_mesh coord enod = Ok me -> unit (m_axis m) ->
  build_mesh (map (move_at m t) coord) enod = Ok fresh ->
  same_geometry (mesh_update me m t) fresh.
Proof.
  intros coord enod me m t fresh Hn Hb Hu Hf.
  destruct (pC53_history_consistent coord enod me [] [OUpdate m t] _ Hn Hb (Forall_cons (OUpdate m t) (Hu : exact_move (OUpdate m t)) (Forall_nil exact_move)) eq_refl)
    as ((fr & Bf & Sf) & _ & _).
  destruct (build_good _ _ _ Hb) as (_ & _ & _ & Ec).
  cbn [mesh_update me_coord] in Bf. rewrite Ec in Bf. rewrite Bf in Hf. inversion Hf; subst; auto.
Qed.

(** ** C54 faces *)
(** Face j of element e consists of three of e's four nodes; each node is left
    out by exactly one face; normals are listed in face order. *)
Lemma pC54_faces : forall coord enod me i a b c d,
  build_mesh coord enod = Ok me -> nth_error enod i = Some (a, b, c, d) ->
  nth_error (me_efaces me) i = Some [(a, b, c); (a, b, d); (a, c, d); (b, c, d)] /\
  length (me_efaces me) = length enod /\ length (me_enormals me) = length enod /\
  length (me_ecentroids me) = length enod /\ length (me_eradius me) = length enod /\
  length (me_espherecentroids me) = length enod /\ length (me_evolumes me) = length enod.
Proof.
  intros coord enod me i a b c d H E. destruct (build_mesh_inv _ _ _ H) as (ts & ss & E1 & E2 & ->).
  apply traverse_spec, Forall2_len in E1. apply traverse_spec, Forall2_len in E2.
  cbn. rewrite !map_length, nth_error_map, E. cbn. repeat split; congruence.
Qed.

Lemma xC50_mesh : exists me, build_mesh [V3 7 6 1; V3 3 4 1; V3 7 3 7; V3 2 2 3] [(0, 1, 2, 3)%nat] = Ok me /\
  corners me 0 (V3 7 6 1) (V3 3 4 1) (V3 7 3 7) (V3 2 2 3).
Proof.
  unfold build_mesh. cbn [traverse gather_tet nth_error bind].
  change (Tet (V3 7 6 1) (V3 3 4 1) (V3 7 3 7) (V3 2 2 3)) with bad_tet. rewrite bad_tet_sphere. cbn [bind].
  eexists. split; [reflexivity|]. exists 0%nat, 1%nat, 2%nat, 3%nat. repeat split.
Qed.
Lemma xC53_history : exists me me', build_mesh [V3 7 6 1; V3 3 4 1; V3 7 3 7; V3 2 2 3] [(0, 1, 2, 3)%nat] = Ok me /\
  mesh_run me (map OTranslate [V3 1 0 0; V3 0 2 0] ++ [ORotate (V3 0 0 1) (PI/2); OUpdate (Motion (V3 0 0 1) 1 vzero vzero) (1/2)]) = Ok me' /\
  Forall exact_move [ORotate (V3 0 0 1) (PI/2); OUpdate (Motion (V3 0 0 1) 1 vzero vzero) (1/2)].
Proof.
  destruct xC50_mesh as (me & H & _). exists me. cbn [map app mesh_run mesh_step bind]. unfold mesh_rotate.
  rewrite make_motion_unit; [|apply unit_ez|pose proof PI_RGT_0; lra]. cbn [bind]. eexists.
  split; [exact H|]. split; [reflexivity|]. repeat constructor; apply unit_ez.
Qed.
