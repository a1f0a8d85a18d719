(** * Further proofs about meshes: size of the bounding balls, centroids, meaning of the operations. *)
From Verif Require Import Vec Spec MMotion PMotion MLaue PLaue MMesh SMesh PMesh.
Open Scope R_scope.

Lemma argmax_from_max l : forall i best bv full, (best < length full)%nat -> nth best full 0 = bv ->
  (forall j, (j < i)%nat -> nth j full 0 <= bv) -> (forall j, nth (i + j) full 0 = nth j l 0) -> length full = (i + length l)%nat ->
  forall j, (j < length full)%nat -> nth j full 0 <= nth (argmax_from i best bv l) full 0.
Proof.
  induction l as [|x l IH]; intros i best bv full Hb Eb Hmax Hl HL j Hj; cbn [argmax_from].
  - rewrite Eb. apply Hmax. cbn [length] in HL. lia.
  - pose proof (Hl 0%nat) as H0. rewrite Nat.add_0_r in H0. cbn [nth] in H0. cbn [length] in HL.
    destruct (Rlt_dec bv x).
    + apply IH; auto; try lia.
      * intros k Hk. destruct (Nat.eq_dec k i) as [->|]; [rewrite H0; lra|]. pose proof (Hmax k ltac:(lia)). lra.
      * intros k. specialize (Hl (S k)). cbn [nth] in Hl. rewrite <- Hl. f_equal. lia.
    + apply IH; auto; try lia.
      * intros k Hk. destruct (Nat.eq_dec k i) as [->|]; [rewrite H0; lra|]. apply Hmax; lia.
      * intros k. specialize (Hl (S k)). cbn [nth] in Hl. rewrite <- Hl. f_equal. lia.
Qed.
Lemma argmax_max l j : (j < length l)%nat -> nth j l 0 <= nth (argmax l) l 0.
Proof.
  destruct l as [|x l]; cbn [length]; [lia|]. intros H. unfold argmax. apply argmax_from_max with (best := 0%nat) (bv := x); cbn [length nth]; auto; try lia.
  intros k Hk. assert (k = 0%nat) as -> by lia. cbn. lra.
Qed.
Lemma dist_self a : dist a a = 0.
Proof. unfold dist. rewrite vsub_self. unfold norm. replace (normsq vzero) with 0 by (vunf; ring). apply sqrt_0. Qed.
Lemma dist_nonneg a b : 0 <= dist a b. Proof. apply norm_nonneg. Qed.
Lemma split_longest t f1 f2 o1 o2 : split_pair t (argmax (tet_sides t)) = ((f1, f2), (o1, o2)) ->
  In f1 (tet_list t) /\ In f2 (tet_list t) /\ In o1 (tet_list t) /\ In o2 (tet_list t) /\
  (forall p, In p (tet_list t) -> p = f1 \/ p = f2 \/ p = o1 \/ p = o2) /\
  forall p q, In p (tet_list t) -> In q (tet_list t) -> dist p q <= dist f1 f2.
Proof.
  intros E. assert (M : forall j, (j < 6)%nat -> nth j (tet_sides t) 0 <= dist f1 f2).
  { intros j Hj. eapply Rle_trans; [apply argmax_max; exact Hj|]. unfold split_pair in E. set (k := argmax _) in *. clearbody k.
    unfold tet_sides. destruct k as [|[|[|[|[|[|k]]]]]]; inversion E; subst; cbn [nth]; try (apply Rle_refl). destruct k; apply dist_nonneg. }
  pose proof (M 0%nat ltac:(lia)) as M0. pose proof (M 1%nat ltac:(lia)) as M1. pose proof (M 2%nat ltac:(lia)) as M2. pose proof (M 3%nat ltac:(lia)) as M3. pose proof (M 4%nat ltac:(lia)) as M4. pose proof (M 5%nat ltac:(lia)) as M5.
  unfold tet_sides in *. cbn [nth] in *. clear M.
  assert (D : forall p q, In p (tet_list t) -> In q (tet_list t) -> dist p q <= dist f1 f2).
  { intros p q Hp Hq. pose proof (dist_nonneg f1 f2). unfold tet_list in *. destruct Hp as [<-|[<-|[<-|[<-|[]]]]]; destruct Hq as [<-|[<-|[<-|[<-|[]]]]]; rewrite ?dist_self; auto; rewrite dist_comm; auto. }
  clear M0 M1 M2 M3 M4 M5. unfold split_pair, tet_list in *. destruct (argmax _) as [|[|[|[|[|]]]]]; inversion E; subst; cbn [In]; repeat split; auto 6; intuition (subst; auto).
Qed.
Lemma normsq_dist a b : normsq (vsub a b) = dist a b * dist a b.
Proof. unfold dist. rewrite <- norm_pow2. ring. Qed.
Lemma antipodal m f1 f2 L : dist f1 m <= L / 2 -> dist f2 m <= L / 2 -> L <= dist f1 f2 -> 0 <= L -> m = vscale (/ 2) (vadd f1 f2) /\ dist f1 f2 = L.
Proof.
  intros H1 H2 H3 HL. pose proof (dist_nonneg f1 m). pose proof (dist_nonneg f2 m).
  assert (P : normsq (vsub (vadd f1 f2) (vscale 2 m)) = 2 * normsq (vsub f1 m) + 2 * normsq (vsub f2 m) - normsq (vsub f1 f2)) by (vdes; vunf; ring).
  rewrite (normsq_dist f1 m), (normsq_dist f2 m), (normsq_dist f1 f2) in P. pose proof (normsq_nonneg (vsub (vadd f1 f2) (vscale 2 m))) as N0.
  assert (Q1 : dist f1 m * dist f1 m <= L / 2 * (L / 2)) by nra. assert (Q2 : dist f2 m * dist f2 m <= L / 2 * (L / 2)) by nra.
  assert (Q3 : L * L <= dist f1 f2 * dist f1 f2) by nra.
  assert (Z : normsq (vsub (vadd f1 f2) (vscale 2 m)) = 0) by lra.
  assert (Q4 : dist f1 f2 * dist f1 f2 = L * L) by lra. split; [|nra].
  assert (X : vsub (vadd f1 f2) (vscale 2 m) = vzero) by (apply normsq_0; auto).
  replace (vadd f1 f2) with (vadd (vsub (vadd f1 f2) (vscale 2 m)) (vscale 2 m)) by (clear; veq). rewrite X. clear. vext; vdes; vunf; field.
Qed.
Lemma seg_ball t c r f1 f2 o1 o2 : bounding_sphere t = Ok (c, r) -> split_pair t (argmax (tet_sides t)) = ((f1, f2), (o1, o2)) ->
  let m := vscale (/ 2) (vadd f1 f2) in dist o1 m <= dist f1 f2 / 2 -> dist o2 m <= dist f1 f2 / 2 -> c = m /\ r = dist f1 f2 / 2 * slack.
Proof.
  intros H E m H1 H2. unfold bounding_sphere in H. rewrite E in H. unfold seg_sphere in H. destruct (tri_sphere f1 f2 _) as [c2 rad2].
  destruct (tet_sphere t) as [s3|]; [|discriminate]. cbn [bind] in H.
  assert (N : norm (vsub (vscale (/ 2) (vadd f1 f2)) f1) = dist f1 f2 / 2).
  { replace (vsub (vscale (/ 2) (vadd f1 f2)) f1) with (vscale (/ 2) (vsub f2 f1)) by (clear; vext; vdes; vunf; field). rewrite norm_scale, Rabs_right by lra. rewrite dist_comm. unfold dist. lra. }
  rewrite N in H. fold m in H. pose proof (slack_ge (dist f1 f2 / 2)) as S. pose proof (dist_nonneg f1 f2).
  replace (Rleb _ 0 && Rleb _ 0)%bool with true in H.
  - split; congruence.
  - symmetry. apply andb_true_iff. split; apply Rleb_true; lra.
Qed.
Lemma enclosing_half (l : list vec) c' r' p q : (forall v, In v l -> in_ball c' r' v) -> In p l -> In q l -> dist p q / 2 <= r'.
Proof.
  intros H Hp Hq. pose proof (H p Hp) as A. pose proof (H q Hq) as B. unfold in_ball in *. pose proof (norm_triangle (vsub p c') (vsub c' q)) as T.
  replace (vadd (vsub p c') (vsub c' q)) with (vsub p q) in T by (clear; veq). rewrite (dist_comm q c') in B. unfold dist in *. lra.
Qed.
Lemma sphere_of coord enod me i a b c d : build_mesh coord enod = Ok me -> corners me i a b c d ->
  exists ctr rad, nth_error (me_espherecentroids me) i = Some ctr /\ nth_error (me_eradius me) i = Some rad /\ bounding_sphere (Tet a b c d) = Ok (ctr, rad).
Proof.
  intros H Hc. destruct (build_mesh_inv _ _ _ H) as (ts & ss & E1 & E2 & Em). pose proof (corners_tet _ _ _ _ _ _ _ _ _ H E1 Hc) as Et.
  apply traverse_spec in E2. destruct (Forall2_nth _ _ _ _ _ E2 Et) as ([ctr rad] & Es & G). exists ctr, rad. rewrite Em. cbn [me_espherecentroids me_eradius]. rewrite !nth_error_map, Es. auto.
Qed.
(** When two corners of an element are the ends of a diameter of a ball around the element, then that
    ball, enlarged by 0.01%, is the one computed: the smallest possible one up to the enlargement. *)
Lemma pC51_edge_ball_near_minimal : forall coord enod me i a b c d p q,
  build_mesh coord enod = Ok me -> corners me i a b c d -> In p [a; b; c; d] -> In q [a; b; c; d] ->
  (forall v, In v [a; b; c; d] -> in_ball (vscale (/ 2) (vadd p q)) (dist p q / 2) v) ->
  exists rad, nth_error (me_espherecentroids me) i = Some (vscale (/ 2) (vadd p q)) /\ nth_error (me_eradius me) i = Some rad /\
    rad = 10001 / 10000 * (dist p q / 2) /\
    forall ctr' rad', (forall v, In v [a; b; c; d] -> in_ball ctr' rad' v) -> rad <= 10001 / 10000 * rad'.
Proof.
  intros coord enod me i a b c d p q H Hc Hp Hq HB. destruct (sphere_of _ _ _ _ _ _ _ _ H Hc) as (ctr & rad & E1 & E2 & G).
  destruct (split_pair (Tet a b c d) (argmax (tet_sides (Tet a b c d)))) as [[f1 f2] [o1 o2]] eqn:Es.
  destruct (split_longest _ _ _ _ _ Es) as (F1 & F2 & O1 & O2 & _ & MX). change (tet_list (Tet a b c d)) with [a; b; c; d] in *.
  destruct (antipodal _ f1 f2 (dist p q) (HB f1 F1) (HB f2 F2) (MX p q Hp Hq) (dist_nonneg p q)) as [M L].
  destruct (seg_ball _ _ _ _ _ _ _ G Es) as [Ec Er]; [rewrite <- M, L; apply HB; auto|rewrite <- M, L; apply HB; auto|].
  exists rad. rewrite M, <- Ec. split; auto. split; auto. split; [rewrite Er, L; unfold slack; lra|].
  intros ctr' rad' HE. pose proof (enclosing_half _ _ _ _ _ HE Hp Hq). rewrite Er, L. unfold slack. lra.
Qed.
Lemma split_noncollinear t k f1 f2 o1 o2 : split_pair t k = ((f1, f2), (o1, o2)) -> det (tet_A t) <> 0 ->
  forall x, x = o1 \/ x = o2 -> normsq (cross (vsub f2 f1) (vsub x f1)) <> 0.
Proof.
  intros E Hd x Hx Z. apply normsq_0 in Z. rewrite det_tet_A in Hd.
  assert (V : signed_vol6 f1 f2 o1 o2 = signed_vol6 (q0 t) (q1 t) (q2 t) (q3 t) \/ signed_vol6 f1 f2 o1 o2 = - signed_vol6 (q0 t) (q1 t) (q2 t) (q3 t)).
  { unfold split_pair in E. destruct t as [a b c d]. cbn [q0 q1 q2 q3] in *. destruct k as [|[|[|[|[|]]]]]; inversion E; subst; unfold signed_vol6; clear; vdes; vunf;
    (left; ring) || (right; ring). }
  assert (W : signed_vol6 f1 f2 o1 o2 = 0).
  { destruct Hx as [-> | ->]; rewrite <- vol_cross.
    - rewrite Z. clear. vdes; vunf; ring.
    - replace (dot (cross (vsub f2 f1) (vsub o1 f1)) (vsub o2 f1)) with (- dot (cross (vsub f2 f1) (vsub o2 f1)) (vsub o1 f1)) by (clear; vdes; vunf; ring). rewrite Z. clear. vdes; vunf; ring. }
  rewrite W in V. lra.
Qed.
(** The circumcentre of a triangle is the nearest of the points equidistant from its corners. *)
Lemma tri_least p q r e : normsq (cross (vsub q p) (vsub r p)) <> 0 -> dist q e = dist p e -> dist r e = dist p e ->
  dist p (fst (tri_sphere p q r)) <= dist p e.
Proof.
  intros H Hq Hr. destruct (tri_sphere_equi p q r H) as (T1 & T2 & _). set (c := fst (tri_sphere p q r)) in *.
  assert (Nq : normsq (vsub q e) = normsq (vsub p e)) by (rewrite !normsq_dist, Hq; ring). assert (Nr : normsq (vsub r e) = normsq (vsub p e)) by (rewrite !normsq_dist, Hr; ring).
  assert (X1 : dot (vsub e c) (vsub q p) = 0). { apply equidistant_lin in T1, Nq. revert T1 Nq. clear. clearbody c. vdes; vunf. intros. lra. }
  assert (X2 : dot (vsub e c) (vsub r p) = 0). { apply equidistant_lin in T2, Nr. revert T2 Nr. clear. clearbody c. vdes; vunf. intros. lra. }
  assert (X3 : dot (vsub e c) (vsub c p) = 0).
  { assert (EC : vsub c p = vscale (/ (2 * (norm (cross (vsub q p) (vsub r p)))^2)) (vadd (vscale ((norm (vsub r p))^2) (cross (cross (vsub q p) (vsub r p)) (vsub q p))) (vscale ((norm (vsub q p))^2) (cross (cross (vsub r p) (vsub q p)) (vsub r p))))).
    { unfold c, tri_sphere. cbn [fst]. set (dd := vscale _ _). clearbody dd. clear. veq. }
    rewrite EC, dot_scale_r. set (x := vsub e c) in *. set (ab := vsub q p) in *. set (ac := vsub r p) in *. clearbody x ab ac.
    replace (dot x _) with (norm ac ^ 2 * (normsq ab * dot x ac - dot ab ac * dot x ab) + norm ab ^ 2 * (normsq ac * dot x ab - dot ab ac * dot x ac)) by (generalize (norm ac ^ 2) (norm ab ^ 2); clear; intros; vdes; vunf; ring).
    rewrite X1, X2. ring. }
  assert (P : normsq (vsub p e) = normsq (vsub p c) + normsq (vsub e c) + 2 * dot (vsub e c) (vsub c p)) by (clear; clearbody c; vdes; vunf; ring).
  rewrite X3, !normsq_dist in P. pose proof (dist_nonneg e c). pose proof (dist_nonneg p e). pose proof (dist_nonneg p c). nra.
Qed.
(** The ball is never larger than the circumscribed one, nor smaller than the longest edge demands
    (up to the enlargement). *)
Lemma pC51_radius_bounds : forall coord enod me i a b c d ctr rad e,
  build_mesh coord enod = Ok me -> corners me i a b c d ->
  nth_error (me_espherecentroids me) i = Some ctr -> nth_error (me_eradius me) i = Some rad ->
  dist a e = dist b e -> dist a e = dist c e -> dist a e = dist d e ->
  rad <= 10001 / 10000 * dist a e /\ forall p q, In p [a; b; c; d] -> In q [a; b; c; d] -> 10001 / 10000 * (dist p q / 2) <= rad.
Proof.
  intros coord enod me i a b c d ctr rad e H Hc E1' E2' Hab Hac Had. destruct (sphere_of _ _ _ _ _ _ _ _ H Hc) as (ctr0 & rad0 & E1 & E2 & G).
  assert (ctr0 = ctr) as -> by congruence. assert (rad0 = rad) as -> by congruence. clear E1 E2 E1' E2'.
  destruct (split_pair (Tet a b c d) (argmax (tet_sides (Tet a b c d)))) as [[f1 f2] [o1 o2]] eqn:Es.
  destruct (split_longest _ _ _ _ _ Es) as (F1 & F2 & O1 & O2 & _ & MX). change (tet_list (Tet a b c d)) with [a; b; c; d] in *.
  assert (EQ : forall v, In v [a; b; c; d] -> dist v e = dist a e) by (intros v [<-|[<-|[<-|[<-|[]]]]]; auto).
  assert (HE : forall v, In v [a; b; c; d] -> in_ball e (dist a e) v) by (intros v Hv; unfold in_ball; rewrite EQ; auto; apply Rle_refl).
  unfold bounding_sphere in G. rewrite Es in G. unfold seg_sphere in G. match type of G with context[tri_sphere f1 f2 ?x] => set (third := x) in G end. destruct (tri_sphere f1 f2 third) as [c2 rad2] eqn:ET.
  destruct (tet_sphere (Tet a b c d)) as [s3|] eqn:E3; [|discriminate]. cbn [bind] in G.
  assert (N : norm (vsub (vscale (/ 2) (vadd f1 f2)) f1) = dist f1 f2 / 2).
  { replace (vsub (vscale (/ 2) (vadd f1 f2)) f1) with (vscale (/ 2) (vsub f2 f1)) by (clear; vext; vdes; vunf; field). rewrite norm_scale, Rabs_right by lra. rewrite dist_comm. unfold dist. lra. }
  rewrite N in G. assert (K : dist f1 f2 / 2 <= dist a e) by (apply (enclosing_half _ _ _ _ _ HE F1 F2)).
  assert (Hd : det (tet_A (Tet a b c d)) <> 0). { unfold tet_sphere in E3. destruct (Req_EM_T (det (tet_A (Tet a b c d))) 0); [discriminate|auto]. }
  assert (T3 : In third [a; b; c; d]) by (unfold third; destruct (Nat.eqb _ _); auto).
  assert (R : rad <= slack * dist a e /\ slack * (dist f1 f2 / 2) <= rad).
  { destruct (_ && _)%bool.
    - assert (rad = dist f1 f2 / 2 * slack) as -> by congruence. unfold slack. lra.
    - destruct (forallb _ _) eqn:FB.
      + assert (rad2 = rad) as -> by congruence. assert (c2 = ctr) as -> by congruence.
        assert (X : normsq (cross (vsub f2 f1) (vsub third f1)) <> 0) by (apply (split_noncollinear _ _ _ _ _ _ Es); auto; unfold third; destruct (Nat.eqb _ _); auto).
        pose proof (tri_sphere_equi f1 f2 third X) as TE. pose proof (tri_least f1 f2 third e X) as TL. rewrite ET in TE, TL. cbn [fst snd] in TE, TL. destruct TE as (T1 & T2 & T4).
        rewrite T4. assert (dist f1 ctr <= dist f1 e) by (apply TL; rewrite ?(EQ f1 F1), ?(EQ f2 F2), ?(EQ third T3); reflexivity). rewrite (EQ f1 F1) in *.
        assert (dist f1 f2 / 2 <= dist f1 ctr).
        { apply (enclosing_half [f1; f2] ctr (dist f1 ctr)); cbn [In]; auto. intros v [<-|[<-|[]]]; unfold in_ball; [apply Rle_refl|]. apply Req_le. unfold dist. now apply norm_eq_normsq. }
        unfold slack. lra.
      + destruct (tet_sphere_ok _ Hd) as (c3 & He & E3'). rewrite E3' in E3.
        assert (rad = dist a c3 * slack) as -> by (cbn [q0] in E3; congruence).
        assert (e = c3) as ->. { apply (equidistant_unique _ _ _ Hd); auto. unfold equidistant. cbn [q0 q1 q2 q3]. rewrite !normsq_dist, <- Hab, <- Hac, <- Had. auto. }
        unfold slack. lra. }
  unfold slack in R. split; [lra|]. intros p q Hp Hq. pose proof (MX p q Hp Hq). lra.
Qed.

(** ** Centroids *)
(** Every element centroid is the balance point of the four corners, the mesh centroid that of the
    element centroids. *)
Lemma pC54_centroids : forall coord enod me i a b c d, build_mesh coord enod = Ok me -> corners me i a b c d ->
  (exists m, nth_error (me_ecentroids me) i = Some m /\ vadd (vadd (vsub a m) (vsub b m)) (vadd (vsub c m) (vsub d m)) = vzero) /\
  fold_right vadd vzero (map (fun m => vsub m (me_centroid me)) (me_ecentroids me)) = vzero.
Proof.
  intros coord enod me i a b c d H Hc. destruct (build_mesh_inv _ _ _ H) as (ts & ss & E1 & E2 & Em). pose proof (corners_tet _ _ _ _ _ _ _ _ _ H E1 Hc) as Et. rewrite Em. cbn [me_ecentroids me_centroid]. split.
  - exists (ecentroid (Tet a b c d)). rewrite nth_error_map, Et. split; auto. unfold ecentroid, mean4. cbn [q0 q1 q2 q3]. clear. vext; vdes; vunf; field.
  - assert (L : map ecentroid ts <> []) by (destruct ts; [destruct i; discriminate|discriminate]). set (l := map ecentroid ts) in *. clearbody l. unfold mean_list.
    assert (F : forall (l : list vec) m, fold_right vadd vzero (map (fun x => vsub x m) l) = vsub (fold_right vadd vzero l) (vscale (INR (length l)) m)).
    { clear. intros l m. induction l as [|x l IH]; cbn [map fold_right length]; [change (INR 0) with 0; veq|]. rewrite IH, S_INR. generalize (fold_right vadd vzero l) (INR (length l)). clear. intros. veq. }
    rewrite F. assert (INR (length l) <> 0) by (apply not_0_INR; destruct l; [contradiction|discriminate]). generalize dependent (INR (length l)). intros n Hn. generalize (fold_right vadd vzero l). clear - Hn. intros. vext; vdes; vunf; field; auto.
Qed.

(** ** Meaning of the operations *)
(** translate shifts a mesh fresh from construction, rotate turns about the origin of the lab
    coordinates, update moves by the motion; the connectivity stays. *)
Lemma pC53_operations : forall coord enod me, build_mesh coord enod = Ok me ->
  (forall v, me_coord (mesh_translate me v) = map (fun p => vadd p v) coord /\ me_enod (mesh_translate me v) = enod) /\
  (forall a w me', unit a -> mesh_rotate me a w = Ok me' -> me_coord me' = map (right_handed_rotation a w) coord /\ me_enod me' = enod) /\
  (forall a w, unit a -> (exists me', mesh_rotate me a w = Ok me') <-> 0 < w < PI) /\
  (forall m t, unit (m_axis m) -> me_coord (mesh_update me m t) = map (fun x => vadd (vadd (right_handed_rotation (m_axis m) (m_angle m * t) (vsub x (m_origin m))) (m_origin m)) (vscale t (m_trans m))) coord /\ me_enod (mesh_update me m t) = enod).
Proof.
  intros coord enod me H. destruct (build_good _ _ _ H) as (_ & EP & EN & EC). split; [|split; [|split]].
  - intros v. cbn [mesh_translate me_coord me_enod]. rewrite EP, EC. auto.
  - intros a w me' U HR. unfold mesh_rotate in HR. destruct (make_motion a w vzero vzero) as [m|] eqn:EM; [|discriminate]. cbn [bind] in HR.
    apply make_motion_ok_iff in EM. destruct EM as (_ & _ & ->). assert (me' = mesh_update me (Motion a w vzero vzero) 1) as -> by congruence.
    cbn [mesh_update me_coord me_enod]. rewrite EN, EC. split; auto. apply map_ext. intros x. unfold move_at, rot_at. cbn [m_axis m_angle m_origin m_trans]. rewrite rod_spec, Rmult_1_r by auto.
    replace (vsub x vzero) with x by (clear; veq). generalize (right_handed_rotation a w x). clear. veq.
  - intros a w U. unfold mesh_rotate. split.
    + intros [me' HR]. destruct (make_motion a w vzero vzero) as [m|] eqn:EM; [|discriminate]. apply make_motion_ok_iff in EM. tauto.
    + intros Hw. assert (EM : make_motion a w vzero vzero = Ok (Motion a w vzero vzero)).
      { apply make_motion_ok_iff. split; auto. split; auto. unfold unit in U. replace (norm a - 1) with 0 by (rewrite U; ring). unfold axis_tol. rewrite Rabs_R0, Rabs_R1. lra. }
      rewrite EM. cbn [bind]. eauto.
  - intros m t U. cbn [mesh_update me_coord me_enod]. rewrite EN, EC. split; auto. apply map_ext. intros x. unfold move_at, rot_at. rewrite rod_spec by auto. auto.
Qed.

(** ** Concrete cases *)
(** A flat tetrahedron covered by the ball on its longest edge. *)
Lemma xC51_edge_ball : exists me, build_mesh [V3 1 0 0; V3 (-1) 0 0; V3 0 (1/2) 0; V3 0 0 (1/2)] [(0, 1, 2, 3)%nat] = Ok me /\
  corners me 0 (V3 1 0 0) (V3 (-1) 0 0) (V3 0 (1/2) 0) (V3 0 0 (1/2)) /\
  (forall v, In v [V3 1 0 0; V3 (-1) 0 0; V3 0 (1/2) 0; V3 0 0 (1/2)] -> in_ball (vscale (/ 2) (vadd (V3 1 0 0) (V3 (-1) 0 0))) (dist (V3 1 0 0) (V3 (-1) 0 0) / 2) v) /\
  (exists e, dist (V3 1 0 0) e = dist (V3 (-1) 0 0) e /\ dist (V3 1 0 0) e = dist (V3 0 (1/2) 0) e /\ dist (V3 1 0 0) e = dist (V3 0 0 (1/2)) e).
Proof.
  destruct (bounding_sphere_ok (Tet (V3 1 0 0) (V3 (-1) 0 0) (V3 0 (1/2) 0) (V3 0 0 (1/2)))) as [cr E].
  { rewrite det_tet_A. cbn [q0 q1 q2 q3]. unfold signed_vol6. vunf. lra. }
  unfold build_mesh. cbn [traverse gather_tet nth_error bind]. rewrite E. cbn [bind]. eexists. split; [reflexivity|]. split.
  { exists 0%nat, 1%nat, 2%nat, 3%nat. repeat split. }
  assert (D2 : dist (V3 1 0 0) (V3 (-1) 0 0) = 2).
  { unfold dist, norm. replace (normsq _) with (2 * 2) by (vunf; ring). apply sqrt_square. lra. }
  split.
  - intros v Hv. rewrite D2. replace (vscale (/ 2) (vadd (V3 1 0 0) (V3 (-1) 0 0))) with vzero by (vext; vunf; field).
    unfold in_ball, dist, norm. replace (2 / 2) with (sqrt 1) by (rewrite sqrt_1; lra). apply sqrt_le_1_alt.
    destruct Hv as [<-|[<-|[<-|[<-|[]]]]]; vunf; lra.
  - exists (V3 0 (-3/4) (-3/4)). unfold dist. repeat split; apply norm_eq_normsq; vunf; field.
Qed.
(** A translated, a rotated and a moved mesh exist. *)
Lemma xC53_operations : exists me me1, build_mesh [V3 7 6 1; V3 3 4 1; V3 7 3 7; V3 2 2 3] [(0, 1, 2, 3)%nat] = Ok me /\
  unit (V3 0 0 1) /\ mesh_rotate me (V3 0 0 1) (PI/2) = Ok me1.
Proof.
  destruct xC50_mesh as (me & H & _). exists me. unfold mesh_rotate.
  rewrite make_motion_unit; [|apply unit_ez|pose proof PI_RGT_0; lra]. cbn [bind]. eexists. split; [exact H|]. split; [apply unit_ez|reflexivity].
Qed.

(** ** Attributes of a built mesh, element by element *)
(** C52. For every element of a built mesh, [evolumes] is a sixth of the signed
    parallelepiped volume of its corners, [ecentroids] their mean (four times the
    centroid is the sum of the corners) and [efaces] its four node triples. *)
Lemma pC52_mesh_attributes : forall coord enod me i na nb nc nd a b c d,
  build_mesh coord enod = Ok me -> nth_error enod i = Some (na, nb, nc, nd) ->
  nth_error coord na = Some a -> nth_error coord nb = Some b -> nth_error coord nc = Some c -> nth_error coord nd = Some d ->
  corners me i a b c d /\
  nth_error (me_evolumes me) i = Some (signed_vol6 a b c d / 6) /\ signed_vol6 a b c d <> 0 /\
  nth_error (me_efaces me) i = Some [(na, nb, nc); (na, nb, nd); (na, nc, nd); (nb, nc, nd)] /\
  exists x, nth_error (me_ecentroids me) i = Some x /\ vscale 4 x = vadd (vadd (vadd a b) c) d.
Proof.
  intros coord enod me i na nb nc nd a b c d H Hi Ha Hb Hc Hd.
  destruct (build_mesh_inv _ _ _ H) as (ts & ss & E1 & E2 & Em).
  assert (C : corners me i a b c d) by (subst me; exists na, nb, nc, nd; repeat split; auto).
  pose proof (corners_tet _ _ _ _ _ _ _ _ _ H E1 C) as Et.
  pose proof (tet_nondeg _ _ _ _ E2 Et) as D. rewrite det_tet_A in D. cbn [q0 q1 q2 q3] in D.
  split; [exact C|]. subst me. cbn [me_evolumes me_efaces me_ecentroids]. rewrite !nth_error_map, Et, Hi. cbn [option_map].
  split; [f_equal; apply evolume_vol|]. split; [exact D|]. split; [reflexivity|].
  eexists. split; [reflexivity|]. unfold ecentroid, mean4. cbn [q0 q1 q2 q3]. clear. destruct a, b, c, d. vext; vunf; field.
Qed.
(** C52. [centroid] is the plain mean of the element centroids: the number of elements
    times it is their sum. *)
Lemma pC52_mesh_centroid : forall coord enod me,
  build_mesh coord enod = Ok me -> enod <> [] ->
  vscale (INR (List.length enod)) (me_centroid me) = fold_right vadd vzero (me_ecentroids me) /\
  List.length (me_ecentroids me) = List.length enod.
Proof.
  intros coord enod me H N. destruct (build_mesh_inv _ _ _ H) as (ts & ss & E1 & E2 & Em).
  apply traverse_spec, Forall2_len in E1. subst me. cbn [me_centroid me_ecentroids].
  assert (L : List.length (map ecentroid ts) = List.length enod) by (rewrite map_length; congruence).
  split; [|exact L]. unfold mean_list. rewrite L.
  assert (P : 0 < INR (List.length enod)) by (destruct enod; [contradiction|]; apply lt_0_INR; cbn [List.length]; lia).
  set (k := INR (List.length enod)) in *. set (s := fold_right vadd vzero (map ecentroid ts)). clearbody k s.
  destruct s. vext; vunf; field; lra.
Qed.
(** C52 finding. It is therefore not the centre of mass: two elements of different
    volume, whose volume-weighted mean centroid is elsewhere. *)
Lemma pC52_centre_of_mass_refuted : exists coord enod me v0 v1 x0 x1,
  build_mesh coord enod = Ok me /\ me_evolumes me = [v0; v1] /\ me_ecentroids me = [x0; x1] /\ 0 < v0 /\ 0 < v1 /\
  vscale (v0 + v1) (me_centroid me) <> vadd (vscale v0 x0) (vscale v1 x1).
Proof.
  set (coord := [V3 0 0 0; V3 1 0 0; V3 0 1 0; V3 0 0 1; V3 (-4) 0 0]).
  destruct (proj2 (pC51_build_succeeds_iff coord [(0, 1, 2, 3)%nat; (4, 0, 2, 3)%nat])) as [me H].
  { intros e [<-|[<-|[]]]; do 4 eexists; (split; [reflexivity|]); unfold signed_vol6; vunf; lra. }
  destruct (pC52_mesh_centroid _ _ _ H ltac:(discriminate)) as (M & _).
  destruct (build_mesh_inv _ _ _ H) as (ts & ss & E1 & E2 & Em). cbn [traverse gather_tet nth_error bind coord] in E1.
  assert (Ets : ts = [Tet (V3 0 0 0) (V3 1 0 0) (V3 0 1 0) (V3 0 0 1); Tet (V3 (-4) 0 0) (V3 0 0 0) (V3 0 1 0) (V3 0 0 1)]) by congruence.
  exists coord, [(0, 1, 2, 3)%nat; (4, 0, 2, 3)%nat], me. subst me ts. cbn [me_evolumes me_ecentroids me_centroid map] in *.
  do 4 eexists. split; [exact H|]. split; [reflexivity|]. split; [reflexivity|]. rewrite !evolume_vol. cbn [q0 q1 q2 q3].
  split; [unfold signed_vol6; vunf; lra|]. split; [unfold signed_vol6; vunf; lra|].
  intros Q. apply (f_equal vx) in Q. revert Q. unfold mean_list, signed_vol6, ecentroid, mean4. cbn [List.length fold_right q0 q1 q2 q3 INR]. vunf. lra.
Qed.
Lemma xC52_mesh : exists me, build_mesh [V3 7 6 1; V3 3 4 1; V3 7 3 7; V3 2 2 3] [(0, 1, 2, 3)%nat] = Ok me.
Proof. destruct xC50_mesh as (me & H & _). eauto. Qed.
