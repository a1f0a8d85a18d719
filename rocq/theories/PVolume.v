(** * Proofs about element volumes (C102). *)
From Verif Require Import Vec Spec MMotion MLaue MMesh SMesh MScattering MStrain MBeam MPolycrystal SPolycrystal MDetector MRender SRender SNano SVolume.
From Verif Require Import PMotion PLaue PMesh PMesh2 PScattering PBeam PPolycrystal PDetector PDetector2 PDetector3 PDetector4 PRender PRender2 PEnd2 PNano7.
From Verif Require Import SBeam SPolycrystal SDetector.
From Coq Require Import String.
Open Scope list_scope. Open Scope R_scope.

(** The Rodrigues matrix of an axis of any length. *)
Lemma rod_det a w : det (rod_matrix a w) = 1 + (1 - cos w)^2 * normsq a * (normsq a - 1).
Proof.
  assert (E : sin w * sin w = 1 - cos w * cos w) by (pose proof (sin2_cos2 w) as H; unfold Rsqr in H; lra).
  destruct a as [x y z]. unfold rod_matrix, rod_K2, rod_K. unfold det. generalize dependent (sin w). generalize (cos w). intros c s E. vunf.
  assert (forall X Y, X - Y = (s * s - (1 - c * c)) * (x*x+y*y+z*z) -> X = Y) as K by (intros X Y HX; rewrite E in HX; lra).
  apply K. ring.
Qed.
Lemma axis_length a w T o m : make_motion a w T o = Ok m -> m_axis m = a /\ Rabs (normsq a - 1) <= 21 / 10^6.
Proof.
  intros H. apply make_motion_ok_iff in H as (_ & H & ->). split; [reflexivity|]. unfold axis_tol in H. rewrite Rabs_R1 in H.
  rewrite <- norm_sq. assert (- (1001/10^8) <= norm a - 1 <= 1001/10^8).
  { assert (/ 10 ^ 8 + / 10 ^ 5 * 1 = 1001/10^8) as Q by lra. rewrite Q in H. split; [pose proof (Rle_abs (- (norm a - 1))); rewrite Rabs_Ropp in *; lra|pose proof (Rle_abs (norm a - 1)); lra]. }
  apply Rabs_le. set (r := norm a) in *. clearbody r. split; nra.
Qed.
Lemma rod_det_near m w : made_motion m -> Rabs (det (rod_matrix (m_axis m) w) - 1) <= 1 / 10^4.
Proof.
  intros (a & an & T & o & H). destruct (axis_length _ _ _ _ _ H) as (-> & B). rewrite rod_det.
  replace (1 + (1 - cos w)^2 * normsq a * (normsq a - 1) - 1) with ((1 - cos w)^2 * normsq a * (normsq a - 1)) by ring.
  pose proof (COS_bound w) as C. set (c := cos w) in *. clearbody c. set (q := normsq a) in *. clearbody q.
  assert (B' : - (21/10^6) <= q - 1 <= 21/10^6).
  { split; [pose proof (Rle_abs (- (q - 1))); rewrite Rabs_Ropp in *; lra|pose proof (Rle_abs (q - 1)); lra]. }
  rewrite Rabs_mult. assert (0 <= (1 - c)^2 <= 4) as C4 by (split; [apply pow2_ge_0|nra]).
  rewrite (Rabs_right ((1 - c)^2 * q)) by (apply Rle_ge, Rmult_le_pos; lra).
  apply Rle_trans with (4 * (1 + 21/10^6) * (21/10^6)); [|lra]. apply Rmult_le_compat; auto; [apply Rmult_le_pos; lra|apply Rabs_pos|].
  apply Rmult_le_compat; lra.
Qed.
Lemma vol_linear A a b c : triple (mv A a) (mv A b) (mv A c) = det A * triple a b c.
Proof. unfold triple, det. destruct A as [[? ? ?] [? ? ?] [? ? ?]]. destruct a, b, c. vunf. ring. Qed.
Lemma vol_moved m t a b c d : signed_vol6 (move_at m t a) (move_at m t b) (move_at m t c) (move_at m t d) = det (rod_matrix (m_axis m) (m_angle m * t)) * signed_vol6 a b c d.
Proof.
  unfold signed_vol6. rewrite <- vol_linear. unfold move_at, rot_at.
  assert (K : forall x y, vsub (vadd (vadd (mv (rod_matrix (m_axis m) (m_angle m * t)) (vsub x (m_origin m))) (m_origin m)) (vscale t (m_trans m)))
    (vadd (vadd (mv (rod_matrix (m_axis m) (m_angle m * t)) (vsub y (m_origin m))) (m_origin m)) (vscale t (m_trans m))) = mv (rod_matrix (m_axis m) (m_angle m * t)) (vsub x y)).
  { generalize (rod_matrix (m_axis m) (m_angle m * t)) (m_origin m) (vscale t (m_trans m)). clear. intros A o T x y. destruct A as [[? ? ?] [? ? ?] [? ? ?]]. destruct o, T, x, y. vext; vunf; ring. }
  now rewrite !K.
Qed.
Lemma vol_shifted v a b c d : signed_vol6 (vadd a v) (vadd b v) (vadd c v) (vadd d v) = signed_vol6 a b c d.
Proof. unfold signed_vol6, triple. destruct v, a, b, c, d. vunf. ring. Qed.
Lemma solid_map f coord enod : (forall a b c d, signed_vol6 a b c d <> 0 -> signed_vol6 (f a) (f b) (f c) (f d) <> 0) -> solid_at coord enod -> solid_at (map f coord) enod.
Proof.
  intros Hf H e na nb nc nd He. destruct (H _ _ _ _ _ He) as (a & b & c & d & Ha & Hb & Hc & Hd & V).
  exists (f a), (f b), (f c), (f d). repeat split; try (now apply map_nth_error). auto.
Qed.
Lemma solid_moved m t coord enod : made_motion m -> solid_at coord enod -> solid_at (map (move_at m t) coord) enod.
Proof.
  intros Hm. apply solid_map. intros a b c d V. rewrite vol_moved. pose proof (rod_det_near m (m_angle m * t) Hm) as D. apply Rmult_integral_contrapositive_currified; auto.
  intros E. rewrite E in D. rewrite Rabs_left in D; lra.
Qed.
Lemma solid_shifted v coord enod : solid_at coord enod -> solid_at (map (fun p => vadd p v) coord) enod.
Proof. apply solid_map. intros a b c d V. now rewrite vol_shifted. Qed.
Lemma solid_built coord enod me : build_mesh coord enod = Ok me -> solid_at coord enod /\ me_points me = coord /\ me_coord me = coord /\ me_enod me = enod.
Proof.
  intros B. destruct (build_mesh_inv _ _ _ B) as (ts & ss & E1 & E2 & ->). cbn [me_points me_coord me_enod]. repeat split; auto.
  intros e na nb nc nd He. apply traverse_spec in E1. destruct (Forall2_nth _ _ _ _ _ E1 He) as (t & Ht & G).
  pose proof (tet_nondeg _ _ _ _ E2 Ht) as D. rewrite det_tet_A in D. unfold gather_tet in G.
  destruct (nth_error coord na) as [a|] eqn:Ea; [|discriminate]. destruct (nth_error coord nb) as [b|] eqn:Eb; [|discriminate].
  destruct (nth_error coord nc) as [c|] eqn:Ec; [|discriminate]. destruct (nth_error coord nd) as [d|] eqn:Ed; [|discriminate].
  apply (f_equal (fun r => match r with Ok t => t | _ => Tet a b c d end)) in G. subst t. exists a, b, c, d. auto.
Qed.
Lemma solid_run ops : forall me me', Forall made_op ops -> mesh_run me ops = Ok me' -> solid_at (me_points me) (me_enod me) -> solid me ->
  solid me' /\ me_enod me' = me_enod me.
Proof.
  induction ops as [|o ops IH]; intros me me' F H S1 S2.
  - cbn in H. apply (f_equal (fun r => match r with Ok t => t | _ => me end)) in H. subst. auto.
  - cbn [mesh_run] in H. destruct (mesh_step me o) as [me1|] eqn:E; [|discriminate]. cbn [bind] in H. inversion F as [|? ? Ho Fo]; subst.
    assert (Q : solid_at (me_points me1) (me_enod me1) /\ solid me1 /\ me_enod me1 = me_enod me).
    { destruct o as [v|m t|ax w]; cbn [mesh_step] in E.
      - apply (f_equal (fun r => match r with Ok t => t | _ => me end)) in E. subst me1. unfold solid. cbn [mesh_translate me_points me_coord me_enod]. auto using solid_shifted.
      - apply (f_equal (fun r => match r with Ok t => t | _ => me end)) in E. subst me1. unfold solid. cbn [mesh_update me_points me_coord me_enod]. auto using solid_moved.
      - unfold mesh_rotate in E. destruct (make_motion ax w vzero vzero) as [m|] eqn:Em; [|discriminate]. cbn [bind] in E.
        apply (f_equal (fun r => match r with Ok t => t | _ => me end)) in E. subst me1. unfold solid. cbn [mesh_update me_points me_coord me_enod].
        assert (made_motion m) by (do 4 eexists; eauto). auto using solid_moved. }
    destruct Q as (Q1 & Q2 & Q3). destruct (IH _ _ Fo H Q1 Q2) as (R1 & R2). split; [exact R1|congruence].
Qed.
(** C102. A motion accepted by the constructor changes no volume by more than one part in ten thousand, at any time. *)
Lemma pC102_motion_volume : forall axis angle trans origin m t a b c d a' b' c' d', make_motion axis angle trans origin = Ok m ->
  motion_call m (P1 a) (S0 t) = Ok (P1 a') -> motion_call m (P1 b) (S0 t) = Ok (P1 b') ->
  motion_call m (P1 c) (S0 t) = Ok (P1 c') -> motion_call m (P1 d) (S0 t) = Ok (P1 d') ->
  exists f, Rabs (f - 1) <= 1 / 10^4 /\ signed_vol6 a' b' c' d' = f * signed_vol6 a b c d /\
    f = 1 + (1 - cos (angle * t))^2 * (norm axis)^2 * ((norm axis)^2 - 1).
Proof.
  intros axis angle trans origin m t a b c d a' b' c' d' H. rewrite !call_P1_S0. intros Ea Eb Ec Ed.
  apply okP1_inj in Ea, Eb, Ec, Ed. subst a' b' c' d'. pose proof (make_motion_ok_iff axis angle trans origin m) as (K & _). destruct (K H) as (_ & _ & Em).
  exists (det (rod_matrix (m_axis m) (m_angle m * t))). split; [apply rod_det_near; do 4 eexists; eauto|]. split; [apply vol_moved|].
  rewrite rod_det, Em. cbn [m_axis m_angle]. rewrite <- norm_sq. ring.
Qed.
(** C102. Whatever is done with a mesh, every element stays a genuine tetrahedron. *)
Lemma pC102_mesh_solid : forall coord enod me0 ops me, build_mesh coord enod = Ok me0 -> Forall made_op ops -> mesh_run me0 ops = Ok me -> solid me.
Proof.
  intros coord enod me0 ops me B F H. destruct (solid_built _ _ _ B) as (S & E1 & E2 & E3).
  apply (solid_run ops me0 me F H); unfold solid; now rewrite ?E1, ?E2, E3.
Qed.
Lemma made_reachable x p : made_pc x p -> reachable_pc x p.
Proof. induction 1; [eapply rpc_make; eauto|now apply rpc_transform|now apply rpc_diffract|now apply rpc_reload]. Qed.
Lemma diffract_keeps z x p b m lo hi det : let q := snd (diffract z x p b m lo hi det) in
  pc_mesh_lab q = pc_mesh_lab p /\ pc_mesh_sample q = pc_mesh_sample p /\ pc_volumes q = pc_volumes p.
Proof. cbv zeta. unfold diffract. destruct (match det with None => _ | Some _ => _ end) as [[? ?]|]; cbn; auto. Qed.
(** C102. Every sample consists of genuine tetrahedra, in the laboratory and in its own frame, and the volume stored for
    each element is the positive Euclidean volume of that element at construction, at all later times. *)
Lemma pC102_sample_solid : forall x p, made_pc x p -> solid (pc_mesh_lab p) /\ solid (pc_mesh_sample p) /\
  (forall v, In v (pc_volumes p) -> 0 < v) /\
  (forall e na nb nc nd a b c d, nth_error (me_enod (pc_mesh_sample p)) e = Some (na, nb, nc, nd) ->
     nth_error (me_coord (pc_mesh_sample p)) na = Some a -> nth_error (me_coord (pc_mesh_sample p)) nb = Some b ->
     nth_error (me_coord (pc_mesh_sample p)) nc = Some c -> nth_error (me_coord (pc_mesh_sample p)) nd = Some d ->
     nth_error (pc_volumes p) e = Some (Rabs (signed_vol6 a b c d) / 6)).
Proof.
  intros x p. induction 1 as [coord enod me0 ops me o s phs mp p B F R Ph M| p m t H IH Hm | z p b m lo hi det H IH| p H IH].
  - pose proof (pC102_mesh_solid _ _ _ _ _ B F R) as S. apply make_pc_inv in M as (tets & U & eps & pm & eB & H0 & _ & _ & _ & _ & ->).
    cbn [pc_mesh_lab pc_mesh_sample pc_volumes]. apply traverse_spec in H0. split; [exact S|]. split; [exact S|].
    assert (V : forall e na nb nc nd a b c d, nth_error (me_enod me) e = Some (na, nb, nc, nd) ->
      nth_error (me_coord me) na = Some a -> nth_error (me_coord me) nb = Some b -> nth_error (me_coord me) nc = Some c -> nth_error (me_coord me) nd = Some d ->
      nth_error tets e = Some (Tet a b c d)).
    { intros e na nb nc nd a b c d He Ha Hb Hc Hd. destruct (Forall2_nth _ _ _ _ _ H0 He) as (t & Ht & G). unfold gather_tet in G. rewrite Ha, Hb, Hc, Hd in G.
      apply (f_equal (fun r => match r with Ok t => t | _ => t end)) in G. now rewrite G. }
    split.
    + intros v Hv. apply in_map_iff in Hv as (t & <- & Ht). apply In_nth_error in Ht as (e & He).
      assert (L : (e < List.length (me_enod me))%nat). { rewrite (Forall2_len _ _ _ H0). apply nth_error_Some. congruence. }
      destruct (nth_error (me_enod me) e) as [[[[na nb] nc] nd]|] eqn:En; [|apply nth_error_None in En; lia].
      destruct (S _ _ _ _ _ En) as (a & b & c & d & Ha & Hb & Hc & Hd & D). pose proof (V _ _ _ _ _ _ _ _ _ En Ha Hb Hc Hd) as E. rewrite He in E.
      apply (f_equal (fun o => match o with Some a => a | None => t end)) in E. cbv beta iota in E. subst t. rewrite tet_volume_vol. cbn [q0 q1 q2 q3]. pose proof (Rabs_pos_lt _ D). lra.
    + intros e na nb nc nd a b c d He Ha Hb Hc Hd. rewrite (map_nth_error tet_volume e tets (V _ _ _ _ _ _ _ _ _ He Ha Hb Hc Hd)). now rewrite tet_volume_vol.
  - destruct IH as (S & IH). split; [|exact IH]. unfold solid. cbn [transform pc_mesh_lab mesh_update me_coord me_enod]. now apply solid_moved.
  - destruct (diffract_keeps z x p b m lo hi det) as (E1 & E2 & E3). now rewrite E1, E2, E3.
  - exact IH.
Qed.
(** C102. Every row of a peak table of such a sample has a positive volume. *)
Lemma pC102_rows_positive : forall z x p b m lo hi det pd p' r, made_pc x p -> diffract z x p b m lo hi det = (Ok pd, p') -> In r (pd_peaks pd) ->
  exists v, has pd r "volumes" v /\ 0 < v.
Proof.
  intros z x p b m lo hi det pd p' r HR HD Hr. destruct (pC10_peak_contents _ _ _ _ _ _ _ _ _ _ _ HD Hr) as (e & i & ph & h & sf & t & G0 & G & c & s & v & A).
  decompose [and] A. exists v. split; auto. destruct (pC102_sample_solid _ _ HR) as (_ & _ & V & _). apply V. eapply nth_error_In; eauto.
Qed.
Lemma out_field z d pd frames out r : fresh pd -> project z d pd frames = Ok out -> In r (pd_peaks out) ->
  exists r0, In r0 (pd_peaks pd) /\ forall s j, index_of s column_names = Some j -> (j < 25)%nat -> field out r s = field pd r0 s.
Proof.
  intros Hf Ho Hr. destruct (out_row _ _ _ _ _ _ Hf Ho Hr) as (r0 & zd & yd & a & Hir & Hl & Hk & E & Er & Hc). exists r0. split; auto.
  intros s j Hs Hj. unfold field. rewrite Hc, (PPass2.index_of_app _ _ _ _ Hs), (proj1 Hf), Hs, Er. apply nth_error_app1. lia.
Qed.
(** C102. Every visible reflection has a positive scattering strength (intensity factor times volume). *)
Lemma pC102_strength_positive : forall z z' x p b m lo hi det pd p' d frames out r, made_pc x p -> diffract z x p b m lo hi det = (Ok pd, p') ->
  project z' d pd frames = Ok out -> (1 <= frames)%Z -> In r (pd_peaks out) -> 0 < strength out r.
Proof.
  intros z z' x p b m lo hi det pd p' d frames out r HM HD Ho Hn Hr.
  assert (Hf : fresh pd) by (apply (pC32_diffract_tables_fresh z x p b m lo hi det); now rewrite HD).
  destruct (out_field _ _ _ _ _ _ Hf Ho Hr) as (r0 & Hr0 & FE). destruct (pC102_rows_positive _ _ _ _ _ _ _ _ _ _ _ HM HD Hr0) as (v & Hv & V0).
  assert (Hv' : has out r "volumes" v) by (unfold has; rewrite (FE _ 21%nat) by (reflexivity || lia); exact Hv).
  destruct (projected_prow _ _ _ _ _ _ Hf Hn Ho Hr) as (k & zd & yd & it & P).
  destruct (out_reads _ _ _ _ _ _ Hf Hn Ho Hr) as (_ & _ & _ & E4 & _). unfold strength. rewrite E4.
  assert (E5 : read out r "volumes" = v) by (unfold read; now rewrite Hv'). rewrite E5. unfold fcol. rewrite (pr_i _ _ _ _ _ _ _ P). cbn [fval].
  pose proof (pr_ipos _ _ _ _ _ _ _ P). apply Rmult_lt_0_compat; auto.
Qed.
(** C102. Every visible reflection that is not scattered straight back has a diffraction disc of finite size. *)
Lemma pC102_discs : forall q z z' x p b axis angle trans origin m lo hi det pd p' d frames out r, made_pc x p -> reachable_beam q b ->
  make_motion axis angle trans origin = Ok m -> unit axis -> diffract z x p b m lo hi det = (Ok pd, p') ->
  built d -> rectangular (d_c0 d) (d_c1 d) (d_c2 d) -> project z' d pd frames = Ok out -> In r (pd_peaks out) ->
  ~ has out r "2theta" PI -> proper_disc out r.
Proof.
  intros q z z' x p b axis angle trans origin m lo hi det pd p' d frames out r HM Hb Hm U HD Bd Rc Ho Hr Hn.
  assert (Hf : fresh pd) by (apply (pC32_diffract_tables_fresh z x p b m lo hi det); now rewrite HD).
  destruct (out_field _ _ _ _ _ _ Hf Ho Hr) as (r0 & Hr0 & FE). destruct (pC102_rows_positive _ _ _ _ _ _ _ _ _ _ _ HM HD Hr0) as (v & Hv & V0).
  destruct (pC11_bragg _ _ _ _ _ _ _ _ _ _ _ _ _ _ _ _ Hb Hm U HD Hr0) as (G0 & K & t & _ & _ & Ht & _ & Tr & _).
  assert (Ht' : has out r "2theta" t) by (unfold has; rewrite (FE _ 22%nat) by (reflexivity || lia); exact Ht).
  eapply (pC101_peaks_have_discs z z' x p b m lo hi det pd p' d frames out r v t); eauto.
  - unfold has. rewrite (FE _ 21%nat) by (reflexivity || lia). exact Hv.
  - pose proof PI_RGT_0. assert (t <> PI) by (intros ->; now apply Hn). split; [lra|]. destruct (Rle_lt_or_eq_dec t PI ltac:(lra)); auto. contradiction.
Qed.
(** C102. A 'nano' picture of a sample can always be made on a machine that reports no free memory, and on every machine when
    all discs are at most two pixels in radius, unless a visible reflection is scattered straight back. *)
Lemma pC102_nano_succeeds : forall e q z x p b axis angle trans origin m lo hi det pd p' d frames ml mi out, made_pc x p -> reachable_beam q b ->
  make_motion axis angle trans origin = Ok m -> unit axis -> diffract z x p b m lo hi det = (Ok pd, p') ->
  built d -> 0 < d_pz d -> rectangular (d_c0 d) (d_c1 d) (d_c2 d) -> permutes (re_argsort e) ->
  project (re_z e) d pd (if (frames <? 1)%Z then 1%Z else frames) = Ok out ->
  (forall r, In r (pd_peaks out) -> ~ has out r "2theta" PI) ->
  re_free_nano e = 0 \/ (forall r, In r (pd_peaks out) -> disc_radius d out r <= 2) ->
  exists im, render e d pd frames "nano" ml mi = Ok (im, out).
Proof.
  intros e q z x p b axis angle trans origin m lo hi det pd p' d frames ml mi out HM Hb Hm U HD Bd Pz Rc Hp Ho Hn Hc.
  assert (Hf : fresh pd) by (apply (pC32_diffract_tables_fresh z x p b m lo hi det); now rewrite HD).
  assert (PD : forall r, In r (pd_peaks out) -> proper_disc out r) by (intros r Hr; eapply pC102_discs; eauto).
  destruct Hc as [H0|H2]; [eapply PNano6.pC100_one_by_one; eauto|eapply PNano6.pC100_whole_radii; eauto].
Qed.
