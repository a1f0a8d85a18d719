(** * Proofs about MPolycrystal, part 2: transforms, histories, construction. *)
From Verif Require Import Vec Spec MMotion PMotion MLaue PLaue MMesh SMesh PMesh MScattering SScattering PScattering.
From Verif Require Import MStrain SStrain PStrain MBeam SBeam PBeam MPolycrystal SPolycrystal PPolycrystal.
Open Scope R_scope.
Local Notation len := List.length.

(** ** C14 *)
Lemma crystal_strain_rot Q U e : mm (mT Q) Q = mI ->
  crystal_strain (mm Q U) (mm (mm Q e) (mT Q)) = crystal_strain U e.
Proof.
  intros H. unfold crystal_strain. rewrite mT_mm. rewrite !mm_assoc.
  rewrite <- (mm_assoc (mT U) (mT Q) Q), H, mm_I_r. rewrite <- (mm_assoc _ (mT Q) Q), H, mm_I_r. reflexivity.
Qed.
Lemma combine_map {A B C D} (f : A -> C) (g : B -> D) l : forall m,
  combine (map f l) (map g m) = map (fun ab => (f (fst ab), g (snd ab))) (combine l m).
Proof. induction l; intros [|y m]; simpl; auto. now rewrite IHl. Qed.
Lemma lab_strain_rot Q B0 es us : mm (mT Q) Q = mI ->
  lab_strain_to_B B0 (map (fun e => mm (mm Q e) (mT Q)) es) (map (mm Q) us) = lab_strain_to_B B0 es us.
Proof.
  intros H. unfold lab_strain_to_B. rewrite !map_length. destruct (Nat.eqb _ _); auto. f_equal.
  rewrite combine_map, map_map. apply map_ext. intros (e & u). simpl. now apply crystal_strain_rot.
Qed.
Lemma eB_loop_rot Q x U eps mp : mm (mT Q) Q = mI -> forall phs i eB,
  eB_loop x (map (mm Q) U) (map (fun e => mm (mm Q e) (mT Q)) eps) mp i phs eB = eB_loop x U eps mp i phs eB.
Proof.
  intros H. induction phs as [|ph phs IH]; intros i eB; simpl; auto.
  rewrite !gather_map. destruct (gather eps _) as [es|]; cbn [bind]; auto.
  destruct (gather U _) as [us|]; cbn [bind]; auto. rewrite lab_strain_rot by auto.
  destruct (lab_strain_to_B _ es us); cbn [bind]; auto.
Qed.
Lemma aff_comp A b A' b' x : aff A' b' (aff A b x) = aff (mm A' A) (vadd (mv A' b) b') x.
Proof. unfold aff. rewrite mv_add, mv_mm. generalize (mv A' (mv A x)) (mv A' b). veq. Qed.
Lemma transforms_rel moves : forall p, (forall mt, In mt moves -> unit (m_axis (fst mt))) ->
  exists Q b, is_rotation Q /\
    let p1 := transforms moves p in
    pc_volumes p1 = pc_volumes p /\ pc_map p1 = pc_map p /\ pc_phases p1 = pc_phases p /\ pc_eB p1 = pc_eB p /\
    pc_mesh_sample p1 = pc_mesh_sample p /\ pc_eps_sample p1 = pc_eps_sample p /\ pc_U_sample p1 = pc_U_sample p /\
    pc_U p1 = map (mm Q) (pc_U p) /\ pc_eps p1 = map (fun e => mm (mm Q e) (mT Q)) (pc_eps p) /\
    me_coord (pc_mesh_lab p1) = map (aff Q b) (me_coord (pc_mesh_lab p)) /\
    me_enod (pc_mesh_lab p1) = me_enod (pc_mesh_lab p).
Proof.
  induction moves as [|(m, t) moves IH]; intros p HU.
  - exists mI, vzero. split; [apply rotation_I|]. simpl. repeat split; auto.
    + rewrite <- map_id at 1. apply map_ext. intros; now rewrite mm_I_l.
    + rewrite <- map_id at 1. apply map_ext. intros. rewrite mm_I_l. change (mT mI) with mI. now rewrite mm_I_r.
    + rewrite <- map_id at 1. apply map_ext. intros. unfold aff. now rewrite mv_I, vadd_0_r.
  - destruct (IH (transform p m t)) as (Q & b & HQ & H); [intros; apply HU; right; auto|].
    assert (Um : unit (m_axis m)) by (apply (HU (m, t)); left; auto).
    set (Q0 := rod_matrix (m_axis m) (m_angle m * t)) in *.
    assert (HQ0 : is_rotation Q0) by (apply rod_rotation; auto).
    destruct (update_moved (pc_mesh_lab p) m t) as (b0 & Hb0). fold Q0 in Hb0.
    exists (mm Q Q0), (vadd (mv Q b0) b). split; [apply rotation_mm; auto|].
    change (transforms ((m, t) :: moves) p) with (transforms moves (transform p m t)).
    destruct H as (H1 & H2 & H3 & H4 & H5 & H6 & H7 & H8 & H9 & H10 & H11). cbv zeta.
    rewrite H1, H2, H3, H4, H5, H6, H7, H8, H9, H10, H11. simpl. fold Q0. rewrite !map_map.
    repeat split; auto.
    + apply map_ext. intros; now rewrite mm_assoc.
    + apply map_ext. intros. rewrite mT_mm, !mm_assoc. reflexivity.
    + apply map_ext. intros v. rewrite <- aff_comp. f_equal.
      assert (K : forall v, move_at m t v = aff Q0 b0 v); [|apply K].
      intros u. rewrite move_at_aff. fold Q0.
      (* both coordinates lists are images of any mesh: use a one point mesh *)
      destruct (update_moved (Mesh [] [u] [] [] [] [] [] [] u []) m t) as (b1 & Hb1). fold Q0 in Hb1.
      clear Hb1. assert (E : aff Q0 b0 (me_centroid (pc_mesh_lab p)) = move_at m t (me_centroid (pc_mesh_lab p))).
      { symmetry. exact (f_equal me_centroid Hb0). }
      rewrite move_at_aff in E. fold Q0 in E. unfold aff in *.
      assert (E' : b0 = vadd (vsub (m_origin m) (mv Q0 (m_origin m))) (vscale t (m_trans m))).
      { apply (f_equal (fun y => vsub y (mv Q0 (me_centroid (pc_mesh_lab p))))) in E.
        revert E. generalize (mv Q0 (me_centroid (pc_mesh_lab p))) (vadd (vsub (m_origin m) (mv Q0 (m_origin m))) (vscale t (m_trans m))).
        intros c d E. rewrite (vadd_comm c b0), (vadd_comm c d), !vadd_sub in E. exact E. }
      rewrite <- E'. reflexivity.
Qed.

(** C14. After any sequence of transforms (with unit axes) the sample-frame mesh,
    orientations and strains, the element volumes and the lattice matrices are
    those of construction; the lab mesh is a rigid image of the original by a
    rotation that also turned every orientation matrix; orientations stay
    rotations; the strain seen in each crystal's frame is unchanged, and
    recomputing the lattice matrices from the current lab state gives the stored
    ones; the stored volumes are the volumes of the current lab elements. *)
Lemma pC14_material_state : forall x coord enod me o s phs mp p moves p1,
  build_mesh coord enod = Ok me -> make_polycrystal x me o s phs mp = Ok p ->
  (forall mt, In mt moves -> unit (m_axis (fst mt))) -> p1 = transforms moves p ->
  pc_mesh_sample p1 = me /\ pc_U_sample p1 = pc_U p /\ pc_eps_sample p1 = pc_eps p /\
  pc_volumes p1 = pc_volumes p /\ pc_eB p1 = pc_eB p /\
  (Forall is_rotation (pc_U p) -> Forall is_rotation (pc_U p1)) /\
  (forall e U1 eps1, nth_error (pc_U p1) e = Some U1 -> nth_error (pc_eps p1) e = Some eps1 ->
     exists U eps, nth_error (pc_U p) e = Some U /\ nth_error (pc_eps p) e = Some eps /\
       to_crystal U1 eps1 = to_crystal U eps) /\
  instantiate_eB x (pc_U p1) (pc_eps p1) (pc_phases p1) (pc_map p1) (List.length enod) = Ok (pc_eB p1) /\
  (exists Q b, is_rotation Q /\ me_coord (pc_mesh_lab p1) = map (fun v => vadd (mv Q v) b) coord /\
     pc_U p1 = map (mm Q) (pc_U p)) /\
  (forall e a b c d, corners (pc_mesh_lab p1) e a b c d ->
     nth_error (pc_volumes p1) e = Some (Rabs (signed_vol6 a b c d) / 6)).
Proof.
  intros x coord enod me o s phs mp p moves p1 Hb Hm HU ->.
  destruct (transforms_rel moves p HU) as (Q & b & HQ & H). cbv zeta in H.
  destruct H as (H1 & H2 & H3 & H4 & H5 & H6 & H7 & H8 & H9 & H10 & H11).
  apply make_pc_inv in Hm as (tets & U & eps & pm & eB & E0 & E1 & E2 & E3 & E4 & ->).
  pose proof (build_good _ _ _ Hb) as (_ & _ & Be & Bc).
  cbn [pc_volumes pc_map pc_phases pc_eB pc_mesh_sample pc_eps_sample pc_U_sample pc_U pc_eps pc_mesh_lab] in *.
  rewrite Be in *. rewrite Bc in *.
  split; [auto|]. split; [auto|]. split; [auto|]. split; [auto|]. split; [auto|]. split; [|split; [|split; [|split]]].
  - intros HR. rewrite H8. apply Forall_forall. intros A HA. apply in_map_iff in HA as (A0 & <- & HA).
    apply rotation_mm; auto. eapply Forall_forall in HR; eauto.
  - intros e U1 eps1 HU1 He1. rewrite H8, nth_error_map in HU1. rewrite H9, nth_error_map in He1.
    destruct (nth_error U e) as [U0|] eqn:EU; [|discriminate]. destruct (nth_error eps e) as [e0|] eqn:Ee; [|discriminate].
    simpl in HU1, He1. inversion HU1; inversion He1; subst. exists U0, e0. repeat split; auto.
    rewrite <- !crystal_strain_spec. apply crystal_strain_rot. apply HQ.
  - rewrite H2, H3, H4, H8, H9. unfold instantiate_eB. rewrite eB_loop_rot by apply HQ. exact E4.
  - exists Q, b. auto.
  - intros e a' b' c' d' (na & nb & nc & nd & Hn & Ha & Hb' & Hc & Hd). rewrite H11 in Hn. rewrite H10 in Ha, Hb', Hc, Hd.
    rewrite nth_error_map in Ha, Hb', Hc, Hd.
    destruct (nth_error coord na) as [va|] eqn:Fa; [|discriminate]. destruct (nth_error coord nb) as [vb|] eqn:Fb; [|discriminate].
    destruct (nth_error coord nc) as [vc|] eqn:Fc; [|discriminate]. destruct (nth_error coord nd) as [vd|] eqn:Fd; [|discriminate].
    simpl in Ha, Hb', Hc, Hd. inversion Ha; inversion Hb'; inversion Hc; inversion Hd; subst. rewrite aff_vol by auto.
    apply traverse_spec in E0. destruct (Forall2_nth _ _ _ _ _ E0 Hn) as (t & Ht & Hg). unfold gather_tet in Hg.
    rewrite Fa, Fb, Fc, Fd in Hg. inversion Hg; subst t. rewrite H1, nth_error_map, Ht. simpl. now rewrite tet_volume_vol.
Qed.
(** C14. Scattering vectors keep their length. *)
Lemma pC14_reciprocal_lengths : forall p moves e h G,
  (forall mt, In mt moves -> unit (m_axis (fst mt))) -> scattering_vector p e h G ->
  exists G', scattering_vector (transforms moves p) e h G' /\ norm G' = norm G.
Proof.
  intros p moves e h G HU (U & B & EU & EB & ->). destruct (transforms_rel moves p HU) as (Q & b & HQ & H). cbv zeta in H.
  destruct H as (H1 & H2 & H3 & H4 & H5 & H6 & H7 & H8 & H9 & H10 & H11).
  exists (mv Q (mv U (mv B h))). split; [|now apply rotation_norm].
  exists (mm Q U), B. rewrite H8, H4, nth_error_map, EU. repeat split; auto. now rewrite mv_mm.
Qed.

(** ** C15 *)
Lemma transform_vector a w T o m s p e h G : make_motion a w T o = Ok m ->
  (scattering_vector (transform p m s) e h G <-> exists G0, scattering_vector p e h G0 /\ G = rot_at m s G0).
Proof.
  intros _. unfold scattering_vector, transform; simpl. split.
  - intros (U & B & EU & EB & ->). rewrite nth_error_map in EU. destruct (nth_error (pc_U p) e) as [U0|] eqn:E; [|discriminate].
    simpl in EU. inversion EU; subst U. exists (mv U0 (mv B h)). split; [exists U0, B; auto|]. unfold rot_at. now rewrite mv_mm.
  - intros (G0 & (U & B & EU & EB & ->) & ->). exists (mm (rod_matrix (m_axis m) (m_angle m * s)) U), B.
    rewrite nth_error_map, EU. repeat split; auto. unfold rot_at. now rewrite mv_mm.
Qed.
Lemma rot_at_add m s t v : unit (m_axis m) -> rot_at m t (rot_at m s v) = rot_at m (s + t) v.
Proof.
  intros U. unfold rot_at. rewrite <- mv_mm, rod_add by auto. f_equal. f_equal. ring.
Qed.
(** C15. Rows of the sample moved to time s by the motion, diffracted during the
    same motion, describe the unmoved sample at time s + t: the diffraction
    vector and the scattered wave vector agree, and the Laue condition holds
    there. *)
Lemma pC15_moved_rows : forall z x p b a w T o m s lo hi det d p' row,
  make_motion a w T o = Ok m -> unit a ->
  diffract z x (transform p m s) b m lo hi det = (Ok d, p') -> In row (pd_peaks d) ->
  exists e i h t G0 G, in_phase p e i /\ scattering_vector p e h G0 /\ 0 <= t <= 1 /\
    has d row "grain_index" (INR e) /\ has_vec d row "h" "k" "l" h /\ has d row "diffraction_times" t /\
    motion_rotate m (P1 G0) (S0 (s + t)) = Ok (P1 G) /\
    has_vec d row "Gx" "Gy" "Gz" G /\
    has_vec d row "K_out_x" "K_out_y" "K_out_z" (vadd (b_wave_vector b) G) /\
    laue_condition (b_wave_vector b) G.
Proof.
  intros z x p b a w T o m s lo hi det d p' row Hm U H Hin. apply In_nth_error in Hin as (k & Hk).
  pose proof (columns_of _ _ _ _ _ _ _ _ _ _ H) as HC.
  destruct (peaks_iff _ _ _ _ _ _ _ _ _ _ _ _ H Hk) as (i & ph & e & h & sf & t & G1 & c & v & A1 & A2 & A3 & A4 & A5 & A6 & A7 & A8 & ->).
  pose proof (solves_laue _ _ _ _ _ _ _ _ Hm U A5) as HL.
  apply (transform_vector _ _ _ _ _ _ _ _ _ _ Hm) in A4 as (G0 & A4 & ->).
  assert (Um : unit (m_axis m)) by (apply make_motion_ok_iff in Hm as (_ & _ & ->); auto).
  exists e, i, h, t, G0, (rot_at m (s + t) G0).
  rewrite rot_at_add in HL by auto.
  unfold has_vec, has, field. rewrite HC, (vadd_comm (b_wave_vector b)).
  unfold full_row. cbv zeta. rewrite rvec_row10. change (rcol (row10 e i h sf t (rot_at m s G0)) 6) with t.
  rewrite rot_at_add by auto.
  repeat match goal with |- _ /\ _ => split end; auto; try apply A5; try reflexivity; apply rotate_P1_S0.
Qed.
(** C15. Conversely every event of the unmoved sample at time s + t, 0 <= t <= 1,
    outside the blind spot and with the moved element centre in the beam, is
    reported for the moved sample at time t. *)
Lemma pC15_moved_complete : forall z x p b a w T o m s lo hi det d p' e i ph h sf t G0 G c c1 src,
  reachable_pc x p -> make_motion a w T o = Ok m -> unit a ->
  diffract z x (transform p m s) b m lo hi det = (Ok d, p') ->
  in_phase p e i -> nth_error (pc_phases p') i = Some ph -> plane_of ph h sf -> scattering_vector p e h G0 ->
  0 <= t <= 1 -> motion_rotate m (P1 G0) (S0 (s + t)) = Ok (P1 G) -> laue_condition (b_wave_vector b) G ->
  ~ laue_condition (b_wave_vector b) (right_handed_rotation a (w * s + PI) G0) ->
  nth_error (me_espherecentroids (pc_mesh_lab p)) e = Some c -> motion_call m (P1 c) (S0 s) = Ok (P1 c1) ->
  motion_call m (P1 c1) (S0 t) = Ok (P1 src) -> strictly_inside (b_halfspaces b) src ->
  exists row, In row (pd_peaks d) /\ has d row "grain_index" (INR e) /\ has d row "phase_number" (INR i) /\
    has_vec d row "h" "k" "l" h /\ has d row "diffraction_times" t.
Proof.
  intros z x p b a w T o m s lo hi det d p' e i ph h sf t G0 G c c1 src HR Hm U H He Hi Hp HG Ht Hrot HL Hnb Hc Hc1 Hs Hin.
  rewrite call_P1_S0 in Hc1. apply okP1_inj in Hc1. subst c1.
  rewrite rotate_P1_S0 in Hrot. apply okP1_inj in Hrot. subst G.
  assert (Em : m = Motion a w T o) by (apply make_motion_ok_iff in Hm as (_ & _ & ->); auto).
  eapply (pC12_complete z x (transform p m s) b a w T o m lo hi det d p' e i ph h sf t (rot_at m s G0) (rot_at m t (rot_at m s G0))
    (move_at m s c) src); eauto.
  - now constructor.
  - apply (transform_vector _ _ _ _ _ _ _ _ _ _ Hm). eauto.
  - rewrite rot_at_add; auto. subst m; auto.
  - intros C. apply Hnb. subst m. unfold rot_at in C; cbn [m_axis m_angle] in C.
    rewrite <- !rod_spec in * by auto. rewrite <- mv_mm, rod_add in C by auto.
    now replace (PI + w * s) with (w * s + PI) in C by ring.
  - simpl. rewrite nth_error_map, Hc. auto.
Qed.
Lemma move_twice a w T o s t x : unit a -> let m := Motion a w T o in
  move_at m t (move_at m s x) = vadd (move_at m (s + t) x) (vscale s (vsub (rot_at m t T) T)).
Proof.
  intros U m. unfold move_at. cbn [m_origin m_trans m].
  assert (E : vsub (vadd (vadd (rot_at m s (vsub x o)) o) (vscale s T)) o = vadd (rot_at m s (vsub x o)) (vscale s T)).
  { generalize (rot_at m s (vsub x o)). intros y. veq. }
  rewrite E. unfold rot_at at 1. rewrite mv_add, mv_scale.
  change (mv (rod_matrix (m_axis m) (m_angle m * t)) (rot_at m s (vsub x o))) with (rot_at m t (rot_at m s (vsub x o))).
  change (mv (rod_matrix (m_axis m) (m_angle m * t)) T) with (rot_at m t T).
  rewrite rot_at_add by auto. generalize (rot_at m (s + t) (vsub x o)) (rot_at m t T). veq.
Qed.
(** C15. Source points: those of the moved sample differ from those of the unmoved
    sample at s + t by exactly s (R_t T - T), so they agree for all times iff
    nothing was moved or the motion's rotation leaves its translation alone. *)
Lemma pC15_source_offset : forall a w T o m s t c c1 src src',
  make_motion a w T o = Ok m -> unit a ->
  motion_call m (P1 c) (S0 s) = Ok (P1 c1) -> motion_call m (P1 c1) (S0 t) = Ok (P1 src) ->
  motion_call m (P1 c) (S0 (s + t)) = Ok (P1 src') ->
  src = vadd src' (vscale s (vsub (right_handed_rotation a (w * t) T) T)) /\
  (src = src' <-> s = 0 \/ right_handed_rotation a (w * t) T = T).
Proof.
  intros a w T o m s t c c1 src src' Hm U H1 H2 H3. apply make_motion_ok_iff in Hm as (_ & _ & ->).
  rewrite call_P1_S0 in H1, H2, H3. apply okP1_inj in H1. apply okP1_inj in H2. apply okP1_inj in H3. subst.
  assert (E := move_twice a w T o s t c U). cbv zeta in E. rewrite E. unfold rot_at at 1 2; cbn [m_axis m_angle]. rewrite <- rod_spec by auto.
  split; auto. generalize (move_at (Motion a w T o) (s + t) c) (mv (rod_matrix a (w * t)) T). intros y r.
  split.
  - intros H. destruct (Req_dec s 0) as [|N]; auto. right.
    destruct y, r, T; unfold vadd, vscale, vsub in H; simpl in H. inversion H as [[E1 E2 E3]].
    f_equal; nra.
  - intros [->| ->]; veq.
Qed.
Lemma pC15_source_refuted : exists a w T o m s t c c1 src src',
  make_motion a w T o = Ok m /\ unit a /\ 0 < s /\ 0 < t /\ s + t <= 1 /\
  motion_call m (P1 c) (S0 s) = Ok (P1 c1) /\ motion_call m (P1 c1) (S0 t) = Ok (P1 src) /\
  motion_call m (P1 c) (S0 (s + t)) = Ok (P1 src') /\ src <> src'.
Proof.
  exists (V3 0 0 1), (PI/2), (V3 1 0 0), vzero, (Motion (V3 0 0 1) (PI/2) (V3 1 0 0) vzero), (1/2), (1/2), vzero.
  do 3 eexists. assert (Hm : make_motion (V3 0 0 1) (PI/2) (V3 1 0 0) vzero = Ok (Motion (V3 0 0 1) (PI/2) (V3 1 0 0) vzero)).
  { apply make_motion_unit; [apply unit_ez|]. pose proof PI_RGT_0; lra. }
  split; [exact Hm|]. split; [apply unit_ez|]. split; [lra|]. split; [lra|]. split; [lra|].
  split; [apply call_P1_S0|]. split; [apply call_P1_S0|]. split; [apply call_P1_S0|].
  intros E. eapply (pC15_source_offset _ _ _ _ _ (1/2) (1/2)) in E; eauto using unit_ez, call_P1_S0.
  destruct E as [E|E]; [lra|]. rewrite <- rod_spec in E by apply unit_ez.
  apply (f_equal vy) in E. replace (PI / 2 * (1/2)) with (PI/4) in E by lra.
  unfold rod_matrix, rod_K2, rod_K in E. vunf. rewrite sin_PI4 in E.
  assert (0 < / sqrt 2) by (apply Rinv_0_lt_compat, sqrt_lt_R0; lra). lra.
Qed.

(** ** C16 *)
Lemma view_pc_some h o p : view_pc h o = Some p -> exists me, nth_error h (po_mesh o) = Some me /\ pc_mesh_lab p = me.
Proof. unfold view_pc. destruct (nth_error h (po_mesh o)) as [me|]; [|discriminate]. intros E. inversion E. simpl. eauto. Qed.
(** C16. After diffract, transforming the same polycrystal object changes the mesh
    seen through the returned dictionary to the transformed one and nothing else
    of the dictionary. *)
Lemma pC16_dict_follows_transform : forall z x h o b m lo hi det d o1 mt t h2 o2 D,
  obj_diffract z x h o b m lo hi det = Some (Ok d, o1) ->
  obj_transform h o1 mt t = Some (h2, o2) -> view_dict h d = Some D ->
  exists D2, view_dict h2 d = Some D2 /\
    pd_mesh D2 = mesh_update (pd_mesh D) mt t /\
    pd_peaks D2 = pd_peaks D /\ pd_columns D2 = pd_columns D /\ pd_incident D2 = pd_incident D /\
    pd_wavelength D2 = pd_wavelength D /\ pd_axis D2 = pd_axis D /\ pd_motion D2 = pd_motion D /\ pd_beam D2 = pd_beam D.
Proof.
  intros z x h o b m lo hi det d o1 mt t h2 o2 D H1 H2 H3.
  unfold obj_diffract in H1. destruct (view_pc h o) as [p|] eqn:Ep; [|discriminate].
  destruct (diffract z x p b m lo hi det) as [r p'] eqn:Ed. inversion H1 as [[Hr Ho]]. clear H1.
  destruct r as [d0|]; cbn [bind] in Hr; [|discriminate]. inversion Hr. subst d o1. clear Hr.
  unfold obj_transform in H2. destruct (view_pc h (PCObj p' (po_mesh o))) as [p1|] eqn:E1; [|discriminate].
  inversion H2. subst h2 o2. clear H2. apply view_pc_some in E1 as (me & Hme & Hl). simpl in Hme.
  unfold view_dict in *. simpl in *. rewrite Hme in H3. simpl in H3. inversion H3. subst D.
  rewrite set_nth_same by (eapply nth_error_lt'; eauto). simpl. eexists. split; [reflexivity|]. simpl. rewrite Hl. auto 10.
Qed.
(** C16. A constructor never shares: transforming a freshly built polycrystal
    leaves every mesh object that existed before (the caller's mesh, other
    polycrystals' meshes, hence their dictionaries) untouched. *)
Lemma pC16_constructor_copies : forall x h a o s phs mp h1 p1 m t h2 p2 k me,
  obj_make x h a o s phs mp = Ok (h1, p1) -> obj_transform h1 p1 m t = Some (h2, p2) ->
  nth_error h k = Some me -> nth_error h2 k = Some me.
Proof.
  intros x h a o s phs mp h1 p1 m t h2 p2 k me H1 H2 Hk. unfold obj_make in H1.
  destruct (nth_error h a) as [me0|]; [|discriminate]. destruct (make_polycrystal _ _ _ _ _ _) as [p|]; cbn [bind] in H1; [|discriminate].
  inversion H1; subst. unfold obj_transform in H2. destruct (view_pc _ _) as [q|]; [|discriminate]. inversion H2; subst. simpl.
  pose proof (nth_error_lt' _ _ _ Hk). rewrite set_nth_other by lia. rewrite nth_error_app1; auto.
Qed.

(** ** C17 *)
Lemma err_lift A B (e f : exn) : @Err A e <> @Err A f -> @Err B e <> @Err B f.
Proof. congruence. Qed.
Lemma compute_no_assert z p phs b m : compute_peaks z p phs b m <> Err AssertionError.
Proof.
  unfold compute_peaks, rows10, gather. cbv zeta.
  assert (T : forall A B (f : A -> result B) l, (forall a, f a <> Err AssertionError) -> traverse f l <> Err AssertionError).
  { intros A B f l Hf. induction l as [|y l IH]; simpl; [discriminate|]. specialize (Hf y). destruct (f y); simpl; [|congruence].
    destruct (traverse f l); simpl; congruence. }
  assert (TR : traverse (fun iph => phase_rows p (laue_factors (b_wave_vector b) (m_axis m)) (m_angle m) (fst iph) (snd iph))
     (combine (seq 0 (len phs)) phs) <> Err AssertionError).
  { apply T. intros (i & ph). simpl. unfold phase_rows, gather. destruct (pc_map p); [discriminate|].
    unfold used_planes. destruct (ph_hkl ph) as [hkl|]; [|discriminate].
    assert (K : forall planes, (let* us := traverse (fun i0 => match nth_error (pc_U p) i0 with Some a => Ok a | None => Err IndexError end) (where_eq l i) in
      let* bs := traverse (fun i0 => match nth_error (pc_eB p) i0 with Some a => Ok a | None => Err IndexError end) (where_eq l i) in
      let* evs := find_solutions (laue_factors (b_wave_vector b) (m_axis m)) (m_angle m)
         (map (fun ub => map (fun h => get_G (fst ub) (snd ub) (fst h)) planes) (combine us bs)) in
      traverse (peak_row10 (where_eq l i) i planes) evs) <> Err AssertionError).
    { intros planes.
      assert (T1 := T nat mat (fun i0 => match nth_error (pc_U p) i0 with Some a => Ok a | None => Err IndexError end) (where_eq l i)).
      destruct (traverse (fun i0 => match nth_error (pc_U p) i0 with Some a => Ok a | None => Err IndexError end) _) as [us|e]; cbn [bind];
        [|eapply err_lift, T1; intros a; destruct (nth_error _ a); discriminate].
      assert (T2 := T nat mat (fun i0 => match nth_error (pc_eB p) i0 with Some a => Ok a | None => Err IndexError end) (where_eq l i)).
      destruct (traverse (fun i0 => match nth_error (pc_eB p) i0 with Some a => Ok a | None => Err IndexError end) _) as [bs|e]; cbn [bind];
        [|eapply err_lift, T2; intros a; destruct (nth_error _ a); discriminate].
      destruct (find_solutions_total (laue_factors (b_wave_vector b) (m_axis m)) (m_angle m)
         (map (fun ub => map (fun h => get_G (fst ub) (snd ub) (fst h)) planes) (combine us bs))) as (evs & ->). cbn [bind].
      apply T. intros ev. unfold peak_row10. destruct (nth_error _ _); [|discriminate]. destruct (nth_error planes _) as [[? ?]|]; discriminate. }
    destruct (ph_sf ph) as [sf|]; [destruct (Nat.eqb _ _); [|discriminate]|]; cbn [bind]; apply K. }
  destruct (traverse _ _) as [parts|e]; cbn [bind]; [|congruence].
  rewrite rotate_P2_S1 by (rewrite !map_length; auto). cbn [bind].
  set (idx := map grain_of (List.concat parts)).
  assert (T1 := T nat vec (fun i0 => match nth_error (me_espherecentroids (pc_mesh_lab p)) i0 with Some a => Ok a | None => Err IndexError end) idx).
  destruct (traverse _ idx) as [cs|e] eqn:E1; cbn [bind]; [|eapply err_lift, T1; intros a; destruct (nth_error _ a); discriminate].
  apply traverse_length in E1. unfold idx in E1. rewrite map_length in E1.
  rewrite call_P2_S1 by (rewrite map_length; auto). cbn [bind].
  assert (T2 := T nat R (fun i0 => match nth_error (pc_volumes p) i0 with Some a => Ok a | None => Err IndexError end) idx).
  destruct (traverse _ idx) as [vs|e]; cbn [bind]; [|eapply err_lift, T2; intros a; destruct (nth_error _ a); discriminate].
  rewrite pC59_lorentz_batch. destruct (Nat.eqb _ _); discriminate.
Qed.
(** C17. Without a detector the two limits are used as given, unchecked: the call
    never fails an assertion, and every phase is given the planes xfab generates
    between sin(min)/lambda and sin(max)/lambda. *)
Lemma pC17_no_detector : forall z x p b m lo hi,
  fst (diffract z x p b m lo hi None) <> Err AssertionError /\
  forall i ph, nth_error (pc_phases p) i = Some ph -> exists ph',
    nth_error (pc_phases (snd (diffract z x p b m lo hi None))) i = Some ph' /\
    ph_hkl ph' = Some (x_genhkl x (ph_cell ph) (sin lo / b_wavelength b) (sin hi / b_wavelength b) (ph_sg ph)).
Proof.
  intros z x p b m lo hi. unfold diffract. cbn [fst snd]. split.
  - match goal with |- context [compute_peaks ?a ?b ?c ?d ?e] => pose proof (compute_no_assert a b c d e) as H; destruct (compute_peaks a b c d e) end;
      cbn [bind]; congruence.
  - intros i ph Hi. simpl. rewrite nth_error_map, Hi. simpl. eauto.
Qed.
(** C17. With a detector the user's maximum is ignored and replaced by the wrapping
    cone of the detector seen from the illuminated part of the sample. *)
Lemma pC17_detector_max_ignored : forall z x p b m lo hi hi' det,
  diffract z x p b m lo hi (Some det) = diffract z x p b m lo hi' (Some det).
Proof. reflexivity. Qed.
Lemma pC17_detector_limits : forall z x p b m lo hi det r,
  det (b_wave_vector b) (bragg_source p b) = Fin r ->
  (~ (0 <= lo < r) -> diffract z x p b m lo hi (Some det) = (Err AssertionError, p)) /\
  (0 <= lo < r -> fst (diffract z x p b m lo hi (Some det)) <> Err AssertionError /\
    diffract z x p b m lo hi (Some det) = diffract z x p b m lo r None).
Proof.
  intros z x p b m lo hi det r Hr.
  assert (A : 0 <= lo < r -> diffract z x p b m lo hi (Some det) = diffract z x p b m lo r None).
  { intros (H0 & H1). unfold diffract at 1. unfold bragg_bounds. rewrite Hr. apply Rleb_true in H0. apply Rltb_true in H1.
    simpl. rewrite H0, H1. reflexivity. }
  split.
  - intros N. unfold diffract, bragg_bounds. rewrite Hr. simpl.
    destruct (Rleb 0 lo) eqn:E0; [|reflexivity]. destruct (Rltb lo r) eqn:E1; [|reflexivity].
    apply Rleb_true in E0. apply Rltb_true in E1. exfalso; auto.
  - intros H. split; [|auto]. rewrite A by auto. apply pC17_no_detector.
Qed.
(** C17. The source point for the cone is the mean of the lab mesh nodes strictly
    inside the beam, and the mesh centroid if there are none. *)
Lemma pC17_cone_source : forall p b,
  (forall v, In v (me_coord (pc_mesh_lab p)) -> ~ strictly_inside (b_halfspaces b) v) ->
  bragg_source p b = me_centroid (pc_mesh_lab p).
Proof.
  intros p b H. unfold bragg_source. destruct (filter _ _) as [|v l] eqn:E; auto.
  assert (In v (filter (beam_contains (b_halfspaces b)) (me_coord (pc_mesh_lab p)))) as Hv by (rewrite E; left; auto).
  apply filter_In in Hv as (Hv & Hc). apply contains_iff in Hc. exfalso. eapply H; eauto.
Qed.
(** C17. ... and if some node is lit, the mean of exactly the lit nodes, each counted
    as often as it occurs. *)
Lemma pC17_cone_source_lit : forall p b lit v,
  (forall v, lit v = true <-> strictly_inside (b_halfspaces b) v) ->
  In v (me_coord (pc_mesh_lab p)) -> strictly_inside (b_halfspaces b) v ->
  vscale (INR (List.length (filter lit (me_coord (pc_mesh_lab p))))) (bragg_source p b) =
    fold_right vadd vzero (filter lit (me_coord (pc_mesh_lab p))) /\
  0 < INR (List.length (filter lit (me_coord (pc_mesh_lab p)))).
Proof.
  intros p b lit v L Hv Hs. unfold bragg_source.
  assert (E : filter (beam_contains (b_halfspaces b)) (me_coord (pc_mesh_lab p)) = filter lit (me_coord (pc_mesh_lab p))).
  { apply filter_ext. intros a. specialize (L a). pose proof (contains_iff (b_halfspaces b) a) as C.
    destruct (lit a), (beam_contains (b_halfspaces b) a); auto.
    - apply C, L. reflexivity.
    - symmetry. apply L, C. reflexivity. }
  rewrite E. assert (I : In v (filter lit (me_coord (pc_mesh_lab p)))) by (apply filter_In; split; auto; apply L; auto).
  destruct (filter lit (me_coord (pc_mesh_lab p))) as [|u l] eqn:F; [contradiction I|].
  assert (P : 0 < INR (List.length (u :: l))) by (apply lt_0_INR; simpl; lia).
  split; [|exact P]. unfold mean_list. set (k := INR (List.length (u :: l))) in *. set (s := fold_right vadd vzero (u :: l)). clearbody k s.
  destruct s. vext; vunf; field; lra.
Qed.
(** C17. An undefined (NaN) cone also fails the assertion and changes nothing. *)
Lemma pC17_undefined_cone : forall z x p b m lo hi det,
  det (b_wave_vector b) (bragg_source p b) = NaN ->
  diffract z x p b m lo hi (Some det) = (Err AssertionError, p).
Proof.
  intros z x p b m lo hi det H. unfold diffract, bragg_bounds. rewrite H. simpl. destruct (Rleb 0 lo); reflexivity.
Qed.
(** C17 finding. Limits beyond 90 degrees fold back: max and pi - max select the
    same planes, so e.g. max = pi behaves like max = 0. *)
Lemma pC17_beyond_ninety : forall z x p b m lo hi,
  diffract z x p b m lo hi None = diffract z x p b m lo (PI - hi) None.
Proof.
  intros z x p b m lo hi. unfold diffract.
  assert (E : forall ph, setup_planes x ph (b_wavelength b) lo hi = setup_planes x ph (b_wavelength b) lo (PI - hi)).
  { intros ph. unfold setup_planes. now rewrite sin_PI_x. }
  assert (E' : map (fun ph => setup_planes x ph (b_wavelength b) lo hi) (pc_phases p) =
               map (fun ph => setup_planes x ph (b_wavelength b) lo (PI - hi)) (pc_phases p)) by (apply map_ext; auto).
  now rewrite E'.
Qed.

(** ** C18 *)
Lemma setup_setup x ph wl lo hi wl' lo' hi' :
  setup_planes x (setup_planes x ph wl lo hi) wl' lo' hi' = setup_planes x ph wl' lo' hi'.
Proof. unfold setup_planes; simpl. destruct (ph_cif ph); reflexivity. Qed.
(** phases agree up to what the next setup overwrites *)
Definition same_setup (x : xtal) (l l' : list phase) : Prop :=
  forall wl lo hi, map (fun ph => setup_planes x ph wl lo hi) l = map (fun ph => setup_planes x ph wl lo hi) l'.
Definition agree (x : xtal) (p q : polycrystal) : Prop :=
  pc_volumes p = pc_volumes q /\ pc_U p = pc_U q /\ pc_eps p = pc_eps q /\ pc_map p = pc_map q /\ pc_eB p = pc_eB q /\
  pc_mesh_lab p = pc_mesh_lab q /\ pc_mesh_sample p = pc_mesh_sample q /\ pc_eps_sample p = pc_eps_sample q /\
  pc_U_sample p = pc_U_sample q /\ same_setup x (pc_phases p) (pc_phases q).
Lemma agree_diffract z x p q b m lo hi det : agree x p q ->
  fst (diffract z x p b m lo hi det) = fst (diffract z x q b m lo hi det).
Proof.
  destruct p, q. unfold agree; simpl. intros (-> & -> & -> & -> & -> & -> & -> & -> & -> & S). unfold diffract; simpl.
  unfold bragg_bounds, bragg_source; simpl.
  destruct (match det with None => _ | Some d => _ end) as [[lo' hi']|e]; simpl; auto.
  rewrite (S (b_wavelength b) lo' hi'). reflexivity.
Qed.
Lemma agree_step z x p q b m lo hi det : agree x p q -> agree x (snd (diffract z x p b m lo hi det)) q.
Proof.
  intros H. destruct (diffract_state z x p b m lo hi det) as (phs & -> & Hp). unfold agree in *; simpl.
  destruct H as (H1 & H2 & H3 & H4 & H5 & H6 & H7 & H8 & H9 & S). repeat match goal with |- _ /\ _ => split end; auto.
  destruct Hp as [->|(lo' & hi' & ->)]; auto. intros wl l h. rewrite map_map. rewrite <- S. apply map_ext. intros. apply setup_setup.
Qed.
Lemma agree_transform x p q m t : agree x p q -> agree x (transform p m t) (transform q m t).
Proof.
  destruct p, q; unfold agree; simpl. intros (-> & -> & -> & -> & -> & -> & -> & -> & -> & S). repeat split; auto.
Qed.
(** C18. The table returned by diffract is the same whatever diffract calls, with
    whatever beams, motions, limits and detectors, were made before and between
    the transforms. *)
Lemma pC18_history_independent : forall z x p ops b m lo hi det,
  fst (diffract z x (pc_run z x ops p) b m lo hi det) =
  fst (diffract z x (pc_run z x (filter is_transform ops) p) b m lo hi det).
Proof.
  intros z x p ops b m lo hi det. apply agree_diffract.
  assert (G : forall ops p q, agree x p q -> agree x (pc_run z x ops p) (pc_run z x (filter is_transform ops) q)).
  { clear. unfold pc_run. induction ops as [|o ops IH]; intros p q H; simpl; auto.
    destruct o as [m t|b m lo hi det]; simpl; apply IH; [apply agree_transform|apply agree_step]; auto. }
  apply G. unfold agree, same_setup. repeat split; auto.
Qed.

(** ** C19 *)
(** C19. Orientation and strain arguments: one 3x3 matrix is given to every
    element, a stack of exactly N matrices is used element by element, any other
    shape raises ValueError. *)
Lemma pC19_matrix_argument : forall N a,
  match a with
  | One A => exists l, instantiate_mats N a = Ok l /\ List.length l = N /\ forall e, (e < N)%nat -> nth_error l e = Some A
  | Stack l => (List.length l = N -> instantiate_mats N a = Ok l) /\
               (List.length l <> N -> instantiate_mats N a = Err ValueError)
  | OtherShape => instantiate_mats N a = Err ValueError
  end.
Proof.
  intros N [A|l|]; simpl; auto.
  - exists (repeat A N). rewrite repeat_length. repeat split; auto. intros e He.
    rewrite (nth_error_nth' _ A) by (rewrite repeat_length; auto). now rewrite nth_repeat.
  - split; intros H; destruct (Nat.eqb_spec (len l) N); auto; contradiction.
Qed.
(** C19. Constructor: on a mesh whose elements exist, orientation and strain of bad
    shape raise ValueError, as do several phases without a map; otherwise the
    lab and sample frames coincide and carry the given values, and with one phase
    and no map every element is in phase 0. *)
Lemma pC19_constructor : forall x coord enod me o s phs mp,
  build_mesh coord enod = Ok me ->
  (instantiate_mats (List.length enod) o = Err ValueError -> make_polycrystal x me o s phs mp = Err ValueError) /\
  (forall U, instantiate_mats (List.length enod) o = Ok U ->
     instantiate_mats (List.length enod) s = Err ValueError -> make_polycrystal x me o s phs mp = Err ValueError) /\
  (forall U eps, instantiate_mats (List.length enod) o = Ok U -> instantiate_mats (List.length enod) s = Ok eps ->
     (1 < List.length phs)%nat -> make_polycrystal x me o s phs None = Err ValueError) /\
  (forall p, make_polycrystal x me o s phs mp = Ok p ->
     instantiate_mats (List.length enod) o = Ok (pc_U p) /\ instantiate_mats (List.length enod) s = Ok (pc_eps p) /\
     pc_U_sample p = pc_U p /\ pc_eps_sample p = pc_eps p /\ pc_mesh_lab p = me /\ pc_mesh_sample p = me /\
     pc_phases p = phs /\
     (forall l, mp = Some l -> pc_map p = MapTensor l) /\
     (mp = None -> (List.length phs <= 1)%nat /\ forall e, (e < List.length enod)%nat -> in_phase p e 0)).
Proof.
  intros x coord enod me o s phs mp Hb. pose proof (build_good _ _ _ Hb) as (_ & _ & Be & Bc).
  apply build_mesh_inv in Hb as (ts & ss & Ht & _). unfold make_polycrystal. rewrite Be, Bc, Ht. cbn [bind].
  split; [intros ->; reflexivity|]. split; [intros U -> ->; reflexivity|]. split.
  { intros U eps -> -> L. cbn [bind]. unfold instantiate_phase. apply Nat.ltb_lt in L. rewrite L. reflexivity. }
  intros p H.
  destruct (instantiate_mats _ o) as [U|] eqn:E1; cbn [bind] in H; [|discriminate].
  destruct (instantiate_mats _ s) as [eps|] eqn:E2; cbn [bind] in H; [|discriminate].
  destruct (instantiate_phase _ _ _) as [pm|] eqn:E3; cbn [bind] in H; [|discriminate].
  destruct (instantiate_eB _ _ _ _ _ _) as [eB|] eqn:E4; cbn [bind] in H; [|discriminate].
  inversion H; subst p; simpl. repeat match goal with |- _ /\ _ => split end; auto.
  - intros l ->. simpl in E3. inversion E3; auto.
  - intros ->. simpl in E3. destruct (Nat.ltb_spec 1 (len phs)); [discriminate|]. split; auto. inversion E3; subst pm.
    intros e He. unfold in_phase; simpl. rewrite (nth_error_nth' _ 0) by (rewrite repeat_length; auto). now rewrite nth_repeat.
Qed.
(** C19. The lattice matrix of every element is the one of its own phase, strained
    by its own strain seen in its own crystal frame. *)
Lemma pC19_lattice : forall x me o s phs mp p e i ph U eps,
  make_polycrystal x me o s phs mp = Ok p -> in_phase p e i -> nth_error phs i = Some ph ->
  nth_error (pc_U p) e = Some U -> nth_error (pc_eps p) e = Some eps -> symmetric eps ->
  exists B F, nth_error (pc_eB p) e = Some B /\ upper_triangular F /\ 0 < det F /\
    mm F B = x_form_b x (ph_cell ph) /\ mm (mT F) F = cauchy_green (to_crystal U eps).
Proof.
  intros x me o s phs mp p e i ph U eps H Hi Hp HU He Hs.
  apply make_pc_inv in H as (tets & U' & eps' & pm & eB & E0 & E1 & E2 & E3 & E4 & ->). simpl in *. unfold in_phase in Hi; simpl in Hi.
  unfold instantiate_eB in E4. pose proof (eB_loop_length _ _ _ _ _ _ _ _ E4) as L. rewrite repeat_length in L.
  apply instantiate_mats_length in E1. apply instantiate_mats_length in E2.
  destruct (eB_loop_in _ _ _ _ _ _ _ _ e i ph U eps E4 Hp Hi) as (B & HB & HE); auto; rewrite ?repeat_length; auto.
  { rewrite <- E1. eapply nth_error_lt'; eauto. }
  apply eps_to_B1_sound in HE as (F & F1 & F2 & F3 & F4). exists B, F. repeat split; auto; try apply F4.
  rewrite F1, lower_sym_id by (apply metric_sym, crystal_strain_sym; auto). rewrite metric_cg, crystal_strain_spec. auto.
Qed.

(** ** C70 *)
(** C70. The phase map's length and range are not checked: entries that match no
    phase number (negative, fractional, too large) or a map that is too short leave
    those elements with a zero lattice matrix, and no row ever refers to them. *)
Lemma pC70_unmapped_elements : forall z x me o s phs mp p b m lo hi det d p' row e ei,
  make_polycrystal x me o s phs mp = Ok p -> (e < List.length (me_enod me))%nat ->
  (forall i, (i < List.length phs)%nat -> ~ in_phase p e i) ->
  nth_error (pc_eB p) e = Some mzero /\
  (diffract z x p b m lo hi det = (Ok d, p') -> In row (pd_peaks d) -> has d row "grain_index" (INR ei) -> ei <> e).
Proof.
  intros z x me o s phs mp p b m lo hi det d p' row e ei H He Hn. split.
  - apply make_pc_inv in H as (tets & U' & eps' & pm & eB & E0 & E1 & E2 & E3 & E4 & ->). simpl in *.
    unfold instantiate_eB in E4. rewrite (eB_loop_other _ _ _ _ _ _ _ _ e E4).
    + rewrite (nth_error_nth' _ mzero) by (rewrite repeat_length; auto). now rewrite nth_repeat.
    + intros j Hj C. apply (Hn j); [lia|exact C].
  - intros Hd Hin Hg ->. pose proof (columns_of _ _ _ _ _ _ _ _ _ _ Hd) as HC. apply In_nth_error in Hin as (k & Hk).
    destruct (peaks_iff _ _ _ _ _ _ _ _ _ _ _ _ Hd Hk) as (i & ph & e1 & h & sf & t & G1 & c & v & A1 & A2 & _ & _ & _ & _ & _ & _ & ->).
    unfold has, field in Hg. rewrite HC in Hg. cbn in Hg. inversion Hg as [Hg']. apply INR_eq in Hg'. subst e1.
    apply (Hn i); auto. apply nth_error_lt' in A1.
    assert (L : len (pc_phases p') = len phs).
    { destruct (diffract_state z x p b m lo hi det) as (phs' & E & Hp). rewrite Hd in E. simpl in E. subst p'. simpl.
      apply make_pc_inv in H as (tets & U' & eps' & pm & eB & _ & _ & _ & _ & _ & ->). simpl in Hp.
      destruct Hp as [->|(? & ? & ->)]; rewrite ?map_length; auto. }
    lia.
Qed.
(** C70. A map entry beyond the last element that does match a phase number makes
    the constructor raise IndexError. *)
Lemma pC70_map_too_long : forall x coord enod me o s U eps phs l e i,
  build_mesh coord enod = Ok me ->
  instantiate_mats (List.length enod) o = Ok U -> instantiate_mats (List.length enod) s = Ok eps ->
  nth_error l e = Some (INR i) -> (List.length enod <= e)%nat -> (i < List.length phs)%nat ->
  exists err, make_polycrystal x me o s phs (Some l) = Err err.
Proof.
  intros x coord enod me o s U eps phs l e i Hb E1 E2 Hl He Hi.
  destruct (make_polycrystal x me o s phs (Some l)) as [p|err] eqn:H; eauto. exfalso.
  pose proof (build_good _ _ _ Hb) as (_ & _ & Be & Bc).
  apply make_pc_inv in H as (tets & U' & eps' & pm & eB & E0 & F1 & F2 & F3 & F4 & _). simpl in F3. inversion F3; subst pm.
  unfold instantiate_eB in F4. simpl in F4. rewrite Be in F1. apply instantiate_mats_length in F1.
  destruct (eB_loop_idx _ _ _ _ _ _ _ _ e i F4) as (K & _); auto; simpl; lia.
Qed.
