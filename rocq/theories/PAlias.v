(** * Sharing of memory with the caller's arrays. *)
From Verif Require Import Vec Spec MMotion MMesh MBeam MDetector MAlias SAlias SDetector PMotion PMesh PDetector PRenderEx.
Open Scope R_scope.

Lemma write_length st a v : List.length (write st a v) = List.length st.
Proof. revert a; induction st as [|b st IH]; intros [|a]; cbn; auto. Qed.
Lemma buf_write_same st a v : (a < List.length st)%nat -> buf (write st a v) a = v.
Proof. unfold buf. revert a; induction st as [|b st IH]; intros [|a] H; cbn in *; try lia; auto. apply IH; lia. Qed.
Lemma buf_write_other st a b v : a <> b -> buf (write st a v) b = buf st b.
Proof. unfold buf. revert a b; induction st as [|c st IH]; intros [|a] [|b] H; cbn; auto; try congruence. Qed.
Lemma buf_app st l a : (a < List.length st)%nat -> buf (st ++ l) a = buf st a.
Proof. intros. unfold buf. apply app_nth1; auto. Qed.
Lemma buf_new st v : buf (st ++ [v]) (List.length st) = v.
Proof. unfold buf. rewrite app_nth2, Nat.sub_diag by lia. reflexivity. Qed.
Lemma write_app st l a v : (a < List.length st)%nat -> write (st ++ l) a v = (write st a v ++ l)%list.
Proof. revert a; induction st as [|b st IH]; intros [|a] H; cbn in *; try lia; auto. rewrite IH by lia. reflexivity. Qed.
Lemma after_length st ws : List.length (after st ws) = List.length st.
Proof. revert st; induction ws as [|[a v] ws IH]; intros st; cbn; auto. rewrite IH. apply write_length. Qed.
Lemma after_other st ws b : (forall a v, In (a, v) ws -> a <> b) -> buf (after st ws) b = buf st b.
Proof.
  revert st; induction ws as [|[a v] ws IH]; intros st H; cbn [after]; auto. rewrite IH by (intros; eapply H; right; eauto).
  apply buf_write_other. eapply H. left; reflexivity.
Qed.
Lemma ensure_spec st x st' a : ensure_torch st x = (st', a) -> valid st x ->
  buf st' a = content st x /\ (a < List.length st')%nat /\ (List.length st <= List.length st')%nat /\
  (forall b, (b < List.length st)%nat -> buf st' b = buf st b) /\
  (is_copy x -> (List.length st <= a)%nat) /\ (forall b, x = Float64 b -> a = b).
Proof.
  destruct x as [b|v]; cbn; intros E H.
  - assert (st' = st /\ a = b) as [-> ->] by (split; congruence). repeat split; auto.
    + intros (v & E2); discriminate.
    + congruence.
  - assert (st' = (st ++ [v])%list /\ a = List.length st) as [-> ->] by (split; congruence). repeat split.
    + apply buf_new.
    + rewrite app_length. cbn. lia.
    + rewrite app_length. lia.
    + intros b Hb. apply buf_app; auto.
    + lia.
    + intros b E2; discriminate.
Qed.
Lemma valid_mono st st' x : (List.length st <= List.length st')%nat -> valid st x -> valid st' x.
Proof. destruct x; cbn; auto. lia. Qed.
Lemma content_mono st st' x : (forall b, (b < List.length st)%nat -> buf st' b = buf st b) -> valid st x -> content st' x = content st x.
Proof. destruct x; cbn; auto. Qed.

Lemma new_motion_inv st axis angle trans origin : valid st axis -> valid st trans -> valid st origin ->
  (exists st' m, new_motion st axis angle trans origin = Ok (st', m) /\
     make_motion (vcontent st axis) angle (vcontent st trans) (vcontent st origin) = Ok (motion_now st' m) /\
     vec_at st' (mo_axis m) = vcontent st axis /\ mo_K m = vcontent st axis /\ mo_angle m = angle /\
     (forall b, (b < List.length st)%nat -> buf st' b = buf st b) /\ (List.length st <= List.length st')%nat /\
     (mo_trans m < List.length st')%nat /\ (mo_origin m < List.length st')%nat /\ (mo_axis m < List.length st')%nat /\
     (is_copy trans -> (List.length st <= mo_trans m)%nat) /\ (is_copy origin -> (List.length st <= mo_origin m)%nat) /\ (is_copy axis -> (List.length st <= mo_axis m)%nat) /\
     (forall b, trans = Float64 b -> mo_trans m = b) /\ (forall b, origin = Float64 b -> mo_origin m = b) /\ (forall b, axis = Float64 b -> mo_axis m = b)) \/
  (exists e, new_motion st axis angle trans origin = Err e /\ make_motion (vcontent st axis) angle (vcontent st trans) (vcontent st origin) = Err e).
Proof.
  intros Va Vt Vo. unfold new_motion, make_motion.
  destruct (assert_ (Rltb angle PI && Rltb 0 angle)) as [[]|e]; cbn [bind]; [|right; eauto].
  destruct (ensure_torch st axis) as [s1 r] eqn:E1. destruct (ensure_spec _ _ _ _ E1 Va) as (B1 & L1 & M1 & P1 & C1 & A1).
  assert (K : vec_at s1 r = vcontent st axis) by (unfold vec_at, vcontent; rewrite B1; reflexivity). rewrite K.
  destruct (assert_ (axis_ok (vcontent st axis))) as [[]|e]; cbn [bind]; [|right; eauto]. left.
  pose proof (valid_mono _ _ _ M1 Va) as Va1. destruct (ensure_torch s1 axis) as [s2 a] eqn:E2.
  destruct (ensure_spec _ _ _ _ E2 Va1) as (B2 & L2 & M2 & P2 & C2 & A2).
  assert (Vt2 : valid s2 trans) by (eapply valid_mono; [|exact Vt]; lia). destruct (ensure_torch s2 trans) as [s3 t] eqn:E3.
  destruct (ensure_spec _ _ _ _ E3 Vt2) as (B3 & L3 & M3 & P3 & C3 & A3).
  assert (Vo3 : valid s3 origin) by (eapply valid_mono; [|exact Vo]; lia). destruct (ensure_torch s3 origin) as [s4 o] eqn:E4.
  destruct (ensure_spec _ _ _ _ E4 Vo3) as (B4 & L4 & M4 & P4 & C4 & A4).
  assert (Q2 : forall b, (b < List.length st)%nat -> buf s2 b = buf st b) by (intros; rewrite P2, P1 by lia; reflexivity).
  assert (Q3 : forall b, (b < List.length st)%nat -> buf s3 b = buf st b) by (intros; rewrite P3, Q2 by lia; reflexivity).
  assert (Q4 : forall b, (b < List.length st)%nat -> buf s4 b = buf st b) by (intros; rewrite P4, Q3 by lia; reflexivity).
  exists s4, (MotionObj (vcontent st axis) a angle t o). unfold motion_now, vec_at. cbn [mo_K mo_axis mo_angle mo_trans mo_origin].
  assert (T : buf s4 t = content st trans) by (rewrite P4, B3 by lia; apply content_mono; auto).
  assert (O : buf s4 o = content st origin) by (rewrite B4; apply content_mono; auto).
  assert (X : buf s4 a = content st axis) by (rewrite P4, P3, B2 by lia; apply content_mono; auto).
  rewrite T, O, X. split; [reflexivity|]. split; [reflexivity|]. split; [reflexivity|]. split; [reflexivity|]. split; [reflexivity|].
  split; [exact Q4|]. repeat split; auto; try lia; try (intros; specialize (C2 H); lia); try (intros; specialize (C3 H); lia); try (intros; specialize (C4 H); lia).
Qed.

(** The object of the heap model behaves, when built, as the value of the functional model. *)
Lemma pC81_motion_built : forall st axis angle trans origin, valid st axis -> valid st trans -> valid st origin ->
  match new_motion st axis angle trans origin with
  | Ok (st', m) => make_motion (vcontent st axis) angle (vcontent st trans) (vcontent st origin) = Ok (motion_now st' m) /\
                   forall b, (b < List.length st)%nat -> buf st' b = buf st b
  | Err e => make_motion (vcontent st axis) angle (vcontent st trans) (vcontent st origin) = Err e
  end.
Proof.
  intros st axis angle trans origin Va Vt Vo. destruct (new_motion_inv st axis angle trans origin Va Vt Vo) as [(st' & m & E & H)|(e & E & H)]; rewrite E; [|exact H].
  split; apply H.
Qed.
(** Translation and origin given as lists (or in another number format): nothing the caller writes afterwards
    to its arrays -- the axis array included -- changes how the motion moves points. *)
Lemma pC81_motion_isolated : forall st axis angle trans origin st' m ws, valid st axis ->
  is_copy trans -> is_copy origin -> new_motion st axis angle trans origin = Ok (st', m) -> own_arrays st ws ->
  motion_now (after st' ws) m = motion_now st' m.
Proof.
  intros st axis angle trans origin st' m ws Va Ct Co H Hw.
  assert (Vt : valid st trans) by (destruct Ct as (v & ->); exact I). assert (Vo : valid st origin) by (destruct Co as (v & ->); exact I).
  destruct (new_motion_inv st axis angle trans origin Va Vt Vo) as [(s & m' & E & _ & _ & _ & _ & _ & _ & _ & _ & _ & Lt & Lo & _)|(e & E & _)]; [|congruence].
  assert (s = st' /\ m' = m) as [-> ->] by (split; congruence). specialize (Lt Ct). specialize (Lo Co).
  unfold motion_now, vec_at. rewrite !after_other; [reflexivity| |]; intros a v Hin ->; apply Hw in Hin; lia.
Qed.
(** Given as float64 arrays, translation and origin stay shared: the motion always moves points with their present contents. *)
Lemma pC81_motion_follows : forall st axis angle t o st' m ws, valid st axis -> (t < List.length st)%nat -> (o < List.length st)%nat ->
  new_motion st axis angle (Float64 t) (Float64 o) = Ok (st', m) ->
  motion_now (after st' ws) m = Motion (vcontent st axis) angle (vec_at (after st' ws) t) (vec_at (after st' ws) o).
Proof.
  intros st axis angle t o st' m ws Va Vt Vo H.
  destruct (new_motion_inv st axis angle (Float64 t) (Float64 o) Va Vt Vo) as [(s & m' & E & _ & _ & K & An & _ & _ & _ & _ & _ & _ & _ & _ & At & Ao & _)|(e & E & _)]; [|congruence].
  assert (s = st' /\ m' = m) as [-> ->] by (split; congruence). unfold motion_now. rewrite (At _ eq_refl), (Ao _ eq_refl), K, An. reflexivity.
Qed.
(** In particular a motion is not isolated from its caller. *)
Lemma pC81_motion_isolated_refuted : exists st t angle st' m v, new_motion st (Other [V3 0 0 1]) angle (Float64 t) (Other [vzero]) = Ok (st', m) /\
  (t < List.length st)%nat /\ move_at (motion_now (write st' t [v]) m) 1 vzero <> move_at (motion_now st' m) 1 vzero.
Proof.
  assert (HP : 1 < PI) by (pose proof PI2_1; lra).
  assert (Hax : axis_ok (V3 0 0 1) = true).
  { unfold axis_ok. apply Rleb_true. replace (norm (V3 0 0 1)) with 1. replace (1 - 1) with 0 by ring. rewrite Rabs_R0. unfold axis_tol. rewrite Rabs_R1. lra.
    unfold norm. replace (normsq (V3 0 0 1)) with 1 by (vunf; ring). symmetry. apply sqrt_1. }
  exists [[vzero]], 0%nat, 1. eexists _, _, (V3 1 0 0). split; [|split].
  - unfold new_motion. replace (Rltb 1 PI && Rltb 0 1) with true by (symmetry; apply andb_true_iff; split; apply Rltb_true; lra). cbn [assert_ bind ensure_torch].
    cbn [vec_at buf nth hd app List.length]. unfold vec_at, buf. cbn [app nth hd List.length]. rewrite Hax. cbn [assert_ bind]. reflexivity.
  - cbn; lia.
  - unfold move_at, motion_now, rot_at, vec_at, buf. cbn [mo_K mo_angle mo_trans mo_origin m_axis m_angle m_trans m_origin write app nth hd].
    intros E. apply (f_equal vx) in E. cbn in E. lra.
Qed.
(** Writing to the array given as rotation axis changes the attribute and the result of inverse(), but not the motion itself. *)
Lemma pC81_axis_write : forall st a angle trans origin st' m v, (a < List.length st)%nat -> valid st trans -> valid st origin ->
  trans <> Float64 a -> origin <> Float64 a -> new_motion st (Float64 a) angle trans origin = Ok (st', m) ->
  motion_now (write st' a [v]) m = motion_now st' m /\
  match inverse_obj (write st' a [v]) m with
  | Ok (st'', i) => make_motion (vneg v) angle (vneg (vcontent st trans)) (vcontent st origin) = Ok (motion_now st'' i)
  | Err e => make_motion (vneg v) angle (vneg (vcontent st trans)) (vcontent st origin) = Err e
  end.
Proof.
  intros st a angle trans origin st' m v Ha Vt Vo Nt No H.
  destruct (new_motion_inv st (Float64 a) angle trans origin Ha Vt Vo) as [(s & m' & E & MM & _ & K & An & Pr & Ls & Lt & Lo & La & Ct & Co & _ & At & Ao & Aa)|(e & E & _)]; [|congruence].
  assert (s = st' /\ m' = m) as [-> ->] by (split; congruence).
  assert (T : mo_trans m <> a).
  { destruct trans as [b|w]; [rewrite (At b eq_refl); congruence|]. specialize (Ct (ex_intro _ w eq_refl)). lia. }
  assert (O : mo_origin m <> a).
  { destruct origin as [b|w]; [rewrite (Ao b eq_refl); congruence|]. specialize (Co (ex_intro _ w eq_refl)). lia. }
  assert (Now : motion_now (write st' a [v]) m = motion_now st' m) by (unfold motion_now, vec_at; rewrite !buf_write_other by auto; reflexivity).
  split; [exact Now|].
  unfold inverse_obj. rewrite (Aa a eq_refl).
  assert (X : vec_at (write st' a [v]) a = v) by (unfold vec_at; rewrite buf_write_same by lia; reflexivity). rewrite X.
  assert (M1 : vec_at (write st' a [v]) (mo_trans m) = vcontent st trans /\ vec_at (write st' a [v]) (mo_origin m) = vcontent st origin).
  { pose proof MM as MM'. rewrite <- Now in MM'. unfold make_motion in MM'.
    destruct (assert_ _); [|discriminate]. cbn [bind] in MM'. destruct (assert_ _); [|discriminate]. cbn [bind] in MM'. unfold motion_now in MM'.
    set (p := vec_at _ _) in *. set (q := vec_at _ (mo_origin m)) in *. set (p' := vcontent st trans) in *. set (q' := vcontent st origin) in *. clearbody p q p' q'.
    split; congruence. }
  destruct M1 as [-> ->].
  pose proof (pC81_motion_built (write st' a [v]) (Other [vneg v]) (mo_angle m) (Other [vneg (vcontent st trans)]) (Other [vcontent st origin]) I I I) as Q.
  rewrite An in Q |- *. change (vcontent (write st' a [v]) (Other [vneg v])) with (vneg v) in Q.
  change (vcontent (write st' a [v]) (Other [vneg (vcontent st trans)])) with (vneg (vcontent st trans)) in Q.
  change (vcontent (write st' a [v]) (Other [vcontent st origin])) with (vcontent st origin) in Q.
  clear H E. destruct (new_motion (write st' a [v]) _ _ _ _) as [[s2 i]|e2]; [exact (proj1 Q)|exact Q].
Qed.

(** ** Detectors *)
Lemma new_detector_inv st c0 c1 c2 np ps sg th mr ul up us st' o : valid st c0 -> valid st c1 -> valid st c2 ->
  new_detector st c0 c1 c2 np ps sg th mr ul up us = Ok (st', o) ->
  make_detector (vcontent st c0) (vcontent st c1) (vcontent st c2) np ps sg th mr ul up us = Ok (do_det o) /\
  detector_now st' o = do_det o /\ do_pixels o = pixel_coordinates (do_det o) /\
  (forall b, (b < List.length st)%nat -> buf st' b = buf st b) /\ (List.length st <= List.length st')%nat /\
  (is_copy c0 -> (List.length st <= do_c0 o)%nat) /\ (is_copy c1 -> (List.length st <= do_c1 o)%nat) /\ (is_copy c2 -> (List.length st <= do_c2 o)%nat) /\
  (forall b, c0 = Float64 b -> do_c0 o = b) /\ (forall b, c1 = Float64 b -> do_c1 o = b) /\ (forall b, c2 = Float64 b -> do_c2 o = b).
Proof.
  intros V0 V1 V2. unfold new_detector.
  destruct (ensure_torch st c0) as [s1 a0] eqn:E1. destruct (ensure_spec _ _ _ _ E1 V0) as (B1 & L1 & M1 & P1 & C1 & A1).
  assert (V1' : valid s1 c1) by (eapply valid_mono; [|exact V1]; lia). destruct (ensure_torch s1 c1) as [s2 a1] eqn:E2.
  destruct (ensure_spec _ _ _ _ E2 V1') as (B2 & L2 & M2 & P2 & C2 & A2).
  assert (V2' : valid s2 c2) by (eapply valid_mono; [|exact V2]; lia). destruct (ensure_torch s2 c2) as [s3 a2] eqn:E3.
  destruct (ensure_spec _ _ _ _ E3 V2') as (B3 & L3 & M3 & P3 & C3 & A3).
  assert (Q2 : forall b, (b < List.length st)%nat -> buf s2 b = buf st b) by (intros; rewrite P2, P1 by lia; reflexivity).
  assert (Q3 : forall b, (b < List.length st)%nat -> buf s3 b = buf st b) by (intros; rewrite P3, Q2 by lia; reflexivity).
  assert (X0 : vec_at s3 a0 = vcontent st c0) by (unfold vec_at, vcontent; rewrite P3, P2, B1 by lia; reflexivity).
  assert (X1 : vec_at s3 a1 = vcontent st c1) by (unfold vec_at, vcontent; rewrite P3, B2 by lia; f_equal; apply content_mono; auto).
  assert (X2 : vec_at s3 a2 = vcontent st c2) by (unfold vec_at, vcontent; rewrite B3; f_equal; apply content_mono; auto).
  rewrite X0, X1, X2. destruct (make_detector _ _ _ np ps sg th mr ul up us) as [d|e] eqn:D; cbn [bind]; [|discriminate].
  intros H. assert (st' = s3 /\ o = DetObj d a0 a1 a2 (pixel_coordinates d)) as [-> ->] by (split; congruence).
  cbn [do_det do_c0 do_c1 do_c2 do_pixels]. split; [reflexivity|]. split.
  { unfold detector_now. cbn [do_det do_c0 do_c1 do_c2]. rewrite X0, X1, X2. revert D. unfold make_detector.
    destruct (pixel_sizes _ _ _ _) as [pp|]; cbn [bind]; [|discriminate]. destruct (arange_len _ (fst pp)) as [nz|]; cbn [bind]; [|discriminate].
    destruct (arange_len _ (snd pp)) as [ny|]; cbn [bind]; [|discriminate]. destruct (mr <? 0)%Z; [discriminate|]. intros D.
    generalize dependent (norm (vsub (vcontent st c2) (vcontent st c0))). generalize dependent (norm (vsub (vcontent st c1) (vcontent st c0))).
    set (x0 := vcontent st c0). set (x1 := vcontent st c1). set (x2 := vcontent st c2). clearbody x0 x1 x2. intros.
    match type of D with Ok ?X = _ => assert (DD : d = X) by congruence end. rewrite DD. reflexivity. }
  split; [reflexivity|]. split; [exact Q3|]. split; [lia|].
  repeat split; auto; try (intros; specialize (C1 H0); lia); try (intros; specialize (C2 H0); lia); try (intros; specialize (C3 H0); lia).
Qed.
Lemma pC81_detector_built : forall st c0 c1 c2 np ps sg th mr ul up us st' o, valid st c0 -> valid st c1 -> valid st c2 ->
  new_detector st c0 c1 c2 np ps sg th mr ul up us = Ok (st', o) ->
  make_detector (vcontent st c0) (vcontent st c1) (vcontent st c2) np ps sg th mr ul up us = Ok (detector_now st' o) /\
  do_pixels o = pixel_coordinates (detector_now st' o) /\ forall b, (b < List.length st)%nat -> buf st' b = buf st b.
Proof.
  intros st c0 c1 c2 np ps sg th mr ul up us st' o V0 V1 V2 H.
  destruct (new_detector_inv _ _ _ _ _ _ _ _ _ _ _ _ _ _ V0 V1 V2 H) as (A & B & C & D & _). rewrite B. auto.
Qed.
(** Corners given as lists: nothing the caller writes afterwards changes the detector. *)
Lemma pC81_detector_isolated : forall st c0 c1 c2 np ps sg th mr ul up us st' o ws, is_copy c0 -> is_copy c1 -> is_copy c2 ->
  new_detector st c0 c1 c2 np ps sg th mr ul up us = Ok (st', o) -> own_arrays st ws -> detector_now (after st' ws) o = detector_now st' o.
Proof.
  intros st c0 c1 c2 np ps sg th mr ul up us st' o ws C0 C1 C2 H Hw.
  assert (V0 : valid st c0) by (destruct C0 as (v & ->); exact I). assert (V1 : valid st c1) by (destruct C1 as (v & ->); exact I). assert (V2 : valid st c2) by (destruct C2 as (v & ->); exact I).
  destruct (new_detector_inv _ _ _ _ _ _ _ _ _ _ _ _ _ _ V0 V1 V2 H) as (_ & _ & _ & _ & _ & L0 & L1 & L2 & _).
  specialize (L0 C0). specialize (L1 C1). specialize (L2 C2).
  unfold detector_now, vec_at. rewrite !after_other; [reflexivity| | |]; intros a v Hin ->; apply Hw in Hin; lia.
Qed.
(** Given as float64 arrays the corners stay shared: a later write moves them, but the axes, the normal, the sizes and
    the pixel positions stay those of the construction. *)
Lemma pC81_detector_follows : forall st a0 a1 a2 np ps sg th mr ul up us st' o ws,
  (a0 < List.length st)%nat -> (a1 < List.length st)%nat -> (a2 < List.length st)%nat ->
  new_detector st (Float64 a0) (Float64 a1) (Float64 a2) np ps sg th mr ul up us = Ok (st', o) ->
  d_c0 (detector_now (after st' ws) o) = vec_at (after st' ws) a0 /\
  d_c1 (detector_now (after st' ws) o) = vec_at (after st' ws) a1 /\
  d_c2 (detector_now (after st' ws) o) = vec_at (after st' ws) a2 /\
  d_zdhat (detector_now (after st' ws) o) = d_zdhat (detector_now st' o) /\ d_ydhat (detector_now (after st' ws) o) = d_ydhat (detector_now st' o) /\
  d_normal (detector_now (after st' ws) o) = d_normal (detector_now st' o) /\
  d_zmax (detector_now (after st' ws) o) = d_zmax (detector_now st' o) /\ d_ymax (detector_now (after st' ws) o) = d_ymax (detector_now st' o).
Proof.
  intros st a0 a1 a2 np ps sg th mr ul up us st' o ws V0 V1 V2 H.
  destruct (new_detector_inv st (Float64 a0) (Float64 a1) (Float64 a2) np ps sg th mr ul up us st' o V0 V1 V2 H) as (_ & _ & _ & _ & _ & _ & _ & _ & A0 & A1 & A2).
  rewrite <- (A0 _ eq_refl), <- (A1 _ eq_refl), <- (A2 _ eq_refl). repeat split.
Qed.
(** Such a write can leave the detector in a state that no constructor call produces. *)
Lemma pC81_detector_isolated_refuted : exists st a0 a1 a2 ps st' o v, new_detector st (Float64 a0) (Float64 a1) (Float64 a2) None (Some ps) 1 (2/100) 2 true true true = Ok (st', o) /\
  (a0 < List.length st)%nat /\ built (detector_now st' o) /\ ~ built (detector_now (write st' a0 [v]) o).
Proof.
  pose proof (flat_make 10 1 4 1 (2/100) 2 ltac:(lra) ltac:(lia)) as F. pose proof (flat_built 10 1 4 1 (2/100) 2 ltac:(lra) ltac:(lia)) as FB.
  exists [[V3 10 0 0]; [V3 10 (4 * 1) 0]; [V3 10 0 (4 * 1)]], 0%nat, 1%nat, 2%nat, (Single 1).
  eexists _, _, (V3 10 (-1) 0). split; [|split; [|split] ].
  - unfold new_detector. cbn [ensure_torch]. unfold vec_at, buf. cbn [nth hd]. rewrite F. cbn [bind]. reflexivity.
  - cbn; lia.
  - unfold detector_now, vec_at, buf. cbn [do_det do_c0 do_c1 do_c2 nth hd]. exact FB.
  - intros (c0 & c1 & c2 & np & ps & sg & th & mr & ul & up & us & H). apply make_detector_inv in H as (H0 & H1 & H2 & _ & Hy & _).
    unfold detector_now, vec_at, buf in *. cbn [do_det do_c0 do_c1 do_c2 write nth hd d_c0 d_c1 d_c2 d_ymax flat] in *. rewrite <- H0, <- H1 in Hy.
    assert (E : dist (V3 10 (4 * 1) 0) (V3 10 (-1) 0) = 5) by (unfold dist; apply norm_sqrt_eq; vunf; [lra|ring]). rewrite E in Hy. lra.
Qed.

(** ** Meshes *)
Definition mesh_inv (n0 : nat) (st : store) (m : mesh_obj) : Prop :=
  (n0 <= mb_points m < List.length st)%nat /\ (n0 <= mb_coord m < List.length st)%nat.
Lemma new_mesh_inv st coord enod st' m : valid st coord -> new_mesh st coord enod = Ok (st', m) ->
  build_mesh (content st coord) enod = Ok (mesh_now st' m) /\ mesh_inv (List.length st) st' m /\
  (forall b, (b < List.length st)%nat -> buf st' b = buf st b).
Proof.
  intros V. unfold new_mesh, ensure_numpy. destruct (ensure_torch st coord) as [s1 c] eqn:E1. destruct (ensure_spec _ _ _ _ E1 V) as (B1 & L1 & M1 & P1 & _).
  cbn [ensure_torch content]. rewrite buf_new, B1. destruct (build_mesh (content st coord) enod) as [me|] eqn:E; cbn [bind]; [|discriminate].
  intros H. assert (st' = (s1 ++ [content st coord])%list /\ m = MeshObj (List.length s1) (List.length s1) me) as [-> ->] by (split; congruence).
  split; [|split].
  - unfold mesh_now. cbn [mb_points mb_coord mb_rest]. rewrite buf_new. destruct (build_mesh_inv _ _ _ E) as (ts & ss & _ & _ & ->). reflexivity.
  - unfold mesh_inv. cbn [mb_points mb_coord]. rewrite app_length. cbn. lia.
  - intros b Hb. rewrite buf_app by lia. apply P1, Hb.
Qed.
Lemma mesh_do_spec n0 st m o : mesh_inv n0 st m ->
  match mesh_do st m o with
  | Ok (st', m') => mesh_step (mesh_now st m) o = Ok (mesh_now st' m') /\ mesh_inv n0 st' m' /\ (List.length st <= List.length st')%nat /\
                    forall b, (b < n0)%nat -> buf st' b = buf st b
  | Err e => mesh_step (mesh_now st m) o = Err e
  end.
Proof.
  intros ((A1 & A2) & (B1 & B2)). 
  assert (U : forall mo t, mesh_update (mesh_now st m) mo t = mesh_now (fst (update_obj st m mo t)) (snd (update_obj st m mo t)) /\
     mesh_inv n0 (fst (update_obj st m mo t)) (snd (update_obj st m mo t)) /\ (List.length st <= List.length (fst (update_obj st m mo t)))%nat /\
     forall b, (b < n0)%nat -> buf (fst (update_obj st m mo t)) b = buf st b).
  { intros mo t. unfold update_obj. cbn [fst snd]. split; [|split; [|split] ].
    - unfold mesh_now, mesh_update. cbn [mb_points mb_coord mb_rest me_points me_coord me_enod me_efaces me_enormals me_ecentroids me_eradius me_espherecentroids me_centroid me_evolumes].
      rewrite buf_new, buf_app by lia. reflexivity.
    - unfold mesh_inv. cbn [mb_points mb_coord]. rewrite app_length. cbn. lia.
    - rewrite app_length. lia.
    - intros b Hb. apply buf_app. lia. }
  destruct o as [v|mo t|a w]; cbn [mesh_do mesh_step].
  - unfold translate_obj. split; [|split; [|split] ].
    + unfold mesh_now, mesh_translate. cbn [mb_points mb_coord mb_rest me_points me_coord me_enod me_efaces me_enormals me_ecentroids me_eradius me_espherecentroids me_centroid me_evolumes].
      rewrite buf_write_same by lia. reflexivity.
    + unfold mesh_inv. cbn [mb_points mb_coord]. rewrite write_length. lia.
    + rewrite write_length. lia.
    + intros b Hb. apply buf_write_other. lia.
  - destruct (U mo t) as (X & Y & Z & W). destruct (update_obj st m mo t) as [s2 m2]. cbn [fst snd] in *. rewrite X. auto.
  - unfold rotate_obj, mesh_rotate. destruct (make_motion a w vzero vzero) as [mo|e]; cbn [bind]; [|reflexivity].
    destruct (U mo 1) as (X & Y & Z & W). destruct (update_obj st m mo 1) as [s2 m2]. cbn [fst snd] in *. rewrite X. auto.
Qed.
(** A mesh is isolated from the array it was built from, in both directions and for every interleaving of writes and operations. *)
Lemma pC81_mesh_isolated : forall st coord enod st' m es, valid st coord ->
  new_mesh st coord enod = Ok (st', m) -> own_arrays st (writes_of es) ->
  build_mesh (content st coord) enod = Ok (mesh_now st' m) /\
  match history st' m es with
  | Ok (st'', m'') => mesh_run (mesh_now st' m) (ops_of es) = Ok (mesh_now st'' m'') /\
                      forall b, (b < List.length st)%nat -> buf st'' b = buf (after st (writes_of es)) b
  | Err e => mesh_run (mesh_now st' m) (ops_of es) = Err e
  end.
Proof.
  intros st coord enod st' m es V H Hw. destruct (new_mesh_inv _ _ _ _ _ V H) as (A & Inv & P). split; [exact A|]. clear A H V.
  revert st st' m Inv P Hw. 
  assert (G : forall es n0 st st' m, List.length st = n0 -> mesh_inv n0 st' m -> (forall b, (b < n0)%nat -> buf st' b = buf st b) ->
    (forall a v, In (a, v) (writes_of es) -> (a < n0)%nat) ->
    match history st' m es with
    | Ok (st'', m'') => mesh_run (mesh_now st' m) (ops_of es) = Ok (mesh_now st'' m'') /\ forall b, (b < n0)%nat -> buf st'' b = buf (after st (writes_of es)) b
    | Err e => mesh_run (mesh_now st' m) (ops_of es) = Err e
    end).
  { clear es. induction es as [|[a v|o] es IH]; intros n0 st st' m L Inv P Hw.
    - cbn. auto.
    - cbn [history ops_of writes_of flat_map app after]. fold (ops_of es) (writes_of es).
      assert (Ha : (a < n0)%nat) by (eapply Hw; left; reflexivity). destruct Inv as ((I1 & I2) & (J1 & J2)).
      assert (NowE : mesh_now (write st' a v) m = mesh_now st' m) by (unfold mesh_now; rewrite !buf_write_other by lia; reflexivity).
      rewrite <- NowE. apply IH.
      + rewrite write_length. exact L.
      + unfold mesh_inv. rewrite write_length. lia.
      + intros b Hb. destruct (Nat.eq_dec a b) as [-> |N]; [rewrite !buf_write_same by lia; reflexivity|]. rewrite !buf_write_other by auto. apply P, Hb.
      + intros a' v' Hin. eapply Hw. right. exact Hin.
    - cbn [history ops_of writes_of flat_map app mesh_run]. fold (ops_of es) (writes_of es).
      pose proof (mesh_do_spec n0 st' m o Inv) as D. destruct (mesh_do st' m o) as [[s2 m2]|e]; [|rewrite D; reflexivity].
      destruct D as (D1 & D2 & D3 & D4). rewrite D1. cbn [bind]. apply IH; auto. intros b Hb. rewrite D4 by auto. apply P, Hb. }
  intros st st' m Inv P Hw. apply (G es (List.length st)); auto.
Qed.

Lemma ez_ok : axis_ok (V3 0 0 1) = true.
Proof.
  unfold axis_ok. apply Rleb_true. replace (norm (V3 0 0 1)) with 1. replace (1 - 1) with 0 by ring. rewrite Rabs_R0. unfold axis_tol. rewrite Rabs_R1. lra.
  unfold norm. replace (normsq (V3 0 0 1)) with 1 by (vunf; ring). symmetry. apply sqrt_1.
Qed.
Lemma xC81_motion : exists st axis trans origin st' m ws, valid st axis /\ is_copy trans /\ is_copy origin /\
  new_motion st axis 1 trans origin = Ok (st', m) /\ own_arrays st ws /\ ws <> [] /\ after st' ws <> st'.
Proof.
  assert (HP : 1 < PI) by (pose proof PI2_1; lra).
  exists [[V3 0 0 1]], (Float64 0), (Other [V3 1 2 3]), (Other [vzero]). eexists _, _, [(0%nat, [V3 5 0 0])].
  split; [cbn; lia|]. split; [eexists; reflexivity|]. split; [eexists; reflexivity|]. split.
  - unfold new_motion. replace (Rltb 1 PI && Rltb 0 1) with true by (symmetry; apply andb_true_iff; split; apply Rltb_true; lra). cbn [assert_ bind ensure_torch].
    unfold vec_at, buf. cbn [nth hd]. rewrite ez_ok. cbn [assert_ bind]. reflexivity.
  - split; [intros a v [E|[] ]; assert (a = 0%nat) by congruence; subst; cbn; lia|]. split; [discriminate|].
    cbn [after write app]. intros E. assert (Q : hd vzero (nth 0 [[V3 5 0 0]] []) = hd vzero (nth 0 [[V3 0 0 1]] [])) by (cbn; congruence).
    cbn in Q. apply (f_equal vx) in Q. cbn in Q. lra.
Qed.
Lemma xC81_axis_write : exists st a trans origin st' m, (a < List.length st)%nat /\ valid st trans /\ valid st origin /\
  trans <> Float64 a /\ origin <> Float64 a /\ new_motion st (Float64 a) 1 trans origin = Ok (st', m).
Proof.
  assert (HP : 1 < PI) by (pose proof PI2_1; lra).
  exists [[V3 0 0 1]; [V3 1 2 3]], 0%nat, (Float64 1), (Other [vzero]). eexists _, _.
  split; [cbn; lia|]. split; [cbn; lia|]. split; [exact I|]. split; [discriminate|]. split; [discriminate|].
  unfold new_motion. replace (Rltb 1 PI && Rltb 0 1) with true by (symmetry; apply andb_true_iff; split; apply Rltb_true; lra). cbn [assert_ bind ensure_torch].
  unfold vec_at, buf. cbn [nth hd]. rewrite ez_ok. cbn [assert_ bind]. reflexivity.
Qed.
Lemma xC81_mesh : exists st coord enod st' m es, valid st coord /\ new_mesh st coord enod = Ok (st', m) /\ own_arrays st (writes_of es) /\
  (exists r, history st' m es = Ok r) /\ ops_of es <> [] /\ writes_of es <> [].
Proof.
  set (P := [V3 0 0 0; V3 1 0 0; V3 0 1 0; V3 0 0 1]).
  assert (B : exists me, build_mesh P [(0, 1, 2, 3)%nat] = Ok me).
  { apply pC51_build_succeeds_iff. intros e [<- | []]. unfold P. eexists _, _, _, _. split; [reflexivity|]. unfold signed_vol6, triple. vunf. lra. }
  destruct B as (me & B).
  exists [P], (Float64 0), [(0, 1, 2, 3)%nat]. eexists _, _, [Write 0 []; Op (OTranslate (V3 1 1 1)); Write 0 [vzero]].
  split; [cbn; lia|]. split; [|split; [|split; [|split; discriminate] ] ].
  - unfold new_mesh. cbn [ensure_torch ensure_numpy content]. unfold ensure_numpy. cbn [content]. unfold buf at 1 2. cbn [nth app List.length]. rewrite B. cbn [bind]. reflexivity.
  - intros a v [E|[E|[] ] ]; assert (a = 0%nat) by congruence; subst; cbn; lia.
  - eexists. cbn [history mesh_do]. reflexivity.
Qed.
Lemma xC81_detector : exists st c0 c1 c2 ps st' o ws, is_copy c0 /\ is_copy c1 /\ is_copy c2 /\
  new_detector st c0 c1 c2 None (Some ps) 1 (2/100) 2 true true true = Ok (st', o) /\ own_arrays st ws /\ ws <> [].
Proof.
  pose proof (flat_make 10 1 4 1 (2/100) 2 ltac:(lra) ltac:(lia)) as F.
  exists [[vzero]], (Other [V3 10 0 0]), (Other [V3 10 (4 * 1) 0]), (Other [V3 10 0 (4 * 1)]), (Single 1).
  eexists _, _, [(0%nat, [V3 1 1 1])]. split; [eexists; reflexivity|]. split; [eexists; reflexivity|]. split; [eexists; reflexivity|]. split.
  - unfold new_detector. cbn [ensure_torch app List.length]. unfold vec_at, buf. cbn [nth hd app List.length]. rewrite F. cbn [bind]. reflexivity.
  - split; [intros a v [E|[] ]; assert (a = 0%nat) by congruence; subst; cbn; lia|discriminate].
Qed.
