(** * A scan run backwards (C92). *)
From Verif Require Import Vec Spec MMotion MLaue MMesh MScattering MStrain MBeam SBeam MPolycrystal SPolycrystal SEvents MDetector SDetector MRender SRender SEnd SScan SBack.
From Verif Require Import PMotion PLaue PMesh PBeam PStrain PPolycrystal PPolycrystal2 PPolycrystal3 PEvents PDetector PRender PRender2 PRender3 PEnd PEnd2 PDetector2 SJoin PJoin PJoin2 PJoin3 PNumber PNumber2 PScan PLevelset.
From Verif Require Import SDetector.
From Coq Require Import Permutation.
Open Scope list_scope. Open Scope R_scope.
Local Notation len := List.length.

(** ** Reversing the axis *)
Lemma unit_neg a : unit a -> unit (vneg a).
Proof. unfold unit, norm. replace (normsq (vneg a)) with (normsq a) by (destruct a; vunf; ring). auto. Qed.
Lemma turn_neg a th v : unit a -> right_handed_rotation (vneg a) th v = right_handed_rotation a (- th) v.
Proof.
  intros U. rewrite <- !rod_spec by (auto using unit_neg). unfold rod_matrix, rod_K2, rod_K. rewrite sin_neg, cos_neg. destruct a, v. vunf. f_equal; ring.
Qed.
Lemma Rltb_iff a b c d : (a < b <-> c < d) -> Rltb a b = Rltb c d.
Proof. intros H. unfold Rltb. destruct (Rlt_dec a b), (Rlt_dec c d); tauto. Qed.
(** The Lorentz factor only depends on the line of the rotation axis. *)
Lemma lorentz_neg z k a K : lorentz z k (vneg a) K = lorentz z k a K.
Proof.
  unfold lorentz. cbv zeta. destruct (ndiv z (Fin (dot k K)) (Fin (norm k ^ 2))) as [c| | |] eqn:Ec; [|reflexivity..].
  set (ko := vsub K (vscale c k)). set (th := ndiv z (nacos (Fin c)) (Fin 2)).
  assert (D : dot (vneg a) ko = - dot a ko) by (generalize ko; intros v; clear; destruct a, v; vunf; ring). rewrite D.
  destruct (Req_EM_T (norm ko) 0) as [N|N].
  { assert (Z : dot a ko = 0) by (destruct (vec_eq_dec ko vzero) as [V|V]; [rewrite V; clear; destruct a; vunf; ring|exfalso; apply (PDetector.norm_neq0 ko V); auto]). rewrite Z, Ropp_0. reflexivity. }
  assert (E1 : ndiv z (Fin (dot a ko)) (Fin (norm ko)) = Fin (dot a ko / norm ko)) by (unfold ndiv; destruct (Req_EM_T (norm ko) 0); [contradiction|reflexivity]).
  assert (E2 : ndiv z (Fin (- dot a ko)) (Fin (norm ko)) = Fin (- (dot a ko / norm ko))) by (unfold ndiv; destruct (Req_EM_T (norm ko) 0); [contradiction|f_equal; field; auto]).
  rewrite E1, E2. set (x := dot a ko / norm ko). clearbody x th. clear.
  assert (EQ : (exists y, nacos (Fin x) = Fin y /\ nacos (Fin (- x)) = Fin (PI - y) /\ 0 <= y <= PI) \/ nacos (Fin x) = NaN /\ nacos (Fin (- x)) = NaN).
  { unfold nacos. destruct (Rle_dec (-1) x), (Rle_dec x 1), (Rle_dec (-1) (- x)), (Rle_dec (- x) 1); try lra; auto.
    left. exists (acos x). split; auto. split; [now rewrite acos_opp|]. apply acos_bound. }
  destruct EQ as [(y & -> & -> & B)|[-> ->]]; [|reflexivity].
  assert (P : 0 < PI) by apply PI_RGT_0.
  assert (S : nabs (nsin (Fin (PI - y))) = nabs (nsin (Fin y))) by (cbn [nabs nsin]; now rewrite sin_PI_x). rewrite S.
  assert (A1 : nabs (nrad2deg (Fin y)) = Fin (y * (180 / PI))) by (unfold nrad2deg; cbn [nmul nabs]; rewrite Rabs_right; auto; apply Rle_ge, Rmult_le_pos; [lra|left; apply Rdiv_lt_0_compat; lra]).
  assert (A2 : nabs (nrad2deg (Fin (PI - y))) = Fin (180 - y * (180 / PI))).
  { unfold nrad2deg. cbn [nmul nabs]. rewrite Rabs_right; [f_equal; field; lra|]. apply Rle_ge, Rmult_le_pos; [lra|left; apply Rdiv_lt_0_compat; lra]. }
  rewrite A1, A2. cbn [nlt]. set (u := y * (180 / PI)). clearbody u.
  rewrite (Rltb_iff (180 - u) (1 / 2) (180 - 1 / 2) u) by lra. rewrite (Rltb_iff (180 - 1 / 2) (180 - u) u (1 / 2)) by lra.
  now rewrite (orb_comm (Rltb (180 - 1 / 2) u)).
Qed.
Lemma grazing_neg k a G : grazing k (vneg a) G <-> grazing k a G.
Proof. unfold grazing. assert (E : dot k (cross (vneg a) G) = - dot k (cross a G)) by (destruct k, a, G; vunf; ring). rewrite E. split; lra. Qed.

(** ** The way back *)
Lemma back_turn a w t v : unit a -> right_handed_rotation (vneg a) (w * t) (right_handed_rotation a w v) = right_handed_rotation a (w * (1 - t)) v.
Proof. intros U. rewrite turn_neg, rot_comp by auto. f_equal. ring. Qed.
Lemma back_PI a w v : unit a -> right_handed_rotation (vneg a) PI (right_handed_rotation a w v) = right_handed_rotation a (w + PI) v.
Proof.
  intros U. rewrite turn_neg, rot_comp by auto. unfold right_handed_rotation. replace (- PI + w) with (w - PI) by ring.
  rewrite cos_minus, sin_minus, cos_plus, sin_plus, cos_PI, sin_PI.
  replace (cos w * -1 + sin w * 0) with (cos w * -1 - sin w * 0) by ring. replace (sin w * -1 - cos w * 0) with (sin w * -1 + cos w * 0) by ring. reflexivity.
Qed.
Lemma back_vec t T o v : vadd (vadd v (vadd o T)) (vscale t (vneg T)) = vadd (vadd v o) (vscale (1 - t) T).
Proof. destruct T, o, v. vunf. f_equal; ring. Qed.
Lemma back_arm v o T : vsub (vadd (vadd v o) (vscale 1 T)) (vadd o T) = v.
Proof. destruct T, o, v. vunf. f_equal; ring. Qed.
Section Back.
Variables (a T o : vec) (w : R) (p : polycrystal) (b : beam).
Let m := Motion a w T o.
Let mb := Motion (vneg a) w (vneg T) (vadd o T).
Let q := transform p m 1.
Hypothesis U : unit a.
Hypothesis W : 0 < w < PI.
Let Hm : make_motion a w T o = Ok m. Proof. apply make_motion_unit; auto. Qed.
Let Hmb : make_motion (vneg a) w (vneg T) (vadd o T) = Ok mb. Proof. apply make_motion_unit; auto. now apply unit_neg. Qed.
Let U' : unit (vneg a). Proof. now apply unit_neg. Qed.
Lemma back_rot t v : rot_at mb t (rot_at m 1 v) = rot_at m (1 - t) v.
Proof. unfold rot_at, m, mb. cbn [m_axis m_angle]. rewrite !rod_spec by auto. rewrite Rmult_1_r. now apply back_turn. Qed.
Lemma back_move t v : move_at mb t (move_at m 1 v) = move_at m (1 - t) v.
Proof.
  unfold move_at. change (m_origin m) with o. change (m_trans m) with T. change (m_origin mb) with (vadd o T). change (m_trans mb) with (vneg T).
  rewrite back_arm, back_rot. apply back_vec.
Qed.
Lemma back_scattering e h G : scattering_vector q e h G <-> exists G0, scattering_vector p e h G0 /\ G = rot_at m 1 G0.
Proof.
  unfold scattering_vector, q, transform; cbn [pc_U pc_eB]. split.
  - intros (V & B & EU & EB & ->). rewrite nth_error_map in EU. destruct (nth_error (pc_U p) e) as [U0|]; cbn [option_map] in EU; [|discriminate].
    exists (mv U0 (mv B h)). split; [exists U0, B; auto|]. apply some_eq in EU. subst V. unfold rot_at. now rewrite mv_mm.
  - intros (G0 & (V & B & EU & EB & ->) & ->). exists (mm (rod_matrix (m_axis m) (m_angle m * 1)) V), B.
    rewrite nth_error_map, EU. repeat split; auto. unfold rot_at. now rewrite mv_mm.
Qed.
(** The reflection described by a label, on the way back. *)
Definition bl (l : lab) : lab := Lab (l_i l) (l_e l) (l_j l) (l_h l) (l_sf l) (1 - l_t l) (rot_at m 1 (l_G l)).
Definition not_blind (e j : nat) : Prop := ~ reflects p b a e j PI /\ ~ reflects p b a e j (w + PI).
Lemma ok_reflects ph l th : nth_error (pc_phases p) (l_i l) = Some ph -> lab_ok p ph l -> laue_condition (b_wave_vector b) (right_handed_rotation a th (l_G l)) ->
  reflects p b a (l_e l) (l_j l) th.
Proof. intros H (A1 & A2 & A3 & A4) L. exists (l_i l), ph, (l_h l), (l_G l). auto. Qed.
Lemma lab_ok_back ph l : lab_ok p ph l -> lab_ok q ph (bl l).
Proof.
  intros (A1 & A2 & A3 & A4). unfold lab_ok, bl. cbn [l_i l_e l_j l_h l_sf l_G]. repeat (split; [assumption|]). apply back_scattering. eauto.
Qed.
Lemma back_event l : (reflects p b a (l_e l) (l_j l) (w * l_t l) -> not_blind (l_e l) (l_j l)) -> lab_event p b m l -> lab_event q b mb (bl l).
Proof.
  intros NB (ph & A & B & C). pose proof C as C'. apply (solves_iff _ a w T o m _ _ Hm U) in C as (C1 & C2 & C3).
  assert (RF : reflects p b a (l_e l) (l_j l) (w * l_t l)).
  { apply (ok_reflects ph); auto. unfold rot_at, m in C2. cbn [m_axis m_angle] in C2. now rewrite rod_spec in C2 by auto. }
  destruct (NB RF) as (N1 & N2). exists ph. split; [exact A|]. split; [now apply lab_ok_back|].
  apply (solves_iff _ (vneg a) w (vneg T) (vadd o T) mb _ _ Hmb U'). cbn [bl l_t l_G]. split; [lra|]. rewrite back_rot.
  replace (1 - (1 - l_t l)) with (l_t l) by ring. split; auto. intros L. apply N2. apply (ok_reflects ph); auto.
  unfold rot_at, m in L. cbn [m_axis m_angle] in L. rewrite rod_spec, Rmult_1_r, back_PI in L by auto. exact L.
Qed.
Lemma back_event_inv l' : (forall e j th, 0 <= th <= w -> reflects p b a e j th -> not_blind e j) -> lab_event q b mb l' ->
  exists l, lab_event p b m l /\ l' = bl l.
Proof.
  intros NB (ph & A & (B1 & B2 & B3 & B4) & C). apply (solves_iff _ (vneg a) w (vneg T) (vadd o T) mb _ _ Hmb U') in C as (C1 & C2 & C3).
  apply back_scattering in B4 as (G0 & B4 & EG). set (l := Lab (l_i l') (l_e l') (l_j l') (l_h l') (l_sf l') (1 - l_t l') G0).
  assert (E : l' = bl l) by (destruct l' as [i e j h sf t G]; cbn [l_i l_e l_j l_h l_sf l_t l_G] in *; unfold bl, l; cbn [l_i l_e l_j l_h l_sf l_t l_G]; subst G; f_equal; ring).
  exists l. split; auto. assert (LO : lab_ok p ph l) by (repeat split; assumption). exists ph. split; [exact A|]. split; [exact LO|].
  apply (solves_iff _ a w T o m _ _ Hm U). change (l_t l) with (1 - l_t l'). change (l_G l) with G0. rewrite EG, back_rot in C2. split; [lra|]. split; auto.
  assert (RF : reflects p b a (l_e l) (l_j l) (w * (1 - l_t l'))).
  { apply (ok_reflects ph l); auto. change (l_G l) with G0. unfold rot_at, m in C2. cbn [m_axis m_angle] in C2. now rewrite rod_spec in C2 by auto. }
  assert (TH : 0 <= w * (1 - l_t l') <= w) by (split; [apply Rmult_le_pos; lra|rewrite <- (Rmult_1_r w) at 2; apply Rmult_le_compat_l; lra]).
  intros L. destruct (NB _ _ _ TH RF) as (N1 & _). apply N1.
  now apply (ok_reflects ph l).
Qed.
Lemma bl_inj l l' : bl l = bl l' -> l_e l = l_e l' /\ l_j l = l_j l' /\ l_t l = l_t l'.
Proof.
  intros E. pose proof (f_equal l_e E) as E1. pose proof (f_equal l_j E) as E2. pose proof (f_equal l_t E) as E3. cbn [bl l_e l_j l_t] in *. repeat split; auto. lra.
Qed.
Lemma back_full z l : (l_e l < len (me_espherecentroids (pc_mesh_lab p)))%nat -> exists c0 c1 c2 c3 c4 c5 rest,
  full24 z p b m l = [c0; c1; c2; c3; c4; c5; Fin (l_t l); Fin (vx (l_G l)); Fin (vy (l_G l)); Fin (vz (l_G l))] ++ rest /\
  full24 z q b mb (bl l) = [c0; c1; c2; c3; c4; c5; Fin (1 - l_t l); Fin (vx (rot_at m 1 (l_G l))); Fin (vy (rot_at m 1 (l_G l))); Fin (vz (rot_at m 1 (l_G l)))] ++ rest /\
  len rest = 14%nat.
Proof.
  intros L. unfold full24. cbn [bl l_e]. change (pc_volumes q) with (pc_volumes p).
  assert (EN : nth (l_e l) (me_espherecentroids (pc_mesh_lab q)) vzero = move_at m 1 (nth (l_e l) (me_espherecentroids (pc_mesh_lab p)) vzero)).
  { change (me_espherecentroids (pc_mesh_lab q)) with (map (move_at m 1) (me_espherecentroids (pc_mesh_lab p))).
    rewrite <- (map_nth (move_at m 1)). apply nth_indep. now rewrite map_length. }
  rewrite EN.
  unfold full_row, lrow, bl. cbv zeta. cbn [l_i l_e l_j l_h l_sf l_t l_G]. rewrite !rvec_row10.
  change (rcol (row10 (l_e l) (l_i l) (l_h l) (l_sf l) (1 - l_t l) (rot_at m 1 (l_G l))) 6) with (1 - l_t l).
  change (rcol (row10 (l_e l) (l_i l) (l_h l) (l_sf l) (l_t l) (l_G l)) 6) with (l_t l).
  rewrite back_rot, back_move. replace (1 - (1 - l_t l)) with (l_t l) by ring.
  change (m_axis mb) with (vneg a). rewrite lorentz_neg. change (m_axis m) with a.
  unfold row10, row24. cbn [map app]. do 7 eexists. split; [reflexivity|]. split; reflexivity.
Qed.
Lemma back_grazing l : grazing (b_wave_vector b) (vneg a) (rot_at mb (l_t (bl l)) (l_G (bl l))) <-> grazing (b_wave_vector b) a (rot_at m (l_t l) (l_G l)).
Proof. rewrite grazing_neg. cbn [bl l_t l_G]. rewrite back_rot. replace (1 - (1 - l_t l)) with (l_t l) by ring. tauto. Qed.
End Back.

(** The two lists of reflections correspond. *)
Lemma back_perm a T o w p b all all' : unit a -> 0 < w < PI ->
  let m := Motion a w T o in let mb := Motion (vneg a) w (vneg T) (vadd o T) in
  (forall e j th, 0 <= th <= w -> reflects p b a e j th -> not_blind a w p b e j) ->
  NoDup all -> NoDup all' -> (forall l, In l all -> lab_event p b m l) ->
  (forall l, lab_event p b m l -> (In l all <-> In (bl a T o w l) all')) ->
  (forall l, In l all' -> lab_event (transform p m 1) b mb l) ->
  Permutation all' (map (bl a T o w) all).
Proof.
  intros U W m mb NB N N' I IC I'. apply NoDup_Permutation; auto.
  - apply nodup_map_in; auto. intros l l' H1 H2 E. apply bl_inj in E as (E1 & E2 & E3). apply (lab_unique p b m); auto.
  - intros l'. rewrite in_map_iff. split.
    + intros H. pose proof (I' _ H) as E. apply (back_event_inv a T o w p b U W) in E as (l & E & ->); auto. exists l. split; auto. now apply IC.
    + intros (l & <- & H). apply IC; auto.
Qed.
Lemma mirrored_rows pd pd' c0 c1 c2 c3 c4 c5 t t' G G' rest x x' : pd_columns pd = column_names -> pd_columns pd' = column_names -> len rest = 14%nat ->
  t' = 1 - t -> G' = rot_at (pd_motion pd) 1 G ->
  mirrored pd pd' (([c0; c1; c2; c3; c4; c5; Fin t; Fin (vx G); Fin (vy G); Fin (vz G)] ++ rest) ++ [x])
    (([c0; c1; c2; c3; c4; c5; Fin t'; Fin (vx G'); Fin (vy G'); Fin (vz G')] ++ rest) ++ [x']).
Proof.
  intros E E' L -> ->. split; [|split].
  - intros k N1 N2 N3 N4 N5. unfold field. rewrite E, E'. destruct (index_of k column_names) as [j|] eqn:Ej; [|reflexivity].
    apply index_of_nth in Ej. do 6 (destruct j as [|j]; [reflexivity|]).
    do 4 (destruct j as [|j]; [cbn in Ej; congruence|]). do 14 (destruct rest as [|? rest]; [discriminate|]). destruct rest; [|discriminate].
    do 14 (destruct j as [|j]; [reflexivity|]). destruct j as [|j]; [cbn in Ej; congruence|]. cbn. now rewrite !nth_error_nil_None || reflexivity.
  - exists t. unfold SPolycrystal.has, field. rewrite E, E'. split; reflexivity.
  - exists G, (rot_at (pd_motion pd) 1 G). unfold SPolycrystal.has_vec, SPolycrystal.has, field. rewrite E, E'. split; [repeat split; reflexivity|]. split; [repeat split; reflexivity|]. apply rotate_P1_S0.
Qed.

Lemma back_state z x p b m mb lo hi r p' : diffract z x p b m lo hi None = (r, p') ->
  snd (diffract z x (transform p m 1) b mb lo hi None) = transform p' m 1.
Proof. intros D. pose proof (steps_after_diffract z x [(m, 1)] p b mb m lo hi) as E. rewrite D in E. exact E. Qed.
Lemma lab_key p b m l l' : lab_event p b m l -> lab_event p b m l' -> l <> l' -> (l_e l, l_j l, l_t l) <> (l_e l', l_j l', l_t l').
Proof. intros E E' N K. apply N. apply (lab_unique p b m); auto; congruence. Qed.
(** Whether a call raises depends on its reflections only. *)
Lemma outcome_events z x p b a w T o m lo hi mp r p' all : reachable_pc x p -> xtal_ok x -> pc_map p = MapTensor mp ->
  make_motion a w T o = Ok m -> unit a -> diffract z x p b m lo hi None = (r, p') ->
  NoDup all -> (forall l, In l all <-> lab_event p' b m l) ->
  ((exists pd, r = Ok pd) <-> match all with [l] => grazing (b_wave_vector b) a (rot_at m (l_t l) (l_G l)) | _ => True end).
Proof.
  intros R X M Hm U D N I. pose proof (pC13_events z x p b a w T o m lo hi None mp R X M Logic.I Hm U) as EV. rewrite D in EV. destruct EV as (E0 & E2 & E1).
  destruct all as [|l [|l' all]].
  - cut (exists pd, r = Ok pd); [tauto|]. destruct E0 as (d & -> & _); [|eauto]. intros e j t G Dt. apply (diffracts_lab p' b a w T o m _ _ _ _ Hm U) in Dt as (l & Hl & _). apply I in Hl. destruct Hl.
  - pose proof (proj1 (I l) (or_introl eq_refl)) as L.
    destruct (E1 _ _ _ _ (lab_diffracts p' b a w T o m Hm U l L)) as (A1 & A2).
    { intros e j t G Dt. apply (diffracts_lab p' b a w T o m _ _ _ _ Hm U) in Dt as (l' & Hl & <- & <- & <- & _). apply I in Hl as [->|[]]. reflexivity. }
    destruct (Req_EM_T (dot (b_wave_vector b) (cross a (rot_at m (l_t l) (l_G l)))) 0) as [G|G].
    + split; auto.
    + split; [|intros; contradiction]. intros (pd & ->). specialize (A2 G). discriminate.
  - cut (exists pd, r = Ok pd); [tauto|]. pose proof (proj1 (I l) (or_introl eq_refl)) as L. pose proof (proj1 (I l') (or_intror (or_introl eq_refl))) as L'.
    eapply (E2 _ _ _ _ _ _ _ _ (lab_diffracts p' b a w T o m Hm U l L) (lab_diffracts p' b a w T o m Hm U l' L')). eapply lab_key; eauto.
    inversion N as [|? ? N1 N2]. intros ->. apply N1. now left.
Qed.

Lemma diffract_error z x p b m lo hi mp e p' : reachable_pc x p -> pc_map p = MapTensor mp -> diffract z x p b m lo hi None = (Err e, p') -> e = IndexError.
Proof.
  intros R M D. rewrite diffract_none in D. cbv zeta in D. pose proof (f_equal fst D) as F. cbn [fst] in F.
  destruct (compute_peaks z (setup_all x p b lo hi) _ b m) as [o|e1] eqn:C in F; cbn [bind] in F; [discriminate|].
  assert (e = e1) by congruence. subst e1. exact (compute_error z p b m x mp e lo hi (wf_reachable _ _ R) M C).
Qed.
Lemma filter_map {A B} (g : B -> bool) (f : A -> B) L : filter g (map f L) = map f (filter (fun l => g (f l)) L).
Proof. induction L as [|a L IH]; [reflexivity|]. cbn [map filter]. destruct (g (f a)); cbn [map]; now rewrite IH. Qed.

(** C92. A scan run backwards: starting from the sample at the end of the motion, the motion that undoes the first one
    (reversed axis and translation, about the origin where it has got to) finds the same reflections.  Each is reported at
    1 - t instead of t, with the same element, phase, plane, scattered wave vector, source point, factors and volume. *)
Lemma pC92_same_reflections : forall z x p b a w T o m mb lo hi pd p' mp,
  reachable_pc x p -> xtal_ok x -> pc_map p = MapTensor mp -> unit a ->
  make_motion a w T o = Ok m -> make_motion (vneg a) w (vneg T) (vadd o T) = Ok mb ->
  diffract z x p b m lo hi None = (Ok pd, p') ->
  (forall e pl th, 0 <= th <= w -> reflects p' b a e pl th -> ~ reflects p' b a e pl PI /\ ~ reflects p' b a e pl (w + PI)) ->
  exists pd' q' rows', diffract z x (transform p m 1) b mb lo hi None = (Ok pd', q') /\ Permutation (pd_peaks pd') rows' /\
    Forall2 (mirrored pd pd') (pd_peaks pd) rows'.
Proof.
  intros z x p b a w T o m mb lo hi pd p' mp R X M U Hm Hmb D NB.
  assert (Em : m = Motion a w T o) by (apply make_motion_ok_iff in Hm as (_ & _ & ->); auto).
  assert (Emb : mb = Motion (vneg a) w (vneg T) (vadd o T)) by (apply make_motion_ok_iff in Hmb as (_ & _ & ->); auto).
  assert (W : 0 < w < PI) by (apply make_motion_ok_iff in Hm as (W & _); exact W).
  pose proof (unit_neg a U) as U'.
  destruct (diffract_labels _ _ _ _ _ _ _ _ _ _ _ _ _ _ Hm U D) as (all & graz & out & Ep & Pm & NA & NG & IA & IG).
  pose proof (back_state z x p b m mb lo hi _ _ D) as ES.
  destruct (diffract z x (transform p m 1) b mb lo hi None) as [r q'] eqn:D'. cbn [snd] in ES. subst q'.
  assert (R' : reachable_pc x (transform p m 1)) by now constructor.
  assert (IB : forall l, In l (map (bl a T o w) all) <-> lab_event (transform p' m 1) b mb l).
  { intros l'. rewrite in_map_iff. rewrite Em, Emb in *. split.
    - intros (l & <- & H). apply IA in H. apply (back_event a T o w p' b U W); auto. intros RF.
      apply (NB _ _ (w * l_t l)); auto. destruct H as (ph & _ & _ & (S & _)). split; [apply Rmult_le_pos; lra|rewrite <- (Rmult_1_r w) at 2; apply Rmult_le_compat_l; lra].
    - intros H. apply (back_event_inv a T o w p' b U W) in H as (l & H & ->); auto. exists l. split; auto. now apply IA. }
  assert (NDB : NoDup (map (bl a T o w) all)).
  { apply nodup_map_in; auto. intros l l' H1 H2 E. apply bl_inj in E as (E1 & E2 & E3). apply IA in H1. apply IA in H2. apply (lab_unique p' b m); auto. }
  assert (OK : exists pd', r = Ok pd').
  { pose proof (outcome_events z x p b a w T o m lo hi mp _ p' all R X M Hm U D NA IA) as (Q & _).
    apply (outcome_events z x _ b (vneg a) w (vneg T) (vadd o T) mb lo hi mp _ _ _ R' X M Hmb U' D' NDB IB).
    specialize (Q (ex_intro _ pd eq_refl)). destruct all as [|l [|l' all]]; cbn [map]; auto.
    rewrite Em, Emb in *. now apply (proj2 (back_grazing a T o w b U W l)). }
  destruct OK as (pd' & ->).
  destruct (diffract_labels _ _ _ _ _ _ _ _ _ _ _ _ _ _ Hmb U' D') as (all' & graz' & out' & Ep' & Pm' & NA' & NG' & IA' & IG').
  exists pd', (transform p' m 1).
  assert (PA : Permutation all' (map (bl a T o w) all)) by (apply NoDup_Permutation; auto; intros l; rewrite IA', IB; tauto).
  assert (PG : Permutation graz' (map (bl a T o w) graz)).
  { apply NoDup_Permutation; auto.
    - apply nodup_map_in; auto. intros l l' H1 H2 E. apply bl_inj in E as (E1 & E2 & E3). apply IG in H1 as (H1 & _). apply IG in H2 as (H2 & _). apply (lab_unique p' b m); auto.
    - intros l'. rewrite IG', in_map_iff, <- IB, in_map_iff. rewrite Em, Emb in *. split.
      + intros ((l & <- & H) & G). exists l. split; auto. apply (proj1 (back_grazing a T o w b U W l)) in G. apply IG. split; auto. now apply IA.
      + intros (l & <- & H). apply IG in H as (H & G). split; [exists l; split; auto; now apply IA|]. now apply (proj2 (back_grazing a T o w b U W l)). }
  set (A := all ++ graz) in *.
  assert (P' : Permutation out' (map (full24 z (transform p' m 1) b mb) (map (bl a T o w) A))).
  { rewrite Pm'. apply Permutation_map. unfold A. rewrite map_app. now apply Permutation_app. }
  assert (LT : forall l, In l A -> (l_e l < len (me_espherecentroids (pc_mesh_lab p')))%nat).
  { intros l H. assert (E : lab_event p' b m l) by (unfold A in H; apply in_app_iff in H as [H|H]; [now apply IA|now apply IG]).
    destruct E as (ph & A1 & (A2 & _) & _). assert (RP : reachable_pc x p') by (pose proof (rpc_diffract x z p b m lo hi None R) as RP; rewrite D in RP; exact RP).
    pose proof (wf_reachable _ _ RP) as (_ & _ & _ & W4 & W5 & _). rewrite W4. apply (W5 _ _ A2). now apply nth_error_lt' in A1. }
  apply (perm_filter (illuminated b)) in Pm, P'. rewrite map_map in P'. rewrite !filter_map in Pm, P'.
  assert (EF : filter (fun l => illuminated b (full24 z (transform p' m 1) b mb (bl a T o w l))) A = filter (fun l => illuminated b (full24 z p' b m l)) A).
  { apply filter_ext_in. intros l H. rewrite Em, Emb. destruct (back_full a T o w p' b U z l (LT l H)) as (c0 & c1 & c2 & c3 & c4 & c5 & rest & E1 & E2 & L).
    rewrite E1, E2. reflexivity. }
  rewrite EF in P'. clear EF. set (A0 := filter _ A) in *.
  assert (LT0 : forall l, In l A0 -> (l_e l < len (me_espherecentroids (pc_mesh_lab p')))%nat) by (intros l H; apply filter_In in H as [H _]; auto). clearbody A0.
  apply Permutation_map_inv in Pm as (A1 & EA & PA1). rewrite EA in Ep.
  assert (LT1 : forall l, In l A1 -> (l_e l < len (me_espherecentroids (pc_mesh_lab p')))%nat) by (intros l H; apply LT0; now apply (Permutation_in l (Permutation_sym PA1))).
  assert (P2 : Permutation (filter (illuminated b) out') (map (fun l => full24 z (transform p' m 1) b mb (bl a T o w l)) A1)) by (rewrite P'; now apply Permutation_map).
  set (F := fun i (r : list num) => r ++ [Fin (INR i)]) in *.
  destruct (Permutation_Forall2 P2 (forall2_mapi F (filter (illuminated b) out'))) as (rows & PR & FR). rewrite <- Ep' in PR.
  exists rows. split; [reflexivity|]. split; [exact PR|]. rewrite Ep.
  assert (C1 : pd_columns pd = column_names) by (eapply columns_of; eauto). assert (C2 : pd_columns pd' = column_names) by (eapply columns_of; eauto).
  assert (PM : pd_motion pd = m) by (apply diffract_inv in D as (? & _ & -> & _); reflexivity).
  clear - FR LT1 C1 C2 PM U W Em Emb. revert rows FR. unfold mapi. generalize 0%nat.
  induction A1 as [|l A1 IH]; intros n rows FR; cbn [map] in FR; inversion FR as [|y r ys rows' (k & Hk) FR']; cbn [map mapi_from]; constructor.
  - subst r. destruct (back_full a T o w p' b U z l (LT1 l (or_introl eq_refl))) as (c0 & c1 & c2 & c3 & c4 & c5 & rest & E1 & E2 & L).
    rewrite Em in PM |- *. rewrite Emb. rewrite E1, E2. unfold F. apply mirrored_rows; auto. now rewrite PM.
  - apply IH; auto. intros; apply LT1; now right.
Qed.
