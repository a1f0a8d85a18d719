(** * One scan with n frames and n scans of one frame (C88). *)
From Verif Require Import Vec Spec MMotion MLaue MMesh MScattering MStrain MBeam SBeam MPolycrystal SPolycrystal SEvents MDetector SDetector MRender SRender SEnd SScan.
From Verif Require Import PMotion PLaue PMesh PBeam PStrain PPolycrystal PPolycrystal2 PPolycrystal3 PEvents PDetector PRender PRender2 PRender3 PEnd PEnd2 PDetector2.
From Verif Require Import SDetector.
From Coq Require Import Permutation.
Open Scope list_scope. Open Scope R_scope.

Lemma rod_fixes a th T : cross a T = vzero -> mv (rod_matrix a th) T = T.
Proof.
  intros H. rewrite rod_closed, H. assert (E : cross a vzero = vzero) by (clear; veq). rewrite E. clear. veq.
Qed.
Lemma move_twice_along a w T o s t x : unit a -> cross a T = vzero -> let m := Motion a w T o in
  move_at m t (move_at m s x) = move_at m (s + t) x.
Proof.
  intros U C m. unfold m. rewrite move_twice by auto. unfold rot_at at 1. cbn [m_axis m_angle]. rewrite (rod_fixes a _ T C).
  generalize (move_at (Motion a w T o) (s + t) x). clear. veq.
Qed.
Lemma some_eq {A} (x y : A) : Some x = Some y -> x = y. Proof. congruence. Qed.
(** The sample after k steps. *)
Lemma steps_state a w T o : unit a -> cross a T = vzero -> let m := Motion a w T o in forall k p,
  let q := transforms (repeat (m, 1) k) p in
  pc_volumes q = pc_volumes p /\ pc_map q = pc_map p /\ pc_phases q = pc_phases p /\
  (forall e h G, scattering_vector q e h G <-> exists G0, scattering_vector p e h G0 /\ G = right_handed_rotation a (w * INR k) G0) /\
  me_espherecentroids (pc_mesh_lab q) = map (move_at m (INR k)) (me_espherecentroids (pc_mesh_lab p)).
Proof.
  intros U C m. induction k as [|k IH]; intros p q.
  - unfold q. cbn [repeat transforms fold_left]. repeat (split; [reflexivity|]). split.
    + intros e h G. split.
      * intros H. exists G. split; auto. cbn [INR]. rewrite <- rod_spec by auto. replace (w * 0) with 0 by ring. rewrite rod_0. now rewrite mv_I.
      * intros (G0 & H & ->). cbn [INR]. rewrite <- rod_spec by auto. replace (w * 0) with 0 by ring. rewrite rod_0. now rewrite mv_I.
    + rewrite <- map_id at 1. apply map_ext. intros v. cbn [INR]. now rewrite move_at_0.
  - change q with (transforms (repeat (m, 1) k) (transform p m 1)). destruct (IH (transform p m 1)) as (A1 & A2 & A3 & A4 & A5).
    cbv zeta in A1, A2, A3, A4, A5. rewrite A1, A2, A3, A5. repeat (split; [reflexivity|]). split.
    + intros e h G. rewrite A4.
      assert (TV : forall G', scattering_vector (transform p m 1) e h G' <-> exists G0, scattering_vector p e h G0 /\ G' = rot_at m 1 G0).
      { intros G'. unfold scattering_vector, transform; cbn [pc_U pc_eB]. split.
        - intros (V & B & EU & EB & ->). rewrite nth_error_map in EU. destruct (nth_error (pc_U p) e) as [U0|]; cbn [option_map] in EU; [|discriminate].
          exists (mv U0 (mv B h)). split; [exists U0, B; auto|]. apply some_eq in EU. subst V. unfold rot_at. now rewrite mv_mm.
        - intros (G0 & (V & B & EU & EB & ->) & ->). exists (mm (rod_matrix (m_axis m) (m_angle m * 1)) V), B.
          rewrite nth_error_map, EU. repeat split; auto. unfold rot_at. now rewrite mv_mm. }
      split.
      * intros (G1 & H & ->). apply TV in H as (G0 & H & ->). exists G0. split; auto.
        unfold rot_at, m. cbn [m_axis m_angle]. rewrite <- !rod_spec by auto. rewrite <- mv_mm, rod_add by auto. f_equal. f_equal. rewrite S_INR. ring.
      * intros (G0 & H & ->). exists (rot_at m 1 G0). split; [apply TV; eauto|].
        unfold rot_at, m. cbn [m_axis m_angle]. rewrite <- !rod_spec by auto. rewrite <- mv_mm, rod_add by auto. f_equal. f_equal. rewrite S_INR. ring.
    + cbn [transform pc_mesh_lab mesh_update me_espherecentroids]. rewrite map_map. apply map_ext. intros v. unfold m. rewrite move_twice_along by auto.
      f_equal. rewrite S_INR. ring.
Qed.
Lemma rot_comp a u v G : unit a -> right_handed_rotation a u (right_handed_rotation a v G) = right_handed_rotation a (u + v) G.
Proof. intros U. rewrite <- !rod_spec, <- mv_mm, rod_add by auto. reflexivity. Qed.
Lemma cross_scale a c T : cross a T = vzero -> cross a (vscale c T) = vzero.
Proof. intros H. assert (E : cross a (vscale c T) = vscale c (cross a T)) by (clear; veq). rewrite E, H. clear. veq. Qed.
Lemma scale_scale c r T : vscale c (vscale r T) = vscale (c * r) T.
Proof. veq. Qed.
Section Steps.
Variables (a T o : vec) (w : R) (n k : nat) (p : polycrystal) (b : beam).
Let m := Motion a w T o.
Let mn := Motion a (w / INR n) (vscale (/ INR n) T) o.
Let q := transforms (repeat (mn, 1) k) p.
Hypothesis U : unit a.
Hypothesis CT : cross a T = vzero.
Hypothesis KN : (k < n)%nat.
Let Nn : 0 < INR n. Proof. apply lt_0_INR. lia. Qed.
Let CT' : cross a (vscale (/ INR n) T) = vzero.
Proof. now apply cross_scale. Qed.
Lemma step_diffracts e j t G : diffracts_at q b a mn e j t G <->
  exists i ph h G0, in_phase p e i /\ nth_error (pc_phases p) i = Some ph /\ plane_at ph j h /\ scattering_vector p e h G0 /\ 0 <= t <= 1 /\
    G = right_handed_rotation a (w * ((INR k + t) / INR n)) G0 /\ laue_condition (b_wave_vector b) G /\
    ~ laue_condition (b_wave_vector b) (right_handed_rotation a (w * INR k / INR n + PI) G0).
Proof.
  destruct (steps_state a (w / INR n) (vscale (/ INR n) T) o U CT' k p) as (_ & A2 & A3 & A4 & _). fold mn q in A2, A3, A4.
  assert (E1 : forall t0 G0, right_handed_rotation a (w / INR n * t0) (right_handed_rotation a (w / INR n * INR k) G0) = right_handed_rotation a (w * ((INR k + t0) / INR n)) G0)
    by (intros; rewrite rot_comp by auto; f_equal; field; lra).
  assert (E2 : forall G0, right_handed_rotation a PI (right_handed_rotation a (w / INR n * INR k) G0) = right_handed_rotation a (w * INR k / INR n + PI) G0)
    by (intros; rewrite rot_comp by auto; f_equal; field; lra).
  unfold diffracts_at, in_phase. rewrite A2, A3. split.
  - intros (i & ph & h & G1 & B1 & B2 & B3 & B4 & B5 & B6 & B7 & B8). apply A4 in B4 as (G0 & B4 & ->). exists i, ph, h, G0.
    rewrite rotate_P1_S0 in B6. apply okP1_inj in B6. unfold rot_at, mn in B6. cbn [m_axis m_angle] in B6. rewrite rod_spec, E1 in B6 by auto. rewrite E2 in B8. auto 10.
  - intros (i & ph & h & G0 & B1 & B2 & B3 & B4 & B5 & B6 & B7 & B8). exists i, ph, h, (right_handed_rotation a (w / INR n * INR k) G0).
    split; auto. split; auto. split; auto. split; [apply A4; eauto|]. split; auto. split; [|now rewrite E2].
    rewrite rotate_P1_S0. unfold rot_at, mn. cbn [m_axis m_angle]. rewrite rod_spec, E1 by auto. now rewrite B6.
Qed.
Lemma scan_diffracts e j t G : diffracts_at p b a m e j t G <->
  exists i ph h G0, in_phase p e i /\ nth_error (pc_phases p) i = Some ph /\ plane_at ph j h /\ scattering_vector p e h G0 /\ 0 <= t <= 1 /\
    G = right_handed_rotation a (w * t) G0 /\ laue_condition (b_wave_vector b) G /\ ~ laue_condition (b_wave_vector b) (right_handed_rotation a PI G0).
Proof.
  unfold diffracts_at. split; intros (i & ph & h & G0 & B1 & B2 & B3 & B4 & B5 & B6 & B7 & B8); exists i, ph, h, G0; repeat (split; auto).
  - rewrite rotate_P1_S0 in B6. apply okP1_inj in B6. unfold rot_at, m in B6. cbn [m_axis m_angle] in B6. now rewrite rod_spec in B6 by auto.
  - rewrite rotate_P1_S0. unfold rot_at, m. cbn [m_axis m_angle]. rewrite rod_spec by auto. now rewrite B6.
Qed.
Lemma step_lit e t s : lit_at q b mn e t s <-> lit_at p b m e ((INR k + t) / INR n) s.
Proof.
  destruct (steps_state a (w / INR n) (vscale (/ INR n) T) o U CT' k p) as (_ & _ & _ & _ & A5). fold mn q in A5.
  assert (E : forall c, move_at mn t (move_at mn (INR k) c) = move_at m ((INR k + t) / INR n) c).
  { intros c. unfold mn. rewrite move_twice_along by auto. unfold move_at, rot_at, m. cbn [m_axis m_angle m_origin m_trans].
    replace (w / INR n * (INR k + t)) with (w * ((INR k + t) / INR n)) by (field; lra).
    assert (S : vscale (INR k + t) (vscale (/ INR n) T) = vscale ((INR k + t) / INR n) T) by apply scale_scale. now rewrite S. }
  unfold lit_at. rewrite A5. split.
  - intros (c & B1 & B2 & B3). rewrite nth_error_map in B1. destruct (nth_error _ e) as [c0|]; cbn [option_map] in B1; [|discriminate]. apply some_eq in B1. subst c.
    exists c0. rewrite call_P1_S0 in *. rewrite E in B2. auto.
  - intros (c & B1 & B2 & B3). exists (move_at mn (INR k) c). rewrite nth_error_map, B1. rewrite call_P1_S0 in *. rewrite E. auto.
Qed.
Lemma bins t : 0 <= t <= 1 -> (0 < k)%nat -> t <> 0 -> in_bin (Z.of_nat n) ((INR k + t) / INR n) (Z.of_nat k).
Proof.
  intros H K N. unfold in_bin. split; [lia|]. rewrite <- !INR_IZR_INZ.
  split; [right; apply Rmult_lt_compat_r; [apply Rinv_0_lt_compat; lra|lra]|apply Rmult_le_compat_r; [left; apply Rinv_0_lt_compat; lra|lra]].
Qed.
Lemma bins0 t : 0 <= t <= 1 -> k = O -> in_bin (Z.of_nat n) ((INR k + t) / INR n) (Z.of_nat k).
Proof.
  intros H ->. unfold in_bin. split; [lia|]. rewrite <- !INR_IZR_INZ. cbn [INR]. split.
  - destruct (Req_EM_T t 0) as [->|N]; [left; split; [field; lra|reflexivity]|]. right. apply Rmult_lt_compat_r; [apply Rinv_0_lt_compat; lra|lra].
  - apply Rmult_le_compat_r; [left; apply Rinv_0_lt_compat; lra|lra].
Qed.
Lemma bins_inv t : in_bin (Z.of_nat n) ((INR k + t) / INR n) (Z.of_nat k) -> 0 <= (INR k + t) / INR n -> 0 <= t <= 1.
Proof.
  intros (_ & B1 & B2) H. rewrite <- !INR_IZR_INZ in *.
  assert (M : INR n * ((INR k + t) / INR n) = INR k + t) by (field; lra).
  assert (M1 : INR n * ((INR k + 1) / INR n) = INR k + 1) by (field; lra).
  assert (M2 : INR n * (INR k / INR n) = INR k) by (field; lra).
  apply (Rmult_le_compat_l (INR n)) in B2; [|lra]. rewrite M, M1 in B2. split; [|lra].
  destruct B1 as [[B0 K0]|B1].
  - assert (k = 0%nat) by lia. subst k. rewrite B0, Rmult_0_r in M. cbn [INR] in M. lra.
  - apply (Rmult_lt_compat_l (INR n)) in B1; [|lra]. rewrite M, M2 in B1. lra.
Qed.
Lemma step_recorded z d s : sn_frame s = O ->
  (0 <= sn_time s <= 1 -> reflects p b a (sn_element s) (sn_plane s) (w * ((INR k + sn_time s) / INR n)) ->
    ~ reflects p b a (sn_element s) (sn_plane s) PI /\ ~ reflects p b a (sn_element s) (sn_plane s) (w * INR k / INR n + PI)) ->
  ((0 < k)%nat -> ~ reflects p b a (sn_element s) (sn_plane s) (w * INR k / INR n)) ->
  recorded z q b a mn d 1 s <-> recorded z p b a m d (Z.of_nat n) (in_scan n k s).
Proof.
  intros F0 HB HE.
  destruct (steps_state a (w / INR n) (vscale (/ INR n) T) o U CT' k p) as (A1 & A2 & A3 & _ & _). fold mn q in A1, A2, A3.
  assert (SF : forall e j sf, squared_factor q e j sf <-> squared_factor p e j sf) by (intros; unfold squared_factor, in_phase; rewrite A2, A3; tauto).
  unfold recorded. cbn [in_scan sn_element sn_plane sn_time sn_frame sn_zd sn_yd sn_intensity sn_volume]. rewrite A1, F0.
  split; intros (G & src & sf & A & P & L & B1 & B2 & B3 & B4 & B5 & B6 & B7); exists G, src, sf, A, P, L.
  - apply step_diffracts in B1 as (i & ph & h & G0 & D1 & D2 & D3 & D4 & D5 & D6 & D7 & D8).
    assert (RF : reflects p b a (sn_element s) (sn_plane s) (w * ((INR k + sn_time s) / INR n))) by (exists i, ph, h, G0; rewrite <- D6; auto 6).
    destruct (HB D5 RF) as (N1 & N2).
    assert (BN : in_bin (Z.of_nat n) ((INR k + sn_time s) / INR n) (Z.of_nat k)).
    { destruct (Nat.eq_dec k 0) as [K0|K0]; [now apply bins0|]. apply bins; auto; [lia|]. intros T0. apply HE; [lia|].
      rewrite T0 in RF. replace (w * INR k / INR n) with (w * ((INR k + 0) / INR n)) by (field; lra). exact RF. }
    split. { apply scan_diffracts. exists i, ph, h, G0. repeat (split; [now auto|]). split.
      { split; [apply Rmult_le_pos; [pose proof (pos_INR k); lra|left; apply Rinv_0_lt_compat; lra]|].
        apply (Rmult_le_reg_r (INR n)); [lra|]. unfold Rdiv. rewrite Rmult_assoc, Rinv_l by lra.
        assert (INR (S k) <= INR n) by (apply le_INR; lia). rewrite S_INR in H. lra. }
      split; auto. split; auto. intros C. apply N1. exists i, ph, h, G0. auto 6. }
    split; [now apply step_lit|]. split; auto. split; [now apply SF|]. split; auto.
  - apply scan_diffracts in B1 as (i & ph & h & G0 & D1 & D2 & D3 & D4 & D5 & D6 & D7 & D8).
    assert (RF : reflects p b a (sn_element s) (sn_plane s) (w * ((INR k + sn_time s) / INR n))) by (exists i, ph, h, G0; rewrite <- D6; auto 6).
    assert (TT : 0 <= sn_time s <= 1) by (apply bins_inv; auto; apply D5).
    destruct (HB TT RF) as (N1 & N2).
    split. { apply step_diffracts. exists i, ph, h, G0. repeat (split; [now auto|]). intros C. apply N2. exists i, ph, h, G0. auto 6. }
    split; [now apply step_lit|]. split; auto. split; [now apply SF|]. split; auto. split; auto.
    unfold in_bin. change (Z.of_nat 0) with 0%Z. split; [lia|]. rewrite Rdiv_0_l || (unfold Rdiv; rewrite Rmult_0_l).
    split; [destruct (Req_EM_T (sn_time s) 0); [left|right]; auto; lra|]. lra.
Qed.
Lemma grazes_same z d s : recorded z q b a mn d 1 s -> recorded z p b a m d (Z.of_nat n) (in_scan n k s) ->
  grazes q b a mn s <-> grazes p b a m (in_scan n k s).
Proof.
  intros (G1 & ? & ? & ? & ? & ? & R1 & _) (G2 & ? & ? & ? & ? & ? & R2 & _). cbn [in_scan sn_element sn_plane sn_time] in R2.
  assert (UN : forall G G', diffracts_at q b a mn (sn_element s) (sn_plane s) (sn_time s) G -> diffracts_at p b a m (sn_element s) (sn_plane s) ((INR k + sn_time s) / INR n) G' -> G = G').
  { intros G G' H1 H2. apply step_diffracts in H1 as (i & ph & h & G0 & D1 & D2 & D3 & D4 & D5 & -> & _).
    apply scan_diffracts in H2 as (i' & ph' & h' & G0' & D1' & D2' & D3' & D4' & D5' & -> & _).
    assert (i = i') by (eapply in_phase_fun; eauto). subst i'. assert (ph = ph') by congruence. subst ph'.
    destruct D3 as (hk & X1 & X2 & _). destruct D3' as (hk' & X1' & X2' & _). assert (hk = hk') by congruence. subst hk'. assert (h = h') by congruence. subst h'.
    destruct D4 as (V & B & Y1 & Y2 & ->). destruct D4' as (V' & B' & Y1' & Y2' & ->). assert (V = V') by congruence. assert (B = B') by congruence. now subst. }
  unfold grazes. cbn [in_scan sn_element sn_plane sn_time]. split.
  - intros (G & H & HG). exists G2. split; auto. now rewrite <- (UN G G2 H R2).
  - intros (G & H & HG). exists G1. split; auto. now rewrite (UN G1 G R1 H).
Qed.
End Steps.

(** ** The pictures *)
Lemma transforms_phases f l : forall p,
  transforms l (PC (pc_volumes p) (pc_U p) (pc_eps p) (pc_map p) (map f (pc_phases p)) (pc_eB p) (pc_mesh_lab p) (pc_mesh_sample p) (pc_eps_sample p) (pc_U_sample p)) =
  let q := transforms l p in
  PC (pc_volumes q) (pc_U q) (pc_eps q) (pc_map q) (map f (pc_phases q)) (pc_eB q) (pc_mesh_lab q) (pc_mesh_sample q) (pc_eps_sample q) (pc_U_sample q).
Proof.
  induction l as [|(m, t) l IH]; intros p; [reflexivity|]. change (transforms ((m, t) :: l) ?y) with (transforms l (transform y m t)).
  rewrite <- IH. reflexivity.
Qed.
Lemma steps_after_diffract z x l p b m m' lo hi :
  snd (diffract z x (transforms l p) b m lo hi None) = transforms l (snd (diffract z x p b m' lo hi None)).
Proof. unfold diffract. cbn [snd]. rewrite transforms_phases. reflexivity. Qed.
Lemma nodup_map_in {A B} (f : A -> B) l : (forall x y, In x l -> In y l -> f x = f y -> x = y) -> NoDup l -> NoDup (map f l).
Proof.
  intros I N. apply (nodup_key f (fun x => x)); [now rewrite map_id|]. exact I.
Qed.
Definition out_of_scan (n k : nat) (s : seen) : seen :=
  Seen (sn_element s) (sn_plane s) (INR n * sn_time s - INR k) 0 (sn_zd s) (sn_yd s) (sn_intensity s) (sn_volume s).
Lemma in_out n k s : (k < n)%nat -> sn_frame s = k -> in_scan n k (out_of_scan n k s) = s.
Proof.
  intros H F. assert (0 < INR n) by (apply lt_0_INR; lia). destruct s as [e j t f zd yd i v]. cbn [sn_frame] in F. subst f.
  unfold in_scan, out_of_scan. cbn [sn_element sn_plane sn_time sn_zd sn_yd sn_intensity sn_volume]. f_equal. field. lra.
Qed.
Lemma out_in n k s : (k < n)%nat -> sn_frame s = O -> out_of_scan n k (in_scan n k s) = s.
Proof.
  intros H F. assert (0 < INR n) by (apply lt_0_INR; lia). destruct s as [e j t f zd yd i v]. cbn [sn_frame] in F. subst f.
  unfold in_scan, out_of_scan. cbn [sn_element sn_plane sn_time sn_zd sn_yd sn_intensity sn_volume]. f_equal. field. lra.
Qed.
Lemma one_frame z p b a m d s : recorded z p b a m d 1 s -> sn_frame s = O.
Proof. intros (G & src & sf & A & P & L & _ & _ & _ & _ & _ & (H & _) & _). lia. Qed.
(** Lists of spots that correspond give the same light. *)
Lemma same_light d n k i j (L Lk : list seen) : (k < n)%nat -> NoDup L -> NoDup Lk ->
  (forall s, In s Lk -> sn_frame s = O) -> (forall s, sn_frame s = O -> (In s Lk <-> In (in_scan n k s) L)) ->
  sum_list (map (spot_at d k i j) L) = sum_list (map (spot_at d 0 i j) Lk).
Proof.
  intros KN N Nk F I.
  transitivity (sum_list (map (spot_at d k i j) (filter (fun s => Nat.eqb (sn_frame s) k) L))).
  { rewrite sum_filter. f_equal. apply map_ext. intros s. unfold spot_at. destruct (Nat.eqb (sn_frame s) k); reflexivity. }
  rewrite (sum_perm _ _ (map (in_scan n k) Lk)).
  - rewrite map_map. f_equal. apply map_ext_in. intros s Hs. unfold spot_at. cbn [in_scan sn_frame sn_zd sn_yd sn_intensity sn_volume]. rewrite (F s Hs), !Nat.eqb_refl. reflexivity.
  - apply NoDup_Permutation.
    + now apply NoDup_filter.
    + apply nodup_map_in; auto. intros x y Hx Hy E. rewrite <- (out_in n k x), <- (out_in n k y) by auto. now rewrite E.
    + intros s. rewrite filter_In, in_map_iff. split.
      * intros (H1 & H2). apply Nat.eqb_eq in H2. exists (out_of_scan n k s). split; [now apply in_out|]. apply I; [reflexivity|]. now rewrite in_out.
      * intros (s' & <- & Hs). split; [apply I; auto|]. cbn [in_scan sn_frame]. apply Nat.eqb_refl.
Qed.
(** C88. One scan with n frames and n scans with one frame, turning the sample on by one step in between, give the
    same pictures: frame k of the former is the frame of step k of the latter.  The rotation axis must be parallel to
    the translation; no reflection may fall on the edge between this frame and the one before it or into a blind spot
    of the two calls. *)
Lemma pC88_frames_are_steps : forall e1 e2 z q b a w T o m mn x p lo hi pd p' d n k pdk pk ml mi ml' mi' im out imk outk i j,
  reachable_beam q b -> unit a -> cross a T = vzero -> (k < n)%nat ->
  make_motion a w T o = Ok m -> make_motion a (w / INR n) (vscale (/ INR n) T) o = Ok mn ->
  reachable_pc x p -> built d -> rectangular (d_c0 d) (d_c1 d) (d_c2 d) ->
  diffract z x p b m lo hi None = (Ok pd, p') -> render e1 d pd (Z.of_nat n) "micro" ml mi = Ok (im, out) ->
  diffract z x (transforms (repeat (mn, 1) k) p) b mn lo hi None = (Ok pdk, pk) -> render e2 d pdk 1 "micro" ml' mi' = Ok (imk, outk) ->
  (forall e pl th, w * INR k / INR n <= th <= w * (INR k + 1) / INR n -> reflects p' b a e pl th ->
     ~ reflects p' b a e pl PI /\ ~ reflects p' b a e pl (w * INR k / INR n + PI)) ->
  ((0 < k)%nat -> forall e pl, ~ reflects p' b a e pl (w * INR k / INR n)) ->
  (i < d_nz d)%nat -> (j < d_ny d)%nat ->
  f_at im k i j = f_at imk 0 i j.
Proof.
  intros e1 e2 z q b a w T o m mn x p lo hi pd p' d n k pdk pk ml mi ml' mi' im out imk outk i j HB U CT KN Hm Hmn HR Hb Hr HD HI HDk HIk Bl Ed Hi Hj.
  assert (Nn : 0 < INR n) by (apply lt_0_INR; lia).
  assert (HRk : reachable_pc x (transforms (repeat (mn, 1) k) p)).
  { clear HDk. revert p HR HD. clear - k. intros p HR _. revert p HR. induction k as [|k IH]; intros p HR; [exact HR|].
    change (transforms (repeat (mn, 1) (S k)) p) with (transforms (repeat (mn, 1) k) (transform p mn 1)). apply IH. now constructor. }
  destruct (pC84_image_is_sum_of_reflections _ _ _ _ _ _ _ _ _ _ _ _ _ _ _ _ _ _ _ _ _ _ HB Hm U HR Hb Hr HD HI) as (all & tw & N1 & I1 & N2 & I2 & S1).
  destruct (pC84_image_is_sum_of_reflections _ _ _ _ _ _ _ _ _ _ _ _ _ _ _ _ _ _ _ _ _ _ HB Hmn U HRk Hb Hr HDk HIk) as (allk & twk & N3 & I3 & N4 & I4 & S2).
  assert (Ek : pk = transforms (repeat (mn, 1) k) p').
  { pose proof (steps_after_diffract z x (repeat (mn, 1) k) p b mn m lo hi) as E. rewrite HD, HDk in E. exact E. }
  assert (Em : m = Motion a w T o) by (apply make_motion_ok_iff in Hm as (_ & _ & ->); auto).
  assert (Emn : mn = Motion a (w / INR n) (vscale (/ INR n) T) o) by (apply make_motion_ok_iff in Hmn as (_ & _ & ->); auto).
  replace (Z.max 1 (Z.of_nat n)) with (Z.of_nat n) in * by lia. replace (Z.max 1 1) with 1%Z in * by lia.
  assert (COR : forall s, sn_frame s = O -> recorded z pk b a mn d 1 s <-> recorded z p' b a m d (Z.of_nat n) (in_scan n k s)).
  { intros s F. subst m mn pk. apply step_recorded; auto.
    intros Ht RF.
    assert (B : w * INR k / INR n <= w * ((INR k + sn_time s) / INR n) <= w * (INR k + 1) / INR n).
    { assert (W : 0 < w) by (apply make_motion_ok_iff in Hm as (W & _); lra).
      assert (I0 : 0 < / INR n) by (apply Rinv_0_lt_compat; lra). assert (W' : 0 < w * / INR n) by (apply Rmult_lt_0_compat; auto).
      unfold Rdiv. split.
      - replace (w * INR k * / INR n) with (w * / INR n * INR k) by ring. replace (w * ((INR k + sn_time s) * / INR n)) with (w * / INR n * (INR k + sn_time s)) by ring.
        apply Rmult_le_compat_l; lra.
      - replace (w * (INR k + 1) * / INR n) with (w * / INR n * (INR k + 1)) by ring. replace (w * ((INR k + sn_time s) * / INR n)) with (w * / INR n * (INR k + sn_time s)) by ring.
        apply Rmult_le_compat_l; lra. }
    exact (Bl _ _ _ B RF). }
  assert (SH : has_shape im (Z.to_nat (Z.max 1 (Z.of_nat n))) (d_nz d) (d_ny d)) by (eapply pC36_shape; eauto).
  assert (SHk : has_shape imk (Z.to_nat (Z.max 1 1)) (d_nz d) (d_ny d)) by (eapply pC36_shape; eauto).
  destruct SH as (X1 & X2 & X3). destruct SHk as (Y1 & Y2 & Y3).
  rewrite S1 by (unfold in_image; rewrite X1, X2, X3; repeat split; auto; lia).
  rewrite S2 by (unfold in_image; rewrite Y1, Y2, Y3; repeat split; auto; lia).
  f_equal. rewrite !map_app, !sum_list_app. f_equal.
  - apply (same_light d n k); auto.
    + intros s Hs. apply I3 in Hs. eapply one_frame; eauto.
    + intros s F. rewrite I1, I3. now apply COR.
  - apply (same_light d n k); auto.
    + intros s Hs. apply I4 in Hs as (Hs & _). eapply one_frame; eauto.
    + intros s F. rewrite I2, I4. subst m mn pk. split; intros (R1 & R2); pose proof R1 as R1'; apply (COR s F) in R1'; split; auto;
      [rewrite <- (grazes_same a T o w n k p' b U CT KN z d s)|rewrite (grazes_same a T o w n k p' b U CT KN z d s)]; auto.
Qed.

(** A spot of the scan at a time of step k (edges included) is a spot of step k, unless it is in that call's blind spot. *)
Lemma step_shows a T o w n k p b : unit a -> cross a T = vzero -> (k < n)%nat -> forall z d N s t,
  recorded z p b a (Motion a w T o) d N s -> sn_time s = (INR k + t) / INR n -> 0 <= t <= 1 ->
  ~ reflects p b a (sn_element s) (sn_plane s) (w * INR k / INR n + PI) ->
  recorded z (transforms (repeat (Motion a (w / INR n) (vscale (/ INR n) T) o, 1) k) p) b a (Motion a (w / INR n) (vscale (/ INR n) T) o) d 1
    (Seen (sn_element s) (sn_plane s) t 0 (sn_zd s) (sn_yd s) (sn_intensity s) (sn_volume s)).
Proof.
  intros U CT KN z d N s t (G & src & sf & A & P & L & B1 & B2 & B3 & B4 & B5 & B6 & B7) Et Ht NB.
  assert (Nn : 0 < INR n) by (apply lt_0_INR; lia).
  destruct (steps_state a (w / INR n) (vscale (/ INR n) T) o U (cross_scale a (/ INR n) T CT) k p) as (A1 & A2 & A3 & _ & _). cbv zeta in A1, A2, A3.
  exists G, src, sf, A, P, L. cbn [sn_element sn_plane sn_time sn_frame sn_zd sn_yd sn_intensity sn_volume]. rewrite A1.
  rewrite Et in B1, B2. apply (scan_diffracts a T o w p b U) in B1 as (i & ph & h & G0 & D1 & D2 & D3 & D4 & D5 & D6 & D7 & D8).
  split. { apply (step_diffracts a T o w n k p b U CT KN). exists i, ph, h, G0. repeat (split; [now auto|]). intros C. apply NB. exists i, ph, h, G0. auto 6. }
  split; [now apply (step_lit a T o w n k p b U CT KN)|]. split; auto.
  split; [unfold squared_factor, in_phase in *; rewrite A2, A3; exact B4|]. split; auto. split; auto.
  unfold in_bin. change (Z.of_nat 0) with 0%Z. split; [lia|]. unfold Rdiv. rewrite Rmult_0_l.
  split; [destruct (Req_EM_T t 0); [left|right]; auto; lra|]. lra.
Qed.
(** A reflection exactly on the edge between two frames: the scan shows it once, in the earlier frame; the two steps
    both show it. *)
Lemma pC88_edge_shown_twice : forall z a w T o m mn n k p b d s,
  unit a -> cross a T = vzero -> (S k < n)%nat ->
  make_motion a w T o = Ok m -> make_motion a (w / INR n) (vscale (/ INR n) T) o = Ok mn ->
  recorded z p b a m d (Z.of_nat n) s -> sn_time s = INR (S k) / INR n ->
  ~ reflects p b a (sn_element s) (sn_plane s) (w * INR k / INR n + PI) ->
  ~ reflects p b a (sn_element s) (sn_plane s) (w * INR (S k) / INR n + PI) ->
  sn_frame s = k /\
  recorded z (transforms (repeat (mn, 1) k) p) b a mn d 1
    (Seen (sn_element s) (sn_plane s) 1 0 (sn_zd s) (sn_yd s) (sn_intensity s) (sn_volume s)) /\
  recorded z (transforms (repeat (mn, 1) (S k)) p) b a mn d 1
    (Seen (sn_element s) (sn_plane s) 0 0 (sn_zd s) (sn_yd s) (sn_intensity s) (sn_volume s)).
Proof.
  intros z a w T o m mn n k p b d s U CT KN Hm Hmn R Et N1 N2.
  assert (Em : m = Motion a w T o) by (apply make_motion_ok_iff in Hm as (_ & _ & ->); auto).
  assert (Emn : mn = Motion a (w / INR n) (vscale (/ INR n) T) o) by (apply make_motion_ok_iff in Hmn as (_ & _ & ->); auto). subst m mn.
  assert (Nn : 0 < INR n) by (apply lt_0_INR; lia).
  split.
  - destruct R as (G & src & sf & A & P & L & _ & _ & _ & _ & _ & BN & _). rewrite Et in BN.
    assert (BN' : in_bin (Z.of_nat n) (INR (S k) / INR n) (Z.of_nat k)).
    { unfold in_bin. split; [lia|]. rewrite <- !INR_IZR_INZ, <- S_INR. split; [right|lra]. apply Rmult_lt_compat_r; [apply Rinv_0_lt_compat; lra|apply lt_INR; lia]. }
    pose proof (PDetector3.pC31_bin_unique _ _ _ _ BN BN'). lia.
  - split.
    + apply step_shows with (Z.of_nat n); auto; try lia; try lra; rewrite Et, S_INR; reflexivity.
    + apply step_shows with (Z.of_nat n); auto; try lra; rewrite Et, Rplus_0_r; reflexivity.
Qed.
(** A reflection that would also occur half a turn after the start of the scan is lost by the scan (C08), but step k
    finds it if it does not occur half a turn after the start of that step. *)
Lemma pC88_blind_spot : forall a w T o m mn n k p b e j,
  unit a -> cross a T = vzero -> (k < n)%nat ->
  make_motion a w T o = Ok m -> make_motion a (w / INR n) (vscale (/ INR n) T) o = Ok mn ->
  reflects p b a e j PI ->
  (forall z d N s, sn_element s = e -> sn_plane s = j -> ~ recorded z p b a m d N s) /\
  (forall t, 0 <= t <= 1 -> reflects p b a e j (w * ((INR k + t) / INR n)) -> ~ reflects p b a e j (w * INR k / INR n + PI) ->
     exists G, diffracts_at (transforms (repeat (mn, 1) k) p) b a mn e j t G).
Proof.
  intros a w T o m mn n k p b e j U CT KN Hm Hmn HP.
  assert (Em : m = Motion a w T o) by (apply make_motion_ok_iff in Hm as (_ & _ & ->); auto).
  assert (Emn : mn = Motion a (w / INR n) (vscale (/ INR n) T) o) by (apply make_motion_ok_iff in Hmn as (_ & _ & ->); auto). subst m mn.
  split.
  - intros z d N s <- <- (G & src & sf & A & P & L & B1 & _).
    apply (scan_diffracts a T o w p b U) in B1 as (i' & ph' & h' & G0' & D1' & D2' & D3' & D4' & _ & _ & _ & D8').
    destruct HP as (i & ph & h & G0 & D1 & D2 & D3 & D4 & D8).
    assert (i = i') by (eapply in_phase_fun; eauto). subst i'. assert (ph = ph') by congruence. subst ph'.
    destruct D3 as (hk & X1 & X2 & _). destruct D3' as (hk' & X1' & X2' & _). assert (hk = hk') by congruence. subst hk'. assert (h = h') by congruence. subst h'.
    destruct D4 as (V & B & Y1 & Y2 & ->). destruct D4' as (V' & B' & Y1' & Y2' & ->). assert (V = V') by congruence. assert (B = B') by congruence. subst. contradiction.
  - intros t Ht (i & ph & h & G0 & D1 & D2 & D3 & D4 & D5) NB. exists (right_handed_rotation a (w * ((INR k + t) / INR n)) G0).
    apply (step_diffracts a T o w n k p b U CT KN). exists i, ph, h, G0. repeat (split; [now auto|]). intros C. apply NB. exists i, ph, h, G0. auto 6.
Qed.

(** ** Concrete cases *)
(** Turning about z: the planes that are used below. *)
Lemma turn_z th x y : right_handed_rotation (V3 0 0 1) th (V3 x y 0) = V3 (cos th * x - sin th * y) (sin th * x + cos th * y) 0.
Proof. rewrite <- rod_spec by apply unit_ez. unfold rod_matrix, rod_K2, rod_K. vext; vunf; ring. Qed.
Lemma unit_mz : unit (V3 0 0 (-1)).
Proof. unfold unit. apply norm_sqrt_eq; vunf; [lra|ring]. Qed.
Lemma turn_mz th x y : right_handed_rotation (V3 0 0 (-1)) th (V3 x y 0) = V3 (cos th * x + sin th * y) (- sin th * x + cos th * y) 0.
Proof. rewrite <- rod_spec by apply unit_mz. unfold rod_matrix, rod_K2, rod_K. vext; vunf; ring. Qed.
Lemma laue_2 x y : x * x + y * y = 2 -> laue_condition (V3 1 0 0) (V3 x y 0) <-> x = -1.
Proof.
  intros H. unfold laue_condition, norm. assert (E : normsq (vadd (V3 1 0 0) (V3 x y 0)) = 3 + 2 * x) by (vunf; nra).
  assert (E1 : normsq (V3 1 0 0) = 1) by (vunf; ring). rewrite E, E1, sqrt_1. split.
  - intros S. assert (0 <= 3 + 2 * x) by (rewrite <- E; apply normsq_nonneg). apply (f_equal (fun v => v * v)) in S. rewrite sqrt_sqrt in S by auto. lra.
  - intros ->. replace (3 + 2 * -1) with 1 by ring. apply sqrt_1.
Qed.
Lemma unit_sc th : sin th * sin th + cos th * cos th = 1.
Proof. pose proof (sin2_cos2 th) as H. unfold Rsqr in H. exact H. Qed.
(** The prepared sample of the examples: one element, lattice vectors along the axes. *)
Lemma ex_reflects planes me p b lo hi m : b_wave_vector b = V3 1 0 0 -> pc_map p = MapTensor [0] -> pc_phases p = [ex_phase] -> pc_U p = [mI] -> pc_eB p = [mI] -> pc_mesh_lab p = me ->
  let p' := snd (diffract false (ex_xtal planes) p b m lo hi None) in
  forall a e j th, reflects p' b a e j th <-> e = O /\ exists h, nth_error planes j = Some h /\ laue_condition (V3 1 0 0) (right_handed_rotation a th h).
Proof.
  intros Hk H4 H5 H6 H7 H8 p' a e j th. unfold p'. rewrite (ex_after planes p b m lo hi H5). unfold reflects. rewrite Hk. cbn [pc_phases]. split.
  - intros (i & ph & h & G0 & A1 & A2 & A3 & A4 & A5). unfold scattering_vector in A4. cbn [pc_U pc_eB] in A4. rewrite H6, H7 in A4.
    destruct A4 as (V & B & B1 & B2 & ->). destruct e; [|destruct e; discriminate]. split; auto. cbn in B1, B2. apply some_eq in B1. apply some_eq in B2. subst V B. rewrite !mv_I in A5.
    destruct i; [|destruct i; discriminate]. cbn [nth_error] in A2. apply some_eq in A2. subst ph. destruct A3 as (hk & X1 & X2 & X3). cbn in X1. apply some_eq in X1. subst hk. eauto.
  - intros (-> & h & A1 & A2). exists O. eexists. exists h, h. split; [unfold in_phase; cbn [pc_map]; now rewrite H4|]. split; [reflexivity|].
    split; [exists planes; split; [reflexivity|]; split; [exact A1|]|split; [exists mI, mI; cbn [pc_U pc_eB]; rewrite H6, H7, !mv_I; auto|exact A2]].
    cbn. exact I.
Qed.
Lemma reflects_scan a T o w p b e j t : unit a -> 0 <= t <= 1 -> reflects p b a e j (w * t) -> ~ reflects p b a e j PI ->
  exists G, diffracts_at p b a (Motion a w T o) e j t G.
Proof.
  intros U Ht (i & ph & h & G0 & A1 & A2 & A3 & A4 & A5) N. exists (right_handed_rotation a (w * t) G0). apply scan_diffracts; auto.
  exists i, ph, h, G0. repeat (split; [now auto|]). intros C. apply N. exists i, ph, h, G0. auto 6.
Qed.
Lemma reflects_step a T o w n k p b e j t : unit a -> cross a T = vzero -> (k < n)%nat -> 0 <= t <= 1 ->
  reflects p b a e j (w * ((INR k + t) / INR n)) -> ~ reflects p b a e j (w * INR k / INR n + PI) ->
  exists G, let mn := Motion a (w / INR n) (vscale (/ INR n) T) o in diffracts_at (transforms (repeat (mn, 1) k) p) b a mn e j t G.
Proof.
  intros U CT KN Ht (i & ph & h & G0 & A1 & A2 & A3 & A4 & A5) N. exists (right_handed_rotation a (w * ((INR k + t) / INR n)) G0). apply step_diffracts; auto.
  exists i, ph, h, G0. repeat (split; [now auto|]). intros C. apply N. exists i, ph, h, G0. auto 6.
Qed.
Lemma trig_1 : 0 < sin 1 /\ 0 < cos 1 /\ sin 1 + cos 1 <> 1 /\ cos 1 < 1.
Proof.
  pose proof PI2_1 as P. assert (S : 0 < sin 1) by (apply sin_gt_0; lra). assert (C : 0 < cos 1) by (apply cos_gt_0; lra).
  pose proof (unit_sc 1). repeat split; auto.
  - intros E. assert (0 < sin 1 * cos 1) by (apply Rmult_lt_0_compat; auto). nra.
  - nra.
Qed.
(** Two crystal planes that reflect once in each of the two frames: at 0 and at pi/2. *)
Lemma xC88_scan : exists e1 e2 z q b a w T o m mn x p lo hi pd p' d n k pdk pk ml mi ml' mi' im out imk outk,
  reachable_beam q b /\ unit a /\ cross a T = vzero /\ (k < n)%nat /\ (0 < k)%nat /\
  make_motion a w T o = Ok m /\ make_motion a (w / INR n) (vscale (/ INR n) T) o = Ok mn /\
  reachable_pc x p /\ built d /\ rectangular (d_c0 d) (d_c1 d) (d_c2 d) /\
  diffract z x p b m lo hi None = (Ok pd, p') /\ render e1 d pd (Z.of_nat n) "micro" ml mi = Ok (im, out) /\
  diffract z x (transforms (repeat (mn, 1) k) p) b mn lo hi None = (Ok pdk, pk) /\ render e2 d pdk 1 "micro" ml' mi' = Ok (imk, outk) /\
  (forall e pl th, w * INR k / INR n <= th <= w * (INR k + 1) / INR n -> reflects p' b a e pl th ->
     ~ reflects p' b a e pl PI /\ ~ reflects p' b a e pl (w * INR k / INR n + PI)) /\
  ((0 < k)%nat -> forall e pl, ~ reflects p' b a e pl (w * INR k / INR n)) /\
  (exists e pl th, w * INR k / INR n <= th <= w * (INR k + 1) / INR n /\ reflects p' b a e pl th).
Proof.
  destruct big_beam as (b & Hb & Hk & Hin). set (pl := [V3 (-1) 1 0; V3 (-1) 1 0]).
  destruct (ex_pc pl) as (me & p & H1 & H2 & H3 & H4 & H5 & H6 & H7 & H8 & H9 & H10).
  destruct side_detector as (d & Bd & C0 & C1 & C2 & F1 & F2 & F3).
  set (en := REnv false 1 1 (fun _ => 0) (fun _ => []) big_qhull (fun _ => None) (fun _ => Err ValueError) (fun _ _ => Err ValueError) (fun _ _ _ => [])).
  pose proof PI2_1 as PP. pose proof trig_1 as (S1 & S2 & S3 & S4).
  assert (CT : cross (V3 0 0 1) (V3 0 0 2) = vzero) by (vext; vunf; ring).
  set (m := Motion (V3 0 0 1) 2 (V3 0 0 2) vzero). set (mn := Motion (V3 0 0 1) (2 / INR 2) (vscale (/ INR 2) (V3 0 0 2)) vzero).
  assert (I2 : INR 2 = 2) by (cbn; ring).
  assert (Hm : make_motion (V3 0 0 1) 2 (V3 0 0 2) vzero = Ok m) by (apply make_motion_unit; [apply unit_ez|lra]).
  assert (Hmn : make_motion (V3 0 0 1) (2 / INR 2) (vscale (/ INR 2) (V3 0 0 2)) vzero = Ok mn) by (apply make_motion_unit; [apply unit_ez|rewrite I2; lra]).
  assert (RF : forall th e j, reflects (snd (diffract false (ex_xtal pl) p b m 0 1 None)) b (V3 0 0 1) e j th <-> e = O /\ (j < 2)%nat /\ sin th + cos th = 1).
  { intros th e j. rewrite (ex_reflects pl me p b 0 1 m Hk H4 H5 H6 H7 H8).
    assert (LC : laue_condition (V3 1 0 0) (right_handed_rotation (V3 0 0 1) th (V3 (-1) 1 0)) <-> sin th + cos th = 1).
    { rewrite turn_z, laue_2; [split; lra|]. pose proof (unit_sc th). nra. }
    split.
    - intros (-> & h & A & B). destruct j as [|[|j]]; cbn in A; [| |destruct j; discriminate]; apply some_eq in A; subst h; apply LC in B; auto.
    - intros (-> & J & B). split; auto. exists (V3 (-1) 1 0). split; [|now apply LC]. destruct j as [|[|j]]; [reflexivity..|lia]. }
  destruct (diffract false (ex_xtal pl) p b m 0 1 None) as [r p'] eqn:D. cbn [snd] in RF.
  assert (Ek : snd (diffract false (ex_xtal pl) (transforms (repeat (mn, 1) 1) p) b mn 0 1 None) = transforms (repeat (mn, 1) 1) p').
  { rewrite (steps_after_diffract false (ex_xtal pl) (repeat (mn, 1) 1) p b mn m 0 1). now rewrite D. }
  assert (NP : forall e j, ~ reflects p' b (V3 0 0 1) e j PI) by (intros e j C; apply RF in C as (_ & _ & C); rewrite sin_PI, cos_PI in C; lra).
  assert (W1 : 2 * INR 1 / INR 2 = 1) by (rewrite I2; cbn; field).
  assert (NP1 : forall e j, ~ reflects p' b (V3 0 0 1) e j (2 * INR 1 / INR 2 + PI)).
  { intros e j C. apply RF in C as (_ & _ & C). rewrite W1 in C. rewrite neg_sin, neg_cos in C. lra. }
  assert (RPC : reachable_pc (ex_xtal pl) (transforms (repeat (mn, 1) 1) p)) by (now constructor).
  assert (OKs : exists pd, r = Ok pd).
  { pose proof (pC13_events false (ex_xtal pl) p b (V3 0 0 1) 2 (V3 0 0 2) vzero m 0 1 None [0] H3 (ex_xtal_ok pl) H4 I Hm unit_ez) as EV. rewrite D in EV. destruct EV as (_ & EV & _).
    destruct (reflects_scan (V3 0 0 1) (V3 0 0 2) vzero 2 p' b 0 0 0 unit_ez ltac:(lra)) as (G1 & X1); [apply RF; rewrite Rmult_0_r, sin_0, cos_0; repeat split; auto; lra|apply NP|].
    destruct (reflects_scan (V3 0 0 1) (V3 0 0 2) vzero 2 p' b 0 1 0 unit_ez ltac:(lra)) as (G2 & X2); [apply RF; rewrite Rmult_0_r, sin_0, cos_0; repeat split; auto; lra|apply NP|].
    apply (EV _ _ _ _ _ _ _ _ X1 X2). discriminate. }
  destruct OKs as (pd & ->).
  assert (HALF : forall j, (j < 2)%nat -> reflects p' b (V3 0 0 1) 0 j (2 * ((INR 1 + (PI / 2 - 1)) / INR 2))).
  { intros j Hj. apply RF. split; auto. split; auto. replace (2 * ((INR 1 + (PI / 2 - 1)) / INR 2)) with (PI / 2) by (rewrite I2; cbn; field). rewrite sin_PI2, cos_PI2. lra. }
  pose proof PI_4 as P4.
  assert (OKk : exists pdk pk, diffract false (ex_xtal pl) (transforms (repeat (mn, 1) 1) p) b mn 0 1 None = (Ok pdk, pk)).
  { pose proof (pC13_events false (ex_xtal pl) (transforms (repeat (mn, 1) 1) p) b (V3 0 0 1) (2 / INR 2) (vscale (/ INR 2) (V3 0 0 2)) vzero mn 0 1 None [0] RPC (ex_xtal_ok pl) H4 I Hmn unit_ez) as EV.
    destruct (diffract false (ex_xtal pl) (transforms (repeat (mn, 1) 1) p) b mn 0 1 None) as [r pk] eqn:Dk. cbn [snd] in Ek. subst pk. destruct EV as (_ & EV & _).
    destruct (reflects_step (V3 0 0 1) (V3 0 0 2) vzero 2 2 1 p' b 0 0 (PI / 2 - 1) unit_ez CT ltac:(lia) ltac:(lra) (HALF 0%nat ltac:(lia)) (NP1 _ _)) as (G1 & X1).
    destruct (reflects_step (V3 0 0 1) (V3 0 0 2) vzero 2 2 1 p' b 0 1 (PI / 2 - 1) unit_ez CT ltac:(lia) ltac:(lra) (HALF 1%nat ltac:(lia)) (NP1 _ _)) as (G2 & X2).
    cbv zeta in X1, X2. destruct (EV _ _ _ _ _ _ _ _ X1 X2) as (pdk & ->); [discriminate|]. eauto. }
  destruct OKk as (pdk & pk & Dk).
  assert (Hf : fresh pd) by (apply (pC32_diffract_tables_fresh false (ex_xtal pl) p b m 0 1 None); now rewrite D).
  assert (Hfk : fresh pdk) by (apply (pC32_diffract_tables_fresh false (ex_xtal pl) (transforms (repeat (mn, 1) 1) p) b mn 0 1 None); now rewrite Dk).
  destruct (pC39_micro_never_fails en d pd 2 None 1 Hf) as (im & out & HI). destruct (pC39_micro_never_fails en d pdk 1 None 1 Hfk) as (imk & outk & HIk).
  exists en, en, false, big_qhull, b, (V3 0 0 1), 2, (V3 0 0 2), vzero, m, mn, (ex_xtal pl), p, 0, 1, pd, p', d, 2%nat, 1%nat, pdk, pk, None, 1, None, 1, im, out, imk, outk.
  split; auto. split; [apply unit_ez|]. split; auto. split; [lia|]. split; [lia|]. split; auto. split; auto. split; auto. split; auto.
  split; [rewrite C0, C1, C2; unfold rectangular; vunf; lra|]. split; auto. split; auto. split; auto. split; auto.
  split; [auto|]. split.
  - intros _ e j C. apply RF in C as (_ & _ & C). rewrite W1 in C. contradiction.
  - exists 0%nat, 0%nat, (PI / 2). split; [rewrite I2; cbn [INR]; lra|]. apply RF. rewrite sin_PI2, cos_PI2. repeat split; auto; lra.
Qed.
(** A reflection in the blind spot of the scan, which the second of two steps finds. *)
Lemma xC88_blind : exists a w T o m mn n k p b e j t q x,
  reachable_beam q b /\ (exists p0 lo hi, reachable_pc x p0 /\ p = snd (diffract false x p0 b m lo hi None)) /\
  unit a /\ cross a T = vzero /\ (k < n)%nat /\
  make_motion a w T o = Ok m /\ make_motion a (w / INR n) (vscale (/ INR n) T) o = Ok mn /\
  reflects p b a e j PI /\ 0 <= t <= 1 /\ reflects p b a e j (w * ((INR k + t) / INR n)) /\ ~ reflects p b a e j (w * INR k / INR n + PI).
Proof.
  destruct big_beam as (b & Hb & Hk & Hin). set (pl := [V3 1 1 0]).
  destruct (ex_pc pl) as (me & p & H1 & H2 & H3 & H4 & H5 & H6 & H7 & H8 & H9 & H10).
  pose proof PI2_1 as PP. pose proof PI_4 as P4. pose proof trig_1 as (S1 & S2 & S3 & S4). assert (I2 : INR 2 = 2) by (cbn; ring).
  assert (CT : cross (V3 0 0 1) (V3 0 0 2) = vzero) by (vext; vunf; ring).
  set (m := Motion (V3 0 0 1) 2 (V3 0 0 2) vzero). set (mn := Motion (V3 0 0 1) (2 / INR 2) (vscale (/ INR 2) (V3 0 0 2)) vzero).
  assert (RF : forall th, reflects (snd (diffract false (ex_xtal pl) p b m 0 1 None)) b (V3 0 0 1) 0 0 th <-> sin th - cos th = 1).
  { intros th. rewrite (ex_reflects pl me p b 0 1 m Hk H4 H5 H6 H7 H8).
    assert (LC : laue_condition (V3 1 0 0) (right_handed_rotation (V3 0 0 1) th (V3 1 1 0)) <-> sin th - cos th = 1).
    { rewrite turn_z, laue_2; [split; lra|]. pose proof (unit_sc th). nra. }
    split; [intros (_ & h & A & B); cbn in A; apply some_eq in A; subst h; now apply LC|]. intros B. split; auto. exists (V3 1 1 0). split; [reflexivity|now apply LC]. }
  exists (V3 0 0 1), 2, (V3 0 0 2), vzero, m, mn, 2%nat, 1%nat, (snd (diffract false (ex_xtal pl) p b m 0 1 None)), b, 0%nat, 0%nat, (PI / 2 - 1), big_qhull, (ex_xtal pl).
  split; auto. split; [exists p, 0, 1; auto|]. split; [apply unit_ez|]. split; auto. split; [lia|].
  split; [apply make_motion_unit; [apply unit_ez|lra]|]. split; [apply make_motion_unit; [apply unit_ez|rewrite I2; lra]|].
  split; [apply RF; rewrite sin_PI, cos_PI; lra|]. split; [lra|]. split.
  - apply RF. replace (2 * ((INR 1 + (PI / 2 - 1)) / INR 2)) with (PI / 2) by (rewrite I2; cbn; field). rewrite sin_PI2, cos_PI2. lra.
  - rewrite RF. replace (2 * INR 1 / INR 2) with 1 by (rewrite I2; cbn; field). rewrite neg_sin, neg_cos. lra.
Qed.
(** A reflection exactly between the second and the third of three frames. *)
Lemma xC88_edge : exists z a w T o m mn n k p b d s q x,
  reachable_beam q b /\ (exists p0 lo hi, reachable_pc x p0 /\ p = snd (diffract false x p0 b m lo hi None)) /\ built d /\
  unit a /\ cross a T = vzero /\ (S k < n)%nat /\
  make_motion a w T o = Ok m /\ make_motion a (w / INR n) (vscale (/ INR n) T) o = Ok mn /\
  recorded z p b a m d (Z.of_nat n) s /\ sn_time s = INR (S k) / INR n /\
  ~ reflects p b a (sn_element s) (sn_plane s) (w * INR k / INR n + PI) /\
  ~ reflects p b a (sn_element s) (sn_plane s) (w * INR (S k) / INR n + PI).
Proof.
  destruct big_beam as (b & Hb & Hk & Hin). set (pl := [V3 (-1) (-1) 0]).
  destruct (ex_pc pl) as (me & p & H1 & H2 & H3 & H4 & H5 & H6 & H7 & H8 & H9 & H10).
  destruct side_detector as (d & Bd & C0 & C1 & C2 & F1 & F2 & F3).
  pose proof PI2_1 as PP. assert (I3 : INR 3 = 3) by (cbn; ring). assert (I2 : INR 2 = 2) by (cbn; ring).
  set (a := V3 0 0 (-1)). set (w := 3 * PI / 4). set (m := Motion a w vzero vzero).
  assert (CT : cross a vzero = vzero) by (vext; vunf; ring).
  assert (CZ : vscale (/ INR 3) vzero = vzero) by (vext; vunf; ring).
  assert (RF : forall th, reflects (snd (diffract false (ex_xtal pl) p b m 0 1 None)) b a 0 0 th <-> sin th + cos th = 1).
  { intros th. rewrite (ex_reflects pl me p b 0 1 m Hk H4 H5 H6 H7 H8).
    assert (LC : laue_condition (V3 1 0 0) (right_handed_rotation a th (V3 (-1) (-1) 0)) <-> sin th + cos th = 1).
    { unfold a. rewrite turn_mz, laue_2; [split; lra|]. pose proof (unit_sc th). nra. }
    split; [intros (_ & h & A & B); cbn in A; apply some_eq in A; subst h; now apply LC|]. intros B. split; auto. exists (V3 (-1) (-1) 0). split; [reflexivity|now apply LC]. }
  pose proof (ex_after pl p b m 0 1 H5) as EA. set (p' := snd (diffract false (ex_xtal pl) p b m 0 1 None)) in *.
  assert (V : exists v, nth_error (pc_volumes p) 0 = Some v).
  { destruct (wf_reachable _ _ H3) as (L1 & _). rewrite H6 in L1. destruct (pc_volumes p) as [|v l]; [discriminate|]. exists v. reflexivity. }
  destruct V as (v & Hv).
  assert (WT : w * (INR 2 / INR 3) = PI / 2) by (unfold w; rewrite I2, I3; field).
  exists false, a, w, vzero, vzero, m, (Motion a (w / INR 3) vzero vzero), 3%nat, 1%nat, p', b, d, (Seen 0 0 (INR 2 / INR 3) 1 (9/4) 1 1 v), big_qhull, (ex_xtal pl).
  split; auto. split; [exists p, 0, 1; auto|]. split; auto. split; [apply unit_mz|]. split; auto. split; [lia|].
  split; [apply make_motion_unit; [apply unit_mz|unfold w; lra]|]. split; [rewrite CZ; apply make_motion_unit; [apply unit_mz|unfold w; rewrite I3; lra]|].
  cbn [sn_element sn_plane sn_time].
  split; [|split; [reflexivity|]; split; rewrite RF; [|]].
  - exists (V3 (-1) 1 0), (V3 1 (-7) (9/4)), 1, 1, 1, 1. cbn [sn_element sn_plane sn_time sn_frame sn_zd sn_yd sn_intensity sn_volume].
    set (ph := setup_planes (ex_xtal pl) ex_phase (b_wavelength b) 0 1) in *.
    assert (A0 : in_phase p' 0 0) by (rewrite EA; unfold in_phase; cbn [pc_map]; now rewrite H4).
    split.
    { apply scan_diffracts; [apply unit_mz|]. exists 0%nat, ph, (V3 (-1) (-1) 0), (V3 (-1) (-1) 0). split; auto. split; [rewrite EA; reflexivity|]. split; [exists pl; repeat split|].
      split; [rewrite EA; exists mI, mI; cbn [pc_U pc_eB]; rewrite H6, H7; repeat split; now rewrite !mv_I|]. split; [rewrite I2, I3; lra|].
      split; [unfold a; rewrite turn_mz, WT, sin_PI2, cos_PI2; vext; vunf; ring|].
      split; [unfold laue_condition; rewrite Hk; unfold norm; f_equal; vunf; lra|].
      unfold a. rewrite Hk, turn_mz, sin_PI, cos_PI, laue_2; lra. }
    split.
    { exists (V3 7 1 (9/4)). rewrite EA. cbn [pc_mesh_lab]. rewrite H8, H9. split; [reflexivity|].
      split; [rewrite call_P1_S0; do 2 f_equal|apply Hin; cbn [vx vy vz]; try (rewrite Rabs_right; lra); rewrite Rabs_left; lra].
      unfold move_at, rot_at, m, a. cbn [m_axis m_angle m_origin m_trans]. rewrite WT. unfold rod_matrix, rod_K2, rod_K. rewrite sin_PI2, cos_PI2. vext; vunf; lra. }
    split; [rewrite EA; exact Hv|].
    split; [exists 0%nat, ph; split; [exact A0|]; split; [rewrite EA; reflexivity|]; reflexivity|].
    split.
    { rewrite C0, C1, C2, Hk. unfold hits. split; [unfold plane_normal; vunf; lra|].
      assert (D1 : norm (vsub (V3 0 10 10) (V3 0 10 0)) = 10) by (apply norm_sqrt_eq; vunf; [lra|ring]).
      assert (D2 : norm (vsub (V3 10 10 0) (V3 0 10 0)) = 10) by (apply norm_sqrt_eq; vunf; [lra|ring]).
      split.
      - exists (9/40), (1/10). split; [lra|]. split; [lra|]. unfold surface_point, dist. rewrite D1, D2. vext; vunf; lra.
      - exists 17. split; [lra|]. unfold surface_point, dist, ray_at. rewrite D1, D2. vext; vunf; lra. }
    split; [split; [cbn; lia|]; rewrite I2, I3; change (Z.of_nat 3) with 3%Z; change (Z.of_nat 1) with 1%Z; split; [right|]; lra|].
    rewrite F1, F2, F3. cbn [corrected]. split; auto. split; auto. split; auto. split; lra.
  - replace (w * INR 1 / INR 3 + PI) with (PI / 4 + PI) by (unfold w; rewrite I3; cbn; field). rewrite neg_sin, neg_cos.
    assert (0 < sin (PI / 4)) by (apply sin_gt_0; lra). assert (0 < cos (PI / 4)) by (apply cos_gt_0; lra). lra.
  - replace (w * INR 2 / INR 3) with (PI / 2) by (unfold w; rewrite I3, I2; field). rewrite neg_sin, neg_cos, sin_PI2, cos_PI2. lra.
Qed.
