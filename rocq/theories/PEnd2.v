(** * Proofs: the picture of a sample is the sum of the spots of all its reflections (C84). *)
From Verif Require Import Vec Spec MMotion PMotion MLaue PLaue MMesh SMesh PMesh MScattering SScattering PScattering.
From Verif Require Import MStrain SStrain PStrain MBeam SBeam PBeam MPolycrystal SPolycrystal SEvents PPolycrystal PPolycrystal2 PPolycrystal3 PEvents.
From Verif Require Import MDetector SDetector PDetector PDetector2 PDetector3 PDetector4 MClip MRender SRender PRender PRender2 SEnd PEnd.
From Coq Require Import Permutation.
Open Scope R_scope.
Local Notation len := List.length.

Lemma sum_perm {A} (g : A -> R) l m : Permutation l m -> sum_list (map g l) = sum_list (map g m).
Proof.
  intros H. induction H; cbn [map]; rewrite ?sum_list_cons; try lra.
Qed.
Lemma sum_mapi {A B} (F : nat -> A -> B) (g : B -> R) (h : A -> R) l : (forall k x, In x l -> g (F k x) = h x) ->
  sum_list (map g (mapi F l)) = sum_list (map h l).
Proof.
  unfold mapi. intros H. generalize 0%nat. induction l as [|x l IH]; intros k; [reflexivity|]. cbn [mapi_from map]. rewrite !sum_list_cons.
  rewrite H by now left. rewrite IH; auto. intros; apply H; now right.
Qed.

(** ** Volumes of a polycrystal are non-negative *)
Lemma pc_volumes_nonneg x p : reachable_pc x p -> Forall (Rle 0) (pc_volumes p).
Proof.
  induction 1 as [coord enod me0 ops me o s phs mp p Hb Hr Hph Hm| p m t H IH | z p b m lo hi det H IH| p H IH].
  - apply make_pc_inv in Hm as (tets & U & eps & pm & eB & H0 & H1 & H2 & H3 & H4 & ->). cbn [pc_volumes].
    apply Forall_forall. intros v Hv. apply in_map_iff in Hv as (t & <- & _). unfold tet_volume.
    apply Rmult_le_pos; [apply Rabs_pos|lra].
  - exact IH.
  - destruct (diffract_state z x p b m lo hi det) as (phs & -> & _). exact IH.
  - exact IH.
Qed.

(** ** One label *)
Lemma surface_point_inj d zd yd zd' yd' : built d -> N_of d <> vzero -> rectangular (d_c0 d) (d_c1 d) (d_c2 d) ->
  surface_point (d_c0 d) (d_c1 d) (d_c2 d) zd yd = surface_point (d_c0 d) (d_c1 d) (d_c2 d) zd' yd' -> zd = zd' /\ yd = yd'.
Proof.
  intros Hb HN Hr H. destruct (detector_frame d Hb HN) as (_ & _ & _ & Ez & Ey & Pz & Py). rewrite Ez in Pz. rewrite Ey in Py.
  unfold rectangular in Hr. unfold surface_point in H. unfold dist in *. set (u := vsub (d_c2 d) (d_c0 d)) in *. set (v := vsub (d_c1 d) (d_c0 d)) in *.
  set (a := zd / norm u) in *. set (a' := zd' / norm u) in *. set (c := yd / norm v) in *. set (c' := yd' / norm v) in *.
  assert (E : vadd (vscale a u) (vscale c v) = vadd (vscale a' u) (vscale c' v)).
  { apply (f_equal (fun p => vsub p (d_c0 d))) in H. revert H. generalize (vadd (vscale a u) (vscale c v)) (vadd (vscale a' u) (vscale c' v)) (d_c0 d).
    intros p q o H. transitivity (vsub (vadd o p) o); [veq|]. rewrite H. veq. }
  assert (Du : a * normsq u = a' * normsq u).
  { transitivity (dot (vadd (vscale a u) (vscale c v)) u + - c * dot u v); [unfold normsq; clearbody u v a c; vunf; ring|]. rewrite E, Hr.
    transitivity (dot (vadd (vscale a' u) (vscale c' v)) u + - c' * dot u v); [rewrite Hr; ring|unfold normsq; clearbody u v a' c'; vunf; ring]. }
  assert (Dv : c * normsq v = c' * normsq v).
  { transitivity (dot (vadd (vscale a u) (vscale c v)) v + - a * dot u v); [unfold normsq; clearbody u v a c; vunf; ring|]. rewrite E, Hr.
    transitivity (dot (vadd (vscale a' u) (vscale c' v)) v + - a' * dot u v); [rewrite Hr; ring|unfold normsq; clearbody u v a' c'; vunf; ring]. }
  rewrite <- norm_sq in Du, Dv.
  assert (0 < norm u * norm u) by (apply Rmult_lt_0_compat; lra). assert (0 < norm v * norm v) by (apply Rmult_lt_0_compat; lra).
  apply Rmult_eq_reg_r in Du; [|cbn; lra]. apply Rmult_eq_reg_r in Dv; [|cbn; lra]. unfold a, a', c, c' in *. clear H E.
  split; [apply (f_equal (fun q => q * norm u)) in Du; field_simplify in Du; lra|apply (f_equal (fun q => q * norm v)) in Dv; field_simplify in Dv; lra].
Qed.
Definition l_K (b : beam) (m : motion) (l : lab) : vec := vadd (b_wave_vector b) (rot_at m (l_t l) (l_G l)).
Definition l_src (p : polycrystal) (m : motion) (l : lab) : vec :=
  move_at m (l_t l) (nth (l_e l) (me_espherecentroids (pc_mesh_lab p)) vzero).
Definition l_vol (p : polycrystal) (l : lab) : R := nth (l_e l) (pc_volumes p) 0.
Lemma full24_cols z p b m l x : let r := full24 z p b m l ++ [x] in
  len r = 25%nat /\ ncol r 5 = Fin (l_sf l) /\ ncol r 6 = Fin (l_t l) /\
  row_nvec r 13 = nfin (l_K b m l) /\ row_nvec r 16 = nfin (l_src p m l) /\
  ncol r 19 = lorentz z (b_wave_vector b) (m_axis m) (l_K b m l) /\
  ncol r 20 = polarization (b_polarization b) (l_K b m l) /\ ncol r 21 = Fin (l_vol p l).
Proof.
  cbv zeta. unfold full24, full_row. cbv zeta. unfold lrow. rewrite rvec_row10. change (rcol (row10 (l_e l) (l_i l) (l_h l) (l_sf l) (l_t l) (l_G l)) 6) with (l_t l).
  unfold l_K. rewrite (vadd_comm (b_wave_vector b)). repeat split.
Qed.
Lemma full24_lit z p b m l : illuminated b (full24 z p b m l) = beam_contains (b_halfspaces b) (l_src p m l).
Proof. unfold full24, lrow. rewrite illuminated_full. reflexivity. Qed.
(** what a label becomes on the detector *)
Definition l_hit (z' : bool) (d : detector) (p : polycrystal) (b : beam) (m : motion) (l : lab) : num * num * num :=
  get_intersection z' d (nfin (l_K b m l)) (nfin (l_src p m l)).
Definition l_int (z : bool) (d : detector) (p : polycrystal) (b : beam) (m : motion) (l : lab) : num :=
  intensity d (full24 z p b m l ++ [Fin 0]).
Definition l_keep (z z' : bool) (d : detector) (p : polycrystal) (b : beam) (m : motion) (l : lab) : bool :=
  beam_contains (b_halfspaces b) (l_src p m l) &&
  (let '(zd, yd, _) := l_hit z' d p b m l in
   det_contains d zd yd && (is_finite (l_int z d p b m l) && nlt (Fin 0) (l_int z d p b m l))).
Definition l_seen (z z' : bool) (d : detector) (n : Z) (p : polycrystal) (b : beam) (m : motion) (l : lab) : seen :=
  let '(zd, yd, _) := l_hit z' d p b m l in
  Seen (l_e l) (l_j l) (l_t l) (Z.to_nat (frame_of n (Fin (l_t l)))) (fval zd) (fval yd) (fval (l_int z d p b m l)) (l_vol p l).
Lemma intensity_cols d r r' : ncol r 5 = ncol r' 5 -> ncol r 19 = ncol r' 19 -> ncol r 20 = ncol r' 20 -> intensity d r = intensity d r'.
Proof. intros H1 H2 H3. unfold intensity. now rewrite H1, H2, H3. Qed.

Lemma contribution z z' d n out p b m f i j l x : (1 <= n)%Z -> pd_columns out = column_names ++ new_columns ->
  (if keepb z' d n (full24 z p b m l ++ [x])
   then (if Reqb (read out (extend z' d n (full24 z p b m l ++ [x])) "frame") (INR f)
         then micro_spot d out (extend z' d n (full24 z p b m l ++ [x])) (Z.of_nat i) (Z.of_nat j) else 0) else 0) =
  (let '(zd, yd, _) := l_hit z' d p b m l in
   if det_contains d zd yd && (is_finite (l_int z d p b m l) && nlt (Fin 0) (l_int z d p b m l))
   then spot_at d f i j (l_seen z z' d n p b m l) else 0).
Proof.
  intros Hn Hc. destruct (full24_cols z p b m l x) as (C1 & C2 & C3 & C4 & C5 & C6 & C7 & C8). set (r := full24 z p b m l ++ [x]) in *.
  destruct (full24_cols z p b m l (Fin 0)) as (_ & D2 & _ & _ & _ & D6 & D7 & _).
  assert (EI : intensity d r = l_int z d p b m l) by (unfold l_int; apply intensity_cols; congruence).
  unfold l_seen. destruct (l_hit z' d p b m l) as [[zd yd] a] eqn:EH. unfold l_hit in EH. rewrite <- C4, <- C5 in EH.
  rewrite (keepb_fresh z' d n r zd yd a C1 EH), EI. destruct (det_contains d zd yd && _) eqn:EK; [|reflexivity].
  rewrite extend_eq by lia. rewrite EH, C3, EI.
  set (r' := r ++ [zd; yd; a; Fin (IZR (frame_of n (Fin (l_t l)))); l_int z d p b m l]).
  assert (L : len r' = 30%nat) by (unfold r'; rewrite app_length, C1; reflexivity).
  assert (RD : forall s k, index_of s (pd_columns out) = Some k -> (k < 30)%nat -> read out r' s = fcol r' k) by (intros; apply read_col; auto; lia).
  unfold micro_spot, strength. rewrite (RD "frame"%string 28%nat), (RD "zd"%string 25%nat), (RD "yd"%string 26%nat), (RD "intensity_factors"%string 29%nat), (RD "volumes"%string 21%nat)
    by (try (rewrite Hc; reflexivity); lia).
  unfold fcol, r'. rewrite !ncol_app_r by lia. rewrite C1. rewrite ncol_app_l by lia. rewrite C8. cbn [Nat.sub ncol nth fval].
  unfold spot_at. cbn [sn_frame sn_zd sn_yd sn_intensity sn_volume].
  pose proof (frame_of_range n (Fin (l_t l)) Hn) as Hf.
  replace (IZR (frame_of n (Fin (l_t l)))) with (INR (Z.to_nat (frame_of n (Fin (l_t l))))) by (rewrite INR_IZR_INZ, Z2Nat.id by lia; reflexivity).
  rewrite INR_eqb. rewrite Nat.eqb_sym. reflexivity.
Qed.

(** ** Labels and recorded spots *)
Lemma in_phase_fun p e i i' : in_phase p e i -> in_phase p e i' -> i = i'.
Proof. unfold in_phase. intros H H'. rewrite H in H'. assert (INR i = INR i') by congruence. now apply INR_eq. Qed.
Lemma lab_unique p b m l l' : lab_event p b m l -> lab_event p b m l' -> l_e l = l_e l' -> l_j l = l_j l' -> l_t l = l_t l' -> l = l'.
Proof.
  intros (ph & A1 & (A2 & A3 & A4 & U & B & A5 & A6 & A7) & _) (ph' & B1 & (B2 & B3 & B4 & U' & B' & B5 & B6 & B7) & _) He Hj Ht.
  rewrite <- He in *. rewrite <- Hj in *. pose proof (in_phase_fun _ _ _ _ A2 B2) as Hi. rewrite <- Hi in *.
  assert (ph' = ph) by congruence. subst ph'.
  assert (l_h l = l_h l') as Hh.
  { destruct A3 as (hk & X1 & X2 & _). destruct B3 as (hk' & Y1 & Y2 & _). congruence. }
  assert (U' = U) by congruence. assert (B' = B) by congruence. subst U' B'.
  assert (l_sf l = l_sf l') by congruence. assert (l_G l = l_G l') by congruence. destruct l, l'; cbn in *; congruence.
Qed.
Lemma sfval_spec p e j i ph h : in_phase p e i -> nth_error (pc_phases p) i = Some ph -> plane_at ph j h ->
  squared_factor p e j (sfval ph j) /\ (forall sf, squared_factor p e j sf -> sf = sfval ph j).
Proof.
  intros He Hi (hkl & E1 & E2 & E3). unfold sfval. split.
  - exists i, ph. split; auto. split; auto. destruct (ph_sf ph) as [s|]; auto. destruct E3 as (re & im & E3 & _). rewrite E3. exists re, im. auto.
  - intros sf (i' & ph' & He' & Hi' & H). pose proof (in_phase_fun _ _ _ _ He He'). subst i'. assert (ph' = ph) by congruence. subst ph'.
    destruct (ph_sf ph) as [s|]; auto. destruct H as (re & im & H & ->). rewrite H. reflexivity.
Qed.
Lemma lab_diffracts p b a w T o m : make_motion a w T o = Ok m -> unit a -> forall l, lab_event p b m l ->
  diffracts_at p b a m (l_e l) (l_j l) (l_t l) (rot_at m (l_t l) (l_G l)).
Proof.
  intros Hm U l (ph & A1 & (A2 & A3 & A4 & A5) & A6). apply (diffracts_solves p b a w T o m); auto. exists (l_G l). split; [|auto].
  apply reflections_in. exists (l_i l), ph, (l_h l). auto.
Qed.
Lemma diffracts_lab p b a w T o m e j t G : make_motion a w T o = Ok m -> unit a -> diffracts_at p b a m e j t G ->
  exists l, lab_event p b m l /\ l_e l = e /\ l_j l = j /\ l_t l = t /\ rot_at m t (l_G l) = G.
Proof.
  intros Hm U H. destruct H as (i & ph & h & G0 & A1 & A2 & A3 & A4 & A5 & A6 & A7 & A8).
  rewrite rotate_P1_S0 in A6. apply okP1_inj in A6. exists (Lab i e j h (sfval ph j) t G0). cbn [l_e l_j l_t l_G]. split; [|auto].
  exists ph. cbn [l_i l_t l_G]. split; auto. split; [unfold lab_ok; cbn [l_i l_e l_j l_h l_sf l_G]; auto|].
  apply (solves_iff _ a w T o m); auto. subst G. auto.
Qed.
Lemma l_int_iff z d p b m l i : l_int z d p b m l = Fin i <-> exists A P L, corrected (d_structure d) (Fin (l_sf l)) A /\
  corrected (d_polarization d) (polarization (b_polarization b) (l_K b m l)) P /\
  corrected (d_lorentz d) (lorentz z (b_wave_vector b) (m_axis m) (l_K b m l)) L /\ i = A * P * L.
Proof.
  destruct (full24_cols z p b m l (Fin 0)) as (C1 & C2 & _ & _ & _ & C6 & C7 & _). unfold l_int. set (r := full24 z p b m l ++ [Fin 0]) in *.
  set (pd := PD [] column_names vzero 0 vzero (pc_mesh_lab p) m b).
  rewrite <- (intensity_iff d pd r i); [|now left|lia]. unfold intensity_is, factor, corrected.
  assert (E : forall x, (has pd r "structure_factors" x <-> Fin (l_sf l) = Fin x) /\
     (has pd r "polarization_factors" x <-> polarization (b_polarization b) (l_K b m l) = Fin x) /\
     (has pd r "lorentz_factors" x <-> lorentz z (b_wave_vector b) (m_axis m) (l_K b m l) = Fin x)).
  { intros x. rewrite <- C2, <- C6, <- C7. split; [|split]; [apply (has_ncol pd r _ 5)|apply (has_ncol pd r _ 20)|apply (has_ncol pd r _ 19)];
      try lia; reflexivity. }
  split; intros (A & P & L & H1 & H2 & H3 & H4); exists A, P, L.
  - split; [destruct (d_structure d); [now apply E|auto]|]. split; [destruct (d_polarization d); [now apply E|auto]|]. split; [destruct (d_lorentz d); [now apply E|auto]|auto].
  - split; [destruct (d_structure d); [now apply E|auto]|]. split; [destruct (d_polarization d); [now apply E|auto]|]. split; [destruct (d_lorentz d); [now apply E|auto]|auto].
Qed.
Lemma m_axis_of a w T o m : make_motion a w T o = Ok m -> m_axis m = a.
Proof. intros H. apply make_motion_ok_iff in H as (_ & _ & ->). reflexivity. Qed.
Lemma keep_recorded x z z' d n p b a w T o m l : make_motion a w T o = Ok m -> unit a -> (1 <= n)%Z -> built d -> rectangular (d_c0 d) (d_c1 d) (d_c2 d) ->
  wf x p -> lab_event p b m l -> l_keep z z' d p b m l = true -> recorded z p b a m d n (l_seen z z' d n p b m l).
Proof.
  intros Hm U Hn Hb Hr W He Hk. unfold l_keep in Hk. apply andb_true_iff in Hk as [Hlit Hk]. unfold l_seen.
  destruct (l_hit z' d p b m l) as [[zd yd] ang] eqn:EH. apply andb_true_iff in Hk as [Hc Hi]. apply andb_true_iff in Hi as [Hi1 Hi2].
  destruct (l_int z d p b m l) as [i| | |] eqn:EI; try discriminate. cbn [nlt] in Hi2. apply Rltb_true in Hi2.
  pose proof (proj1 (l_int_iff _ _ _ _ _ _ _) EI) as (A & P & L & H1 & H2 & H3 & H4). rewrite (m_axis_of _ _ _ _ _ Hm) in H3.
  destruct W as (W1 & W2 & W3 & W4 & W5 & W6). pose proof He as (ph & E1 & (E2 & E3 & E4 & E5) & E6).
  assert (Hlt : (l_e l < len (pc_volumes p))%nat) by (apply (W5 (l_e l) (l_i l)); auto; eapply nth_error_lt'; eauto).
  unfold l_hit in EH. apply (hit_iff z' d _ _ _ _ _ Hb Hr EH) in Hc as (v & s & q & Hv & Hs & Hh). apply nfin_inj in Hv. apply nfin_inj in Hs. subst v s.
  destruct (hit_coords _ _ _ _ _ _ _ _ Hb Hr Hh EH) as (zv & yv & -> & -> & Hq). subst q. cbn [fval].
  exists (rot_at m (l_t l) (l_G l)), (l_src p m l), (l_sf l), A, P, L. cbn [sn_element sn_plane sn_time sn_frame sn_zd sn_yd sn_intensity sn_volume].
  split; [apply (lab_diffracts p b a w T o m Hm U l He)|]. split.
  { exists (nth (l_e l) (me_espherecentroids (pc_mesh_lab p)) vzero). split; [apply nth_error_nth'; lia|]. split; [apply call_P1_S0|]. now apply contains_iff. }
  split; [unfold l_vol; apply nth_error_nth'; lia|].
  split; [rewrite E4; apply (sfval_spec p (l_e l) (l_j l) (l_i l) ph (l_h l)); auto|].
  split; [exact Hh|]. split.
  { pose proof (frame_of_range n (Fin (l_t l)) Hn). rewrite Z2Nat.id by lia. apply pC31_frame_is_time_bin; auto. apply E6. }
  split; auto.
Qed.
Lemma recorded_lab x z z' d n p b a w T o m s : make_motion a w T o = Ok m -> unit a -> (1 <= n)%Z -> built d -> rectangular (d_c0 d) (d_c1 d) (d_c2 d) ->
  wf x p -> recorded z p b a m d n s -> exists l, lab_event p b m l /\ l_keep z z' d p b m l = true /\ l_seen z z' d n p b m l = s.
Proof.
  intros Hm U Hn Hb Hr W (G & src & sf & A & P & L & H1 & H2 & H3 & H4 & H5 & H6 & H7 & H8 & H9 & H10 & H11).
  destruct (diffracts_lab _ _ _ _ _ _ _ _ _ _ _ Hm U H1) as (l & El & Ee & Ej & Et & EG). exists l. split; auto.
  pose proof El as (ph & E1 & (E2 & E3 & E4 & E5) & E6). rewrite Ee, Ej in *.
  destruct (sfval_spec p (sn_element s) (sn_plane s) (l_i l) ph (l_h l) E2 E1 E3) as (_ & Hsf). apply Hsf in H4. rewrite <- E4 in H4.
  destruct H2 as (c & Hc & Hs & Hin). rewrite call_P1_S0 in Hs. apply okP1_inj in Hs.
  assert (Es : l_src p m l = src) by (unfold l_src; rewrite Ee, (nth_error_nth _ _ _ Hc), Et; exact Hs).
  assert (EK : l_K b m l = vadd (b_wave_vector b) G) by (unfold l_K; now rewrite Et, EG).
  assert (EI : l_int z d p b m l = Fin (sn_intensity s)).
  { apply l_int_iff. rewrite EK, (m_axis_of _ _ _ _ _ Hm), <- H4. exists A, P, L. auto. }
  assert (EV : l_vol p l = sn_volume s) by (unfold l_vol; rewrite Ee; now apply nth_error_nth).
  assert (EF : Z.to_nat (frame_of n (Fin (l_t l))) = sn_frame s).
  { assert (HB : in_bin n (sn_time s) (frame_of n (Fin (sn_time s)))) by (apply pC31_frame_is_time_bin; auto; rewrite <- Et; apply E6).
    rewrite Et. rewrite (pC31_bin_unique _ _ _ _ HB H6). apply Nat2Z.id. }
  destruct (l_hit z' d p b m l) as [[zd yd] ang] eqn:EH. pose proof EH as EH'. unfold l_hit in EH'. rewrite EK, Es in EH'.
  destruct (hit_coords _ _ _ _ _ _ _ _ Hb Hr H5 EH') as (zv & yv & -> & -> & Hq).
  assert (HN : N_of d <> vzero) by (apply (N_nonzero d (vadd (b_wave_vector b) G)); apply H5).
  apply surface_point_inj in Hq as [Hz Hy]; auto. subst zv yv.
  assert (Hdc : det_contains d (Fin (sn_zd s)) (Fin (sn_yd s)) = true).
  { apply (hit_iff z' d _ _ _ _ _ Hb Hr EH'). eauto 6. }
  split.
  - unfold l_keep. rewrite EH, Es, EI, Hdc. cbn [is_finite nlt]. rewrite !andb_true_l, andb_true_iff. split; [now apply contains_iff|now apply Rltb_true].
  - unfold l_seen. rewrite EH, EI, EV, EF, Ee, Ej, Et. cbn [fval]. destruct s; reflexivity.
Qed.

(** ** The picture *)
Lemma nframes_max frames : nframes frames = Z.max 1 frames.
Proof. unfold nframes. destruct (Z.ltb_spec frames 1); lia. Qed.
Lemma volumes_ok_diffract z x p b m lo hi det pd p' : reachable_pc x p -> diffract z x p b m lo hi det = (Ok pd, p') -> volumes_ok pd.
Proof.
  intros HR HD r Hr. destruct (pC10_peak_contents _ _ _ _ _ _ _ _ _ _ _ HD Hr) as (e & i & ph & h & sf & t & G0 & G & c & s & v & A).
  decompose [and] A. exists v. split; auto. pose proof (pc_volumes_nonneg _ _ HR) as F. rewrite Forall_forall in F. apply F. eapply nth_error_In; eauto.
Qed.
(** C84. Every pixel of every frame of the rendered image is the sum, over all reflections of the sample that meet the
    Laue condition while lit and whose ray hits the detector with positive intensity, of the Gaussian spot of that
    reflection: each reflection exactly once, a grazing one twice. *)
Lemma pC84_image_is_sum_of_reflections : forall e z q b a w T o m x p lo hi det pd p' d frames ml mi im out,
  reachable_beam q b -> make_motion a w T o = Ok m -> unit a -> reachable_pc x p ->
  built d -> rectangular (d_c0 d) (d_c1 d) (d_c2 d) ->
  diffract z x p b m lo hi det = (Ok pd, p') -> render e d pd frames "micro" ml mi = Ok (im, out) ->
  exists all twice : list seen,
    NoDup all /\ (forall s, In s all <-> recorded z p' b a m d (Z.max 1 frames) s) /\
    NoDup twice /\ (forall s, In s twice <-> recorded z p' b a m d (Z.max 1 frames) s /\ grazes p' b a m s) /\
    forall f i j, in_image im f i j -> f_at im f i j = Fin (sum_list (map (spot_at d f i j) (all ++ twice))).
Proof.
  intros e z q b a w T o m x p lo hi det pd p' d frames ml mi im out HB Hm U HR Hb Hr HD HI.
  assert (Hf : fresh pd) by (apply (pC32_diffract_tables_fresh z x p b m lo hi det); now rewrite HD).
  pose proof (volumes_ok_diffract _ _ _ _ _ _ _ _ _ _ HR HD) as Hv.
  assert (HR' : reachable_pc x p') by (pose proof (rpc_diffract x z p b m lo hi det HR) as X; rewrite HD in X; exact X).
  pose proof (wf_reachable _ _ HR') as W.
  destruct (diffract_labels _ _ _ _ _ _ _ _ _ _ _ _ _ _ Hm U HD) as (all & graz & rows & Ep & Pm & NA & NG & IA & IG).
  set (n := nframes frames). assert (Hn : (1 <= n)%Z) by apply nframes_ge. rewrite <- nframes_max. fold n.
  set (K := l_keep z (re_z e) d p' b m). set (S := l_seen z (re_z e) d n p' b m).
  assert (KEY : forall l, sn_element (S l) = l_e l /\ sn_plane (S l) = l_j l /\ sn_time (S l) = l_t l).
  { intros l. unfold S, l_seen. destruct (l_hit _ _ _ _ _ _) as [[? ?] ?]. cbn. auto. }
  assert (INJ : forall l l', lab_event p' b m l -> lab_event p' b m l' -> S l = S l' -> l = l').
  { intros l l' H1 H2 E. destruct (KEY l) as (A1 & A2 & A3). destruct (KEY l') as (B1 & B2 & B3).
    apply (lab_unique p' b m); auto; congruence. }
  exists (map S (filter K all)), (map S (filter K graz)).
  split. { apply (nodup_key S (fun l => l)); [rewrite map_id; now apply NoDup_filter|]. intros l l' H1 H2. apply filter_In in H1 as [H1 _]. apply filter_In in H2 as [H2 _]. apply IA in H1. apply IA in H2. now apply INJ. }
  split.
  { intros s. rewrite in_map_iff. split.
    - intros (l & <- & Hl). apply filter_In in Hl as [Hl Hk]. apply IA in Hl. apply (keep_recorded x z (re_z e) d n p' b a w T o m l); auto.
    - intros Hs. destruct (recorded_lab x z (re_z e) d n p' b a w T o m s Hm U Hn Hb Hr W Hs) as (l & H1 & H2 & H3). exists l. split; auto. apply filter_In. split; [now apply IA|auto]. }
  split. { apply (nodup_key S (fun l => l)); [rewrite map_id; now apply NoDup_filter|]. intros l l' H1 H2. apply filter_In in H1 as [H1 _]. apply filter_In in H2 as [H2 _]. apply IG in H1 as [H1 _]. apply IG in H2 as [H2 _]. now apply INJ. }
  split.
  { intros s. rewrite in_map_iff. split.
    - intros (l & <- & Hl). apply filter_In in Hl as [Hl Hk]. apply IG in Hl as [Hl Hg]. split; [apply (keep_recorded x z (re_z e) d n p' b a w T o m l); auto|].
      destruct (KEY l) as (A1 & A2 & A3). unfold grazes. rewrite A1, A2, A3. eexists. split; [apply (lab_diffracts p' b a w T o m Hm U l Hl)|exact Hg].
    - intros [Hs (G & Hd & Hg)]. destruct (recorded_lab x z (re_z e) d n p' b a w T o m s Hm U Hn Hb Hr W Hs) as (l & H1 & H2 & H3). exists l. split; auto. apply filter_In. split; [|auto].
      apply IG. split; auto. destruct (KEY l) as (A1 & A2 & A3). fold S in H3. rewrite H3 in A1, A2, A3.
      destruct (diffracts_lab _ _ _ _ _ _ _ _ _ _ _ Hm U Hd) as (l' & El & Ee & Ej & Et & EG).
      assert (l' = l) by (apply (lab_unique p' b m); auto; congruence). subst l'. rewrite <- A3, EG. exact Hg. }
  intros f i j Hij. rewrite (pC39_pixel_is_sum_of_spots _ _ _ _ _ _ _ _ _ _ _ Hf Hv HI Hij). f_equal.
  apply micro_inv in HI as [Ho _]. fold n in Ho. pose proof (out_columns _ _ _ _ _ Hf Ho) as Hc. apply project_inv in Ho as (Hp & _).
  unfold rows_in_frame. rewrite sum_filter, Hp, map_map, sum_filter, Ep.
  rewrite <- map_app, <- filter_app. rewrite map_map, sum_filter.
  set (F := fun r => if keepb (re_z e) d n r then
     (if Reqb (read out (extend (re_z e) d n r) "frame") (INR f) then micro_spot d out (extend (re_z e) d n r) (Z.of_nat i) (Z.of_nat j) else 0) else 0).
  transitivity (sum_list (map (fun r => F (r ++ [Fin 0])) (filter (illuminated b) rows))).
  { apply (sum_mapi (fun k r => r ++ [Fin (INR k)]) F (fun r => F (r ++ [Fin 0]))). intros k r Hin. apply filter_In in Hin as [Hin _].
    apply (Permutation_in _ Pm) in Hin. apply in_map_iff in Hin as (l & <- & _). unfold F. rewrite !contribution by auto. reflexivity. }
  rewrite sum_filter. rewrite (sum_perm _ _ _ Pm), map_map. f_equal. apply map_ext. intros l. rewrite full24_lit. unfold F. rewrite contribution by auto.
  unfold K, l_keep. destruct (beam_contains _ _); cbn [andb]; [|reflexivity]. fold S. destruct (l_hit _ _ _ _ _ _) as [[zd yd] ang]. reflexivity.
Qed.
(** No light without a cause: a non-zero pixel is within the kernel radius (plus half a pixel) of the spot of a
    reflection that belongs to that frame. *)
Lemma pC84_light_has_a_cause : forall e z q b a w T o m x p lo hi det pd p' d frames ml mi im out f i j,
  reachable_beam q b -> make_motion a w T o = Ok m -> unit a -> reachable_pc x p ->
  built d -> rectangular (d_c0 d) (d_c1 d) (d_c2 d) ->
  diffract z x p b m lo hi det = (Ok pd, p') -> render e d pd frames "micro" ml mi = Ok (im, out) ->
  in_image im f i j -> f_at im f i j <> Fin 0 ->
  exists s, recorded z p' b a m d (Z.max 1 frames) s /\ sn_frame s = f /\
    Rabs (INR i - sn_zd s / d_pz d) <= IZR (micro_radius d) + 1/2 /\ Rabs (INR j - sn_yd s / d_py d) <= IZR (micro_radius d) + 1/2.
Proof.
  intros e z q b a w T o m x p lo hi det pd p' d frames ml mi im out f i j HB Hm U HR Hb Hr HD HI Hij Hne.
  destruct (pC84_image_is_sum_of_reflections _ _ _ _ _ _ _ _ _ _ _ _ _ _ _ _ _ _ _ _ _ _ HB Hm U HR Hb Hr HD HI) as (all & tw & _ & IA & _ & IT & HS).
  rewrite (HS f i j Hij) in Hne.
  assert (E : exists s, In s (all ++ tw) /\ spot_at d f i j s <> 0).
  { clear - Hne. induction (all ++ tw) as [|s l IH]; [exfalso; apply Hne; reflexivity|]. destruct (Req_EM_T (spot_at d f i j s) 0) as [Z|Z].
    - destruct IH as (s' & H1 & H2). { intros C. apply Hne. cbn [map]. rewrite sum_list_cons, Z, Rplus_0_l. exact C. } exists s'. split; auto. now right.
    - exists s. split; auto. now left. }
  destruct E as (s & Hin & Hs). exists s.
  assert (Hrec : recorded z p' b a m d (Z.max 1 frames) s) by (apply in_app_or in Hin as [H|H]; [now apply IA|now apply IT]).
  split; auto. unfold spot_at in Hs. destruct (Nat.eqb_spec (sn_frame s) f) as [E|E]; [|contradiction]. split; auto.
  apply spot_local in Hs. rewrite <- !INR_IZR_INZ in Hs. tauto.
Qed.
(** Nothing is lost: every reflection that belongs to the picture shows with its full spot in its frame. *)
Lemma pC84_every_reflection_shows : forall e z q b a w T o m x p lo hi det pd p' d frames ml mi im out s i j,
  reachable_beam q b -> make_motion a w T o = Ok m -> unit a -> reachable_pc x p ->
  built d -> rectangular (d_c0 d) (d_c1 d) (d_c2 d) ->
  diffract z x p b m lo hi det = (Ok pd, p') -> render e d pd frames "micro" ml mi = Ok (im, out) ->
  recorded z p' b a m d (Z.max 1 frames) s -> in_image im (sn_frame s) i j ->
  exists v, f_at im (sn_frame s) i j = Fin v /\ spot_at d (sn_frame s) i j s <= v.
Proof.
  intros e z q b a w T o m x p lo hi det pd p' d frames ml mi im out s i j HB Hm U HR Hb Hr HD HI Hs Hij.
  destruct (pC84_image_is_sum_of_reflections _ _ _ _ _ _ _ _ _ _ _ _ _ _ _ _ _ _ _ _ _ _ HB Hm U HR Hb Hr HD HI) as (all & tw & _ & IA & _ & IT & HS).
  eexists. split; [apply HS; exact Hij|].
  assert (POS : forall s', In s' (all ++ tw) -> 0 <= spot_at d (sn_frame s) i j s').
  { intros s' Hin. assert (R' : recorded z p' b a m d (Z.max 1 frames) s') by (apply in_app_or in Hin as [H|H]; [now apply IA|now apply IT]).
    destruct R' as (G & src & sf & A & P & L & _ & _ & Hv & _ & _ & _ & _ & _ & _ & _ & Hi).
    assert (HR' : reachable_pc x p') by (pose proof (rpc_diffract x z p b m lo hi det HR) as X; rewrite HD in X; exact X).
    pose proof (pc_volumes_nonneg _ _ HR') as F. rewrite Forall_forall in F. specialize (F _ (nth_error_In _ _ Hv)).
    unfold spot_at. destruct (Nat.eqb _ _); [|lra]. apply spot_nonneg. apply Rmult_le_pos; lra. }
  assert (Hin : In s (all ++ tw)) by (apply in_or_app; left; now apply IA). revert POS Hin. generalize (all ++ tw). clear. intros l POS Hin.
  assert (GE : 0 <= sum_list (map (spot_at d (sn_frame s) i j) l)) by
    (clear Hin; induction l as [|y l IH]; cbn [map]; [rewrite sum_list_nil; lra|rewrite sum_list_cons; assert (0 <= spot_at d (sn_frame s) i j y) by (apply POS; now left);
     assert (0 <= sum_list (map (spot_at d (sn_frame s) i j) l)) by (apply IH; intros; apply POS; now right); lra]).
  induction l as [|y l IH]; [destruct Hin|]. cbn [map]. rewrite sum_list_cons. destruct Hin as [->|Hin].
  - assert (0 <= sum_list (map (spot_at d (sn_frame s) i j) l)); [|lra].
    clear GE IH. assert (POS' : forall s', In s' l -> 0 <= spot_at d (sn_frame s) i j s') by (intros; apply POS; now right). clear POS.
    induction l as [|y l IH]; cbn [map]; [rewrite sum_list_nil; lra|rewrite sum_list_cons]. assert (0 <= spot_at d (sn_frame s) i j y) by (apply POS'; now left).
    assert (0 <= sum_list (map (spot_at d (sn_frame s) i j) l)) by (apply IH; intros; apply POS'; now right). lra.
  - assert (0 <= spot_at d (sn_frame s) i j y) by (apply POS; now left).
    assert (POS' : forall s', In s' l -> 0 <= spot_at d (sn_frame s) i j s') by (intros; apply POS; now right).
    enough (spot_at d (sn_frame s) i j s <= sum_list (map (spot_at d (sn_frame s) i j) l)) by lra. apply IH; auto.
    clear - POS'. induction l as [|y l IH]; cbn [map]; [rewrite sum_list_nil; lra|rewrite sum_list_cons]. assert (0 <= spot_at d (sn_frame s) i j y) by (apply POS'; now left).
    assert (0 <= sum_list (map (spot_at d (sn_frame s) i j) l)) by (apply IH; intros; apply POS'; now right). lra.
Qed.
(** A one-crystal sample whose reflection leaves along +y and hits a detector in the plane y = 10. *)
Lemma side_detector : exists d, built d /\ d_c0 d = V3 0 10 0 /\ d_c1 d = V3 10 10 0 /\ d_c2 d = V3 0 10 10 /\
  d_structure d = true /\ d_polarization d = false /\ d_lorentz d = false.
Proof.
  assert (D1 : norm (vsub (V3 0 10 10) (V3 0 10 0)) = 10) by (apply norm_sqrt_eq; vunf; [lra|ring]).
  assert (D2 : norm (vsub (V3 10 10 0) (V3 0 10 0)) = 10) by (apply norm_sqrt_eq; vunf; [lra|ring]).
  assert (A : arange_len 10 1 = Ok 10%nat).
  { unfold arange_len. destruct (Req_EM_T 1 0); [lra|]. replace (Rltb 1 0) with false by (symmetry; apply Rltb_false; lra).
    cbn [andb]. f_equal. rewrite (ceil_eq (10 / 1) 10); [reflexivity|]. lra. }
  assert (M : exists d, make_detector (V3 0 10 0) (V3 10 10 0) (V3 0 10 10) None (Some (Single 1)) 1 (1/10) 5 false false true = Ok d /\
    d_c0 d = V3 0 10 0 /\ d_c1 d = V3 10 10 0 /\ d_c2 d = V3 0 10 10 /\ d_structure d = true /\ d_polarization d = false /\ d_lorentz d = false).
  { unfold make_detector. cbv zeta. rewrite D1, D2. cbn [pixel_sizes bind first_of second_of fst snd]. rewrite A. cbn [bind].
    eexists. split; [reflexivity|]. cbn. repeat split. }
  destruct M as (d & Hd & H). exists d. split; [|exact H]. do 11 eexists. exact Hd.
Qed.
Lemma xC84_experiment : exists e z q b a w T o m x p lo hi det pd p' d frames im out s,
  reachable_beam q b /\ make_motion a w T o = Ok m /\ unit a /\ reachable_pc x p /\
  built d /\ rectangular (d_c0 d) (d_c1 d) (d_c2 d) /\
  diffract z x p b m lo hi det = (Ok pd, p') /\ render e d pd frames "micro" None 1 = Ok (im, out) /\
  recorded z p' b a m d (Z.max 1 frames) s.
Proof.
  destruct big_beam as (b & Hb & Hk & Hin). destruct (ex_pc two_planes) as (me & p & H1 & H2 & H3 & H4 & H5 & H6 & H7 & H8 & H9 & H10).
  pose proof (ex_outcome two_planes me p b Hk H3 H4 H5 H6 H7 H8) as O.
  pose proof (ex_after two_planes p b ex_motion 0 1 H5) as EA.
  destruct (diffract false (ex_xtal two_planes) p b ex_motion 0 1 None) as [r p'] eqn:D. destruct O as (_ & O & Oph).
  destruct O as (pd & ->). { cbn [map two_planes list_sum fold_right]. now rewrite refl_pos, refl_neg. }
  cbn [snd] in EA.
  destruct side_detector as (d & Bd & C0 & C1 & C2 & F1 & F2 & F3).
  set (e := REnv false 1 1 (fun _ => 0) (fun _ => []) big_qhull (fun _ => None) (fun _ => Err ValueError) (fun _ _ => Err ValueError) (fun _ _ _ => [])).
  assert (Hf : fresh pd) by (apply (pC32_diffract_tables_fresh false (ex_xtal two_planes) p b ex_motion 0 1 None); now rewrite D).
  destruct (pC39_micro_never_fails e d pd 1%Z None 1 Hf) as (im & out & HI).
  assert (V : exists v, nth_error (pc_volumes p) 0 = Some v).
  { destruct (wf_reachable _ _ H3) as (L1 & _). rewrite H6 in L1. destruct (pc_volumes p) as [|v l]; [discriminate|]. exists v. reflexivity. }
  destruct V as (v & Hv).
  exists e, false, big_qhull, b, (V3 0 0 1), 1, (V3 0 0 1), vzero, ex_motion, (ex_xtal two_planes), p, 0, 1, None, pd, p', d, 1%Z, im, out,
    (Seen 0 0 0 0 (9/4) 7 1 v).
  split; auto. split; [apply ex_motion_ok|]. split; [apply unit_ez|]. split; auto. split; auto.
  split; [rewrite C0, C1, C2; unfold rectangular; vunf; lra|]. split; auto. split; auto.
  exists (V3 (-1) 1 0), (V3 7 1 (9/4)), 1, 1, 1, 1. cbn [sn_element sn_plane sn_time sn_frame sn_zd sn_yd sn_intensity sn_volume].
  set (ph := setup_planes (ex_xtal two_planes) ex_phase (b_wavelength b) 0 1) in *.
  assert (A0 : in_phase p' 0 0) by (subst p'; unfold in_phase; cbn [pc_map]; now rewrite H4).
  split.
  { exists 0%nat, ph, (V3 (-1) 1 0), (V3 (-1) 1 0). split; auto. split; auto. split; [exists two_planes; repeat split|].
    split; [subst p'; exists mI, mI; cbn [pc_U pc_eB]; rewrite H6, H7; repeat split; now rewrite !mv_I|]. split; [lra|].
    split; [rewrite rotate_P1_S0; do 2 f_equal; apply rot_at_0|].
    split; [unfold laue_condition; rewrite Hk; unfold norm; f_equal; vunf; lra|].
    unfold laue_condition. rewrite Hk, <- rod_spec by apply unit_ez. unfold rod_matrix, rod_K2, rod_K. rewrite sin_PI, cos_PI.
    unfold norm. intros E1. apply sqrt_inj in E1; [|apply normsq_nonneg|apply normsq_nonneg]. revert E1. vunf. lra. }
  split.
  { exists (V3 7 1 (9/4)). subst p'. cbn [pc_mesh_lab]. rewrite H8, H9. split; [reflexivity|].
    split; [rewrite call_P1_S0; do 2 f_equal; apply move_at_0|]. apply Hin; cbn [vx vy vz]; rewrite Rabs_right; lra. }
  split; [subst p'; exact Hv|].
  split; [exists 0%nat, ph; split; [exact A0|]; split; [auto|]; reflexivity|].
  split.
  { rewrite C0, C1, C2, Hk. unfold hits. split; [unfold plane_normal; vunf; lra|].
    assert (D1 : norm (vsub (V3 0 10 10) (V3 0 10 0)) = 10) by (apply norm_sqrt_eq; vunf; [lra|ring]).
    assert (D2 : norm (vsub (V3 10 10 0) (V3 0 10 0)) = 10) by (apply norm_sqrt_eq; vunf; [lra|ring]).
    split.
    - exists (9/40), (7/10). split; [lra|]. split; [lra|]. unfold surface_point, dist. rewrite D1, D2. vext; vunf; lra.
    - exists 9. split; [lra|]. unfold surface_point, dist, ray_at. rewrite D1, D2. vext; vunf; lra. }
  split; [split; [cbn; lia|]; split; [left; auto|]; cbn; lra|].
  rewrite F1, F2, F3. cbn [corrected]. split; auto. split; auto. split; auto. split; lra.
Qed.
