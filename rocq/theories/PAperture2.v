(** * What the illuminated region of the beam does (C95), continued: splitting the beam, pictures. *)
From Coq Require Import Permutation.
From Verif Require Import Vec Spec MMotion MLaue MMesh MScattering MStrain MBeam SBeam MPolycrystal SPolycrystal MDetector MClip MRender SRender SEnd SAperture.
From Verif Require Import PMotion PLaue PMesh PBeam PStrain PPolycrystal PPolycrystal2 PPolycrystal3 PDetector PDetector2 PDetector3 PRender PRender2 PRender3 PEvents PEnd PEnd2 PJoin PJoin2 PJoin3 PFrame4 PNumber4 PAperture.
From Verif Require Import SDetector.
Open Scope list_scope. Open Scope R_scope.
Local Notation len := List.length.

(** rows of a table and rows before numbering *)
Lemma table_rows pd b out r : pd_peaks pd = mapi (fun i r => r ++ [Fin (INR i)]) (filter (illuminated b) out) -> In r (pd_peaks pd) ->
  exists r0 k, r = r0 ++ [Fin (INR k)] /\ In r0 out /\ illuminated b r0 = true.
Proof.
  intros T Hr. rewrite T in Hr. apply In_nth_error in Hr as (k & Hk). rewrite mapi_nth_error in Hk.
  destruct (nth_error (filter _ out) k) as [r0|] eqn:E; [|discriminate]. cbn [option_map] in Hk. exists r0, k. apply nth_error_In, filter_In in E as [E1 E2].
  split; [congruence|]. auto.
Qed.
Lemma rows_table pd b out r0 : pd_peaks pd = mapi (fun i r => r ++ [Fin (INR i)]) (filter (illuminated b) out) -> In r0 out -> illuminated b r0 = true ->
  exists k, In (r0 ++ [Fin (INR k)]) (pd_peaks pd).
Proof.
  intros T H1 H2. assert (H : In r0 (filter (illuminated b) out)) by (apply filter_In; auto). apply In_nth_error in H as (k & Hk). exists k.
  rewrite T. apply (nth_error_In _ k). rewrite mapi_nth_error, Hk. reflexivity.
Qed.
Lemma row_points z p b m l : let r := full24 z p b m l in
  ncol r 16 = Fin (vx (l_src p m l)) /\ ncol r 17 = Fin (vy (l_src p m l)) /\ ncol r 18 = Fin (vz (l_src p m l)).
Proof.
  cbv zeta. unfold full24, full_row, l_src, lrow. cbv zeta.
  change (rcol (row10 (l_e l) (l_i l) (l_h l) (l_sf l) (l_t l) (l_G l)) 6) with (l_t l). generalize (move_at m (l_t l) (nth (l_e l) (me_espherecentroids (pc_mesh_lab p)) vzero)). intros [sx sy sz]. repeat split.
Qed.
Lemma lit_any z p b b' m l : illuminated b' (full24 z p b m l) = beam_contains (b_halfspaces b') (l_src p m l).
Proof. destruct (row_points z p b m l) as (E1 & E2 & E3). unfold illuminated. rewrite E1, E2, E3. now destruct (l_src p m l). Qed.
Lemma on_dec h r : {b : bool | forall s, ncol r 16 = Fin (vx s) -> ncol r 17 = Fin (vy s) -> ncol r 18 = Fin (vz s) -> (b = true <-> on_boundary_of h s)}.
Proof.
  exists (match ncol r 16, ncol r 17, ncol r 18 with Fin x, Fin y, Fin z_ => if Req_EM_T (hs_val h (V3 x y z_)) 0 then true else false | _, _, _ => false end).
  intros [x y z_] E1 E2 E3. rewrite E1, E2, E3. cbn [vx vy vz]. unfold on_boundary_of. fold (hs_val h (V3 x y z_)).
  destruct (Req_EM_T _ 0); split; auto; discriminate.
Qed.

Lemma all_calls z x p b m lo hi pd : fst (diffract z x p b m lo hi None) = Ok pd -> let q := setup_all x p b lo hi in
  exists out L, Permutation out (map (full24 z q b m) L) /\
  forall b2 pd2, same_xrays b b2 -> fst (diffract z x p b2 m lo hi None) = Ok pd2 ->
    diffract z x p b2 m lo hi None = (Ok pd2, q) /\ pd_columns pd2 = column_names /\ pd_peaks pd2 = mapi (fun i r => r ++ [Fin (INR i)]) (filter (illuminated b2) out).
Proof.
  intros H q. rewrite diffract_none in H. cbv zeta in H. fold q in H. cbn [fst] in H. destruct (compute_peaks z q (pc_phases q) b m) as [out|] eqn:E; cbn [bind] in H; [|discriminate].
  destruct (compute_labels _ _ _ _ _ E) as (L & P). exists out, L. split; [exact P|]. intros b2 pd2 X H2. rewrite diffract_none in H2 |- *. cbv zeta in H2 |- *.
  rewrite (setup_same _ _ _ _ _ _ X) in H2 |- *. fold q in H2 |- *. rewrite (compute_same _ _ _ _ _ _ X), E in H2 |- *. cbn [fst bind] in H2 |- *. rewrite H2. apply ok_inj in H2. subst pd2. repeat split.
Qed.
Lemma filter_and {A} (f g : A -> bool) l : filter f (filter g l) = filter (fun a => (f a && g a)%bool) l.
Proof. induction l as [|a l IH]; [reflexivity|]. cbn [filter]. destruct (g a); cbn [filter]; rewrite IH; destruct (f a); reflexivity. Qed.
Lemma xrays_refl b : same_xrays b b. Proof. repeat split. Qed.

(** C95. Cutting the beam in two by a plane: each row of the table is in exactly one of the two halves' tables, unless its source point
    lies exactly on the plane, when it is in neither. *)
Lemma pC95_cut_count : forall z x p b h m lo hi pd pd1 pd2,
  fst (diffract z x p b m lo hi None) = Ok pd -> fst (diffract z x p (cut h b) m lo hi None) = Ok pd1 ->
  fst (diffract z x p (cut (other_side h) b) m lo hi None) = Ok pd2 ->
  exists onp, (forall r, In r (pd_peaks pd) -> (onp r = true <-> exists s, source_of pd r s /\ on_boundary_of h s)) /\
    List.length (pd_peaks pd) = (List.length (pd_peaks pd1) + List.length (pd_peaks pd2) + List.length (filter onp (pd_peaks pd)))%nat.
Proof.
  intros z x p b h m lo hi pd pd1 pd2 D D1 D2.
  destruct (all_calls _ _ _ _ _ _ _ _ D) as (out & L & P & T). destruct (T b pd (xrays_refl b) D) as (_ & C & T0).
  destruct (T _ pd1 (cut_same h b) D1) as (_ & _ & T1). destruct (T _ pd2 (cut_same (other_side h) b) D2) as (_ & _ & T2). clear T.
  set (q := setup_all x p b lo hi) in *.
  set (on := fun r => proj1_sig (on_dec h r)).
  assert (ONr : forall r s, ncol r 16 = Fin (vx s) -> ncol r 17 = Fin (vy s) -> ncol r 18 = Fin (vz s) -> (on r = true <-> on_boundary_of h s)).
  { intros r. unfold on. destruct (on_dec h r). cbn [proj1_sig]. auto. }
  assert (LN : forall r, In r out -> exists l, r = full24 z q b m l).
  { intros r Hr. apply (Permutation_in _ P), in_map_iff in Hr as (l & <- & _). eauto. }
  exists on. split.
  - intros r Hr. destruct (table_rows _ _ _ _ T0 Hr) as (r0 & k & -> & Hin & _). destruct (LN _ Hin) as (l & ->).
    destruct (row_points z q b m l) as (R1 & R2 & R3). assert (L24 := full24_len z q b m l).
    assert (SR := source_row pd _ (Fin (INR k)) (l_src q m l) C L24). 
    assert (A : forall j y, (j < 24)%nat -> ncol (full24 z q b m l ++ [y]) j = ncol (full24 z q b m l) j) by (intros; unfold ncol; now rewrite app_nth1 by lia).
    split.
    + intros H. exists (l_src q m l). split; [apply SR; auto|]. revert H. apply (ONr _ (l_src q m l)); rewrite A by lia; auto.
    + intros (s & S & H). apply source_row in S as (S1 & S2 & S3); auto. revert H. apply ONr; rewrite A by lia; auto.
  - rewrite T1, T2, !mapi_length.
    replace (len (filter on (pd_peaks pd))) with (len (filter (fun r => (on r && illuminated b r)%bool) out)).
    2:{ rewrite T0. set (A := filter (illuminated b) out).
        assert (F := filter_mapi (fun i r => r ++ [Fin (INR i)]) on on A). 
        rewrite (Forall2_len _ _ _ (F ltac:(intros i r Hr; apply filter_In in Hr as [Hr _]; destruct (LN _ Hr) as (l & ->); apply Bool.eq_iff_eq_true;
          destruct (row_points z q b m l) as (R1 & R2 & R3); pose proof (full24_len z q b m l) as L24;
          transitivity (on_boundary_of h (l_src q m l)); [|symmetry]; apply (ONr _ (l_src q m l)); auto; unfold ncol in *; rewrite app_nth1 by lia; auto))).
        unfold A. now rewrite filter_and. }
    rewrite T0, mapi_length.
    rewrite (len_filter_split (illuminated b) (illuminated (cut h b)) (fun r => ((illuminated (cut (other_side h) b) r) || (on r && illuminated b r))%bool)).
    + rewrite (len_filter_split (fun r => ((illuminated (cut (other_side h) b) r) || (on r && illuminated b r))%bool) (illuminated (cut (other_side h) b)) (fun r => (on r && illuminated b r)%bool)); [lia|auto|].
      intros r Hr. destruct (LN _ Hr) as (l & ->). rewrite lit_any, cut_contains, other_val. destruct (row_points z q b m l) as (R1 & R2 & R3). specialize (ONr _ _ R1 R2 R3).
      destruct (on (full24 z q b m l)); [|cbn; now rewrite andb_false_r]. assert (H : hs_val h (l_src q m l) = 0) by (now apply ONr). rewrite H.
      destruct (Rltb (- 0) 0) eqn:EE; [apply Rltb_iff in EE; lra|reflexivity].
    + intros r Hr. destruct (LN _ Hr) as (l & ->). rewrite !lit_any, !cut_contains, other_val. destruct (row_points z q b m l) as (R1 & R2 & R3). specialize (ONr _ _ R1 R2 R3).
      destruct (beam_contains (b_halfspaces b) (l_src q m l)); rewrite ?andb_false_r, ?andb_true_r; [|reflexivity]. symmetry.
      destruct (Rltb (hs_val h (l_src q m l)) 0) eqn:E1; [reflexivity|]. destruct (Rltb (- hs_val h (l_src q m l)) 0) eqn:E2; [reflexivity|]. cbn [orb]. apply ONr.
      unfold on_boundary_of. fold (hs_val h (l_src q m l)). unfold Rltb in E1, E2. destruct (Rlt_dec _ _); [discriminate|]. destruct (Rlt_dec (- _) 0); [discriminate|]. lra.
    + intros r Hr. destruct (LN _ Hr) as (l & ->). rewrite !lit_any, !cut_contains, other_val. destruct (row_points z q b m l) as (R1 & R2 & R3). specialize (ONr _ _ R1 R2 R3).
      destruct (Rltb (hs_val h (l_src q m l)) 0) eqn:E1; [|reflexivity]. apply Rltb_iff in E1. destruct (Rltb (- hs_val h (l_src q m l)) 0) eqn:E2; [apply Rltb_iff in E2; lra|].
      destruct (on (full24 z q b m l)); [|cbn; now rewrite ?andb_false_r]. assert (H : hs_val h (l_src q m l) = 0) by (now apply ONr). lra.
Qed.

(** ** C95: pictures *)
Lemma l_spot_region z z' d n f i j p b b2 m l : same_xrays b b2 -> l_spot z z' d n f i j p b2 m l =
  (if beam_contains (b_halfspaces b2) (l_src p m l) then
     let '(zd, yd, _) := l_hit z' d p b m l in
     if (det_contains d zd yd && (is_finite (l_int z d p b m l) && nlt (Fin 0) (l_int z d p b m l)))%bool then spot_at d f i j (l_seen z z' d n p b m l) else 0 else 0).
Proof.
  intros X. assert (EI : l_int z d p b2 m l = l_int z d p b m l) by (unfold l_int; now rewrite (full24_same _ _ b b2)).
  assert (EH : l_hit z' d p b2 m l = l_hit z' d p b m l) by (destruct X as (E1 & E2 & E3); unfold l_hit, l_K; now rewrite E1).
  unfold l_spot, l_keep, l_seen. rewrite EI, EH. destruct (beam_contains _ _); cbn [andb]; [|reflexivity]. destruct (l_hit z' d p b m l) as [[zd yd] a]. reflexivity.
Qed.
(** C95. With the 'micro' method, a narrower beam never makes any pixel brighter. *)
Lemma pC95_picture_monotone : forall e z x p b b2 m lo hi pd pd2 d frames ml mi im out im2 out2,
  reachable_pc x p -> narrower b2 b ->
  fst (diffract z x p b m lo hi None) = Ok pd -> fst (diffract z x p b2 m lo hi None) = Ok pd2 ->
  render e d pd frames "micro" ml mi = Ok (im, out) -> render e d pd2 frames "micro" ml mi = Ok (im2, out2) ->
  has_shape im2 (f_n im) (f_h im) (f_w im) /\
  forall f i j, in_image im f i j -> exists v v2, f_at im f i j = Fin v /\ f_at im2 f i j = Fin v2 /\ v2 <= v.
Proof.
  intros e z x p b b2 m lo hi pd pd2 d frames ml mi im out im2 out2 HR (X & N) D D2 I I2.
  destruct (all_calls _ _ _ _ _ _ _ _ D) as (rows & L & P & T). destruct (T b pd (xrays_refl b) D) as (D' & _ & T1). destruct (T b2 pd2 X D2) as (D2' & _ & T2).
  set (q := setup_all x p b lo hi) in *.
  assert (P2 : Permutation rows (map (full24 z q b2 m) L)) by (rewrite P; erewrite map_ext; [reflexivity|]; intros; symmetry; now apply full24_same).
  pose proof (picture_labels _ _ _ _ _ _ _ _ _ _ _ _ _ _ _ _ _ _ _ HR D' I T1 P) as F1.
  pose proof (picture_labels _ _ _ _ _ _ _ _ _ _ _ _ _ _ _ _ _ _ _ HR D2' I2 T2 P2) as F2.
  destruct (pC36_shape _ _ _ _ _ _ _ _ _ I) as (S1 & S2 & S3). destruct (pC36_shape _ _ _ _ _ _ _ _ _ I2) as (S21 & S22 & S23).
  split; [repeat split; congruence|]. intros f i j H. assert (H2 : in_image im2 f i j) by (unfold in_image in *; rewrite S21, S22, S23; rewrite S1, S2, S3 in H; exact H).
  eexists. eexists. split; [apply F1; auto|]. split; [apply F2; auto|].
  assert (V : forall l, 0 <= l_vol q l).
  { intros l. unfold l_vol. change (pc_volumes q) with (pc_volumes p). pose proof (pc_volumes_nonneg _ _ HR) as HV. destruct (Nat.lt_ge_cases (l_e l) (len (pc_volumes p))) as [Hl|Hl].
    - rewrite Forall_forall in HV. apply HV. now apply nth_In.
    - rewrite nth_overflow by auto. lra. }
  clear - X N V. induction L as [|l L IH]; cbn [map]; rewrite ?sum_list_cons; [lra|]. apply Rplus_le_compat; [|exact IH].
  rewrite (l_spot_region _ _ _ _ _ _ _ _ b b2) by auto. rewrite (l_spot_region _ _ _ _ _ _ _ _ b b) by apply xrays_refl.
  destruct (l_hit _ _ _ _ _ l) as [[zd yd] a] eqn:EH.
  assert (G : 0 <= (if (det_contains d zd yd && (is_finite (l_int z d q b m l) && nlt (Fin 0) (l_int z d q b m l)))%bool then spot_at d f i j (l_seen z (re_z e) d (nframes frames) q b m l) else 0)).
  { destruct (det_contains d zd yd); cbn [andb]; [|lra]. destruct (l_int z d q b m l) as [v| | |] eqn:EI; cbn [is_finite andb nlt]; try lra. destruct (Rltb 0 v) eqn:Ev; [|lra].
    apply Rltb_iff in Ev. unfold spot_at, l_seen. rewrite EH, EI. cbn [sn_frame sn_zd sn_yd sn_intensity sn_volume fval]. destruct (Nat.eqb _ f); [|lra].
    apply spot_nonneg. apply Rmult_le_pos; [lra|auto]. }
  destruct (beam_contains (b_halfspaces b2) (l_src q m l)) eqn:E2.
  - apply contains_iff, N, contains_iff in E2. rewrite E2. lra.
  - cbv iota. destruct (beam_contains (b_halfspaces b) (l_src q m l)); [exact G|apply Rle_refl].
Qed.
(** C95. If every row of the table has its source in exactly one of two narrower beams, the 'micro' picture is the pixel-wise sum of the
    pictures taken with the two narrower beams. *)
Lemma pC95_picture_split : forall e z x p b b1 b2 m lo hi pd pd1 pd2 d frames ml mi im out im1 out1 im2 out2,
  reachable_pc x p -> narrower b1 b -> narrower b2 b ->
  fst (diffract z x p b m lo hi None) = Ok pd -> fst (diffract z x p b1 m lo hi None) = Ok pd1 -> fst (diffract z x p b2 m lo hi None) = Ok pd2 ->
  (forall r, In r (pd_peaks pd) -> (source_in pd b1 r /\ ~ source_in pd b2 r) \/ (source_in pd b2 r /\ ~ source_in pd b1 r)) ->
  render e d pd frames "micro" ml mi = Ok (im, out) -> render e d pd1 frames "micro" ml mi = Ok (im1, out1) -> render e d pd2 frames "micro" ml mi = Ok (im2, out2) ->
  same_image im (add3 im1 im2).
Proof.
  intros e z x p b b1 b2 m lo hi pd pd1 pd2 d frames ml mi im out im1 out1 im2 out2 HR (X1 & N1) (X2 & N2) D D1 D2 HS I I1 I2.
  destruct (all_calls _ _ _ _ _ _ _ _ D) as (rows & L & P & T). destruct (T b pd (xrays_refl b) D) as (D' & C & T0).
  destruct (T b1 pd1 X1 D1) as (D1' & _ & T1). destruct (T b2 pd2 X2 D2) as (D2' & _ & T2).
  set (q := setup_all x p b lo hi) in *.
  assert (P1 : Permutation rows (map (full24 z q b1 m) L)) by (rewrite P; erewrite map_ext; [reflexivity|]; intros; symmetry; now apply full24_same).
  assert (P2 : Permutation rows (map (full24 z q b2 m) L)) by (rewrite P; erewrite map_ext; [reflexivity|]; intros; symmetry; now apply full24_same).
  pose proof (picture_labels _ _ _ _ _ _ _ _ _ _ _ _ _ _ _ _ _ _ _ HR D' I T0 P) as F0.
  pose proof (picture_labels _ _ _ _ _ _ _ _ _ _ _ _ _ _ _ _ _ _ _ HR D1' I1 T1 P1) as F1.
  pose proof (picture_labels _ _ _ _ _ _ _ _ _ _ _ _ _ _ _ _ _ _ _ HR D2' I2 T2 P2) as F2.
  destruct (pC36_shape _ _ _ _ _ _ _ _ _ I) as (S1 & S2 & S3). destruct (pC36_shape _ _ _ _ _ _ _ _ _ I1) as (S11 & S12 & S13). destruct (pC36_shape _ _ _ _ _ _ _ _ _ I2) as (S21 & S22 & S23).
  split; [unfold add3; cbn [f_n f_h f_w]; repeat split; congruence|]. intros f i j H1. cbn [add3 f_at]. change (in_image im1 f i j) in H1.
  assert (H : in_image im f i j) by (unfold in_image in *; rewrite S1, S2, S3; rewrite S11, S12, S13 in H1; exact H1).
  assert (H2 : in_image im2 f i j) by (unfold in_image in *; rewrite S21, S22, S23; rewrite S11, S12, S13 in H1; exact H1).
  rewrite (F0 f i j H), (F1 f i j H1), (F2 f i j H2). unfold nadd. f_equal. clear F0 F1 F2.
  assert (K : forall l, In l L -> beam_contains (b_halfspaces b) (l_src q m l) = (beam_contains (b_halfspaces b1) (l_src q m l) || beam_contains (b_halfspaces b2) (l_src q m l))%bool /\
     (beam_contains (b_halfspaces b1) (l_src q m l) && beam_contains (b_halfspaces b2) (l_src q m l))%bool = false).
  { intros l Hl. assert (Hr : In (full24 z q b m l) rows) by (apply (Permutation_in _ (Permutation_sym P)); now apply in_map).
    destruct (beam_contains (b_halfspaces b) (l_src q m l)) eqn:Eb.
    - destruct (rows_table pd b rows _ T0 Hr ltac:(now rewrite lit_any)) as (k & Hk). specialize (HS _ Hk).
      rewrite <- !(lit_source pd _ (full24 z q b m l) (Fin (INR k)) C (full24_len z q b m l)), !lit_any in HS.
      destruct (beam_contains (b_halfspaces b1) (l_src q m l)), (beam_contains (b_halfspaces b2) (l_src q m l)); cbn; auto; exfalso; intuition.
    - destruct (beam_contains (b_halfspaces b1) (l_src q m l)) eqn:E1; [apply contains_iff, N1, contains_iff in E1; congruence|].
      destruct (beam_contains (b_halfspaces b2) (l_src q m l)) eqn:E2; [apply contains_iff, N2, contains_iff in E2; congruence|]. auto. }
  clear - K X1 X2. induction L as [|l L IH]; cbn [map]; rewrite ?sum_list_nil, ?sum_list_cons; [lra|]. rewrite IH by (intros; apply K; now right).
  destruct (K l (or_introl eq_refl)) as (K1 & K2). clear IH.
  rewrite (l_spot_region _ _ _ _ _ _ _ _ b b1), (l_spot_region _ _ _ _ _ _ _ _ b b2), (l_spot_region _ _ _ _ _ _ _ _ b b) by (auto; apply xrays_refl). rewrite K1.
  destruct (beam_contains (b_halfspaces b1) (l_src q m l)), (beam_contains (b_halfspaces b2) (l_src q m l)); cbn in K2 |- *; try discriminate; lra.
Qed.
(** C95. Changing the region of a beam through set_beam_vertices leaves its X-rays alone. *)
Lemma pC95_new_vertices : forall q b vs b2, set_beam_vertices q b vs = Ok b2 -> same_xrays b b2.
Proof.
  intros q b vs b2 H. unfold set_beam_vertices in H. destruct (beam_vertex_state q vs) as [[[v c] h]|]; cbn [bind] in H; [|discriminate]. apply ok_inj in H. subst b2. repeat split.
Qed.
(** C95. So two half-beams that share a face lose the rows whose source lies on that face: the sum of their tables can be short. *)
Lemma pC95_cut_in_two_refuted : exists z x p b h m lo hi pd pd1 pd2, reachable_pc x p /\
  fst (diffract z x p b m lo hi None) = Ok pd /\ fst (diffract z x p (cut h b) m lo hi None) = Ok pd1 /\
  fst (diffract z x p (cut (other_side h) b) m lo hi None) = Ok pd2 /\
  (List.length (pd_peaks pd1) + List.length (pd_peaks pd2) < List.length (pd_peaks pd))%nat.
Proof.
  destruct big_beam as (b & Hb & Hk & Hin). destruct (ex_pc two_planes) as (me & p & H1 & H2 & H3 & H4 & H5 & H6 & H7 & H8 & H9 & H10).
  pose proof (ex_outcome two_planes me p b Hk H3 H4 H5 H6 H7 H8) as O.
  destruct (diffract false (ex_xtal two_planes) p b ex_motion 0 1 None) as [r p'] eqn:D. destruct O as (_ & O & Oph).
  destruct O as (pd & ->). { cbn [map two_planes list_sum fold_right]. now rewrite refl_pos, refl_neg. }
  assert (NE : pd_peaks pd <> []).
  { assert (Ic : nth_error (me_espherecentroids (pc_mesh_lab p)) 0 = Some (V3 7 1 (9/4))) by (rewrite H8, H9; reflexivity).
    assert (Hin' : forall v, -10 < vx v < 10 -> -10 < vy v < 10 -> -10 < vz v < 10 -> strictly_inside (b_halfspaces b) v) by (intros v Q1 Q2 Q3; apply Hin; apply Rabs_def1; lra).
    exact (ex_rows p b p' pd Hk Hin' H3 H4 H6 H7 Ic D Oph). }
  assert (D0 : fst (diffract false (ex_xtal two_planes) p b ex_motion 0 1 None) = Ok pd) by now rewrite D.
  destruct (all_calls _ _ _ _ _ _ _ _ D0) as (rows & L & P & T). destruct (T b pd (xrays_refl b) D0) as (_ & C & T0).
  assert (HE : exists r0, In r0 (pd_peaks pd)) by (destruct (pd_peaks pd) as [|r0 rs]; [congruence|]; exists r0; now left). destruct HE as (r0 & Hr).
  destruct (table_rows _ _ _ _ T0 Hr) as (r & k & Er & Hr1 & Hr2). apply (Permutation_in _ P), in_map_iff in Hr1 as (l & El & _).
  set (q := setup_all (ex_xtal two_planes) p b 0 1) in *. set (s := l_src q ex_motion l).
  set (h := HS (V3 0 0 1) (- vz s)).
  destruct (two_calls false (ex_xtal two_planes) p b (cut h b) ex_motion 0 1 (cut_same h b)) as (_ & _ & _ & A). destruct (A pd D0) as (_ & _ & pd1 & E1 & _). clear A.
  destruct (two_calls false (ex_xtal two_planes) p b (cut (other_side h) b) ex_motion 0 1 (cut_same _ b)) as (_ & _ & _ & A). destruct (A pd D0) as (_ & _ & pd2 & E2 & _). clear A.
  exists false, (ex_xtal two_planes), p, b, h, ex_motion, 0, 1, pd, pd1, pd2. split; [exact H3|]. split; [exact D0|]. split; [exact E1|]. split; [exact E2|].
  destruct (pC95_cut_count _ _ _ _ _ _ _ _ _ _ _ D0 E1 E2) as (onp & O1 & O2).
  assert (Ho : onp r0 = true).
  { apply O1; [exact Hr|]. exists s. rewrite Er. split.
    - apply source_row; auto; rewrite <- El; [apply full24_len|]. apply row_points.
    - unfold on_boundary_of, h. cbn [hs_n hs_d]. destruct s as [sx sy sz]. unfold dot. cbn. lra. }
  assert (Hl : (0 < len (filter onp (pd_peaks pd)))%nat).
  { assert (I : In r0 (filter onp (pd_peaks pd))) by (apply filter_In; auto). destruct (filter onp (pd_peaks pd)); [destruct I|cbn; lia]. }
  lia.
Qed.

(** ** Non-vacuity *)
(** A beam cut by a plane above all sources of the table, and the rest of the beam: non-empty table, pictures of all three. *)
Lemma xC95_cut_beam : exists e z x p b h m lo hi pd pd1 pd2 d im out im1 out1 im2 out2,
  reachable_pc x p /\ narrower (cut h b) b /\ narrower (cut (other_side h) b) b /\ pd_peaks pd <> [] /\
  fst (diffract z x p b m lo hi None) = Ok pd /\ fst (diffract z x p (cut h b) m lo hi None) = Ok pd1 /\
  fst (diffract z x p (cut (other_side h) b) m lo hi None) = Ok pd2 /\
  (forall r, In r (pd_peaks pd) -> (source_in pd (cut h b) r /\ ~ source_in pd (cut (other_side h) b) r) \/ (source_in pd (cut (other_side h) b) r /\ ~ source_in pd (cut h b) r)) /\
  render e d pd 1 "micro" None 1 = Ok (im, out) /\ render e d pd1 1 "micro" None 1 = Ok (im1, out1) /\ render e d pd2 1 "micro" None 1 = Ok (im2, out2).
Proof.
  destruct big_beam as (b & Hb & Hk & Hin). destruct (ex_pc two_planes) as (me & p & H1 & H2 & H3 & H4 & H5 & H6 & H7 & H8 & H9 & H10).
  pose proof (ex_outcome two_planes me p b Hk H3 H4 H5 H6 H7 H8) as O.
  destruct (diffract false (ex_xtal two_planes) p b ex_motion 0 1 None) as [r p'] eqn:D. destruct O as (_ & O & Oph).
  destruct O as (pd & ->). { cbn [map two_planes list_sum fold_right]. now rewrite refl_pos, refl_neg. }
  assert (NE : pd_peaks pd <> []).
  { assert (Ic : nth_error (me_espherecentroids (pc_mesh_lab p)) 0 = Some (V3 7 1 (9/4))) by (rewrite H8, H9; reflexivity).
    assert (Hin' : forall v, -10 < vx v < 10 -> -10 < vy v < 10 -> -10 < vz v < 10 -> strictly_inside (b_halfspaces b) v) by (intros v Q1 Q2 Q3; apply Hin; apply Rabs_def1; lra).
    exact (ex_rows p b p' pd Hk Hin' H3 H4 H6 H7 Ic D Oph). }
  assert (D0 : fst (diffract false (ex_xtal two_planes) p b ex_motion 0 1 None) = Ok pd) by now rewrite D.
  destruct (all_calls _ _ _ _ _ _ _ _ D0) as (rows & L & P & T). destruct (T b pd (xrays_refl b) D0) as (_ & C & T0). clear T.
  set (q := setup_all (ex_xtal two_planes) p b 0 1) in *.
  assert (HK : exists K, forall l, In l L -> vz (l_src q ex_motion l) < K).
  { clear. induction L as [|l L (K & IH)]; [exists 0; intros ? []|]. exists (Rmax K (vz (l_src q ex_motion l) + 1)). intros l' [<- | H].
    - eapply Rlt_le_trans; [|apply Rmax_r]. lra.
    - eapply Rlt_le_trans; [apply IH; auto|apply Rmax_l]. }
  destruct HK as (K & HK). set (h := HS (V3 0 0 1) (- K)).
  destruct (two_calls false (ex_xtal two_planes) p b (cut h b) ex_motion 0 1 (cut_same h b)) as (_ & _ & _ & A). destruct (A pd D0) as (_ & _ & pd1 & E1 & _). clear A.
  destruct (two_calls false (ex_xtal two_planes) p b (cut (other_side h) b) ex_motion 0 1 (cut_same _ b)) as (_ & _ & _ & A). destruct (A pd D0) as (_ & _ & pd2 & E2 & _). clear A.
  destruct side_detector as (d & _).
  set (e := REnv false 1 1 (fun _ => 0) (fun _ => []) big_qhull (fun _ => None) (fun _ => Err ValueError) (fun _ _ => Err ValueError) (fun _ _ _ => [])).
  assert (Hf : forall b' pd', fst (diffract false (ex_xtal two_planes) p b' ex_motion 0 1 None) = Ok pd' -> fresh pd') by (intros b' pd' Hd; eapply pC32_diffract_tables_fresh; exact Hd).
  destruct (pC39_micro_never_fails e d pd 1%Z None 1 (Hf _ _ D0)) as (im & out & HI).
  destruct (pC39_micro_never_fails e d pd1 1%Z None 1 (Hf _ _ E1)) as (im1 & out1 & HI1).
  destruct (pC39_micro_never_fails e d pd2 1%Z None 1 (Hf _ _ E2)) as (im2 & out2 & HI2).
  exists e, false, (ex_xtal two_planes), p, b, h, ex_motion, 0, 1, pd, pd1, pd2, d, im, out, im1, out1, im2, out2.
  split; [exact H3|]. split; [apply cut_narrower|]. split; [apply cut_narrower|]. split; [exact NE|]. split; [exact D0|]. split; [exact E1|]. split; [exact E2|].
  split; [|auto]. intros r Hr. left. destruct (table_rows _ _ _ _ T0 Hr) as (r0 & k & -> & Hr1 & Hr2). apply (Permutation_in _ P), in_map_iff in Hr1 as (l & <- & Hl). specialize (HK l Hl).
  rewrite lit_any in Hr2. rewrite <- !(lit_source pd _ _ (Fin (INR k)) C (full24_len false q b ex_motion l)), !lit_any, !cut_contains, other_val, Hr2, !andb_true_r.
  rewrite (Rltb_iff (hs_val h _)), Rltb_iff. unfold h, hs_val. cbn [hs_n hs_d]. revert HK. generalize (l_src q ex_motion l). intros s HK. unfold dot. cbn -[Rplus Rmult]. lra.
Qed.
