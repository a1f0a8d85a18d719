(** * Properties of the s3dxrd and powder templates (C55, C56). *)
From Verif Require Import Vec Spec MMotion MLaue MMesh MScattering MStrain MBeam SBeam MPolycrystal MDetector SDetector MTemplates STemplates.
From Verif Require Import PMesh PBeam PDetector PPolycrystal.
From Coq Require Import String Permutation.
Open Scope R_scope.
Local Notation len := List.length.

(** ** C55 *)
(** A dictionary that lacks one of the documented keys is refused with ValueError. *)
Lemma pC55_missing_key : forall q p k, In k documented_keys -> p k = None -> s3dxrd q p = Err ValueError.
Proof.
  intros q p k Hk H. unfold s3dxrd. replace (forallb _ _) with false; auto. symmetry.
  destruct (forallb _ _) eqn:E; auto. rewrite forallb_forall in E. specialize (E k Hk). rewrite H in E. discriminate.
Qed.
(** Other keys are ignored. *)
Lemma pC55_other_keys : forall q p p', (forall k, In k documented_keys -> p k = p' k) -> s3dxrd q p = s3dxrd q p'.
Proof.
  intros q p p' H.
  assert (G : forall k, In k documented_keys -> get_num p k = get_num p' k /\ get_vec p k = get_vec p' k) by (intros k Hk; unfold get_num, get_vec; rewrite (H k Hk); auto).
  unfold s3dxrd, detector_from_params, beam_from_params, motion_from_params.
  assert (E : forall k, In k documented_keys -> get_num p k = get_num p' k) by (intros; now apply G).
  rewrite !E by (cbn; tauto). rewrite (proj2 (G "rotation_axis"%string ltac:(cbn; tauto))).
  replace (forallb (fun k => match p k with Some _ => true | None => false end) parameter_keys) with (forallb (fun k => match p' k with Some _ => true | None => false end) parameter_keys); auto.
  cbn [parameter_keys forallb]. rewrite !H by (cbn; tauto). reflexivity.
Qed.
Lemma given_keys p s : given p s -> forallb (fun k => match p k with Some _ => true | None => false end) parameter_keys = true.
Proof. intros (H1 & H2 & H3 & H4 & H5 & H6 & H7 & H8 & H9 & H10 & H11 & H12). cbn [parameter_keys forallb]. rewrite H1, H2, H3, H4, H5, H6, H7, H8, H9, H10, H11, H12. reflexivity. Qed.
Definition s3_corner0 (s : setup) := V3 (se_distance s) (- se_cy s * se_py s) (- se_cz s * se_pz s).
Definition s3_detector (s : setup) : detector :=
  Det (s3_corner0 s) (V3 (se_distance s) ((IZR (se_ny s) - se_cy s) * se_py s) (- se_cz s * se_pz s))
    (V3 (se_distance s) (- se_cy s * se_py s) ((IZR (se_nz s) - se_cz s) * se_pz s))
    (IZR (se_nz s) * se_pz s) (IZR (se_ny s) * se_py s) (se_pz s) (se_py s)
    (nfin (V3 0 0 1)) (nfin (V3 0 1 0)) (nfin (V3 (-1) 0 0)) (Z.to_nat (se_nz s)) (Z.to_nat (se_ny s)) 1 (2/100) 2 true true true.
Lemma arange_whole n p : (0 < n)%Z -> 0 < p -> arange_len (IZR n * p) p = Ok (Z.to_nat n).
Proof.
  intros Hn Hp. unfold arange_len. destruct (Req_EM_T p 0); [lra|]. replace (Rltb p 0) with false by (symmetry; apply Rltb_false; lra).
  cbn [andb]. f_equal. rewrite (ceil_eq _ n); [reflexivity|]. unfold Rdiv. rewrite Rmult_assoc, Rinv_r by lra. lra.
Qed.
Lemma s3_make p s : given p s -> sane s -> detector_from_params p = Ok (s3_detector s).
Proof.
  intros (H1 & H2 & H3 & H4 & H5 & H6 & H7 & H8 & H9 & H10 & H11 & H12) (Z1 & Z2 & P1 & P2). unfold detector_from_params, get_num.
  rewrite H1, H2, H3, H4, H5, H6, H7. cbn [bind]. unfold s3_detector, s3_corner0.
  assert (NZ : 0 < IZR (se_nz s)) by (now apply IZR_lt). assert (NY : 0 < IZR (se_ny s)) by (now apply IZR_lt).
  set (Lz := IZR (se_nz s) * se_pz s). set (Ly := IZR (se_ny s) * se_py s).
  assert (LZ : 0 < Lz) by (apply Rmult_lt_0_compat; auto). assert (LY : 0 < Ly) by (apply Rmult_lt_0_compat; auto).
  set (D := se_distance s). set (c0 := V3 D _ _). set (c1 := V3 D ((_ - _) * _) _). set (c2 := V3 D (_ * _) ((_ - _) * _)).
  assert (V2 : vsub c2 c0 = V3 0 0 Lz) by (unfold c2, c0, Lz; vext; vunf; ring). assert (V1 : vsub c1 c0 = V3 0 Ly 0) by (unfold c1, c0, Ly; vext; vunf; ring).
  unfold make_detector. cbv zeta. rewrite V1, V2.
  assert (D1 : norm (V3 0 0 Lz) = Lz) by (apply norm_sqrt_eq; vunf; [lra|ring]). assert (D2 : norm (V3 0 Ly 0) = Ly) by (apply norm_sqrt_eq; vunf; [lra|ring]).
  rewrite D1, D2. cbn [pixel_sizes bind first_of second_of fst snd]. assert (AZ : arange_len Lz (se_pz s) = Ok (Z.to_nat (se_nz s))) by (now apply arange_whole). assert (AY : arange_len Ly (se_py s) = Ok (Z.to_nat (se_ny s))) by (now apply arange_whole).
  rewrite AZ, AY. cbn [bind].
  assert (E1 : nvdiv false (nfin (V3 0 0 Lz)) (Fin Lz) = nfin (V3 0 0 1)) by (rewrite nvdiv_nfin by lra; f_equal; vext; vunf; field; lra).
  assert (E2 : nvdiv false (nfin (V3 0 Ly 0)) (Fin Ly) = nfin (V3 0 1 0)) by (rewrite nvdiv_nfin by lra; f_equal; vext; vunf; field; lra).
  rewrite E1, E2, ncross_nfin, nnorm_nfin.
  assert (E3 : cross (V3 0 0 1) (V3 0 1 0) = V3 (-1) 0 0) by (vext; vunf; ring). rewrite E3.
  assert (E4 : norm (V3 (-1) 0 0) = 1) by (apply norm_sqrt_eq; vunf; lra). rewrite E4, nvdiv_nfin by lra.
  replace (vscale (/ 1) (V3 (-1) 0 0)) with (V3 (-1) 0 0) by (vext; vunf; field). reflexivity.
Qed.
Lemma s3_built s : sane s -> built (s3_detector s).
Proof.
  intros H. set (p := fun k => if String.eqb k "detector_distance" then Some (VNum (se_distance s)) else
    if String.eqb k "number_of_detector_pixels_z" then Some (VNum (IZR (se_nz s))) else
    if String.eqb k "number_of_detector_pixels_y" then Some (VNum (IZR (se_ny s))) else
    if String.eqb k "detector_center_pixel_z" then Some (VNum (se_cz s)) else
    if String.eqb k "detector_center_pixel_y" then Some (VNum (se_cy s)) else
    if String.eqb k "pixel_side_length_z" then Some (VNum (se_pz s)) else
    if String.eqb k "pixel_side_length_y" then Some (VNum (se_py s)) else
    if String.eqb k "wavelength" then Some (VNum (se_wavelength s)) else
    if String.eqb k "beam_side_length_z" then Some (VNum (se_lz s)) else
    if String.eqb k "beam_side_length_y" then Some (VNum (se_ly s)) else
    if String.eqb k "rotation_step" then Some (VNum (se_step s)) else
    if String.eqb k "rotation_axis" then Some (VVec (se_axis s)) else None).
  assert (G : given p s) by (repeat split). pose proof (s3_make p s G H) as E. unfold detector_from_params in E. cbn [p String.eqb Ascii.eqb Bool.eqb get_num bind] in E.
  unfold built. do 11 eexists. exact E.
Qed.
Lemma s3dxrd_inv q p s b d m : given p s -> s3dxrd q p = Ok (b, d, m) -> detector_from_params p = Ok d /\ beam_from_params q p = Ok b /\ motion_from_params p = Ok m.
Proof.
  intros G H. unfold s3dxrd in H. rewrite (given_keys p s G) in H. destruct (detector_from_params p) as [d'|]; cbn [bind] in H; [|discriminate].
  destruct (beam_from_params q p) as [b'|]; cbn [bind] in H; [|discriminate]. destruct (motion_from_params p) as [m'|]; cbn [bind] in H; [|discriminate]. now inversion H; subst.
Qed.
(** The detector has the configured numbers of pixels of the configured size, and the ray along
    the beam from any point (x, y, z) in front of it arrives, perpendicularly, at y and z counted
    from the configured centre position. *)
Lemma pC55_detector : forall q p s b d m, given p s -> sane s -> s3dxrd q p = Ok (b, d, m) ->
  d_nz d = Z.to_nat (se_nz s) /\ d_ny d = Z.to_nat (se_ny s) /\ d_pz d = se_pz s /\ d_py d = se_py s /\
  forall zero x y z, x <= se_distance s ->
    get_intersection zero d (nfin (V3 1 0 0)) (nfin (V3 x y z)) = (Fin (se_cz s * se_pz s + z), Fin (se_cy s * se_py s + y), Fin 0).
Proof.
  intros q p s b d m G S H. destruct (s3dxrd_inv q p s b d m G H) as (Hd & _ & _). rewrite (s3_make p s G S) in Hd. inversion Hd as [E]. rewrite E. subst d.
  cbn [s3_detector d_nz d_ny d_pz d_py]. do 4 (split; auto). intros zero x y z Hx. clear H Hd G p q b m. pose proof (s3_built s S) as Hb. destruct S as (Z1 & Z2 & P1 & P2).
  set (d := s3_detector s) in *. assert (NZ : 0 < IZR (se_nz s)) by (now apply IZR_lt). assert (NY : 0 < IZR (se_ny s)) by (now apply IZR_lt).
  set (Lz := IZR (se_nz s) * se_pz s). set (Ly := IZR (se_ny s) * se_py s).
  assert (LZ : 0 < Lz) by (apply Rmult_lt_0_compat; auto). assert (LY : 0 < Ly) by (apply Rmult_lt_0_compat; auto). assert (LL : 0 < Lz * Ly) by (apply Rmult_lt_0_compat; auto).
  assert (V2 : vsub (d_c2 d) (d_c0 d) = V3 0 0 Lz) by (unfold d, s3_detector, s3_corner0, Lz; cbn [d_c0 d_c2]; vext; vunf; ring).
  assert (V1 : vsub (d_c1 d) (d_c0 d) = V3 0 Ly 0) by (unfold d, s3_detector, s3_corner0, Ly; cbn [d_c0 d_c1]; vext; vunf; ring).
  assert (EN : N_of d = V3 (- (Lz * Ly)) 0 0) by (unfold N_of, plane_normal; rewrite V1, V2; vext; vunf; ring).
  rewrite (intersection_closed zero d _ _ Hb) by (rewrite EN; vunf; lra).
  assert (Es : svalue d (V3 1 0 0) (V3 x y z) = se_distance s - x) by (unfold svalue; rewrite EN; unfold d, s3_detector, s3_corner0; cbn [d_c0]; vunf; field; lra).
  rewrite Es. cbv zeta. replace (Rltb (se_distance s - x) 0) with false by (symmetry; apply Rltb_false; lra).
  assert (Ep : vsub (ray_at (V3 x y z) (V3 1 0 0) (se_distance s - x)) (d_c0 d) = V3 0 (y + se_cy s * se_py s) (z + se_cz s * se_pz s)) by (unfold ray_at, d, s3_detector, s3_corner0; cbn [d_c0]; vext; vunf; ring).
  rewrite Ep.
  assert (D1 : norm (V3 0 0 Lz) = Lz) by (apply norm_sqrt_eq; vunf; [lra|ring]). assert (D2 : norm (V3 0 Ly 0) = Ly) by (apply norm_sqrt_eq; vunf; [lra|ring]).
  unfold zhat_of, yhat_of, dist. rewrite V1, V2, D1, D2.
  f_equal; [f_equal|]; f_equal.
  - vunf. field. lra.
  - vunf. field. lra.
  - unfold incident_of. rewrite EN.
    assert (N1 : norm (V3 (- (Lz * Ly)) 0 0) = Lz * Ly) by (apply norm_sqrt_eq; vunf; [lra|ring]).
    assert (N2 : norm (V3 1 0 0) = 1) by (apply norm_sqrt_eq; vunf; lra).
    rewrite ?N1, ?N2. vunf.
    match goal with |- acos ?x * _ = _ => replace x with 1 by (field; lra) end.
    rewrite acos_1. lra.
Qed.
(** So the beam through the origin arrives at the configured centre: it is on the detector iff
    the centre is between 0 and the number of pixels, and its pixel is the whole part. *)
Lemma pC55_direct_beam : forall q p s b d m zero, given p s -> sane s -> 0 <= se_distance s -> s3dxrd q p = Ok (b, d, m) ->
  exists zd yd, get_intersection zero d (nfin (V3 1 0 0)) (nfin vzero) = (Fin zd, Fin yd, Fin 0) /\
    (det_contains d (Fin zd) (Fin yd) = true <-> 0 <= se_cz s <= IZR (se_nz s) /\ 0 <= se_cy s <= IZR (se_ny s)) /\
    (0 <= se_cz s -> 0 <= se_cy s -> pixel_index d zd yd = (Int_part (se_cz s), Int_part (se_cy s))).
Proof.
  intros q p s b d m zero G S D H. destruct (pC55_detector q p s b d m G S H) as (_ & _ & E1 & E2 & R). specialize (R zero 0 0 0 D). change (V3 0 0 0) with vzero in R.
  exists (se_cz s * se_pz s + 0), (se_cy s * se_py s + 0). split; auto. rewrite !Rplus_0_r.
  destruct (s3dxrd_inv q p s b d m G H) as (Hd & _ & _). rewrite (s3_make p s G S) in Hd. injection Hd as Hd. destruct S as (Z1 & Z2 & P1 & P2). split.
  - rewrite <- Hd. unfold det_contains. cbn [s3_detector d_zmax d_ymax nle]. rewrite !andb_true_iff, !Rleb_true. split.
    + intros [[[A B] C] E]. apply Rmult_le_reg_r in B, E; auto. repeat split; auto; nra.
    + intros [[A B] [C E]]. repeat split; try (apply Rmult_le_compat_r; lra); nra.
  - intros C1 C2. unfold pixel_index. rewrite E1, E2. unfold ztrunc, Rdiv. rewrite !Rmult_assoc, !Rinv_r, !Rmult_1_r by lra.
    destruct (Rlt_dec (se_cz s) 0); [lra|]. destruct (Rlt_dec (se_cy s) 0); [lra|]. reflexivity.
Qed.
(** The beam travels along +x with the configured wavelength, is polarised along y and is the
    box of the configured side lengths, from -distance to +distance. *)
Lemma hull_box a b c p : 0 < a -> 0 < b -> 0 < c ->
  (in_hull [V3 (- a) (- b) (- c); V3 (- a) b (- c); V3 (- a) (- b) c; V3 (- a) b c; V3 a (- b) (- c); V3 a b (- c); V3 a (- b) c; V3 a b c] p
   <-> Rabs (vx p) <= a /\ Rabs (vy p) <= b /\ Rabs (vz p) <= c).
Proof.
  intros Ha Hb Hc. split.
  - intros (ws & L & P & S & E). destruct ws as [|w0 [|w1 [|w2 [|w3 [|w4 [|w5 [|w6 [|w7 [|]]]]]]]]]; try discriminate L.
    assert (P0 : 0 <= w0) by (apply P; cbn; tauto). assert (P1 : 0 <= w1) by (apply P; cbn; tauto). assert (P2 : 0 <= w2) by (apply P; cbn; tauto). assert (P3 : 0 <= w3) by (apply P; cbn; tauto).
    assert (P4 : 0 <= w4) by (apply P; cbn; tauto). assert (P5 : 0 <= w5) by (apply P; cbn; tauto). assert (P6 : 0 <= w6) by (apply P; cbn; tauto). assert (P7 : 0 <= w7) by (apply P; cbn; tauto).
    rewrite !sum_list_cons, sum_list_nil in S. cbn [combine map fold_right fst snd] in E. clear P L. subst p. unfold vadd, vscale, vzero. cbn [vx vy vz].
    assert (Q : forall t l h, 0 <= l -> 0 <= h -> 0 < t -> l + h = 1 -> Rabs (t * (h - l)) <= t).
    { intros t l h L1 L2 T E. rewrite Rabs_mult, (Rabs_right t) by lra. rewrite <- (Rmult_1_r t) at 2. apply Rmult_le_compat_l; [lra|]. apply Rabs_le. lra. }
    split; [|split].
    + match goal with |- Rabs ?e <= a => replace e with (a * ((w4 + w5 + w6 + w7) - (w0 + w1 + w2 + w3))) by ring end. apply Q; lra.
    + match goal with |- Rabs ?e <= b => replace e with (b * ((w1 + w3 + w5 + w7) - (w0 + w2 + w4 + w6))) by ring end. apply Q; lra.
    + match goal with |- Rabs ?e <= c => replace e with (c * ((w2 + w3 + w6 + w7) - (w0 + w1 + w4 + w5))) by ring end. apply Q; lra.
  - destruct p as [x y z]. cbn [vx vy vz]. intros (X & Y & Z).
    assert (U : forall t v, 0 < t -> Rabs v <= t -> exists u, 0 <= u <= 1 /\ v = t * (2 * u - 1)).
    { intros t v T B. exists ((v / t + 1) / 2). assert (-1 <= v / t <= 1). { assert (- t <= v <= t) by (revert B; unfold Rabs; destruct (Rcase_abs v); lra). clear B. split; [apply Rmult_le_reg_r with t|apply Rmult_le_reg_r with t]; auto; unfold Rdiv; rewrite Rmult_assoc, Rinv_l by lra; lra. } split; [lra|]. field. lra. }
    destruct (U a x Ha X) as (u & U1 & ->). destruct (U b y Hb Y) as (v & V1 & ->). destruct (U c z Hc Z) as (w & W1 & ->).
    assert (N : forall s t r, 0 <= s -> 0 <= t -> 0 <= r -> 0 <= s * t * r) by (intros; repeat apply Rmult_le_pos; auto).
    exists [(1-u)*(1-v)*(1-w); (1-u)*v*(1-w); (1-u)*(1-v)*w; (1-u)*v*w; u*(1-v)*(1-w); u*v*(1-w); u*(1-v)*w; u*v*w].
    split; [reflexivity|]. split; [|split].
    + intros k Hk. cbn [In] in Hk. repeat destruct Hk as [<-|Hk]; try contradiction; apply N; lra.
    + rewrite !sum_list_cons, sum_list_nil. ring.
    + cbn [combine map fold_right fst snd]. unfold vadd, vscale, vzero. cbn [vx vy vz]. f_equal; ring.
Qed.
Lemma pC55_beam : forall q p s b d m, given p s -> 0 < se_distance s -> 0 < se_lz s -> 0 < se_ly s -> s3dxrd q p = Ok (b, d, m) ->
  b_wave_vector b = V3 (2 * PI / se_wavelength s) 0 0 /\ b_wavelength b = se_wavelength s /\ b_polarization b = V3 0 1 0 /\
  forall x y z, in_hull (b_vertices b) (V3 x y z) <-> Rabs x <= se_distance s /\ Rabs y <= se_ly s / 2 /\ Rabs z <= se_lz s / 2.
Proof.
  intros q p s b d m G D Lz Ly H. destruct (s3dxrd_inv q p s b d m G H) as (_ & Hb & _). destruct G as (H1 & H2 & H3 & H4 & H5 & H6 & H7 & H8 & H9 & H10 & H11 & H12).
  unfold beam_from_params, get_num in Hb. rewrite H1, H8, H9, H10 in Hb. cbn [bind] in Hb. cbv zeta in Hb. unfold make_beam in Hb. destruct (Req_EM_T (se_wavelength s) 0) as [|W]; [discriminate|].
  cbv zeta in Hb. unfold beam_vertex_state in Hb. set (vs := _ :: _) in Hb. destruct (qh_nvert q vs) as [n|]; cbn [bind] in Hb; [|discriminate].
  destruct (assert_ (len vs =? n)%nat); cbn [bind] in Hb; [|discriminate]. destruct (qh_eqs_QJ q vs) as [eqs|]; cbn [bind] in Hb; [|discriminate].
  destruct (Req_EM_T (norm (V3 1 0 0)) 0); [discriminate|]. destruct (Req_EM_T (norm (V3 0 1 0)) 0); [discriminate|]. destruct (assert_ _); cbn [bind] in Hb; [|discriminate].
  apply (f_equal (fun r => match r with Ok x => x | Err _ => b end)) in Hb. cbv beta iota in Hb. rewrite <- Hb. cbn [b_wave_vector b_wavelength b_polarization b_vertices].
  assert (N2 : norm (V3 1 0 0) = 1) by (apply norm_sqrt_eq; vunf; lra). assert (N3 : norm (V3 0 1 0) = 1) by (apply norm_sqrt_eq; vunf; lra). rewrite N2, N3.
  split; [unfold vdiv; vext; vunf; field; auto|]. split; auto. split; [unfold vdiv; vext; vunf; field|].
  intros x y z. unfold vs. apply (hull_box (se_distance s) (se_ly s / 2) (se_lz s / 2) (V3 x y z)); lra.
Qed.
(** The sample motion is the configured rotation about the origin, without translation. *)
Lemma pC55_motion : forall q p s b d m, given p s -> s3dxrd q p = Ok (b, d, m) -> m = Motion (se_axis s) (se_step s) vzero vzero /\ 0 < se_step s < PI.
Proof.
  intros q p s b d m G H. destruct (s3dxrd_inv q p s b d m G H) as (_ & _ & Hm). destruct G as (H1 & H2 & H3 & H4 & H5 & H6 & H7 & H8 & H9 & H10 & H11 & H12).
  unfold motion_from_params, get_num, get_vec in Hm. rewrite H11, H12 in Hm. cbn [bind] in Hm. unfold make_motion in Hm.
  destruct (Rltb (se_step s) PI && Rltb 0 (se_step s))%bool eqn:E; cbn [assert_ bind] in Hm; [|discriminate]. apply andb_true_iff in E as [A B]. apply Rltb_true in A, B.
  destruct (axis_ok (se_axis s)); cbn [assert_ bind] in Hm; [|discriminate]. inversion Hm. auto.
Qed.
(** With sane detector values the call succeeds exactly when the wavelength is not zero, the hull
    accepts the eight beam corners, the step is in (0, pi) and the axis is a unit vector (up to
    the tolerance of the motion class). *)
Lemma pC55_succeeds : forall q p s eqs, given p s -> sane s -> (forall vs, qh_nvert q vs = Ok (List.length vs)) -> (forall vs, qh_eqs_QJ q vs = Ok eqs) ->
  (exists r, s3dxrd q p = Ok r) <-> se_wavelength s <> 0 /\ 0 < se_step s < PI /\ axis_ok (se_axis s) = true.
Proof.
  intros q p s eqs G S Q1 Q2. unfold s3dxrd. rewrite (given_keys p s G), (s3_make p s G S). cbn [bind].
  destruct G as (H1 & H2 & H3 & H4 & H5 & H6 & H7 & H8 & H9 & H10 & H11 & H12). unfold beam_from_params, motion_from_params, get_num, get_vec. rewrite H1, H8, H9, H10, H11, H12. cbn [bind]. cbv zeta.
  unfold make_beam. cbv zeta. unfold beam_vertex_state. rewrite Q1, Q2. cbn [bind List.length assert_ Nat.eqb].
  assert (N2 : norm (V3 1 0 0) = 1) by (apply norm_sqrt_eq; vunf; lra). assert (N3 : norm (V3 0 1 0) = 1) by (apply norm_sqrt_eq; vunf; lra). rewrite N2, N3.
  destruct (Req_EM_T 1 0); [lra|]. destruct (Req_EM_T (se_wavelength s) 0) as [W|W]; [split; [intros (r & E); discriminate|tauto]|].
  replace (dot (vdiv (V3 0 1 0) 1) (vdiv (vscale (2 * PI / se_wavelength s) (V3 1 0 0)) 1)) with 0 by (unfold vdiv; vunf; field; auto). rewrite Rabs_R0.
  replace (Rleb 0 (/ 10 ^ 8)) with true by (symmetry; apply Rleb_true; left; apply Rinv_0_lt_compat; lra). cbn [assert_ bind]. unfold make_motion.
  destruct (Rltb (se_step s) PI && Rltb 0 (se_step s))%bool eqn:E; cbn [assert_ bind].
  - apply andb_true_iff in E as [A B]. apply Rltb_true in A, B. destruct (axis_ok (se_axis s)); cbn [assert_ bind]; [|split; [intros (r & X); discriminate|intros (_ & _ & X); discriminate]]. split; eauto.
  - split; [intros (r & X); discriminate|]. intros (_ & [A B] & _). apply andb_false_iff in E as [E|E]; apply Rltb_false in E; lra.
Qed.
Lemma xC55_experiment : exists q p s r, given p s /\ sane s /\ s3dxrd q p = Ok r.
Proof.
  set (s := Setup 1000 64 32 20 10 2 3 1 5 6 1 (V3 0 0 1)).
  set (p := fun k => if String.eqb k "detector_distance" then Some (VNum (se_distance s)) else
    if String.eqb k "number_of_detector_pixels_z" then Some (VNum (IZR (se_nz s))) else
    if String.eqb k "number_of_detector_pixels_y" then Some (VNum (IZR (se_ny s))) else
    if String.eqb k "detector_center_pixel_z" then Some (VNum (se_cz s)) else
    if String.eqb k "detector_center_pixel_y" then Some (VNum (se_cy s)) else
    if String.eqb k "pixel_side_length_z" then Some (VNum (se_pz s)) else
    if String.eqb k "pixel_side_length_y" then Some (VNum (se_py s)) else
    if String.eqb k "wavelength" then Some (VNum (se_wavelength s)) else
    if String.eqb k "beam_side_length_z" then Some (VNum (se_lz s)) else
    if String.eqb k "beam_side_length_y" then Some (VNum (se_ly s)) else
    if String.eqb k "rotation_step" then Some (VNum (se_step s)) else
    if String.eqb k "rotation_axis" then Some (VVec (se_axis s)) else None).
  assert (G : given p s) by (repeat split). assert (S : sane s) by (unfold sane; cbn; repeat split; (lia || lra)).
  set (q := Qhull (fun l => Ok (len l)) (fun _ => Ok []) (fun _ => Ok [])).
  destruct (proj2 (pC55_succeeds q p s [] G S ltac:(reflexivity) ltac:(reflexivity))) as [r E].
  - cbn. split; [lra|]. split; [pose proof PI2_3_2; lra|]. unfold axis_ok. apply Rleb_true. replace (norm (V3 0 0 1)) with 1 by (symmetry; apply norm_sqrt_eq; vunf; lra). rewrite Rminus_diag_eq, Rabs_R0 by auto. unfold axis_tol. rewrite Rabs_right by lra.
    assert (0 < / 10^8) by (apply Rinv_0_lt_compat; lra). assert (0 < / 10^5) by (apply Rinv_0_lt_compat; lra). lra.
  - exists q, p, s, r. auto.
Qed.
